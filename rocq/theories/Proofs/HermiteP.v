(** * HermiteResampler: the times it emits at when the first interval holds a grid point *)

From Coq Require Import String ZArith Bool List Lia Sorted.
From Verif Require Import Base.StrMap Base.Num Model.Core Model.Ops Model.Make Model.Run.
From Verif Require Import Spec.Streams Spec.Resample Proofs.Lists Proofs.Window Proofs.Basic Proofs.Iter Proofs.Resample.
Import ListNotations.
Open Scope string_scope.
Open Scope list_scope.
Open Scope Z_scope.
Open Scope rtbot_scope.

Arguments look_at : simpl never.
Arguments hermite_process : simpl never.
Local Strategy 1000 [iter_pos grid_loop].

Section Hermite.
Context {NO : NumOps}.

Lemma fold_body_inv {S} (f : Z -> S -> res S) (I : list Z -> S -> Prop) l : forall done s s',
  I done s ->
  (forall d x st st', I d st -> f x st = Ok st' -> I (d ++ [x]) st') ->
  fold_body f l s = Ok s' -> I (done ++ l) s'.
Proof.
  induction l as [|x l IH]; intros done s s' H0 Hs E; cbn in E.
  - injection E as <-. now rewrite app_nil_r.
  - destruct (f x s) as [s1| | | |] eqn:F; try discriminate.
    replace (done ++ x :: l) with ((done ++ [x]) ++ l) by (rewrite <- app_assoc; reflexivity).
    eapply IH; eauto.
Qed.

Lemma look_at_spec q from mf mt d carry bf e c' bf' :
  q_at q from = Ok mf -> q_at q (from + 1) = Ok mt ->
  let t0 := mtime mf in let t1 := mtime mt in
  0 <= t0 -> t0 <= t1 -> t1 < two64 -> t1 - t0 + d < two64 -> 0 <= carry < d -> t1 - t0 < d * (2 ^ 31 - 3) ->
  look_at q from d carry bf = Ok (e, c', bf') ->
  times e = map (fun off => t0 + off) (offsets d carry 1 (Z.to_nat ((t1 - t0 + carry) / d))) /\
  c' = (t1 - t0 + carry) mod d /\
  (bf' = None -> bf = None /\ (1 <= from \/ e = [])).
Proof.
  intros Q0 Q1 t0 t1 H0 H1 H2 H3 H4 H5 E. unfold look_at in E. rewrite Q0, Q1 in E. cbn [rbind] in E.
  fold t0 t1 in E. rewrite grid_loop_spec in E by lia.
  destruct (fold_body _ _ _) as [[acc b]| | | |] eqn:F; cbn [rbind] in E; try discriminate E.
  injection E as <- <- <-. rewrite carry_after_spec by lia.
  eapply (fold_body_inv _ (fun (dn : list Z) (st : list msg * option msg) =>
      times (rev (fst st)) = map (fun off => t0 + off) dn /\
      (snd st = None -> bf = None /\ (1 <= from \/ fst st = []))) _ []) in F.
  - cbn [fst snd app] in F. destruct F as [F1 F2]. split; [exact F1|]. split; [reflexivity|].
    intros B. specialize (F2 B). destruct F2 as [F2 F3]. split; auto. destruct F3 as [F3| ->]; auto.
  - cbn. auto.
  - clear. intros dn x [acc b] [acc' b'] [I1 I2] E. cbn [fst snd] in *.
    unfold hermite_get in E. destruct (Z.leb_spec 0 (from - 1)) as [L|L].
    + destruct (q_at q (from - 1)); try discriminate E. cbn [rbind] in E.
      destruct (q_at q (from + 2)); try discriminate E. cbn [rbind] in E. injection E as <- <-.
      split.
      * unfold times in *. cbn [rev]. rewrite !map_app, I1. reflexivity.
      * intros B. destruct (I2 B). split; auto. left. lia.
    + destruct b as [b|].
      * cbn [rbind] in E. destruct (q_at q (from + 2)); try discriminate E. cbn [rbind] in E. injection E as <- <-.
        split; [|discriminate]. unfold times in *. cbn [rev]. rewrite !map_app, I1. reflexivity.
      * destruct (hermite_before q); try discriminate E. cbn [rbind] in E.
        destruct (q_at q (from + 2)); try discriminate E. cbn [rbind] in E. injection E as <- <-.
        split; [|discriminate]. unfold times in *. cbn [rev]. rewrite !map_app, I1. reflexivity.
Qed.

(** the value at relative position [mu] between [y1] and [y2], its time after [y1] and up to [y2] *)
Definition between (y0 y1 y2 y3 m : msg) : Prop :=
  mtime y1 < mtime m <= mtime y2 /\
  mval m = hermite_interpolate4 (mval y0) (mval y1) (mval y2) (mval y3) (relative y1 y2 (mtime m)).

Lemma look_at_values q from mf mt d carry bf e c' bf' :
  q_at q from = Ok mf -> q_at q (from + 1) = Ok mt ->
  let t0 := mtime mf in let t1 := mtime mt in
  0 <= t0 -> t0 <= t1 -> t1 < two64 -> t1 - t0 + d < two64 -> 0 <= carry < d -> t1 - t0 < d * (2 ^ 31 - 3) ->
  look_at q from d carry bf = Ok (e, c', bf') ->
  Forall (fun m => exists y0 y3, q_at q (from + 2) = Ok y3 /\ (1 <= from -> q_at q (from - 1) = Ok y0) /\ between y0 mf mt y3 m) e.
Proof.
  intros Q0 Q1 t0 t1 H0 H1 H2 H3 H4 H5 E. unfold look_at in E. rewrite Q0, Q1 in E. cbn [rbind] in E.
  fold t0 t1 in E. rewrite grid_loop_spec in E by lia.
  destruct (fold_body _ _ _) as [[acc b]| | | |] eqn:F; cbn [rbind] in E; try discriminate E.
  injection E as <- _ _. apply Forall_rev.
  assert (W : wrap (t1 - t0) = t1 - t0) by (unfold wrap; apply Z.mod_small; lia).
  set (mu := fun off => vdiv (vofZ off) (vofZ (t1 - t0))).
  eapply (fold_body_inv _ (fun (dn : list Z) (st : list msg * option msg) =>
      Forall (fun m => exists off y0 y3, In off dn /\ mtime m = t0 + off /\ q_at q (from + 2) = Ok y3 /\ (1 <= from -> q_at q (from - 1) = Ok y0) /\
        mval m = hermite_interpolate4 (mval y0) (mval mf) (mval mt) (mval y3) (mu off)) (fst st)) _ []) in F.
  - cbn [fst snd app] in F. eapply Forall_impl; [|exact F]. intros m (off & y0 & y3 & Hin & Et & E3 & E0 & Ev).
    exists y0, y3. split; [exact E3|]. split; [exact E0|]. unfold between. fold t0 t1.
    unfold offsets in Hin. apply in_map_iff in Hin as (i & Ei & Hi). apply in_seq in Hi.
    assert (D : d * ((t1 - t0 + carry) / d) <= t1 - t0 + carry) by (apply Z.mul_div_le; lia).
    assert (1 + Z.of_nat i <= (t1 - t0 + carry) / d) by lia.
    split; [nia|]. rewrite Ev. unfold mu, relative. fold t0 t1. replace (mtime m - t0) with off by lia. reflexivity.
  - constructor.
  - intros dn x [acc0 b0] [acc' b'] I E. cbn [fst snd] in *. rewrite W in E.
    assert (Ext : forall m, (exists off y0 y3, In off dn /\ mtime m = t0 + off /\ q_at q (from + 2) = Ok y3 /\ (1 <= from -> q_at q (from - 1) = Ok y0) /\
        mval m = hermite_interpolate4 (mval y0) (mval mf) (mval mt) (mval y3) (mu off)) ->
      exists off y0 y3, In off (dn ++ [x]) /\ mtime m = t0 + off /\ q_at q (from + 2) = Ok y3 /\ (1 <= from -> q_at q (from - 1) = Ok y0) /\
        mval m = hermite_interpolate4 (mval y0) (mval mf) (mval mt) (mval y3) (mu off)).
    { intros m (off & y0 & y3 & A & B). exists off, y0, y3. split; [apply in_or_app; auto|exact B]. }
    assert (Hx : In x (dn ++ [x])) by (apply in_or_app; cbn; auto).
    unfold hermite_get in E. destruct (Z.leb_spec 0 (from - 1)) as [L|L].
    + destruct (q_at q (from - 1)) as [y0| | | |] eqn:E0; try discriminate E. cbn [rbind] in E.
      destruct (q_at q (from + 2)) as [y3| | | |] eqn:E3; try discriminate E. cbn [rbind] in E. injection E as <- <-.
      constructor; [|eapply Forall_impl; [exact Ext|exact I]]. exists x, y0, y3. cbn [mtime mval]. auto 10.
    + destruct (match b0 with Some m => Ok (m, b0) | None => let! m := hermite_before q in Ok (m, Some m) end) as [[y0 bb]| | | |] eqn:E0;
        try discriminate E. cbn [rbind] in E.
      destruct (q_at q (from + 2)) as [y3| | | |] eqn:E3; try discriminate E. cbn [rbind] in E. injection E as <- <-.
      constructor; [|eapply Forall_impl; [exact Ext|exact I]]. exists x, y0, y3. cbn [mtime mval].
      split; [exact Hx|]. split; [reflexivity|]. split; [reflexivity|]. split; [lia|reflexivity].
Qed.

Definition on_curve (h : list msg) (m : msg) : Prop := exists y0 y1 y2 y3, neighbours4 h y0 y1 y2 y3 /\ between y0 y1 y2 y3 m.

Lemma on_curve_snoc h x m : on_curve h m -> on_curve (h ++ [x]) m.
Proof.
  intros (y0 & y1 & y2 & y3 & [(l1 & l2 & ->)|(l2 & ->)] & B); exists y0, y1, y2, y3; (split; [|exact B]).
  - left. exists l1, (l2 ++ [x]). now rewrite <- app_assoc.
  - right. exists (l2 ++ [x]). reflexivity.
Qed.

(** the next grid points after [tn] up to [t], as offsets *)
Lemma grid_offsets t0 d tn t :
  0 < d -> t0 <= tn -> tn <= t ->
  grid t0 d t = grid t0 d tn ++
    map (fun off => tn + off) (offsets d ((tn - t0) mod d) 1 (Z.to_nat ((t - tn + (tn - t0) mod d) / d))).
Proof.
  intros Hd H0 H1. rewrite (grid_extend t0 d tn t) by lia. f_equal.
  assert (D : tn - t0 = ((tn - t0) / d) * d + (tn - t0) mod d) by (pose proof (Z.div_mod (tn - t0) d); lia).
  set (q := (tn - t0) / d) in *. set (r := (tn - t0) mod d) in *.
  assert (Q : (t - t0) / d - q = (t - tn + r) / d).
  { replace (t - t0) with (t - tn + r + q * d) by lia. rewrite Z.div_add by lia. lia. }
  rewrite Q. unfold offsets. rewrite map_map. apply map_ext. intros i. lia.
Qed.

(** the time of the message before the newest *)
Definition second_newest_time (h : list msg) : Z := newest_time (removelast h).

Lemma proc_hermite id outs conns p d carry bf :
  proc id outs conns p (KHermiteResampler d carry bf) =
  match hermite_process d carry bf (ip_data p) with
  | Ok (e, carry', before') =>
      (Ok (match e with [] => [] | _ => [("o1", e)] end),
       (mkBase id [("i1", p)] [] outs conns ["i1"], KHermiteResampler d carry' before'))
  | Throw e => (Throw e, (mkBase id [("i1", p)] [] outs conns ["i1"], KHermiteResampler d carry bf))
  | _ => (UB, (mkBase id [("i1", p)] [] outs conns ["i1"], KHermiteResampler d carry bf))
  end.
Proof. unfold proc. cbn [process_data]. cbn. destruct (hermite_process _ _ _ _) as [[[? ?] ?]| | | |]; reflexivity. Qed.

Lemma last4 (h : list msg) a b c e : lastn 4 (h ++ [a; b; c; e]) = [a; b; c; e].
Proof.
  unfold lastn. rewrite app_length. cbn [length]. replace (length h + 4 - 4)%nat with (length h) by lia.
  rewrite skipn_app, skipn_all, Nat.sub_diag. reflexivity.
Qed.

Lemma list_split4 (l : list msg) : (4 <= length l)%nat -> exists h a b c e, l = h ++ [a; b; c; e].
Proof.
  intros H.
  destruct l as [|e l _] using rev_ind; [cbn in H; lia|]. destruct l as [|c l _] using rev_ind; [cbn in H; lia|].
  destruct l as [|b l _] using rev_ind; [cbn in H; lia|]. destruct l as [|a l _] using rev_ind; [cbn in H; lia|].
  exists l, a, b, c, e. rewrite <- !app_assoc. reflexivity.
Qed.

Lemma run_hermite id outs conns d h os o' :
  0 < d -> increasing (times h) -> 0 <= first_time h -> newest_time h + d < two64 ->
  gaps_below (d * (2 ^ 31 - 3)) h ->
  d <= mtime (nth 1 h msg0) - first_time h ->
  run (sop id outs conns (new_port "i1" 4) false (KHermiteResampler d 0 None)) (feed "i1" h) = (Ok os, o') ->
  if (length h <? 4)%nat then
    on_port "o1" os = [] /\ o' = sop id outs conns (port_after "i1" 4 h) false (KHermiteResampler d 0 None)
  else
    times (on_port "o1" os) = grid (first_time h) d (second_newest_time h) /\
    Forall (on_curve h) (on_port "o1" os) /\
    exists bf, o' = sop id outs conns (port_after "i1" 4 h) false
                      (KHermiteResampler d ((second_newest_time h - first_time h) mod d) (Some bf)).
Proof.
  intros Hd. revert os o'. induction h as [|m h IH] using rev_ind; intros os o' Hi H0 Hmax Hg Hfirst E.
  { cbn in E. injection E as <- <-. cbn. auto. }
  pose proof Hi as Hi'. apply increasing_snoc in Hi' as [Hi1 Hm]. rewrite newest_time_snoc in Hmax.
  rewrite feed_app, run_app in E.
  destruct (run _ (feed "i1" h)) as [[os1| | | |] o1] eqn:R; try discriminate E.
  assert (IH' : if (length h <? 4)%nat then
    on_port "o1" os1 = [] /\ o1 = sop id outs conns (port_after "i1" 4 h) false (KHermiteResampler d 0 None)
  else
    times (on_port "o1" os1) = grid (first_time h) d (second_newest_time h) /\
    Forall (on_curve h) (on_port "o1" os1) /\
    exists bf, o1 = sop id outs conns (port_after "i1" 4 h) false
                      (KHermiteResampler d ((second_newest_time h - first_time h) mod d) (Some bf))).
  { destruct h as [|a [|b h]].
    - cbn in R. injection R as <- <-. split; reflexivity.
    - clear - R. cbn [length]. cbv beta iota. change (Nat.ltb 1 4) with true. cbv iota.
      pose proof (feed_step id outs conns 4 [] a (KHermiteResampler d 0 None) ltac:(lia) eq_refl) as S.
      change (port_after "i1" 4 []) with (new_port "i1" 4) in S. rewrite S in R. cbn [app length] in R.
      change (eff 4) with 4 in R. change (Z.of_nat 1 <? 4) with true in R. injection R as <- <-. auto.
    - apply IH; auto.
      + assert (newest_time (a :: b :: h) < mtime m) by (apply Hm, last_in; discriminate). lia.
      + eapply gaps_below_snoc; eauto. }
  clear IH.
  destruct (Nat.ltb_spec (length (h ++ [m])) 4) as [L4|L4].
  - rewrite app_length in L4. cbn in L4.
    destruct (Nat.ltb_spec (length h) 4); [|lia]. destruct IH' as [O ->].
    rewrite feed_step in E by (lia || reflexivity). change (eff 4) with 4 in E.
    assert (Z.of_nat (length (h ++ [m])) <? 4 = true) as X by (apply Z.ltb_lt; rewrite app_length; cbn; lia).
    rewrite X in E. assert (E1 : os = os1 ++ [[]; []]) by congruence. assert (E2 : o' = sop id outs conns (port_after "i1" 4 (h ++ [m])) false (KHermiteResampler d 0 None)) by congruence. subst os o'. split; [etransitivity; [apply on_port_silent|exact O]|reflexivity].
  - destruct (list_split4 (h ++ [m]) L4) as (h0 & a & b & c & m' & Es).
    replace (h0 ++ [a; b; c; m']) with ((h0 ++ [a; b; c]) ++ [m']) in Es by (rewrite <- app_assoc; reflexivity).
    apply app_inj_tail in Es as [-> <-].
    set (h := h0 ++ [a; b; c]) in *.
    assert (Dat : ip_data (port_after "i1" 4 (h ++ [m])) = [a; b; c; m]).
    { rewrite port_after_data by lia. change (Z.to_nat (eff 4)) with 4%nat. unfold h. rewrite <- app_assoc. apply last4. }
    assert (Sn : second_newest_time (h ++ [m]) = mtime c).
    { unfold second_newest_time. rewrite removelast_last. unfold h. 
      replace (h0 ++ [a; b; c]) with ((h0 ++ [a; b]) ++ [c]) by (rewrite <- app_assoc; reflexivity). apply newest_time_snoc. }
    assert (Hh : h <> []) by (unfold h; destruct h0; discriminate).
    assert (Tab : mtime a < mtime b /\ mtime b < mtime c /\ mtime c < mtime m).
    { split; [|split].
      - assert (I : increasing (times ((h0 ++ [a]) ++ [b]))).
        { assert (I : increasing (times (((h0 ++ [a]) ++ [b]) ++ [c]))) by (rewrite <- !app_assoc; exact Hi1).
          now apply increasing_snoc in I. }
        apply increasing_snoc in I as [_ I]. apply I, in_or_app. cbn; auto.
      - assert (I : increasing (times ((h0 ++ [a; b]) ++ [c]))) by (rewrite <- !app_assoc; exact Hi1).
        apply increasing_snoc in I as [_ I]. apply I, in_or_app. cbn; auto.
      - apply Hm. unfold h. apply in_or_app. cbn; auto. }
    assert (Gbc : mtime c - mtime b < d * (2 ^ 31 - 3)) by (apply (Hg (h0 ++ [a]) b c [m]); unfold h; rewrite <- !app_assoc; reflexivity).
    assert (Gab : mtime b - mtime a < d * (2 ^ 31 - 3)) by (apply (Hg h0 a b [c; m]); unfold h; rewrite <- !app_assoc; reflexivity).
    rewrite first_time_snoc in * by auto.
    assert (Ha : first_time h <= mtime a).
    { assert (I : increasing (times (h0 ++ [a]))).
      { assert (I : increasing (times (((h0 ++ [a]) ++ [b]) ++ [c]))) by (rewrite <- !app_assoc; exact Hi1).
        apply increasing_snoc in I as [I _]. now apply increasing_snoc in I as [I _]. }
      unfold h. destruct h0 as [|x h0]; cbn [app first_time]; [lia|].
      assert (mtime x < mtime a); [|lia]. apply increasing_snoc in I as [_ I]. apply I. cbn; auto. }
    assert (Nlt : Z.of_nat (length (h ++ [m])) <? 4 = false) by (apply Z.ltb_ge; lia).
    rewrite Sn.
    destruct (Nat.ltb_spec (length h) 4) as [L|L].
    + (* the first full window *)
      assert (h0 = []) by (unfold h in L; rewrite app_length in L; cbn in L; destruct h0; [auto|cbn in L; lia]). subst h0.
      cbn [app] in h. destruct IH' as [O ->].
      rewrite feed_step in E by (lia || reflexivity). change (eff 4) with 4 in E. rewrite Nlt in E.
      rewrite proc_hermite, Dat in E.
      destruct (hermite_process d 0 None [a; b; c; m]) as [[[e c'] bf]| | | |] eqn:P; try discriminate E.
      injection E as <- <-. unfold hermite_process in P.
      destruct (look_at [a; b; c; m] 0 d 0 None) as [[[e1 c1] b1]| | | |] eqn:P1; try discriminate P.
      cbn [rbind] in P.
      destruct (look_at [a; b; c; m] 1 d c1 b1) as [[[e2 c2] b2]| | | |] eqn:P2; try discriminate P.
      cbn [rbind] in P. injection P as <- <- <-.
      change (first_time h) with (mtime a) in *. cbn [h app nth] in Hfirst.
      pose proof P1 as V1. eapply look_at_values with (mf := a) (mt := b) in V1; try reflexivity; try lia.
      eapply look_at_spec with (mf := a) (mt := b) in P1 as (T1 & -> & B1); try reflexivity; try lia.
      rewrite Z.add_0_r in *.
      pose proof (Z.mod_pos_bound (mtime b - mtime a) d Hd) as M1.
      pose proof P2 as V2. eapply look_at_values with (mf := b) (mt := c) in V2; try reflexivity; try lia.
      eapply look_at_spec with (mf := b) (mt := c) in P2 as (T2 & -> & B2); try reflexivity; try lia.
      split; [|split].
      * etransitivity; [apply f_equal, on_port_new|]. rewrite O. cbn [app]. unfold times in *. rewrite map_app, T1, T2.
        rewrite (grid_offsets (mtime a) d (mtime b) (mtime c)) by lia. f_equal.
        rewrite (grid_offsets (mtime a) d (mtime a) (mtime b)) by lia.
        rewrite Z.sub_diag, Z.mod_0_l, Z.add_0_r by lia. unfold grid at 1.
        rewrite Z.sub_diag, Z.div_0_l by lia. reflexivity.
      * match goal with |- Forall _ ?x => assert (Ep : x = e1 ++ e2) end.
        { etransitivity; [apply on_port_new|]. rewrite O. reflexivity. }
        rewrite Ep. clear Ep.
        apply Forall_app. split.
        -- eapply Forall_impl; [|exact V1]. intros x (y0 & y3 & E3 & _ & B). injection E3 as <-. exists y0, a, b, c. split; [|exact B].
           right. exists [m]. reflexivity.
        -- eapply Forall_impl; [|exact V2]. intros x (y0 & y3 & E3 & E0 & B). injection E3 as <-. specialize (E0 ltac:(lia)). injection E0 as <-.
           exists a, b, c, m. split; [|exact B]. left. exists [], []. reflexivity.
      * destruct b2 as [b2|].
        -- exists b2. unfold sop, set_toproc. cbn. do 2 f_equal.
           rewrite Z.add_mod_idemp_r by lia. f_equal. lia.
        -- exfalso. destruct (B2 eq_refl) as [-> _]. destruct (B1 eq_refl) as [_ [|]]; [lia|]. subst e1.
           cbn in T1. symmetry in T1. apply map_eq_nil in T1. unfold offsets in T1. apply map_eq_nil in T1.
           assert (1 <= (mtime b - mtime a) / d) by (apply Z.div_le_lower_bound; lia).
           destruct (Z.to_nat ((mtime b - mtime a) / d)) eqn:K; [lia|discriminate T1].
    + destruct IH' as [O [OC (bf & ->)]].
      rewrite feed_step in E by (lia || reflexivity). change (eff 4) with 4 in E. rewrite Nlt in E.
      rewrite proc_hermite, Dat in E.
      set (ca := (second_newest_time h - first_time h) mod d) in *.
      destruct (hermite_process d ca (Some bf) [a; b; c; m]) as [[[e c'] bf']| | | |] eqn:P; try discriminate E.
      injection E as <- <-. unfold hermite_process in P.
      assert (Sb : second_newest_time h = mtime b).
      { unfold second_newest_time, h. replace (h0 ++ [a; b; c]) with ((h0 ++ [a; b]) ++ [c]) by (rewrite <- app_assoc; reflexivity).
        rewrite removelast_last. replace (h0 ++ [a; b]) with ((h0 ++ [a]) ++ [b]) by (rewrite <- app_assoc; reflexivity).
        apply newest_time_snoc. }
      assert (Eca : ca = (mtime b - first_time h) mod d) by (unfold ca; now rewrite Sb). clearbody ca. subst ca.
      rewrite Sb in *.
      pose proof (Z.mod_pos_bound (mtime b - first_time h) d Hd) as M1.
      pose proof P as V2. eapply look_at_values with (mf := b) (mt := c) in V2; try reflexivity; try lia.
      eapply look_at_spec with (mf := b) (mt := c) in P as (T2 & -> & B2); try reflexivity; try lia.
      split; [|split].
      * etransitivity; [apply f_equal, on_port_new|]. unfold times in *. rewrite map_app, T2, O.
        rewrite (grid_offsets (first_time h) d (mtime b) (mtime c)) by lia. reflexivity.
      * match goal with |- Forall _ ?x => replace x with (on_port "o1" os1 ++ e) by (symmetry; apply on_port_new) end.
        apply Forall_app. split; [eapply Forall_impl; [|exact OC]; intros x; apply on_curve_snoc|].
        eapply Forall_impl; [|exact V2]. intros x (y0 & y3 & E3 & E0 & B). injection E3 as <-. specialize (E0 ltac:(lia)). injection E0 as <-.
        exists a, b, c, m. split; [|exact B]. left. exists h0, []. unfold h. rewrite <- app_assoc. reflexivity.
      * destruct bf' as [b2|]; [|destruct (B2 eq_refl); discriminate].
        exists b2. unfold sop, set_toproc. cbn. do 2 f_equal.
        rewrite Z.add_mod_idemp_r by lia. f_equal. lia.
Qed.

End Hermite.
