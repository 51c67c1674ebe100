(** * ConstantResampler, CosineResampler *)

From Coq Require Import String ZArith Bool List Lia Sorted.
From Verif Require Import Base.StrMap Base.Num Model.Core Model.Ops Model.Make Model.Run.
From Verif Require Import Spec.Streams Spec.Resample Proofs.Lists Proofs.Window Proofs.Basic Proofs.Iter.
Import ListNotations.
Open Scope string_scope.
Open Scope list_scope.
Open Scope Z_scope.
Open Scope rtbot_scope.

(** ** The grid *)

Lemma grid_spec t0 d t g : 0 < d -> In g (grid t0 d t) <-> exists k, 1 <= k /\ g = t0 + k * d /\ g <= t.
Proof.
  intros Hd. unfold grid. rewrite in_map_iff. split.
  - intros (k & <- & Hk). apply in_seq in Hk. exists (Z.of_nat k). split; [lia|]. split; auto.
    assert (Z.of_nat k <= (t - t0) / d) by lia.
    assert (d * ((t - t0) / d) <= t - t0) by (apply Z.mul_div_le; lia). nia.
  - intros (k & Hk & -> & Hle). exists (Z.to_nat k). split; [f_equal; lia|].
    apply in_seq. assert (k <= (t - t0) / d) by (apply Z.div_le_lower_bound; lia). lia.
Qed.

Lemma grid_increasing t0 d t : 0 < d -> increasing (grid t0 d t).
Proof.
  intros Hd. unfold grid, increasing. generalize (Z.to_nat ((t - t0) / d)) as n. intros n. generalize 1%nat as s.
  induction n as [|n IH]; intros s; cbn; constructor; auto.
  apply Forall_forall. intros g Hg. apply in_map_iff in Hg as (k & <- & Hk). apply in_seq in Hk. nia.
Qed.

Lemma grid_extend t0 d t t' :
  0 < d -> t0 <= t -> t <= t' ->
  grid t0 d t' = grid t0 d t ++
    map (fun i => t0 + ((t - t0) / d + 1) * d + Z.of_nat i * d) (seq 0 (Z.to_nat ((t' - t0) / d - (t - t0) / d))).
Proof.
  intros Hd H0 Hle. unfold grid.
  assert (0 <= (t - t0) / d) by (apply Z.div_pos; lia).
  assert ((t - t0) / d <= (t' - t0) / d) by (apply Z.div_le_mono; lia).
  replace (Z.to_nat ((t' - t0) / d)) with (Z.to_nat ((t - t0) / d) + Z.to_nat ((t' - t0) / d - (t - t0) / d))%nat by lia.
  rewrite seq_app, map_app. f_equal.
  assert (G : forall a n, seq a n = map (fun i => (a + i)%nat) (seq 0 n)).
  { intros a n. revert a. induction n as [|n IH]; intros a; cbn; auto. f_equal; [lia|].
    rewrite (IH (S a)), (IH 1%nat), map_map. apply map_ext. intros; lia. }
  rewrite (G (1 + _)%nat), map_map. apply map_ext. intros i. nia.
Qed.

Arguments cr_process : simpl never.
Arguments cosine_process : simpl never.
Arguments iter_pos : simpl never.

Section Resample.
Context {NO : NumOps}.

(** one message received and processed *)
Lemma feed_step id outs conns n h m k :
  0 <= n -> base_kind k = true ->
  run (sop id outs conns (port_after "i1" n h) false k) (feed "i1" [m]) =
  (if Z.of_nat (length (h ++ [m])) <? eff n then
     (Ok [[]; []], sop id outs conns (port_after "i1" n (h ++ [m])) false k)
   else
     match proc id outs conns (port_after "i1" n (h ++ [m])) k with
     | (Ok out, (b', k')) => (Ok [[]; out], Op (set_toproc b' []) k')
     | (Throw e, (b', k')) => (Throw e, Op b' k')
     | (UB, (b', k')) => (UB, Op b' k')
     | (Diverges, (b', k')) => (Diverges, Op b' k')
     | (OutOfFuel, (b', k')) => (OutOfFuel, Op b' k')
     end).
Proof.
  intros Hn Hk. cbn [feed flat_map app run]. unfold bind. cbn [step]. unfold bind.
  rewrite (recv_data_sop _ _ _ _ _ _ _ _ _ Hk (or_introl eq_refl) (port_receive_after _ _ _ _ Hn)).
  cbv beta iota zeta delta [bind sbind]. rewrite exec_sop by auto. rewrite port_after_full by auto. cbn [andb].
  destruct (Z.of_nat (length (h ++ [m])) <? eff n); cbn [negb]; [reflexivity|].
  destruct (proc _ _ _ _ _) as [[] [? ?]]; reflexivity.
Qed.

Lemma on_port_feed_app o p l m xs o1 :
  run o (feed p l) = (Ok xs, o1) ->
  run o (feed p (l ++ [m])) =
  match run o1 (feed p [m]) with
  | (Ok ys, o2) => (Ok (xs ++ ys), o2)
  | r => r
  end.
Proof. intros E. rewrite feed_app, run_app, E. destruct (run o1 _) as [[] ?]; reflexivity. Qed.

(** increasing histories *)
Lemma increasing_snoc h m :
  increasing (times (h ++ [m])) <-> increasing (times h) /\ forall x, In x h -> mtime x < mtime m.
Proof.
  unfold increasing, times. induction h as [|a h IH]; cbn.
  - split; [intros _; split; [constructor|tauto]|repeat constructor].
  - split.
    + intros H. inversion H as [|? ? H1 H2]; subst. apply IH in H1 as [H1 H3].
      rewrite map_app, Forall_app in H2. destruct H2 as [H2 H4]. inversion H4; subst.
      split; [constructor; auto|]. intros x [<-|Hx]; auto.
    + intros [H1 H2]. inversion H1 as [|? ? H3 H4]; subst. constructor.
      * apply IH. split; auto.
      * rewrite map_app, Forall_app. split; [auto|]. cbn. constructor; auto.
Qed.

Lemma first_time_snoc h m : h <> [] -> first_time (h ++ [m]) = first_time h.
Proof. destruct h; [congruence|reflexivity]. Qed.
Lemma newest_time_snoc h m : newest_time (h ++ [m]) = mtime m.
Proof. unfold newest_time. now rewrite last_last. Qed.

Lemma increasing_newest h x : increasing (times h) -> In x h -> mtime x <= newest_time h.
Proof.
  intros H Hx. destruct h as [|m h _] using rev_ind; [destruct Hx|].
  apply increasing_snoc in H as [_ H]. rewrite newest_time_snoc.
  apply in_app_or in Hx as [Hx|[<-|[]]]; [specialize (H _ Hx)|]; lia.
Qed.

Lemma first_le_newest h : increasing (times h) -> h <> [] -> first_time h <= newest_time h.
Proof.
  intros H Hh. destruct h as [|m h]; [congruence|]. apply increasing_newest; cbn; auto.
Qed.

Lemma last_in (h : list msg) : h <> [] -> In (last h msg0) h.
Proof.
  intros H. destruct h as [|m h _] using rev_ind; [congruence|]. rewrite last_last. apply in_or_app. cbn; auto.
Qed.

Lemma filter_all {A} (f : A -> bool) l : (forall x, In x l -> f x = true) -> filter f l = l.
Proof.
  induction l as [|a l IH]; cbn; auto. intros H. rewrite H by auto. f_equal. auto.
Qed.
Lemma filter_none {A} (f : A -> bool) l : (forall x, In x l -> f x = false) -> filter f l = [].
Proof.
  induction l as [|a l IH]; cbn; auto. intros H. rewrite H by auto. auto.
Qed.

Lemma list_eq_nil_dec {A} (l : list A) : {l = []} + {l <> []}.
Proof. destruct l; [left|right]; congruence. Qed.

(** ** ConstantResampler *)

Lemma cr_loop d t v : forall c next acc,
  0 < d -> 0 <= next -> t <= next + Z.of_nat c * d -> (c = O \/ next + (Z.of_nat c - 1) * d < t) ->
  next + Z.of_nat c * d < two64 ->
  iter_n (cr_step d t v) (S c) (next, acc) =
  inr (next + Z.of_nat c * d, rev (map (fun i => mkMsg (next + Z.of_nat i * d) v) (seq 0 c)) ++ acc).
Proof.
  induction c as [|c IH]; intros next acc Hd H0 H1 H2 H3.
  - cbn [iter_n]. unfold cr_step. destruct (Z.ltb_spec next t); [lia|]. cbn. repeat f_equal; lia.
  - change (iter_n (cr_step d t v) (S (S c)) (next, acc)) with
      (match cr_step d t v (next, acc) with inl s' => iter_n (cr_step d t v) (S c) s' | inr r => inr r end).
    unfold cr_step at 1. destruct (Z.ltb_spec next t) as [L|L]; [|destruct H2; [discriminate|nia]].
    assert (W : wrap (next + d) = next + d) by (unfold wrap; apply Z.mod_small; nia). rewrite W.
    rewrite IH; try nia.
    + f_equal. f_equal; [nia|]. cbn [seq map rev]. rewrite <- app_assoc. cbn [app]. f_equal.
      * rewrite <- seq_shift, map_map. f_equal. apply map_ext. intros i. f_equal. nia.
      * repeat f_equal. lia.
Qed.

Definition cr_kind (d gn : Z) (gl : V) (h : list msg) : kind :=
  match h with
  | [] => KConstResampler d gn false gl
  | _ => KConstResampler d (first_time h + ((newest_time h - first_time h) / d + 1) * d) true (mval (last h msg0))
  end.

Lemma resampled_hold_snoc d h m :
  0 < d -> h <> [] -> increasing (times (h ++ [m])) ->
  resampled hold_last d (h ++ [m]) =
  resampled hold_last d h ++
  map (fun i => let g := first_time h + ((newest_time h - first_time h) / d + 1) * d + Z.of_nat i * d in
                mkMsg g (if g =? mtime m then mval m else mval (last h msg0)))
    (seq 0 (Z.to_nat ((mtime m - first_time h) / d - (newest_time h - first_time h) / d))).
Proof.
  intros Hd Hh Hi. apply increasing_snoc in Hi as [Hi Hm].
  assert (L : newest_time h < mtime m) by (apply Hm, last_in; auto).
  pose proof (first_le_newest h Hi Hh) as F.
  unfold resampled. rewrite first_time_snoc, newest_time_snoc by auto.
  rewrite (grid_extend _ _ (newest_time h) (mtime m)) by lia. rewrite map_app. f_equal.
  - apply map_ext_in. intros g Hg. apply grid_spec in Hg as (k & Hk & -> & Hle); auto.
    unfold hold_last, held. rewrite filter_app. cbn [filter].
    destruct (Z.leb_spec (mtime m) (first_time h + k * d)); [lia|]. now rewrite app_nil_r.
  - rewrite map_map. apply map_ext_in. intros i Hi'. apply in_seq in Hi'. cbn zeta.
    set (t0 := first_time h) in *. set (q := (newest_time h - t0) / d) in *.
    set (g := t0 + (q + 1) * d + Z.of_nat i * d).
    assert (newest_time h - t0 < (q + 1) * d).
    { unfold q. pose proof (Z.mod_pos_bound (newest_time h - t0) d Hd).
      pose proof (Z.div_mod (newest_time h - t0) d). nia. }
    assert (G1 : newest_time h < g) by (unfold g; nia).
    assert (G2 : g <= mtime m).
    { assert (d * ((mtime m - t0) / d) <= mtime m - t0) by (apply Z.mul_div_le; lia).
      assert (q + 1 + Z.of_nat i <= (mtime m - t0) / d) by lia. unfold g. nia. }
    f_equal. unfold hold_last, held. rewrite filter_app, filter_all.
    2: { intros x Hx. pose proof (increasing_newest h x Hi Hx). lia. }
    cbn [filter]. destruct (Z.leb_spec (mtime m) g), (Z.eqb_spec g (mtime m)); try lia.
    + now rewrite last_last.
    + now rewrite app_nil_r.
Qed.

(** one step of the constant resampler *)
Lemma cr_process_spec d t0 tn t lastv m :
  0 < d -> 0 <= t0 -> t0 <= tn -> tn < t -> t + d < two64 -> mtime m = t ->
  cr_process d (t0 + ((tn - t0) / d + 1) * d) true lastv m =
  Ok (map (fun i => let g := t0 + ((tn - t0) / d + 1) * d + Z.of_nat i * d in
                    mkMsg g (if g =? t then mval m else lastv))
          (seq 0 (Z.to_nat ((t - t0) / d - (tn - t0) / d))),
      (t0 + ((t - t0) / d + 1) * d, true, mval m)).
Proof.
  intros Hd H0 H1 H2 H3 Et. unfold cr_process. cbn [negb]. rewrite Et.
  set (q := (tn - t0) / d). set (q' := (t - t0) / d).
  assert (Q : 0 <= q) by (apply Z.div_pos; lia).
  assert (Qn : q * d <= tn - t0) by (unfold q; rewrite Z.mul_comm; apply Z.mul_div_le; lia).
  assert (QQ : q <= q') by (apply Z.div_le_mono; lia).
  assert (D : t - t0 = q' * d + (t - t0) mod d) by (unfold q'; pose proof (Z.div_mod (t - t0) d); lia).
  pose proof (Z.mod_pos_bound (t - t0) d Hd) as M.
  set (r := (t - t0) mod d) in *.
  set (next := t0 + (q + 1) * d).
  assert (Dn : tn < next) by (unfold next, q; pose proof (Z.div_mod (tn - t0) d); pose proof (Z.mod_pos_bound (tn - t0) d Hd); nia).
  (* number of grid points strictly before t *)
  set (c := Z.to_nat (if r =? 0 then q' - q - 1 else q' - q)).
  assert (C : Z.of_nat c = if r =? 0 then q' - q - 1 else q' - q).
  { unfold c. destruct (Z.eqb_spec r 0); [|lia]. enough (q < q') by lia. nia. }
  assert (It : iter_pos 18446744073709551616 (cr_step d t lastv) (next, []) =
    inr (next + Z.of_nat c * d, rev (map (fun i => mkMsg (next + Z.of_nat i * d) lastv) (seq 0 c)) ++ [])).
  { apply iter_pos_done with (k := S c).
    - assert (Z.of_nat c <= q' - q) by (destruct (r =? 0); lia). unfold two64 in *. nia.
    - apply cr_loop; auto; try nia; destruct (Z.eqb_spec r 0); nia. }
  rewrite It, app_nil_r.
  destruct (Z.eqb_spec r 0) as [R|R].
  - replace (next + Z.of_nat c * d =? t) with true by (symmetry; apply Z.eqb_eq; nia).
    f_equal. f_equal.
    + cbn [rev]. rewrite rev_involutive. replace (Z.to_nat (q' - q)) with (c + 1)%nat by lia.
      rewrite seq_app, map_app. f_equal.
      * apply map_ext_in. intros i Hi. apply in_seq in Hi. cbn zeta. fold next.
        replace (next + Z.of_nat i * d =? t) with false by (symmetry; apply Z.eqb_neq; nia). reflexivity.
      * cbn [seq map]. cbn zeta. fold next. replace (next + Z.of_nat (0 + c) * d =? t) with true by (symmetry; apply Z.eqb_eq; nia).
        repeat f_equal. nia.
    + assert (E1 : next + Z.of_nat c * d = t) by nia. rewrite E1. unfold wrap. rewrite Z.mod_small by lia. assert (E2 : t + d = t0 + (q' + 1) * d) by nia. now rewrite E2.
  - replace (next + Z.of_nat c * d =? t) with false by (symmetry; apply Z.eqb_neq; nia).
    f_equal. f_equal.
    + rewrite rev_involutive. replace (Z.to_nat (q' - q)) with c by lia.
      apply map_ext_in. intros i Hi. apply in_seq in Hi. cbn zeta. fold next.
      replace (next + Z.of_nat i * d =? t) with false by (symmetry; apply Z.eqb_neq; nia). reflexivity.
    + assert (E2 : next + Z.of_nat c * d = t0 + (q' + 1) * d) by nia. now rewrite E2.
Qed.

Lemma on_port_silent p outs : on_port p (outs ++ [[]; []]) = on_port p outs.
Proof. unfold on_port. rewrite flat_map_app. cbn. now rewrite app_nil_r. Qed.

Lemma on_port_new outs (e : list msg) :
  on_port "o1" (outs ++ [[]; match e with [] => [] | _ => [("o1", e)] end]) = on_port "o1" outs ++ e.
Proof. unfold on_port. rewrite flat_map_app. destruct e; cbn; now rewrite ?app_nil_r. Qed.

Lemma run_constres id outs conns d gn gl h :
  0 < d -> increasing (times h) -> 0 <= first_time h -> newest_time h + d < two64 ->
  exists os,
    run (sop id outs conns (new_port "i1" 1) false (KConstResampler d gn false gl)) (feed "i1" h) =
    (Ok os, sop id outs conns (port_after "i1" 1 h) false (cr_kind d gn gl h)) /\
    on_port "o1" os = resampled hold_last d h.
Proof.
  intros Hd. induction h as [|m h IH] using rev_ind; intros Hi H0 Hmax.
  { exists []. split; auto. }
  pose proof Hi as Hi'. apply increasing_snoc in Hi' as [Hi1 Hm]. rewrite newest_time_snoc in Hmax.
  assert (IH' : exists os, run (sop id outs conns (new_port "i1" 1) false (KConstResampler d gn false gl)) (feed "i1" h) =
    (Ok os, sop id outs conns (port_after "i1" 1 h) false (cr_kind d gn gl h)) /\
    on_port "o1" os = resampled hold_last d h).
  { destruct h as [|a h]; [exists []; auto|]. apply IH; auto.
    assert (newest_time (a :: h) < mtime m) by (apply Hm, last_in; discriminate). lia. }
  destruct IH' as (os & R & O). rewrite (on_port_feed_app _ _ _ _ _ _ R).
  rewrite feed_step by (lia || (unfold cr_kind; destruct h; reflexivity)).
  assert (Z.of_nat (length (h ++ [m])) <? eff 1 = false) as ->.
  { apply Z.ltb_ge. rewrite app_length. cbn. change (eff 1) with 1. lia. }
  assert (D : ip_data (port_after "i1" 1 (h ++ [m])) = [m]).
  { rewrite port_after_data by lia. change (Z.to_nat (eff 1)) with 1%nat. now rewrite lastn_snoc, lastn_0. }
  remember (port_after "i1" 1 (h ++ [m])) as pt eqn:Ept. clear Ept.
  destruct (list_eq_nil_dec h) as [->|Hh].
  - unfold proc, cr_kind. cbn [process_data]. cbn. unfold d_last. cbn. rewrite D. unfold cr_process. cbn.
    unfold wrap. rewrite Z.mod_small by (cbn in H0; lia).
    exists (os ++ [[]; []]). split.
    + repeat f_equal. unfold sop, set_toproc. cbn. repeat f_equal.
      unfold newest_time. cbn. rewrite Z.sub_diag, Z.div_0_l by lia. lia.
    + rewrite on_port_silent, O. unfold resampled, grid, newest_time. cbn.
      rewrite Z.sub_diag, Z.div_0_l by lia. reflexivity.
  - assert (L : newest_time h < mtime m) by (apply Hm, last_in; auto).
    pose proof (first_le_newest h Hi1 Hh) as F. rewrite first_time_snoc in H0 by auto.
    pose proof (cr_process_spec d (first_time h) (newest_time h) (mtime m) (mval (last h msg0)) m Hd H0 F L Hmax eq_refl) as S.
    assert (K : cr_kind d gn gl h = KConstResampler d (first_time h + ((newest_time h - first_time h) / d + 1) * d) true (mval (last h msg0)))
      by (destruct h; [congruence|reflexivity]).
    rewrite K. unfold proc. cbn [process_data]. cbn. unfold d_last. cbn. rewrite D. cbn [last]. cbn.
    rewrite S. cbv beta iota.
    set (e := map _ _). exists (os ++ [[]; match e with [] => [] | _ => [("o1", e)] end]). split.
    + f_equal. unfold sop, set_toproc. cbn. f_equal. unfold cr_kind.
      destruct (h ++ [m]) eqn:E; [destruct h; discriminate|]. rewrite <- E.
      rewrite first_time_snoc, newest_time_snoc, last_last by auto. reflexivity.
    + rewrite on_port_new, O. symmetry. now apply resampled_hold_snoc.
Qed.

(** ** The grid loop of CosineResampler and HermiteResampler *)

Fixpoint fold_body {S} (f : Z -> S -> res S) (l : list Z) (s : S) : res S :=
  match l with
  | [] => Ok s
  | x :: l' => match f x s with
               | Ok s' => fold_body f l' s'
               | Throw e => Throw e
               | _ => UB
               end
  end.

(** the offsets from the left message *)
Definition offsets (dt carry j : Z) (c : nat) : list Z :=
  map (fun i => (j + Z.of_nat i) * dt - carry) (seq 0 c).

Lemma offsets_S dt carry j c : offsets dt carry j (S c) = (j * dt - carry) :: offsets dt carry (j + 1) c.
Proof.
  unfold offsets. cbn [seq map]. f_equal; [f_equal; lia|].
  rewrite <- seq_shift, map_map. apply map_ext. intros; lia.
Qed.

Lemma grid_iter {S} t0 t1 dt carry (body : Z -> Z -> S -> res S) : forall c j st,
  0 <= t0 -> t0 <= t1 -> t1 < two64 -> t1 - t0 + dt < two64 -> 0 <= carry < dt -> 1 <= j ->
  (c = O \/ (j + Z.of_nat c - 1) * dt - carry <= t1 - t0) ->
  t1 - t0 < (j + Z.of_nat c) * dt - carry <= t1 - t0 + dt ->
  iter_n (grid_step t0 t1 dt carry body) (Datatypes.S c) (j, st) =
  inr (match fold_body (fun off => body off (t0 + off)) (offsets dt carry j c) st with
       | Ok st' => Ok (j + Z.of_nat c, st')
       | Throw e => Throw e
       | _ => UB
       end).
Proof.
  induction c as [|c IH]; intros j st H0 H1 H2 H3 Hc Hj Hin Hout.
  - cbn [iter_n]. unfold grid_step.
    assert (W : wrap (wrap (j * dt) - carry) = j * dt - carry).
    { unfold wrap. rewrite Zminus_mod_idemp_l. apply Z.mod_small. nia. }
    rewrite W. assert (W2 : wrap (t1 - t0) = t1 - t0) by (unfold wrap; apply Z.mod_small; lia). rewrite W2.
    destruct (Z.leb_spec (j * dt - carry) (t1 - t0)); [nia|]. cbn. repeat f_equal. lia.
  - assert (Hin' : (j + Z.of_nat c) * dt - carry <= t1 - t0) by (destruct Hin; [discriminate|nia]).
    assert (Hj' : j * dt - carry <= t1 - t0) by nia.
    match goal with |- iter_n ?f (Datatypes.S (Datatypes.S c)) ?s = _ =>
      change (iter_n f (Datatypes.S (Datatypes.S c)) s) with
        (match f s with inl s' => iter_n f (Datatypes.S c) s' | inr r => inr r end) end.
    unfold grid_step at 1.
    assert (W : wrap (wrap (j * dt) - carry) = j * dt - carry).
    { unfold wrap. rewrite Zminus_mod_idemp_l. apply Z.mod_small. nia. }
    rewrite W. assert (W2 : wrap (t1 - t0) = t1 - t0) by (unfold wrap; apply Z.mod_small; lia). rewrite W2.
    assert (W3 : wrap (t0 + (j * dt - carry)) = t0 + (j * dt - carry)) by (unfold wrap; apply Z.mod_small; nia). rewrite W3.
    destruct (Z.leb_spec (j * dt - carry) (t1 - t0)); [|lia].
    rewrite offsets_S. cbn [fold_body].
    destruct (body (j * dt - carry) (t0 + (j * dt - carry)) st) as [st'| | | |]; try reflexivity.
    rewrite IH; try nia.
    + destruct (fold_body _ _ st'); auto. do 3 f_equal; lia.
Qed.

Lemma grid_loop_spec {S} t0 t1 dt carry (body : Z -> Z -> S -> res S) st :
  0 <= t0 -> t0 <= t1 -> t1 < two64 -> t1 - t0 + dt < two64 -> 0 <= carry < dt -> t1 - t0 < dt * (2 ^ 31 - 3) ->
  let c := (t1 - t0 + carry) / dt in
  grid_loop t0 t1 dt carry body st =
  (match fold_body (fun off => body off (t0 + off)) (offsets dt carry 1 (Z.to_nat c)) st with
       | Ok st' => Ok (1 + c, st')
       | Throw e => Throw e
       | _ => UB
       end).
Proof.
  intros H0 H1 H2 H3 Hc Hg c. unfold grid_loop.
  assert (D : t1 - t0 + carry = c * dt + (t1 - t0 + carry) mod dt) by (unfold c; pose proof (Z.div_mod (t1 - t0 + carry) dt); lia).
  pose proof (Z.mod_pos_bound (t1 - t0 + carry) dt ltac:(lia)) as M.
  assert (C0 : 0 <= c) by (apply Z.div_pos; lia).
  erewrite iter_pos_done with (k := Datatypes.S (Z.to_nat c)).
  2: { assert (c < 2 ^ 31 - 2) by nia. lia. }
  2: { apply grid_iter; try assumption; try reflexivity.
       - rewrite Z2Nat.id by lia. destruct (Z.eq_dec c 0) as [->|]; [left; reflexivity|right; nia].
       - rewrite Z2Nat.id by lia. nia. }
  rewrite Z2Nat.id by lia. reflexivity.
Qed.

Lemma carry_after_spec t0 t1 dt carry :
  0 <= t0 -> t0 <= t1 -> t1 < two64 -> t1 - t0 + dt < two64 -> 0 <= carry < dt ->
  carry_after t0 t1 dt carry (1 + (t1 - t0 + carry) / dt) = (t1 - t0 + carry) mod dt.
Proof.
  intros H0 H1 H2 H3 Hc. unfold carry_after, wrap.
  rewrite Zminus_mod_idemp_l, Zplus_mod_idemp_r, Zminus_mod_idemp_r.
  pose proof (Z.div_mod (t1 - t0 + carry) dt ltac:(lia)) as D.
  pose proof (Z.mod_pos_bound (t1 - t0 + carry) dt ltac:(lia)) as M.
  rewrite Z.mod_small; [|]; nia.
Qed.

(** ** CosineResampler *)

Definition co_kind (dt : Z) (h : list msg) : kind :=
  KCosineResampler dt ((newest_time h - first_time h) mod dt).

Lemma resampled_cosine_snoc d h m :
  0 < d -> h <> [] -> increasing (times (h ++ [m])) ->
  resampled cosine_at d (h ++ [m]) =
  resampled cosine_at d h ++
  map (fun off => mkMsg (newest_time h + off)
         (cosine_interpolate (mval (last h msg0)) (mval m) (vdiv (vofZ off) (vofZ (mtime m - newest_time h)))))
    (offsets d ((newest_time h - first_time h) mod d) 1
       (Z.to_nat ((mtime m - newest_time h + (newest_time h - first_time h) mod d) / d))).
Proof.
  intros Hd Hh Hi. apply increasing_snoc in Hi as [Hi Hm].
  assert (L : newest_time h < mtime m) by (apply Hm, last_in; auto).
  pose proof (first_le_newest h Hi Hh) as F.
  unfold resampled. rewrite first_time_snoc, newest_time_snoc by auto.
  rewrite (grid_extend _ _ (newest_time h) (mtime m)) by lia. rewrite map_app.
  set (t0 := first_time h) in *. set (tn := newest_time h) in *.
  assert (D : tn - t0 = ((tn - t0) / d) * d + (tn - t0) mod d) by (pose proof (Z.div_mod (tn - t0) d); lia).
  pose proof (Z.mod_pos_bound (tn - t0) d Hd) as M.
  set (q := (tn - t0) / d) in *. set (r := (tn - t0) mod d) in *.
  assert (Q : (mtime m - t0) / d - q = (mtime m - tn + r) / d).
  { replace (mtime m - t0) with (mtime m - tn + r + q * d) by lia. rewrite Z.div_add by lia. lia. }
  rewrite Q. f_equal.
  - apply map_ext_in. intros g Hg. apply grid_spec in Hg as (k & Hk & -> & Hle); auto.
    set (g := t0 + k * d) in *.
    assert (Hlast : In (last h msg0) h) by (apply last_in; auto).
    unfold cosine_at, left_of, right_of. rewrite !filter_app. cbn [filter].
    replace (mtime m <? g) with false by (symmetry; apply Z.ltb_ge; lia). rewrite app_nil_r.
    destruct (filter (fun x => g <=? mtime x) h) eqn:E; [|reflexivity]. exfalso.
    assert (X : In (last h msg0) (filter (fun x => g <=? mtime x) h)).
    { apply filter_In. split; auto. apply Z.leb_le. exact Hle. }
    rewrite E in X. destruct X.
  - unfold offsets. rewrite !map_map. apply map_ext_in. intros i Hi'. apply in_seq in Hi'.
    set (g := t0 + (q + 1) * d + Z.of_nat i * d).
    assert (Eg : tn + ((1 + Z.of_nat i) * d - r) = g) by (unfold g; lia).
    rewrite Eg. f_equal.
    assert (G1 : tn < g) by (unfold g; nia).
    assert (G2 : g <= mtime m).
    { assert (d * ((mtime m - tn + r) / d) <= mtime m - tn + r) by (apply Z.mul_div_le; lia).
      assert (1 + Z.of_nat i <= (mtime m - tn + r) / d) by lia. unfold g. nia. }
    unfold cosine_at, left_of, right_of. rewrite !filter_app.
    rewrite (filter_all (fun x => mtime x <? g)).
    2: { intros x Hx. pose proof (increasing_newest h x Hi Hx). fold tn in H. apply Z.ltb_lt. lia. }
    rewrite (filter_none (fun x => g <=? mtime x)).
    2: { intros x Hx. pose proof (increasing_newest h x Hi Hx). fold tn in H. apply Z.leb_gt. lia. }
    cbn [filter app]. replace (mtime m <? g) with false by (symmetry; apply Z.ltb_ge; lia).
    replace (g <=? mtime m) with true by (symmetry; apply Z.leb_le; lia).
    rewrite app_nil_r. cbn [hd]. change (mtime (last h msg0)) with tn.
    replace (g - tn) with ((1 + Z.of_nat i) * d - r) by lia. reflexivity.
Qed.

(** neighbouring messages are less than (2^31 - 3) steps apart *)
Definition gaps_below (b : Z) (h : list msg) : Prop :=
  forall l1 a c l2, h = l1 ++ a :: c :: l2 -> mtime c - mtime a < b.

Lemma gaps_below_snoc b h m : gaps_below b (h ++ [m]) -> gaps_below b h.
Proof. intros H l1 a c l2 ->. apply (H l1 a c (l2 ++ [m])). rewrite <- app_assoc. reflexivity. Qed.

Lemma fold_body_pure {A} (f : Z -> A) (l : list Z) acc :
  fold_body (fun off (acc : list A) => Ok (f off :: acc)) l acc = Ok (rev (map f l) ++ acc).
Proof.
  revert acc. induction l as [|x l IH]; intros acc; cbn; auto. rewrite IH, <- app_assoc. reflexivity.
Qed.

Lemma cosine_process_spec dt t0 tn a m :
  0 < dt -> 0 <= t0 -> t0 <= tn -> mtime a = tn -> tn < mtime m -> mtime m + dt < two64 ->
  mtime m - tn < dt * (2 ^ 31 - 3) ->
  cosine_process dt ((tn - t0) mod dt) a m =
  Ok (map (fun off => mkMsg (tn + off)
         (cosine_interpolate (mval a) (mval m) (vdiv (vofZ off) (vofZ (mtime m - tn)))))
    (offsets dt ((tn - t0) mod dt) 1 (Z.to_nat ((mtime m - tn + (tn - t0) mod dt) / dt))),
    (mtime m - t0) mod dt).
Proof.
  intros Hd H0 H1 Ea H2 H3 H4. unfold cosine_process. rewrite Ea.
  pose proof (Z.mod_pos_bound (tn - t0) dt Hd) as M.
  assert (W2 : wrap (mtime m - tn) = mtime m - tn) by (unfold wrap; apply Z.mod_small; lia). rewrite W2.
  rewrite grid_loop_spec by lia.
  rewrite (fold_body_pure (fun off => mkMsg (tn + off) (cosine_interpolate (mval a) (mval m) (vdiv (vofZ off) (vofZ (mtime m - tn)))))).
  cbn [rbind]. rewrite app_nil_r, rev_involutive. rewrite carry_after_spec by lia.
  f_equal. f_equal. rewrite Z.add_mod_idemp_r by lia. f_equal. lia.
Qed.

Lemma run_cosine id outs conns d h :
  0 < d -> increasing (times h) -> 0 <= first_time h -> newest_time h + d < two64 ->
  gaps_below (d * (2 ^ 31 - 3)) h ->
  exists os,
    run (sop id outs conns (new_port "i1" 2) false (KCosineResampler d 0)) (feed "i1" h) =
    (Ok os, sop id outs conns (port_after "i1" 2 h) false (co_kind d h)) /\
    on_port "o1" os = resampled cosine_at d h.
Proof.
  intros Hd. induction h as [|m h IH] using rev_ind; intros Hi H0 Hmax Hg.
  { exists []. split; auto. }
  pose proof Hi as Hi'. apply increasing_snoc in Hi' as [Hi1 Hm]. rewrite newest_time_snoc in Hmax.
  assert (IH' : exists os, run (sop id outs conns (new_port "i1" 2) false (KCosineResampler d 0)) (feed "i1" h) =
    (Ok os, sop id outs conns (port_after "i1" 2 h) false (co_kind d h)) /\
    on_port "o1" os = resampled cosine_at d h).
  { destruct h as [|a h]; [exists []; auto|]. apply IH; auto.
    - assert (newest_time (a :: h) < mtime m) by (apply Hm, last_in; discriminate). lia.
    - eapply gaps_below_snoc; eauto. }
  destruct IH' as (os & R & O). rewrite (on_port_feed_app _ _ _ _ _ _ R).
  rewrite feed_step by (lia || reflexivity). change (eff 2) with 2.
  destruct (list_eq_nil_dec h) as [->|Hh].
  - cbn [app length]. change (Z.of_nat 1 <? 2) with true. cbv beta iota.
    exists (os ++ [[]; []]). split.
    + unfold co_kind, newest_time. cbn [first_time last app msg0 mtime]. rewrite !Z.sub_diag. reflexivity.
    + rewrite on_port_silent, O. unfold resampled, grid, newest_time. cbn.
      rewrite Z.sub_diag, Z.div_0_l by lia. reflexivity.
  - assert (Z.of_nat (length (h ++ [m])) <? 2 = false) as ->.
    { apply Z.ltb_ge. rewrite app_length. destruct h; [congruence|]. cbn [length]. lia. }
    assert (D : ip_data (port_after "i1" 2 (h ++ [m])) = [last h msg0; m]).
    { rewrite port_after_data by lia. change (Z.to_nat (eff 2)) with 2%nat. rewrite lastn_snoc.
      destruct h as [|a h _] using rev_ind; [congruence|]. rewrite lastn_snoc, lastn_0, last_last. reflexivity. }
    remember (port_after "i1" 2 (h ++ [m])) as pt eqn:Ept. clear Ept.
    assert (L : newest_time h < mtime m) by (apply Hm, last_in; auto).
    pose proof (first_le_newest h Hi1 Hh) as F. rewrite first_time_snoc in H0 by auto.
    assert (G : mtime m - newest_time h < d * (2 ^ 31 - 3)).
    { destruct h as [|a h _] using rev_ind; [congruence|]. rewrite newest_time_snoc.
      apply (Hg h a m []). rewrite <- app_assoc. reflexivity. }
    pose proof (cosine_process_spec d (first_time h) (newest_time h) (last h msg0) m Hd H0 F eq_refl L Hmax G) as S.
    pose proof (resampled_cosine_snoc d h m Hd Hh Hi) as RS.
    unfold co_kind at 1. set (ca := (newest_time h - first_time h) mod d) in *. clearbody ca.
    set (a := last h msg0) in *. clearbody a.
    unfold proc. cbn [process_data]. cbn. unfold d_msg. cbn. rewrite D. cbn. change (Pos.to_nat 1) with 1%nat. cbn.
    rewrite S. cbv beta iota.
    set (e := map _ _). exists (os ++ [[]; match e with [] => [] | _ => [("o1", e)] end]). split.
    + f_equal. unfold sop, set_toproc. cbn. f_equal. unfold co_kind.
      rewrite first_time_snoc, newest_time_snoc by auto. reflexivity.
    + rewrite on_port_new, O. symmetry. exact RS.
Qed.

End Resample.
