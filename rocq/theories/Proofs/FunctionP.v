(** * Function: sorting the points, choosing a segment *)

From Coq Require Import String ZArith Bool List Lia Sorted Permutation Field Ring.
From Verif Require Import Base.StrMap Base.Num Model.Core Model.Ops Model.Make Model.Run.
From Verif Require Import Spec.Streams Spec.Operators Spec.Interp.
From Verif Require Import Proofs.Lists Proofs.FieldFacts Proofs.Window Proofs.Basic.
From Verif Require Spec.Resample.
Import ListNotations.
Open Scope string_scope.
Open Scope list_scope.
Open Scope Z_scope.
Open Scope rtbot_scope.

Section FunctionP.
Context {NO : NumOps} {NF : NumField NO}.
Add Field vfield : v_field_theory.

(** ** Sorting *)

Lemma insert_perm p l : Permutation (insert_point p l) (p :: l).
Proof.
  induction l as [|q l IH]; cbn; auto. destruct (point_lt q p); auto.
  rewrite IH. apply perm_swap.
Qed.

Lemma sort_perm l : Permutation (sort_points l) l.
Proof. induction l as [|p l IH]; cbn; auto. rewrite insert_perm. auto. Qed.

Definition xlt (p q : V * V) : Prop := vlt (fst p) (fst q) = true.

Lemma insert_sorted p l :
  StronglySorted xlt l -> ~ In (fst p) (map fst l) -> StronglySorted xlt (insert_point p l).
Proof.
  induction l as [|q l IH]; intros H N; cbn; [repeat constructor|].
  inversion H as [|? ? H1 H2]; subst.
  assert (Nq : fst q <> fst p) by (intros E; apply N; cbn; auto).
  destruct (point_lt q p) eqn:L.
  - constructor.
    + apply IH; auto. intros I. apply N. cbn; auto.
    + rewrite Forall_forall in *. intros r Hr. apply (Permutation_in _ (insert_perm p l)) in Hr as [<-|Hr]; auto.
      unfold point_lt in L. apply orb_prop in L as [L|L]; auto.
      apply andb_prop in L as [L _]. apply negb_true_iff in L.
      unfold xlt. destruct (v_lt_total (fst q) (fst p)) as [X|[X|X]]; congruence.
  - constructor; auto.
    assert (Lp : xlt p q).
    { unfold point_lt in L. apply orb_false_iff in L as [L _]. unfold xlt.
      destruct (v_lt_total (fst p) (fst q)) as [X|[X|X]]; congruence. }
    constructor; auto. rewrite Forall_forall in *. intros r Hr. specialize (H2 r Hr). unfold xlt in *.
    eapply v_lt_trans; eauto.
Qed.

Lemma sort_sorted l : NoDup (map fst l) -> StronglySorted xlt (sort_points l).
Proof.
  induction l as [|p l IH]; cbn; intros H; [constructor|].
  inversion H as [|? ? H1 H2]; subst. apply insert_sorted; auto.
  intros I. apply H1. apply (Permutation_in (l := map fst (sort_points l))); auto.
  apply Permutation_map, sort_perm.
Qed.

Notation d0 := ((v0, v0) : V * V).

Lemma sorted_nth l i j :
  StronglySorted xlt l -> (i < j < length l)%nat -> xlt (nth i l d0) (nth j l d0).
Proof.
  intros H. revert i j. induction H as [|p l H IH F]; intros i j [Hi Hj]; [cbn in Hj; lia|].
  destruct j as [|j]; [lia|]. cbn [length] in Hj. destruct i as [|i]; cbn.
  - rewrite Forall_forall in F. apply F, nth_In. lia.
  - apply IH. lia.
Qed.

Lemma sorted_nth_le l i j :
  StronglySorted xlt l -> (i <= j)%nat -> (j < length l)%nat -> vle (fst (nth i l d0)) (fst (nth j l d0)) = true.
Proof.
  intros H Hi Hj. destruct (Nat.eq_dec i j) as [->|]; [apply v_le_refl|].
  apply v_lt_le, sorted_nth; auto. lia.
Qed.

Lemma nth_error_d0 (l : list (V * V)) i : (i < length l)%nat -> nth_error l i = Some (nth i l d0).
Proof. intros H. now apply nth_error_nth'. Qed.

(** ** The segment *)

Definition seg (pts : list (V * V)) (x : V) : nat := Nat.min (seg_index (tl pts) x) (length pts - 2).

Lemma seg_index_le rest x : (seg_index rest x <= length rest)%nat.
Proof. induction rest as [|p r IH]; cbn; [lia|]. destruct (vle (fst p) x); lia. Qed.

Lemma seg_index_before rest x j : (j < seg_index rest x)%nat -> vle (fst (nth j rest d0)) x = true.
Proof.
  revert j. induction rest as [|p r IH]; intros j; cbn; [lia|].
  destruct (vle (fst p) x) eqn:E; [|lia]. destruct j; auto. intros. apply IH. lia.
Qed.

Lemma seg_index_after rest x :
  (seg_index rest x < length rest)%nat -> vlt x (fst (nth (seg_index rest x) rest d0)) = true.
Proof.
  induction rest as [|p r IH]; cbn; [lia|]. destruct (vle (fst p) x) eqn:E.
  - intros. apply IH. lia.
  - intros _. rewrite v_le_spec in E. now apply negb_false_iff in E.
Qed.

Lemma linear_is_seg pts x : (2 <= length pts)%nat -> function_value pts ILinear x = linear_segment pts (seg pts x) x.
Proof.
  intros L. destruct pts as [|p0 [|p1 r]]; cbn in L; try lia. unfold function_value, seg. cbn [tl].
  pose proof (seg_index_le (p1 :: r) x) as B. set (i := seg_index (p1 :: r) x) in *. clearbody i. cbn [length] in *.
  destruct (Nat.eqb i 0 && vlt x (fst p0)) eqn:E.
  - apply andb_prop in E as [E _]. apply Nat.eqb_eq in E as ->. reflexivity.
  - destruct (Nat.eqb_spec i (S (S (length r)) - 1)) as [->|N].
    + f_equal. lia.
    + f_equal. lia.
Qed.

Lemma hermite_is_seg pts x : (2 <= length pts)%nat -> function_value pts IHermite x = hermite_segment pts (seg pts x) x.
Proof.
  intros L. destruct pts as [|p0 [|p1 r]]; cbn in L; try lia. unfold function_value, seg. cbn [tl].
  pose proof (seg_index_le (p1 :: r) x) as B. set (i := seg_index (p1 :: r) x) in *. clearbody i. cbn [length] in *.
  destruct (Nat.eqb i 0 && vlt x (fst p0)) eqn:E.
  - apply andb_prop in E as [E _]. apply Nat.eqb_eq in E as ->. reflexivity.
  - destruct (Nat.leb_spec (S (S (length r)) - 2) i) as [K|K]; f_equal; lia.
Qed.

Lemma seg_bracket pts x :
  (2 <= length pts)%nat -> StronglySorted xlt pts ->
  let s := seg pts x in
  (S s < length pts)%nat /\ bracket pts x (nth s pts d0) (nth (S s) pts d0).
Proof.
  intros L H s. destruct pts as [|p0 rest]; [cbn in L; lia|]. cbn [length] in L.
  pose proof (seg_index_le rest x) as B. unfold s, seg. cbn [tl length]. set (i := seg_index rest x) in *.
  assert (S1 : (S (Nat.min i (S (length rest) - 2)) < S (length rest))%nat) by lia.
  split; auto. set (k := Nat.min i (S (length rest) - 2)) in *. split.
  - split; [apply nth_In; cbn; lia|]. split; [apply nth_In; cbn; lia|].
    split; [apply sorted_nth; auto; cbn; lia|].
    intros r Hr. apply In_nth with (d := d0) in Hr as (j & Hj & <-).
    destruct (Nat.le_gt_cases j k).
    + left. apply sorted_nth_le; auto. cbn. lia.
    + right. apply sorted_nth_le; auto.
  - destruct (Nat.eq_dec i (length rest)) as [E|E].
    + (* after the last point *)
      right; right. assert (K : S k = length rest) by lia. split.
      * cbn [nth]. apply seg_index_before. fold i. lia.
      * intros r Hr. apply In_nth with (d := d0) in Hr as (j & Hj & <-). cbn [length] in Hj.
        apply sorted_nth_le; auto; cbn; lia.
    + assert (K : k = i) by lia. rewrite K.
      pose proof (seg_index_after rest x ltac:(fold i; lia)) as A. fold i in A.
      destruct i as [|i'] eqn:Ei.
      * destruct (vle (fst p0) x) eqn:P0.
        -- left. split; auto. now apply v_lt_le.
        -- right; left. cbn [nth]. split.
           ++ rewrite v_le_spec in P0. apply negb_false_iff in P0. now apply v_lt_le.
           ++ intros r Hr. apply In_nth with (d := d0) in Hr as (j & Hj & <-).
              apply (sorted_nth_le (p0 :: rest) 0 j); auto. lia.
      * left. split.
        -- cbn [nth]. apply seg_index_before. unfold i in Ei. lia.
        -- now apply v_lt_le.
Qed.

Lemma linear_is_line pts i x :
  (S i < length pts)%nat -> linear_segment pts i x = Ok (line (nth i pts d0) (nth (S i) pts d0) x).
Proof.
  intros H. unfold linear_segment, pt.
  rewrite (nth_error_d0 pts) by lia. rewrite (nth_error_d0 pts) by lia. reflexivity.
Qed.

Lemma sub_neq0 x y : vlt x y = true -> vsub y x <> v0.
Proof. intros H E. apply v_lt_sub_0 in H. rewrite E, v_lt_irrefl in H. discriminate. Qed.

Lemma line_left p q : vlt (fst p) (fst q) = true -> line p q (fst p) = snd p.
Proof. intros H. unfold line. pose proof (sub_neq0 _ _ H). field. auto. Qed.
Lemma line_right p q : vlt (fst p) (fst q) = true -> line p q (fst q) = snd q.
Proof. intros H. unfold line. pose proof (sub_neq0 _ _ H). field. auto. Qed.

Lemma lt_not_le x y : vlt x y = true -> vle y x = true -> False.
Proof. intros H1 H2. rewrite v_le_spec, H1 in H2. discriminate. Qed.

Lemma same_point (pts : list (V * V)) p q : NoDup (map fst pts) -> In p pts -> In q pts -> fst p = fst q -> p = q.
Proof.
  induction pts as [|a l IH]; cbn; intros N Hp Hq E; [tauto|]. inversion N as [|? ? N1 N2]; subst.
  destruct Hp as [->|Hp], Hq as [->|Hq]; auto; exfalso; apply N1.
  - rewrite E. now apply in_map.
  - rewrite <- E. now apply in_map.
Qed.

(** two bracketing pairs define the same value *)
Lemma bracket_unique (pts : list (V * V)) x p q p' q' :
  NoDup (map fst pts) -> bracket pts x p q -> bracket pts x p' q' -> line p q x = line p' q' x.
Proof.
  intros N [(Hp & Hq & L & A) B] [(Hp' & Hq' & L' & A') B'].
  (* either the same pair, or neighbours meeting at x *)
  assert (C : (p = p' /\ q = q') \/ (q = p' /\ x = fst q) \/ (p = q' /\ x = fst p)).
  { destruct (v_lt_total (fst p) (fst p')) as [X|[X|X]].
    - (* p < p', so q <= p' *)
      destruct (A p' Hp') as [Y|Y]; [exfalso; eapply lt_not_le; eauto|].
      right; left.
      assert (x = fst q).
      { destruct B as [[B1 B2]|[[B1 B2]|[B1 B2]]].
        - destruct B' as [[B1' B2']|[[B1' B2']|[B1' B2']]].
          + apply v_le_antisym; auto. eapply v_le_trans; eauto.
          + exfalso. eapply lt_not_le; [exact X|auto].
          + exfalso. eapply (lt_not_le x (fst q')); auto. eapply v_le_lt_trans; [|exact L']. eapply v_le_trans; eauto.
        - exfalso. destruct B' as [[B1' B2']|[[B1' B2']|[B1' B2']]].
          + eapply (lt_not_le x x); [|apply v_le_refl]. eapply v_le_lt_trans; [exact B1|]. eapply v_lt_le_trans; [exact L|]. eapply v_le_trans; eauto.
          + eapply lt_not_le; [exact X|auto].
          + eapply (lt_not_le x x); [|apply v_le_refl]. eapply v_le_lt_trans; [exact B1|]. eapply v_lt_le_trans; [|exact B1'].
            eapply v_lt_trans; [exact L|]. eapply v_le_lt_trans; eauto.
        - exfalso. eapply (lt_not_le (fst q) (fst q')); auto. eapply v_le_lt_trans; eauto. }
      assert (fst p' = fst q).
      { destruct B' as [[B1' B2']|[[B1' B2']|[B1' B2']]].
        - apply v_le_antisym; auto. now rewrite <- H.
        - exfalso. eapply lt_not_le; [exact X|auto].
        - exfalso. rewrite H in B1'. eapply (lt_not_le (fst q) (fst q')); auto. eapply v_le_lt_trans; eauto. }
      split; auto. symmetry. eapply same_point; eauto.
    - left. assert (p = p') by (eapply same_point; eauto). subst p'. split; auto.
      eapply same_point; eauto.
      destruct (A q' Hq') as [Y|Y]; [exfalso; eapply lt_not_le; [exact L'|auto]|].
      destruct (A' q Hq) as [Y'|Y']; [exfalso; eapply lt_not_le; [exact L|auto]|].
      now apply v_le_antisym.
    - destruct (A' p Hp) as [Y|Y]; [exfalso; eapply lt_not_le; eauto|].
      right; right.
      assert (x = fst q').
      { destruct B' as [[B1 B2]|[[B1 B2]|[B1 B2]]].
        - destruct B as [[B1' B2']|[[B1' B2']|[B1' B2']]].
          + apply v_le_antisym; auto. eapply v_le_trans; eauto.
          + exfalso. eapply lt_not_le; [exact X|auto].
          + exfalso. eapply (lt_not_le x (fst q)); auto. eapply v_le_lt_trans; [|exact L]. eapply v_le_trans; eauto.
        - exfalso. destruct B as [[B1' B2']|[[B1' B2']|[B1' B2']]].
          + eapply (lt_not_le x x); [|apply v_le_refl]. eapply v_le_lt_trans; [exact B1|]. eapply v_lt_le_trans; [exact L'|]. eapply v_le_trans; eauto.
          + eapply lt_not_le; [exact X|auto].
          + eapply (lt_not_le x x); [|apply v_le_refl]. eapply v_le_lt_trans; [exact B1|]. eapply v_lt_le_trans; [|exact B1'].
            eapply v_lt_trans; [exact L'|]. eapply v_le_lt_trans; eauto.
        - exfalso. eapply (lt_not_le (fst q') (fst q)); auto. eapply v_le_lt_trans; eauto. }
      assert (fst p = fst q').
      { destruct B as [[B1' B2']|[[B1' B2']|[B1' B2']]].
        - apply v_le_antisym; auto. now rewrite <- H.
        - exfalso. eapply lt_not_le; [exact X|auto].
        - exfalso. rewrite H in B1'. eapply (lt_not_le (fst q') (fst q)); auto. eapply v_le_lt_trans; eauto. }
      split; [eapply same_point; eauto|congruence]. }
  destruct C as [[-> ->]|[[-> ->]|[-> ->]]]; auto.
  - now rewrite line_right, line_left.
  - now rewrite line_left, line_right.
Qed.

Lemma bracket_perm pts pts' x p q : Permutation pts pts' -> bracket pts x p q -> bracket pts' x p q.
Proof.
  intros P [(H1 & H2 & H3 & H4) B]. pose proof (Permutation_sym P) as P'. split.
  - split; [eapply Permutation_in; eauto|]. split; [eapply Permutation_in; eauto|]. split; auto.
    intros r Hr. apply H4. eapply Permutation_in; eauto.
  - destruct B as [B|[[B1 B2]|[B1 B2]]]; auto; right; [left|right]; split; auto;
    intros r Hr; apply B2; eapply Permutation_in; eauto.
Qed.

(** ** The operator *)

Lemma run_function id outs conns pts ty f evs :
  (forall x, function_value pts ty x = Ok (f x)) -> one_input evs ->
  run (sop id outs conns (new_port "i1" 1) false (KFunction pts ty)) evs =
  (Ok (answers (mapping (apply_value f)) evs),
   sop id outs conns (port_after "i1" 1 (received evs)) (pending evs) (KFunction pts ty)).
Proof.
  intros Hf Hone. unfold mapping. change 1 with (eff 1) at 2. apply run_window; auto; try lia.
  intros h Hh Hl. change (eff 1) with 1 in *. change (Z.to_nat 1) with 1%nat.
  assert (D : ip_data (port_after "i1" 1 h) = [last h msg0]).
  { rewrite port_after_data by lia. change (Z.to_nat (eff 1)) with 1%nat.
    destruct h as [|m h] using rev_ind; [congruence|]. rewrite lastn_snoc, lastn_0, last_last. reflexivity. }
  assert (L : last (lastn 1 h) msg0 = last h msg0) by (apply lastn_last; lia). rewrite L.
  unfold proc. cbn. unfold keep, d_last. cbn. rewrite D. cbn. rewrite Hf. reflexivity.
Qed.

(** ** Hermite *)

Definition herm (pts : list (V * V)) (x : V) : V :=
  match hermite_segment pts (seg pts x) x with Ok v => v | _ => v0 end.

Definition tan (pts : list (V * V)) (i : nat) : V := match tangent pts i with Ok v => v | _ => v0 end.

Lemma tangent_ok pts i : (2 <= length pts)%nat -> (i < length pts)%nat ->
  tangent pts i = Ok (tan pts i) /\
  exists a b, (a < b < length pts)%nat /\ tan pts i = slope (nth a pts d0) (nth b pts d0).
Proof.
  intros L Hi. unfold tan, tangent, pt. destruct i as [|i].
  - rewrite (nth_error_d0 pts) by lia. rewrite (nth_error_d0 pts) by lia. cbn [rbind].
    split; auto. exists 0%nat, 1%nat. split; [lia|reflexivity].
  - destruct (Nat.eqb_spec (S (S i)) (length pts)).
    + rewrite (nth_error_d0 pts) by lia. rewrite (nth_error_d0 pts) by lia. cbn [rbind].
      split; auto. exists i, (S i). split; [lia|reflexivity].
    + rewrite (nth_error_d0 pts) by lia. rewrite (nth_error_d0 pts) by lia. cbn [rbind].
      split; auto. exists i, (S (S i)). split; [lia|reflexivity].
Qed.

Definition position (p q : V * V) (x : V) : V := vdiv (vsub x (fst p)) (vsub (fst q) (fst p)).

Lemma hermite_segment_ok pts i x : (S i < length pts)%nat ->
  hermite_segment pts i x =
  Ok (hermite_interpolate (snd (nth i pts d0)) (snd (nth (S i) pts d0)) (tan pts i) (tan pts (S i))
        (position (nth i pts d0) (nth (S i) pts d0) x)).
Proof.
  intros H. unfold hermite_segment. unfold pt.
  rewrite (nth_error_d0 pts) by lia. rewrite (nth_error_d0 pts) by lia. cbn [rbind].
  destruct (tangent_ok pts i) as [-> _]; try lia. destruct (tangent_ok pts (S i)) as [-> _]; try lia. reflexivity.
Qed.

Lemma herm_value pts x : (2 <= length pts)%nat -> StronglySorted xlt pts ->
  function_value pts IHermite x = Ok (herm pts x).
Proof.
  intros L H. rewrite hermite_is_seg by auto. unfold herm. destruct (seg_bracket pts x L H) as [S1 _].
  rewrite hermite_segment_ok by auto. reflexivity.
Qed.

Lemma ofZ_2 : vofZ 2 = vadd v1 v1.
Proof. change 2 with (1 + 1). now rewrite v_ofZ_add, v_ofZ_1. Qed.
Lemma ofZ_3 : vofZ 3 = vadd v1 (vadd v1 v1).
Proof. change 3 with (1 + 2). now rewrite v_ofZ_add, v_ofZ_1, ofZ_2. Qed.
Lemma ofZ_m2 : vofZ (-2) = vneg (vadd v1 v1).
Proof. change (-2) with (- (2)). now rewrite v_ofZ_opp, ofZ_2. Qed.

Lemma v_div_self x : x <> v0 -> vdiv x x = v1.
Proof. intros H. field. exact H. Qed.

(** HermiteResampler's four-point formula is the cubic of the specification *)
Lemma hermite4_smooth y0 y1 y2 y3 mu : Spec.Resample.smooth y0 y1 y2 y3 mu (hermite_interpolate4 y0 y1 y2 y3 mu).
Proof.
  assert (N2 : vadd v1 v1 <> v0) by (rewrite <- ofZ_2; apply v_ofZ_neq0; lia).
  set (two := vadd v1 v1).
  set (m0 := vdiv (vsub y2 y0) two). set (m1 := vdiv (vsub y3 y1) two).
  exists y1, m0, (vsub (vmul (vofZ 3) (vsub y2 y1)) (vadd (vmul two m0) m1)), (vadd (vmul two (vsub y1 y2)) (vadd m0 m1)).
  unfold Spec.Resample.cubic, Spec.Resample.cubic_slope, hermite_interpolate4, m0, m1, two. rewrite ?ofZ_m2, ?ofZ_2, ?ofZ_3.
  split; [field; auto|]. split; [field; auto|]. split; [field; auto|]. split; field; auto.
Qed.

Lemma hermite_0 y0 y1 m0 m1 : hermite_interpolate y0 y1 m0 m1 v0 = y0.
Proof. unfold hermite_interpolate. rewrite ofZ_2, ofZ_3, ofZ_m2. ring. Qed.
Lemma hermite_1 y0 y1 m0 m1 : hermite_interpolate y0 y1 m0 m1 v1 = y1.
Proof. unfold hermite_interpolate. rewrite ofZ_2, ofZ_3, ofZ_m2. ring. Qed.

Lemma herm_through pts p :
  (2 <= length pts)%nat -> StronglySorted xlt pts -> In p pts -> herm pts (fst p) = snd p.
Proof.
  intros L H Hp. unfold herm. destruct (seg_bracket pts (fst p) L H) as [S1 [(Ha & Hb & Lab & A) _]].
  rewrite hermite_segment_ok by auto. set (i := seg pts (fst p)) in *.
  apply In_nth with (d := d0) in Hp as (j & Hj & <-).
  assert (C : j = i \/ j = S i).
  { unfold i, seg. destruct pts as [|p0 rest]; [cbn in L; lia|]. cbn [tl]. cbn [length] in *.
    pose proof (seg_index_le rest (fst (nth j (p0 :: rest) d0))) as B.
    set (k := seg_index rest (fst (nth j (p0 :: rest) d0))) in *.
    assert (k = j \/ k < j /\ False \/ j < k /\ False)%nat as [K|[K|K]]; try tauto.
    2: { destruct (Nat.min_spec k (S (length rest) - 2)) as [[? ->]|[? ->]]; lia. }
    destruct (Nat.lt_trichotomy k j) as [K|[K|K]]; auto.
    - exfalso. pose proof (seg_index_after rest (fst (nth j (p0 :: rest) d0))) as X. fold k in X.
      specialize (X ltac:(lia)).
      apply (lt_not_le _ _ X). apply (sorted_nth_le (p0 :: rest) (S k) j); auto. 
    - exfalso. pose proof (seg_index_before rest (fst (nth j (p0 :: rest) d0)) j) as X. fold k in X. specialize (X K).
      apply (lt_not_le (fst (nth j (p0 :: rest) d0)) (fst (nth (S j) (p0 :: rest) d0))); [|exact X].
      apply (sorted_nth (p0 :: rest) j (S j)); auto. cbn. lia. }
  pose proof (sub_neq0 _ _ Lab) as Nz.
  clearbody i. destruct C as [<-| E]; [|rewrite E in *; clear E].
  - unfold position. replace (vdiv _ _) with v0 by (field; auto). apply hermite_0.
  - unfold position. replace (vdiv _ _) with v1 by (field; auto). apply hermite_1.
Qed.

(** points on a line: every tangent is the slope; the value is off the line by an amount
    that depends on the width of the segment *)
Lemma tan_line pts m c i :
  (2 <= length pts)%nat -> StronglySorted xlt pts -> on_line m c pts -> (i < length pts)%nat -> tan pts i = m.
Proof.
  intros L H O Hi. destruct (tangent_ok pts i L Hi) as [_ (a & b & [Hab Hb] & ->)]. unfold slope.
  rewrite !O by (apply nth_In; lia).
  pose proof (sub_neq0 _ _ (sorted_nth pts a b H (conj Hab Hb))). field. auto.
Qed.

Definition bump (mu : V) : V :=
  vadd (vsub (vmul (vofZ 2) (vmul (vmul mu mu) mu)) (vmul (vofZ 3) (vmul mu mu))) mu.

Lemma herm_line pts m c x :
  (2 <= length pts)%nat -> StronglySorted xlt pts -> on_line m c pts ->
  exists p q, bracket pts x p q /\
    herm pts x = vadd (vadd (vmul m x) c)
                  (vmul (vmul m (vsub v1 (vsub (fst q) (fst p)))) (bump (position p q x))).
Proof.
  intros L H O. destruct (seg_bracket pts x L H) as [S1 B]. unfold herm. rewrite hermite_segment_ok by auto.
  set (i := seg pts x) in *. exists (nth i pts d0), (nth (S i) pts d0). split; auto.
  rewrite !(tan_line pts m c) by (auto; lia).
  destruct B as [(Ha & Hb & Lab & A) _]. rewrite !O by auto.
  pose proof (sub_neq0 _ _ Lab) as Nz. unfold hermite_interpolate, bump, position.
  rewrite ofZ_2, ofZ_3, ofZ_m2. field. auto.
Qed.

Lemma no_bump a m b : vadd a (vmul (vmul m (vsub v1 v1)) b) = a.
Proof. ring. Qed.

End FunctionP.
