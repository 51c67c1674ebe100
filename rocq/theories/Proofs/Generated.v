(** * The generated program and the operator for the relative strength index (C92) *)

From Coq Require Import String ZArith Bool List Lia Field.
From Verif Require Import Base.StrMap Base.Num Model.Core Model.Run Spec.Streams Spec.Operators Spec.Feedback Spec.RSI.
From Verif Require Import Proofs.Lists Proofs.FieldFacts Proofs.RSIP Proofs.FeedbackHist.
Import ListNotations.
Open Scope string_scope.
Open Scope list_scope.
Open Scope Z_scope.

Section Generated.
Context {NO : NumOps} {NF : NumField NO}.
Add Field vfield : v_field_theory.

(** the power of the program is used for the inverse only *)
Hypothesis inverse : forall x, x <> v0 -> vpow x (vofZ (-1)) = vdiv v1 x.

Let b : V := vdiv v1 (vofZ 14).
Let a : V := vdiv (vofZ 13) (vofZ 14).

Lemma always_comparable (d : V) : comparable d.
Proof.
  unfold comparable. destruct (v_lt_total d v0) as [H|[->|H]].
  - left. split; [exact H|]. split; [|exact (v_lt_asym _ _ H)]. destruct (veq d v0) eqn:E; [|reflexivity]. apply v_eq_spec in E. subst. rewrite v_lt_irrefl in H. discriminate H.
  - right. left. rewrite v_lt_irrefl. repeat split. now apply v_eq_spec.
  - right. right. split; [exact (v_lt_asym _ _ H)|]. split; [|exact H]. destruct (veq d v0) eqn:E; [|reflexivity]. apply v_eq_spec in E. subst. rewrite v_lt_irrefl in H. discriminate H.
Qed.

Lemma fourteen : vofZ 14 <> v0.
Proof. apply v_ofZ_neq0. lia. Qed.
Lemma minus_one (d : V) : vmul d (vofZ (-1)) = vneg d.
Proof. change (-1) with (Z.opp 1). rewrite v_ofZ_opp, v_ofZ_1. ring. Qed.

Lemma same_loss d : Feedback.loss d = RSI.loss d.
Proof. unfold Feedback.loss, RSI.loss. now rewrite minus_one. Qed.
Lemma same_changes x : diffs x = changes (values x).
Proof. induction x as [|p [|m x] IH]; [reflexivity|reflexivity|]. cbn [diffs changes values map] in *. now rewrite IH. Qed.

Lemma same_smooth average x : Feedback.smooth a b average x = RSI.smooth 14 average x.
Proof. unfold Feedback.smooth, RSI.smooth, a, b. change (14 - 1) with 13. field. exact fourteen. Qed.

Lemma start_total l : start b l = vmul (vsum l) b.
Proof. destruct l; [cbn; now rewrite v_zero_mul|reflexivity]. Qed.
Lemma total_ups ds : vsum (ups ds) = vsum (map RSI.gain ds).
Proof.
  induction ds as [|d ds IH]; [reflexivity|]. unfold ups. cbn [flat_map map]. fold (ups ds). unfold vsum in *. rewrite vsum_app, vsum_cons, <- IH. f_equal.
  unfold RSI.gain. destruct (always_comparable d) as [(C1 & C2 & C3)|[(C1 & C2 & C3)|(C1 & C2 & C3)]]; rewrite C2, C3; cbn; rewrite ?v_add_0_l; try reflexivity.
  now apply v_eq_spec.
Qed.
Lemma total_downs ds : vsum (downs ds) = vsum (map RSI.loss ds).
Proof.
  induction ds as [|d ds IH]; [reflexivity|]. unfold downs. cbn [flat_map map]. fold (downs ds). unfold vsum in *. rewrite vsum_app, vsum_cons, <- IH. f_equal.
  unfold RSI.loss. destruct (always_comparable d) as [(C1 & C2 & C3)|[(C1 & C2 & C3)|(C1 & C2 & C3)]]; rewrite C1, ?C2; cbn; rewrite ?v_add_0_l, ?minus_one; try reflexivity.
  now apply v_eq_spec.
Qed.

(** the averages of everything received *)
Definition g_of (x : list msg) : V := wilder 14 (map RSI.gain (changes (values x))).
Definition l_of (x : list msg) : V := wilder 14 (map RSI.loss (changes (values x))).

Lemma wilder_start xs : length xs = 14%nat -> wilder 14 xs = vmul (vsum xs) b.
Proof.
  intros E. unfold wilder. change (Z.to_nat 14) with 14%nat. rewrite skipn_all2, firstn_all2 by lia. cbn [fold_left]. unfold mean, b. rewrite E.
  change (Z.of_nat 14) with 14. field. exact fourteen.
Qed.
Lemma wilder_snoc xs v : (14 <= length xs)%nat -> wilder 14 (xs ++ [v]) = RSI.smooth 14 (wilder 14 xs) v.
Proof.
  intros E. unfold wilder. change (Z.to_nat 14) with 14%nat. rewrite skipn_app, firstn_app. replace (14 - length xs)%nat with 0%nat by lia. cbn [skipn firstn].
  rewrite app_nil_r, fold_left_app. reflexivity.
Qed.

Lemma diffs_length x : length (diffs x) = (length x - 1)%nat.
Proof. induction x as [|p [|m x] IH]; [reflexivity|reflexivity|]. change (diffs (p :: m :: x)) with (vsub (mval m) (mval p) :: diffs (m :: x)). cbn [length] in *. lia. Qed.

Lemma reached_averages x p rest : length x = 14%nat ->
  reached a b (start b (ups (diffs (x ++ [p])))) (start b (downs (diffs (x ++ [p])))) p rest =
  (g_of ((x ++ [p]) ++ rest), l_of ((x ++ [p]) ++ rest), last (p :: rest) p).
Proof.
  intros K. induction rest as [|m rest IH] using rev_ind.
  - cbn [reached last]. rewrite app_nil_r. unfold g_of, l_of. rewrite <- same_changes, !wilder_start by (rewrite map_length, diffs_length, app_length; cbn [length]; lia).
    rewrite !start_total, total_ups, total_downs. reflexivity.
  - rewrite reached_snoc, IH. set (q := last (p :: rest) p).
    assert (Eq : exists y, (x ++ [p]) ++ rest = y ++ [q] /\ (14 <= length y)%nat).
    { rewrite <- app_assoc. cbn [app]. exists (x ++ removelast (p :: rest)). rewrite <- app_assoc. unfold q. rewrite <- app_removelast_last by discriminate. split; [reflexivity|]. rewrite app_length. lia. }
    destruct Eq as (y & Ey & Hy). rewrite (app_assoc (x ++ [p]) rest [m]). unfold g_of, l_of. rewrite Ey, <- !same_changes, diffs_snoc, !map_app. cbn [map].
    rewrite !wilder_snoc by (rewrite map_length, diffs_length, app_length; cbn [length]; lia). rewrite same_smooth, same_smooth, same_loss.
    change (p :: rest ++ [m]) with ((p :: rest) ++ [m]). rewrite last_last. reflexivity.
Qed.

(** ** The index *)

Lemma wilder_nonneg xs : (14 <= length xs)%nat -> Forall (fun x => vle v0 x = true) xs -> vle v0 (wilder 14 xs) = true.
Proof.
  intros K F. unfold wilder. change (Z.to_nat 14) with 14%nat. rewrite <- (firstn_skipn 14 xs) in F. apply Forall_app in F as [F1 F2].
  assert (B : vle v0 (mean (firstn 14 xs)) = true) by (apply mean_nonneg; [destruct xs; [cbn in K; lia|discriminate]|exact F1]).
  revert B. generalize (mean (firstn 14 xs)). clear F1 K. induction F2 as [|y ys Hy F IH]; intros c Hc; [exact Hc|]. cbn [fold_left]. apply IH. apply smooth_nonneg; auto. lia.
Qed.
Lemma g_nonneg x : (15 <= length x)%nat -> vle v0 (g_of x) = true.
Proof.
  intros K. unfold g_of. rewrite <- same_changes. apply wilder_nonneg; [rewrite map_length, diffs_length; lia|]. apply Forall_map, Forall_forall. intros d _. apply gain_nonneg.
Qed.
Lemma l_nonneg x : (15 <= length x)%nat -> vle v0 (l_of x) = true.
Proof.
  intros K. unfold l_of. rewrite <- same_changes. apply wilder_nonneg; [rewrite map_length, diffs_length; lia|]. apply Forall_map, Forall_forall. intros d _. apply loss_nonneg.
Qed.

Definition below_100 (m : msg) : bool := negb (veq (mval m) (vofZ 100)).

Lemma same_index t g l : vle v0 g = true -> vle v0 l = true -> Feedback.answer t g l = filter below_100 [mkMsg t (strength g l)].
Proof.
  intros Hg Hl. unfold Feedback.answer, strength, below_100. cbn [filter mval].
  apply v_le_iff in Hl as [Hl|<-].
  - rewrite Hl. assert (Nl : l <> v0) by (apply not_eq_sym; exact (v_lt_neq _ _ Hl)).
    destruct (veq l v0) eqn:E; [apply v_eq_spec in E; contradiction|]. clear E.
    assert (P : vlt v0 (vadd v1 (vdiv g l)) = true).
    { apply (v_lt_le_trans _ v1); [apply v_lt_0_1|]. replace v1 with (vadd v0 v1) at 1 by ring. replace (vadd v1 (vdiv g l)) with (vadd (vdiv g l) v1) by ring.
      apply v_le_add. now apply v_div_nonneg. }
    assert (Np : vadd v1 (vdiv g l) <> v0) by (apply not_eq_sym; exact (v_lt_neq _ _ P)).
    assert (Q : vlt v0 (vdiv (vofZ 100) (vadd v1 (vdiv g l))) = true) by (apply v_div_pos; [apply v_ofZ_pos; lia|exact P]).
    destruct (veq (vsub (vofZ 100) (vdiv (vofZ 100) (vadd v1 (vdiv g l)))) (vofZ 100)) eqn:E.
    + apply v_eq_spec in E. exfalso. apply (v_lt_neq _ _ Q). replace (vdiv (vofZ 100) (vadd v1 (vdiv g l))) with (vsub (vofZ 100) (vsub (vofZ 100) (vdiv (vofZ 100) (vadd v1 (vdiv g l))))) by ring.
      rewrite E. ring.
    + cbn [negb]. f_equal. f_equal. unfold index. replace (vadd (vdiv g l) (vofZ 1)) with (vadd v1 (vdiv g l)) by (rewrite v_ofZ_1; ring). rewrite inverse by exact Np.
      change (-100) with (Z.opp 100). rewrite v_ofZ_opp. set (q := vadd v1 (vdiv g l)) in *. field. exact Np.
  - rewrite v_lt_irrefl. replace (veq v0 v0) with true by (symmetry; now apply v_eq_spec). replace (veq (vofZ 100) (vofZ 100)) with true by (symmetry; now apply v_eq_spec). reflexivity.
Qed.

(** ** The operator *)

Definition operator (x : list msg) : list msg := on_port "o1" (answers (relative_strength 14) (feed "i1" x)).

Lemma on_port_app l1 l2 : on_port "o1" (l1 ++ l2) = on_port "o1" l1 ++ on_port "o1" l2.
Proof. unfold on_port. now rewrite flat_map_app. Qed.
Lemma operator_snoc x m : operator (x ++ [m]) = operator x ++ (if Nat.leb 15 (length (x ++ [m])) then [mkMsg (mtime m) (strength (g_of (x ++ [m])) (l_of (x ++ [m])))] else []).
Proof.
  unfold operator, answers. rewrite feed_snoc, !prefixes_snoc, !map_app, !on_port_app, <- app_assoc. f_equal. cbn [map].
  rewrite !answer_snoc, pending_snoc, ?received_app, ?received_feed. cbn [received app]. rewrite ?app_nil_r. cbn [on_port flat_map app]. rewrite ?app_nil_r.
  unfold relative_strength. destruct (Nat.leb_spec 15 (length (x ++ [m]))) as [L|L].
  - destruct (Z.ltb_spec (Z.of_nat (length (x ++ [m]))) (14 + 1)); [lia|]. cbn. unfold last_time. rewrite last_last. reflexivity.
  - destruct (Z.ltb_spec (Z.of_nat (length (x ++ [m]))) (14 + 1)); [|lia]. reflexivity.
Qed.

Lemma operator_short x : (length x < 15)%nat -> operator x = [].
Proof.
  induction x as [|m x IH] using rev_ind; [reflexivity|]. intros L. rewrite operator_snoc. destruct (Nat.leb_spec 15 (length (x ++ [m]))); [lia|].
  rewrite app_length in L. cbn [length] in L. rewrite IH by lia. reflexivity.
Qed.

Lemma same_strengths x : strengths a b x = filter below_100 (operator x).
Proof.
  destruct (Nat.lt_ge_cases (length x) 15) as [L|L].
  - rewrite strengths_short, operator_short by lia. reflexivity.
  - rewrite <- (firstn_skipn 15 x). set (rest := skipn 15 x).
    assert (E : exists y p, firstn 15 x = y ++ [p] /\ length y = 14%nat).
    { assert (K : length (firstn 15 x) = 15%nat) by (rewrite firstn_length; lia). destruct (exists_last (l := firstn 15 x)) as (l & m & El); [intros X; rewrite X in K; discriminate K|]; rewrite El in *.
      rewrite app_length in K. cbn [length] in K. exists l, m. split; [reflexivity|lia]. }
    destruct E as (y & p & -> & K). clearbody rest. clear L x. rewrite strengths_at by exact K. cbv zeta.
    induction rest as [|m rest IH] using rev_ind.
    + cbn [follow]. rewrite !app_nil_r, operator_snoc, (operator_short y) by lia. cbn [app].
      pose proof (reached_averages y p [] K) as R. cbn [reached] in R. rewrite app_nil_r in R. injection R as Rg Rl. rewrite Rg, Rl.
      destruct (Nat.leb_spec 15 (length (y ++ [p]))) as [L|L]; [|rewrite app_length in L; cbn [length] in L; lia].
      apply same_index; [apply g_nonneg|apply l_nonneg]; exact L.
    + rewrite follow_snoc, app_assoc, IH. rewrite (app_assoc (y ++ [p]) rest [m]), operator_snoc, filter_app. f_equal.
      destruct (Nat.leb_spec 15 (length (((y ++ [p]) ++ rest) ++ [m]))) as [L|L]; [|rewrite !app_length in L; cbn [length] in L; lia].
      rewrite <- same_index by (first [apply g_nonneg|apply l_nonneg]; exact L).
      pose proof (reached_averages y p (rest ++ [m]) K) as R. rewrite reached_snoc in R.
      destruct (reached a b _ _ p rest) as [[g l] q]. cbv zeta in R |- *. injection R as Rg Rl _. rewrite Rg, Rl, (app_assoc (y ++ [p]) rest [m]). reflexivity.
Qed.

End Generated.
