(** * Exact arithmetic: field structure and order facts from [NumField]. *)

From Coq Require Import ZArith Bool List Lia Field Ring_theory Field_theory.
From Verif Require Import Base.Num.
Import ListNotations.
Open Scope Z_scope.

Section F.
Context {NO : NumOps} {NF : NumField NO}.

Lemma v_ring_theory : ring_theory v0 v1 vadd vmul vsub vneg (@eq V).
Proof.
  constructor.
  - apply v_add_0_l.
  - apply v_add_comm.
  - apply v_add_assoc.
  - apply v_mul_1_l.
  - apply v_mul_comm.
  - apply v_mul_assoc.
  - apply v_distr_l.
  - apply v_sub_def.
  - apply v_opp_def.
Qed.

Lemma v_field_theory : field_theory v0 v1 vadd vmul vsub vneg vdiv vinv (@eq V).
Proof.
  constructor.
  - apply v_ring_theory.
  - apply v_1_neq_0.
  - apply v_div_def.
  - apply v_inv_l.
Qed.

Add Field vfield : v_field_theory.

Lemma v_ofZ_opp a : vofZ (- a) = vneg (vofZ a).
Proof.
  assert (H : vadd (vofZ a) (vofZ (- a)) = v0).
  { rewrite <- v_ofZ_add. rewrite Z.add_opp_diag_r. apply v_ofZ_0. }
  assert (E : vofZ (- a) = vadd (vadd (vofZ a) (vofZ (- a))) (vneg (vofZ a))) by ring.
  rewrite E, H. ring.
Qed.

Lemma v_ofZ_sub a b : vofZ (a - b) = vsub (vofZ a) (vofZ b).
Proof.
  unfold Z.sub. rewrite v_ofZ_add, v_ofZ_opp, v_sub_def. reflexivity.
Qed.

Lemma v_lt_asym x y : vlt x y = true -> vlt y x = false.
Proof.
  intros H. destruct (vlt y x) eqn:E; [|reflexivity].
  rewrite <- (v_lt_irrefl x). symmetry. exact (v_lt_trans _ _ _ H E).
Qed.

Lemma v_lt_neq x y : vlt x y = true -> x <> y.
Proof. intros H E. subst. rewrite v_lt_irrefl in H. discriminate. Qed.

Lemma v_le_refl x : vle x x = true.
Proof. now rewrite v_le_spec, v_lt_irrefl. Qed.

Lemma v_le_iff x y : vle x y = true <-> vlt x y = true \/ x = y.
Proof.
  rewrite v_le_spec, negb_true_iff. split.
  - intros H. destruct (v_lt_total x y) as [L|[E|L]]; auto. congruence.
  - intros [L| ->]; [now apply v_lt_asym|apply v_lt_irrefl].
Qed.

Lemma v_lt_le x y : vlt x y = true -> vle x y = true.
Proof. rewrite v_le_iff. auto. Qed.

Lemma v_le_trans x y z : vle x y = true -> vle y z = true -> vle x z = true.
Proof.
  rewrite !v_le_iff. intros [H1| ->] [H2| ->]; auto. left. eapply v_lt_trans; eauto.
Qed.

Lemma v_le_lt_trans x y z : vle x y = true -> vlt y z = true -> vlt x z = true.
Proof. rewrite v_le_iff. intros [H1| ->] H2; auto. eapply v_lt_trans; eauto. Qed.

Lemma v_lt_le_trans x y z : vlt x y = true -> vle y z = true -> vlt x z = true.
Proof. rewrite v_le_iff. intros H1 [H2| <-]; auto. eapply v_lt_trans; eauto. Qed.

Lemma v_le_antisym x y : vle x y = true -> vle y x = true -> x = y.
Proof.
  rewrite !v_le_iff. intros [H1|H1] [H2|H2]; auto.
  apply v_lt_asym in H1. congruence.
Qed.

Lemma v_le_total x y : vle x y = true \/ vle y x = true.
Proof. rewrite !v_le_iff. destruct (v_lt_total x y) as [H|[H|H]]; auto. Qed.

Lemma v_nlt_le x y : vlt x y = false <-> vle y x = true.
Proof. rewrite v_le_spec, negb_true_iff. reflexivity. Qed.

Lemma v_le_add x y z : vle x y = true -> vle (vadd x z) (vadd y z) = true.
Proof.
  rewrite !v_le_iff. intros [H| ->]; auto. left. now apply v_lt_add.
Qed.

Lemma v_le_add2 a b c d : vle a b = true -> vle c d = true -> vle (vadd a c) (vadd b d) = true.
Proof.
  intros H1 H2. eapply v_le_trans; [apply (v_le_add _ _ c H1)|].
  rewrite (v_add_comm b c), (v_add_comm b d). now apply v_le_add.
Qed.

Lemma v_le_sub_0 x y : vle x y = true <-> vle v0 (vsub y x) = true.
Proof.
  split; intros H.
  - replace v0 with (vadd x (vneg x)) by ring.
    replace (vsub y x) with (vadd y (vneg x)) by ring. now apply v_le_add.
  - replace x with (vadd v0 x) by ring. replace y with (vadd (vsub y x) x) by ring.
    now apply v_le_add.
Qed.

Lemma v_lt_sub_0 x y : vlt x y = true <-> vlt v0 (vsub y x) = true.
Proof.
  split; intros H.
  - replace v0 with (vadd x (vneg x)) by ring.
    replace (vsub y x) with (vadd y (vneg x)) by ring. now apply v_lt_add.
  - replace x with (vadd v0 x) by ring. replace y with (vadd (vsub y x) x) by ring.
    now apply v_lt_add.
Qed.

Lemma v_mul_pos x y : vlt v0 x = true -> vlt v0 y = true -> vlt v0 (vmul x y) = true.
Proof.
  intros H1 H2. replace v0 with (vmul v0 y) by ring. now apply v_lt_mul.
Qed.

Lemma v_mul_nonneg x y : vle v0 x = true -> vle v0 y = true -> vle v0 (vmul x y) = true.
Proof.
  rewrite !v_le_iff. intros [H1|<-] [H2|<-].
  - left. now apply v_mul_pos.
  - right. ring.
  - right. ring.
  - right. ring.
Qed.

Lemma v_square_nonneg x : vle v0 (vmul x x) = true.
Proof.
  destruct (v_lt_total v0 x) as [H|[<-|H]].
  - apply v_lt_le. now apply v_mul_pos.
  - replace (vmul v0 v0) with v0 by ring. apply v_le_refl.
  - apply v_lt_le. replace (vmul x x) with (vmul (vneg x) (vneg x)) by ring.
    assert (vlt v0 (vneg x) = true).
    { replace v0 with (vadd x (vneg x)) by ring. replace (vneg x) with (vadd v0 (vneg x)) at 2 by ring.
      now apply v_lt_add. }
    now apply v_mul_pos.
Qed.

Lemma v_lt_0_1 : vlt v0 v1 = true.
Proof.
  destruct (v_lt_total v0 v1) as [H|[H|H]]; auto.
  - exfalso. now apply v_1_neq_0.
  - pose proof (v_square_nonneg v1) as S. replace (vmul v1 v1) with v1 in S by ring.
    apply v_nlt_le in S. congruence.
Qed.

Lemma v_ofZ_pos a : 0 < a -> vlt v0 (vofZ a) = true.
Proof.
  intros H. rewrite <- (Z2Nat.id a) by lia. assert (0 < Z.to_nat a)%nat by lia.
  generalize dependent (Z.to_nat a). intros n. induction n as [|n IH]; [lia|]. intros _.
  rewrite Nat2Z.inj_succ, <- Z.add_1_r, v_ofZ_add, v_ofZ_1.
  destruct n as [|n].
  - rewrite v_ofZ_0. replace (vadd v0 v1) with v1 by ring. apply v_lt_0_1.
  - assert (L : vlt v0 (vofZ (Z.of_nat (S n))) = true) by (apply IH; lia).
    eapply v_lt_trans; [apply v_lt_0_1|].
    replace v1 with (vadd v0 v1) at 1 by ring. now apply v_lt_add.
Qed.

Lemma v_ofZ_neq0 a : a <> 0 -> vofZ a <> v0.
Proof.
  intros H E. destruct (Z.lt_trichotomy a 0) as [L|[L|L]]; [|contradiction|].
  - assert (0 < - a) as P by lia. apply v_ofZ_pos in P. rewrite v_ofZ_opp, E in P.
    replace (vneg v0) with v0 in P by ring. rewrite v_lt_irrefl in P. discriminate.
  - apply v_ofZ_pos in L. rewrite E, v_lt_irrefl in L. discriminate.
Qed.

Lemma v_ofZ_inj a b : vofZ a = vofZ b -> a = b.
Proof.
  intros E. destruct (Z.eq_dec (a - b) 0) as [H|H]; [lia|].
  exfalso. apply (v_ofZ_neq0 _ H). rewrite v_ofZ_sub, E. ring.
Qed.

Lemma v_ofZ_lt a b : a < b -> vlt (vofZ a) (vofZ b) = true.
Proof.
  intros H. apply v_lt_sub_0. rewrite <- v_ofZ_sub. apply v_ofZ_pos. lia.
Qed.

Lemma v_ofZ_le a b : a <= b -> vle (vofZ a) (vofZ b) = true.
Proof.
  intros H. destruct (Z.eq_dec a b) as [->|n]; [apply v_le_refl|].
  apply v_lt_le, v_ofZ_lt. lia.
Qed.

Lemma v_inv_pos x : vlt v0 x = true -> vlt v0 (vinv x) = true.
Proof.
  intros H. assert (Hx : x <> v0) by (intro; subst; rewrite v_lt_irrefl in H; discriminate).
  destruct (v_lt_total v0 (vinv x)) as [L|[L|L]]; auto; exfalso.
  - apply v_1_neq_0. rewrite <- (v_inv_l x Hx), <- L. ring.
  - assert (L2 := v_lt_mul _ _ _ H L). rewrite (v_inv_l x Hx) in L2.
    replace (vmul v0 x) with v0 in L2 by ring.
    pose proof v_lt_0_1. apply v_lt_asym in L2. congruence.
Qed.

Lemma v_div_nonneg x y : vle v0 x = true -> vlt v0 y = true -> vle v0 (vdiv x y) = true.
Proof.
  intros H1 H2. rewrite v_div_def. apply v_mul_nonneg; auto. apply v_lt_le. now apply v_inv_pos.
Qed.

Lemma v_div_pos x y : vlt v0 x = true -> vlt v0 y = true -> vlt v0 (vdiv x y) = true.
Proof. intros H1 H2. rewrite v_div_def. apply v_mul_pos; auto. now apply v_inv_pos. Qed.

Lemma v_le_mul x y z : vle v0 z = true -> vle x y = true -> vle (vmul x z) (vmul y z) = true.
Proof.
  intros Hz H. apply v_le_sub_0. replace (vsub (vmul y z) (vmul x z)) with (vmul (vsub y x) z) by ring.
  apply v_mul_nonneg; auto. now apply v_le_sub_0 in H.
Qed.

(** sums *)
Lemma fold_vadd_acc (l : list V) a : fold_left vadd l a = vadd a (fold_left vadd l v0).
Proof.
  revert a. induction l as [|x l IH]; intros a; cbn.
  - ring.
  - rewrite IH, (IH (vadd v0 x)). ring.
Qed.

Lemma vsum_cons x (l : list V) : fold_left vadd (x :: l) v0 = vadd x (fold_left vadd l v0).
Proof. cbn. rewrite fold_vadd_acc. ring. Qed.

Lemma vsum_app (l1 l2 : list V) :
  fold_left vadd (l1 ++ l2) v0 = vadd (fold_left vadd l1 v0) (fold_left vadd l2 v0).
Proof. rewrite fold_left_app. apply fold_vadd_acc. Qed.

Lemma vsum_zero : vadd v0 v0 = v0.
Proof. ring. Qed.
Lemma v_zero_mul x : vmul v0 x = v0.
Proof. ring. Qed.
Lemma v_zero_div x : vdiv v0 x = v0.
Proof. rewrite (Fdiv_def v_field_theory). ring. Qed.
Lemma v_one_zero : vadd v1 v0 = v1.
Proof. ring. Qed.
Lemma v_div_one x : vdiv x v1 = x.
Proof. field. apply (F_1_neq_0 v_field_theory). Qed.
Lemma v_sub_self x : vsub x x = v0.
Proof. ring. Qed.

End F.
