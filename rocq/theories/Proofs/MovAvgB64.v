(** * The running sum of a bounded port over IEEE binary64. *)

From Coq Require Import String ZArith Bool List Lia Reals Lra.
From Flocq Require Import Core.Core.
From Flocq Require BinarySingleNaN.
From Flocq Require Import IEEE754.Binary IEEE754.Bits.
From Verif Require Import Base.StrMap Base.Num Base.NumB64 Model.Core Model.Ops Model.Make Model.Run.
From Verif Require Import Spec.Streams Spec.Operators Proofs.Lists Proofs.Window Proofs.Basic Proofs.Fire.
Import ListNotations.
Open Scope string_scope.
Open Scope list_scope.
Open Scope Z_scope.
Open Scope rtbot_scope.

Section B64.
Variable pow : binary64 -> binary64 -> binary64.
Variable cos : binary64 -> binary64.
Notation NO := (b64_ops pow cos).

(** ** Infinities poison the sum *)

Definition is_inf (x : binary64) : bool := match x with B754_infinity _ _ _ => true | _ => false end.
Definition nanb (x : binary64) : bool := is_nan 53 1024 x.

Definition stuck (s : bool) (x : binary64) : bool :=
  match x with B754_infinity _ _ s' => Bool.eqb s s' | B754_nan _ _ _ _ _ => true | _ => false end.

Lemma stuck_plus s x y : stuck s x = true -> stuck s (b64_plus mode_NE x y) = true.
Proof.
  destruct x as [sx|sx|sx pl Hx|sx mx ex Hx]; cbn; try discriminate.
  - intros H. destruct y as [sy|sy|sy ply Hy|sy my ey Hy]; cbn; auto.
    destruct s, sx, sy; cbn in *; auto.
  - intros _. destruct y; reflexivity.
Qed.

Lemma stuck_minus s x y : stuck s x = true -> stuck s (b64_minus mode_NE x y) = true.
Proof.
  destruct x as [sx|sx|sx pl Hx|sx mx ex Hx]; cbn; try discriminate.
  - intros H. destruct y as [sy|sy|sy ply Hy|sy my ey Hy]; cbn; auto.
    destruct s, sx, sy; cbn in *; auto.
  - intros _. destruct y; reflexivity.
Qed.

Lemma plus_inf s x : stuck s (b64_plus mode_NE x (B754_infinity 53 1024 s)) = true.
Proof.
  destruct x as [sx|sx|sx pl Hx|sx mx ex Hx]; cbn; auto using Bool.eqb_reflx.
  destruct sx, s; reflexivity.
Qed.

Lemma minus_inf s x : stuck s x = true -> nanb (b64_minus mode_NE x (B754_infinity 53 1024 s)) = true.
Proof.
  destruct x as [sx|sx|sx pl Hx|sx mx ex Hx]; cbn; try discriminate; auto.
  intros H. apply Bool.eqb_prop in H. subst. destruct sx; reflexivity.
Qed.

Lemma nan_plus x y : nanb x = true -> nanb (b64_plus mode_NE x y) = true.
Proof. destruct x, y; cbn; auto; discriminate. Qed.
Lemma nan_minus x y : nanb x = true -> nanb (b64_minus mode_NE x y) = true.
Proof. destruct x, y; cbn; auto; discriminate. Qed.
Lemma nan_div x y : nanb x = true -> nanb (b64_div mode_NE x y) = true.
Proof. destruct x, y; cbn; auto; discriminate. Qed.

Notation psum n h := (@ip_sum NO (@port_after NO "i1" n h)).

Lemma running_step (n : Z) (h : list (@msg NO)) m :
  0 < n ->
  psum n (h ++ [m]) =
  b64_plus mode_NE
    (if Z.of_nat (length h) <? n then psum n h
     else b64_minus mode_NE (psum n h) (mval (nth (length h - Z.to_nat n) h msg0))) (mval m).
Proof.
  intros Hn. pose proof (@port_receive_after NO "i1" n h m ltac:(lia)) as E.
  pose proof (@port_after_data NO "i1" n h ltac:(lia)) as D.
  pose proof (@port_after_max NO "i1" n h ltac:(lia)) as M.
  rewrite eff_id in D, M by lia. unfold port_receive in E.
  unfold ip_size in E. rewrite M, D, lastn_length in E.
  destruct (Z.ltb_spec (Z.of_nat (length h)) n) as [L|L].
  - destruct (n =? _) eqn:E1 in E; [apply Z.eqb_eq in E1; lia|].
    destruct (n <? _) eqn:E2 in E; [apply Z.ltb_lt in E2; lia|].
    injection E as <-. reflexivity.
  - destruct (n =? _) eqn:E1 in E; [|apply Z.eqb_neq in E1; lia].
    unfold ip_pop in E. rewrite D in E.
    destruct (lastn (Z.to_nat n) h) as [|a q] eqn:Q; [discriminate|].
    injection E as <-. cbn [ip_push ip_sum]. unfold lastn in Q.
    assert (A : nth (length h - Z.to_nat n) h msg0 = a).
    { assert (Li : (length h - Z.to_nat n <= length h)%nat) by lia. revert Q Li.
      generalize (length h - Z.to_nat n)%nat as i. intros i Q Li.
      rewrite <- (firstn_skipn i h), Q, app_nth2; rewrite firstn_length_le by auto; auto.
      now rewrite Nat.sub_diag. }
    rewrite A. reflexivity.
Qed.

Lemma poison n (h1 : list (@msg NO)) t s h2 :
  0 < n -> let h := h1 ++ [@mkMsg NO t (B754_infinity 53 1024 s)] ++ h2 in
  if Z.of_nat (length h2) <? n then stuck s (psum n h) = true else nanb (psum n h) = true.
Proof.
  intros Hn h. subst h. induction h2 as [|m h2 IH] using rev_ind.
  - cbn [length]. destruct (Z.ltb_spec (Z.of_nat 0) n); [|lia]. cbn [app].
    rewrite running_step by auto. apply plus_inf.
  - rewrite !app_assoc. rewrite running_step by auto.
    rewrite <- app_assoc. set (h := h1 ++ _ ++ h2) in *. rewrite app_length. cbn [length].
    assert (Lh : length h = (length h1 + 1 + length h2)%nat).
    { subst h. rewrite !app_length. cbn. lia. }
    destruct (Z.ltb_spec (Z.of_nat (length h2)) n) as [L|L].
    + destruct (Z.ltb_spec (Z.of_nat (length h2 + 1)) n) as [L2|L2].
      * apply stuck_plus. destruct (Z.of_nat (length h) <? n); [exact IH|now apply stuck_minus].
      * destruct (Z.ltb_spec (Z.of_nat (length h)) n); [lia|].
        assert (A : nth (length h - Z.to_nat n) h msg0 = @mkMsg NO t (B754_infinity 53 1024 s)).
        { subst h. rewrite app_nth2 by lia.
          replace (length (h1 ++ [@mkMsg NO t (B754_infinity 53 1024 s)] ++ h2) - Z.to_nat n - length h1)%nat with 0%nat by lia.
          reflexivity. }
        rewrite A. cbn [mval]. apply nan_plus. now apply minus_inf.
    + destruct (Z.ltb_spec (Z.of_nat (length h2 + 1)) n); [lia|].
      apply nan_plus. destruct (Z.of_nat (length h) <? n); [exact IH|now apply nan_minus].
Qed.

(** every average emitted after an infinite value has left the window is NaN *)
Lemma average_nan n (h1 : list (@msg NO)) t s h2 :
  0 < n -> n <= Z.of_nat (length h2) ->
  nanb (b64_div mode_NE (psum n (h1 ++ [@mkMsg NO t (B754_infinity 53 1024 s)] ++ h2)) (b64_ofZ n)) = true.
Proof.
  intros Hn Hl. apply nan_div. pose proof (poison n h1 t s h2 Hn) as H. cbn zeta in H.
  destruct (Z.ltb_spec (Z.of_nat (length h2)) n); [lia|exact H].
Qed.

(** ** Integer values of moderate size: the sum is exact *)

Definition exactly (z : Z) (x : binary64) : Prop :=
  is_finite 53 1024 x = true /\ B2R 53 1024 x = IZR z.

Lemma generic_small_abs (z : Z) : Z.abs z <= 2 ^ 53 ->
  generic_format radix2 (FLT_exp (3 - 1024 - 53) 53) (IZR z).
Proof.
  intros H. destruct (Z_le_gt_dec 0 z).
  - apply generic_small. lia.
  - replace z with (- - z) by lia. rewrite opp_IZR. apply generic_format_opp, generic_small. lia.
Qed.

Lemma small_lt (z : Z) : Z.abs z <= 2 ^ 53 -> (Rabs (IZR z) < bpow radix2 1024)%R.
Proof.
  intros H. change (bpow radix2 1024) with (IZR (2 ^ 1024)). rewrite <- abs_IZR. apply IZR_lt.
  apply Z.le_lt_trans with (2 ^ 53); [lia|]. now apply Z.pow_lt_mono_r.
Qed.

Lemma exactly_plus a b x y :
  exactly a x -> exactly b y -> Z.abs (a + b) <= 2 ^ 53 -> exactly (a + b) (b64_plus mode_NE x y).
Proof.
  intros [F1 R1] [F2 R2] H. unfold b64_plus.
  pose proof (Bplus_correct 53 1024 eq_refl eq_refl binop_nan_pl64 mode_NE x y F1 F2) as C.
  rewrite R1, R2, <- plus_IZR in C.
  rewrite round_generic in C; [|apply _|now apply generic_small_abs].
  rewrite Rlt_bool_true in C by now apply small_lt. destruct C as (C1 & C2 & _). split; auto.
Qed.

Lemma exactly_minus a b x y :
  exactly a x -> exactly b y -> Z.abs (a - b) <= 2 ^ 53 -> exactly (a - b) (b64_minus mode_NE x y).
Proof.
  intros [F1 R1] [F2 R2] H. unfold b64_minus.
  pose proof (Bminus_correct 53 1024 eq_refl eq_refl binop_nan_pl64 mode_NE x y F1 F2) as C.
  rewrite R1, R2, <- minus_IZR in C.
  rewrite round_generic in C; [|apply _|now apply generic_small_abs].
  rewrite Rlt_bool_true in C by now apply small_lt. destruct C as (C1 & C2 & _). split; auto.
Qed.

Lemma exactly_0 : exactly 0 (b64_ofZ 0).
Proof. destruct (b64_ofZ_exact 0) as [H1 H2]; [lia|]. split; auto. Qed.

Definition zsum (l : list Z) : Z := fold_right Z.add 0 l.

Lemma zsum_app l1 l2 : zsum (l1 ++ l2) = zsum l1 + zsum l2.
Proof. unfold zsum. induction l1; cbn [app fold_right]; lia. Qed.

Lemma zsum_bound B (l : list Z) : (forall z, In z l -> Z.abs z <= B) -> Z.abs (zsum l) <= Z.of_nat (length l) * B.
Proof.
  unfold zsum. induction l as [|z l IH]; intros H; cbn [fold_right length]; [lia|].
  assert (Z.abs z <= B) by (apply H; cbn; auto).
  assert (Z.abs (fold_right Z.add 0 l) <= Z.of_nat (length l) * B) by (apply IH; intros; apply H; cbn; auto).
  nia.
Qed.

Lemma running_exact n B (zs : list Z) (h : list (@msg NO)) :
  0 < n -> 0 <= B -> n * B <= 2 ^ 53 ->
  Forall2 (fun z m => Z.abs z <= B /\ exactly z (@mval NO m)) zs h ->
  exactly (zsum (lastn (Z.to_nat n) zs)) (psum n h).
Proof.
  intros Hn HB HnB. revert zs. induction h as [|m h IH] using rev_ind; intros zs F.
  - inversion F; subst. apply exactly_0.
  - apply Forall2_app_inv_r in F as (z1 & z2 & F1 & F2 & ->).
    inversion F2 as [|z m' ? ? [Hz Ez] F3]; subst. inversion F3; subst.
    specialize (IH _ F1). rewrite running_step by auto.
    assert (Len : length z1 = length h) by (clear - F1; induction F1; cbn; congruence).
    assert (Bd : forall y, In y z1 -> Z.abs y <= B).
    { clear - F1. induction F1 as [|x y l l' [H _] F IH]; cbn; [tauto|]. intros z [<-|Hz]; auto. }
    destruct (Z.to_nat n) as [|k] eqn:K; [lia|].
    rewrite lastn_snoc, zsum_app. cbn [zsum fold_right]. rewrite Z.add_0_r.
    assert (Bk : Z.abs (zsum (lastn k z1)) <= Z.of_nat k * B).
    { etransitivity; [apply (zsum_bound B)|].
      - intros y Hy. apply Bd. eapply lastn_In; eauto.
      - rewrite lastn_length. nia. }
    apply exactly_plus; auto; [|nia].
    destruct (Z.ltb_spec (Z.of_nat (length h)) n) as [L|L].
    + rewrite lastn_all in IH by lia. rewrite lastn_all by lia. exact IH.
    + assert (X : exists y, nth_error z1 (length h - S k) = Some y /\ lastn (S k) z1 = y :: lastn k z1).
      { rewrite (lastn_S_tl k z1) by lia. unfold lastn at 1. rewrite Len.
        destruct (nth_error z1 (length h - S k)) as [y|] eqn:Y.
        - exists y. split; auto. unfold lastn. rewrite Len.
          rewrite <- (firstn_skipn (length h - S k) z1) in Y.
          rewrite nth_error_app2 in Y by (rewrite firstn_length; lia).
          rewrite firstn_length in Y.
          replace (length h - S k - Nat.min (length h - S k) (length z1))%nat with 0%nat in Y by lia.
          destruct (skipn (length h - S k) z1); cbn in *; [discriminate|]. now injection Y as ->.
        - apply nth_error_None in Y. lia. }
      destruct X as (y & Y1 & Y2). rewrite Y2 in IH. cbn [zsum fold_right] in IH.
      fold (zsum (lastn k z1)) in IH.
      replace (zsum (lastn k z1)) with (y + zsum (lastn k z1) - y) by lia.
      apply exactly_minus.
      { exact IH. }
      2: { replace (y + zsum (lastn k z1) - y) with (zsum (lastn k z1)) by lia. nia. }
      assert (E : exactly y (@mval NO (nth (length h - S k) h msg0))).
      { clear - F1 Y1. revert Y1. generalize (length h - S k)%nat as i. intros i. revert i.
        induction F1 as [|a b l l' [_ Hab] F IH]; intros [|i]; cbn; try discriminate.
        - now intros [= <-].
        - apply IH. }
      exact E.
Qed.

End B64.
