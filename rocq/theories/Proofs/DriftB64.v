(** * How far rounding takes sums of doubles from the exact ones. *)

From Coq Require Import String ZArith Bool List Lia Reals Lra.
From Flocq Require Import Core.Core Relative Plus_error.
From Flocq Require BinarySingleNaN.
From Flocq Require Import IEEE754.Binary IEEE754.Bits.
From Verif Require Import Base.StrMap Base.Num Base.NumB64 Model.Core Model.Ops Model.Make Model.Run.
From Verif Require Import Spec.Streams Spec.Operators Spec.Drift Proofs.Lists Proofs.Window Proofs.Basic Proofs.Fire Proofs.MovAvgB64.
Import ListNotations.
Open Scope string_scope.
Open Scope list_scope.
Open Scope R_scope.

Notation fexp64 := (FLT_exp (3 - 1024 - 53) 53).
Notation rnd64 := (round radix2 fexp64 ZnearestE).

Lemma half_ulp_pos : 0 < half_ulp.
Proof. unfold half_ulp. apply Rinv_0_lt_compat, pow_lt. lra. Qed.
Lemma tiny_pos : 0 < tiny.
Proof. unfold tiny. apply Rinv_0_lt_compat, pow_lt. lra. Qed.

#[global] Instance prec53 : Prec_gt_0 53.
Proof. reflexivity. Qed.

Lemma bpow_nat (k : nat) : bpow radix2 (Z.of_nat k) = 2 ^ k.
Proof. rewrite bpow_powerRZ. change (IZR radix2) with 2. now rewrite <- pow_powerRZ. Qed.

Lemma half_ulp_bpow : / 2 * bpow radix2 (- (53) + 1) = half_ulp.
Proof.
  unfold half_ulp. change (/ 2) with (bpow radix2 (-1)). rewrite <- bpow_plus.
  change (-1 + (- (53) + 1))%Z with (- Z.of_nat 53)%Z. now rewrite bpow_opp, bpow_nat.
Qed.

Lemma tiny_bpow : / 2 * bpow radix2 (3 - 1024 - 53) = tiny.
Proof.
  unfold tiny. change (/ 2) with (bpow radix2 (-1)). rewrite <- bpow_plus.
  replace (-1 + (3 - 1024 - 53))%Z with (- Z.of_nat 1075)%Z by lia. now rewrite bpow_opp, bpow_nat.
Qed.

Lemma finite_format (x : binary64) : generic_format radix2 fexp64 (real x).
Proof. apply (generic_format_B2R 53 1024 x). Qed.

Lemma rnd_plus x y : generic_format radix2 fexp64 x -> generic_format radix2 fexp64 y ->
  Rabs (rnd64 (x + y) - (x + y)) <= half_ulp * Rabs (x + y).
Proof.
  intros Fx Fy.
  destruct (FLT_plus_error_N_ex radix2 (3 - 1024 - 53) 53 (fun x => negb (Z.even x)) x y Fx Fy) as (e & He & E).
  rewrite E. replace ((x + y) * (1 + e) - (x + y)) with (e * (x + y)) by ring.
  rewrite Rabs_mult. apply Rmult_le_compat_r; [apply Rabs_pos|].
  eapply Rle_trans; [exact He|]. eapply Rle_trans; [apply u_rod1pu_ro_le_u_ro|].
  unfold u_ro. rewrite half_ulp_bpow. lra.
Qed.

Lemma rnd_any x : Rabs (rnd64 x - x) <= half_ulp * Rabs x + tiny.
Proof.
  destruct (error_N_FLT radix2 (3 - 1024 - 53) 53 ltac:(lia) (fun x => negb (Z.even x)) x) as (e & t & He & Ht & _ & E).
  rewrite half_ulp_bpow in He. rewrite tiny_bpow in Ht.
  rewrite E. replace (x * (1 + e) + t - x) with (e * x + t) by ring.
  eapply Rle_trans; [apply Rabs_triang|]. rewrite Rabs_mult.
  apply Rplus_le_compat; auto. apply Rmult_le_compat_r; auto. apply Rabs_pos.
Qed.

Lemma rnd_plus_abs x y : generic_format radix2 fexp64 x -> generic_format radix2 fexp64 y ->
  Rabs (rnd64 (x + y)) <= (1 + half_ulp) * Rabs (x + y).
Proof.
  intros Fx Fy. pose proof (rnd_plus x y Fx Fy) as H.
  replace (rnd64 (x + y)) with (rnd64 (x + y) - (x + y) + (x + y)) by ring.
  eapply Rle_trans; [apply Rabs_triang|]. lra.
Qed.

Lemma plus_close (x y : binary64) : finite x -> finite y ->
  (1 + half_ulp) * Rabs (real x + real y) < bpow radix2 1024 ->
  finite (b64_plus mode_NE x y) /\
  Rabs (real (b64_plus mode_NE x y) - (real x + real y)) <= half_ulp * Rabs (real x + real y).
Proof.
  intros F1 F2 H. unfold b64_plus.
  pose proof (Bplus_correct 53 1024 eq_refl eq_refl binop_nan_pl64 mode_NE x y F1 F2) as C.
  change (BinarySingleNaN.round_mode mode_NE) with ZnearestE in C.
  change (SpecFloat.fexp 53 1024) with fexp64 in C.
  rewrite Rlt_bool_true in C.
  - destruct C as (C1 & C2 & _). split; [exact C2|]. unfold real. rewrite C1.
    apply rnd_plus; apply finite_format.
  - eapply Rle_lt_trans; [apply rnd_plus_abs; apply finite_format|exact H].
Qed.

Lemma minus_close (x y : binary64) : finite x -> finite y ->
  (1 + half_ulp) * Rabs (real x - real y) < bpow radix2 1024 ->
  finite (b64_minus mode_NE x y) /\
  Rabs (real (b64_minus mode_NE x y) - (real x - real y)) <= half_ulp * Rabs (real x - real y).
Proof.
  intros F1 F2 H. unfold b64_minus.
  pose proof (Bminus_correct 53 1024 eq_refl eq_refl binop_nan_pl64 mode_NE x y F1 F2) as C.
  change (BinarySingleNaN.round_mode mode_NE) with ZnearestE in C.
  change (SpecFloat.fexp 53 1024) with fexp64 in C.
  assert (G : generic_format radix2 fexp64 (- real y)) by (apply generic_format_opp, finite_format).
  rewrite Rlt_bool_true in C.
  - destruct C as (C1 & C2 & _). split; [exact C2|]. unfold real. rewrite C1.
    apply rnd_plus; auto. apply finite_format.
  - eapply Rle_lt_trans; [apply (rnd_plus_abs (real x) (- real y)); auto; apply finite_format|exact H].
Qed.

Lemma rsum_app l1 l2 : rsum (l1 ++ l2) = rsum l1 + rsum l2.
Proof. unfold rsum. induction l1; cbn [app fold_right]; [lra|]. rewrite IHl1. lra. Qed.

Lemma rsum_bound B l : (forall x, In x l -> Rabs x <= B) -> Rabs (rsum l) <= INR (length l) * B.
Proof.
  induction l as [|x l IH]; intros H.
  - cbn. rewrite Rabs_R0. lra.
  - change (rsum (x :: l)) with (x + rsum l). cbn [length]. rewrite S_INR.
    eapply Rle_trans; [apply Rabs_triang|].
    assert (Rabs x <= B) by (apply H; cbn; auto).
    assert (Rabs (rsum l) <= INR (length l) * B) by (apply IH; intros; apply H; cbn; auto). lra.
Qed.

Section Sum.
Variable lpow : binary64 -> binary64 -> binary64.
Variable lcos : binary64 -> binary64.
Notation NO := (b64_ops lpow lcos).
Notation psum n h := (@ip_sum NO (@port_after NO "i1" n h)).
Notation exact l := (rsum (map (fun m : @msg NO => real (@mval NO m)) l)).

Lemma exact_app l1 l2 : exact (l1 ++ l2) = exact l1 + exact l2.
Proof. now rewrite map_app, rsum_app. Qed.

Lemma growth_ge_1 k : 1 <= (1 + half_ulp) ^ k.
Proof. apply pow_R1_Rle. pose proof half_ulp_pos. lra. Qed.

Local Notation u := half_ulp.

Lemma running_close (n : Z) (B : R) (h : list (@msg NO)) :
  (0 < n)%Z -> 0 <= B ->
  (forall m, In m h -> finite (@mval NO m) /\ Rabs (real (@mval NO m)) <= B) ->
  IZR n * B * (1 + half_ulp) ^ (2 * length h) < bpow radix2 1024 ->
  finite (psum n h) /\
  Rabs (real (psum n h) - exact (lastn (Z.to_nat n) h)) <= IZR n * B * ((1 + half_ulp) ^ (2 * length h) - 1).
Proof.
  intros Hn HB. pose proof half_ulp_pos as Hu.
  assert (HN : 1 <= IZR n) by (apply IZR_le; lia).
  induction h as [|m h IH] using rev_ind; intros Fh Hov.
  - destruct (b64_ofZ_exact 0) as [R0 F0]; [lia|].
    split; [exact F0|].
    assert (Z0 : real (psum n []) = 0) by exact R0. rewrite Z0.
    assert (L0 : lastn (Z.to_nat n) (@nil (@msg NO)) = []) by (unfold lastn; apply skipn_nil). rewrite L0.
    cbn [map rsum fold_right length Nat.mul pow]. rewrite Rminus_0_r, Rabs_R0. cbn. right; ring.
  - assert (Len : (2 * length (h ++ [m]) = S (S (2 * length h)))%nat) by (rewrite app_length; cbn [length]; lia).
    rewrite Len in *. cbn [pow] in *.
    set (P := (1 + u) ^ (2 * length h)) in *.
    assert (HP : 1 <= P) by (apply pow_R1_Rle; lra).
    assert (HnB : 0 <= IZR n * B) by (apply Rmult_le_pos; lra).
    assert (Hov1 : IZR n * B * ((1 + u) * P) < bpow radix2 1024).
    { eapply Rle_lt_trans; [|exact Hov]. apply Rmult_le_compat_l; auto.
      rewrite <- (Rmult_1_l ((1 + u) * P)) at 1. apply Rmult_le_compat_r; [|lra].
      apply Rmult_le_pos; lra. }
    assert (Hov0 : IZR n * B * P < bpow radix2 1024).
    { eapply Rle_lt_trans; [|exact Hov1]. apply Rmult_le_compat_l; auto.
      rewrite <- (Rmult_1_l P) at 1. apply Rmult_le_compat_r; lra. }
    destruct IH as [Fs Es]; auto. { intros x Hx. apply Fh, in_or_app. auto. }
    destruct (Fh m) as [Fm Bm]. { apply in_or_app. cbn. auto. }
    rewrite running_step by auto.
    destruct (Z.to_nat n) as [|k] eqn:K; [lia|].
    assert (Nk : IZR n = INR k + 1).
    { rewrite INR_IZR_INZ, <- plus_IZR. f_equal. lia. }
    rewrite lastn_snoc, exact_app. cbn [map]. 
    replace (rsum [real (@mval NO m)]) with (real (@mval NO m)) by (unfold rsum; cbn [fold_right]; lra).
    set (W := exact (lastn k h)) in *.
    assert (BW : Rabs W <= INR k * B).
    { eapply Rle_trans; [apply (rsum_bound B)|].
      - intros x Hx. apply in_map_iff in Hx as (y & <- & Hy). apply lastn_In in Hy.
        apply Fh, in_or_app. auto.
      - rewrite map_length, lastn_length. apply Rmult_le_compat_r; auto. apply le_INR. lia. }
    set (s := psum n h) in *. set (v := @mval NO m) in *.
    (* the sum without the value that leaves the window *)
    match goal with |- context [b64_plus mode_NE ?x v] => set (t := x) end.
    assert (T : finite t /\ Rabs (real t - W) <= IZR n * B * ((1 + u) * P - 1)).
    { unfold t. destruct (Z.ltb_spec (Z.of_nat (length h)) n) as [L|L].
      - split; auto. rewrite lastn_all in Es by lia. unfold W. rewrite lastn_all by lia.
        eapply Rle_trans; [exact Es|]. apply Rmult_le_compat_l; auto.
        assert (0 <= u * P) by (apply Rmult_le_pos; lra). lra.
      - assert (X : lastn (S k) h = nth (length h - S k) h msg0 :: lastn k h).
        { rewrite (lastn_S_tl k h) by lia. unfold lastn.
          assert (Li : (length h - S k < length h)%nat) by lia. revert Li.
          generalize (length h - S k)%nat as i. intros i Li.
          rewrite <- (firstn_skipn i h) at 2. rewrite app_nth2; rewrite firstn_length_le by lia; auto.
          rewrite Nat.sub_diag. pose proof (skipn_length i h). destruct (skipn i h); cbn in *; [lia|reflexivity]. }
        set (o := nth _ h msg0) in *.
        assert (Ho : In o h) by (apply nth_In; lia).
        destruct (Fh o) as [Fo Bo]. { apply in_or_app. auto. }
        rewrite X in Es. cbn [map] in Es. change (rsum (?x :: ?l)) with (x + rsum l) in Es. fold W in Es.
        set (ov := @mval NO o) in *.
        assert (D : Rabs (real s - real ov - W) <= IZR n * B * (P - 1)).
        { replace (real s - real ov - W) with (real s - (real ov + W)) by ring. exact Es. }
        assert (D2 : Rabs (real s - real ov) <= IZR n * B * P).
        { replace (real s - real ov) with (real s - real ov - W + W) by ring.
          eapply Rle_trans; [apply Rabs_triang|].
          assert (INR k * B <= IZR n * B) by (apply Rmult_le_compat_r; lra). lra. }
        destruct (minus_close s ov Fs Fo) as [Ft Et].
        { eapply Rle_lt_trans; [|exact Hov1]. 
          replace (IZR n * B * ((1 + u) * P)) with ((1 + u) * (IZR n * B * P)) by ring.
          apply Rmult_le_compat_l; lra. }
        split; auto.
        replace (real (b64_minus mode_NE s ov) - W)
          with (real (b64_minus mode_NE s ov) - (real s - real ov) + (real s - real ov - W)) by ring.
        eapply Rle_trans; [apply Rabs_triang|].
        apply Rle_trans with (u * (IZR n * B * P) + IZR n * B * (P - 1)).
        + apply Rplus_le_compat; auto. eapply Rle_trans; [exact Et|]. apply Rmult_le_compat_l; lra.
        + apply Req_le. ring. }
    clearbody t. destruct T as [Ft Et].
    assert (D : Rabs (real t + real v - (W + real v)) <= IZR n * B * ((1 + u) * P - 1)).
    { replace (real t + real v - (W + real v)) with (real t - W) by ring. exact Et. }
    assert (D2 : Rabs (real t + real v) <= IZR n * B * ((1 + u) * P)).
    { replace (real t + real v) with (real t - W + (W + real v)) by ring.
      eapply Rle_trans; [apply Rabs_triang|].
      pose proof (Rabs_triang W (real v)). rewrite Nk in *. lra. }
    destruct (plus_close t v Ft Fm) as [F' E'].
    { eapply Rle_lt_trans; [|exact Hov]. 
      replace (IZR n * B * ((1 + u) * ((1 + u) * P))) with ((1 + u) * (IZR n * B * ((1 + u) * P))) by ring.
      apply Rmult_le_compat_l; lra. }
    split; auto.
    replace (real (b64_plus mode_NE t v) - (W + real v))
      with (real (b64_plus mode_NE t v) - (real t + real v) + (real t + real v - (W + real v))) by ring.
    eapply Rle_trans; [apply Rabs_triang|].
    apply Rle_trans with (u * (IZR n * B * ((1 + u) * P)) + IZR n * B * ((1 + u) * P - 1)).
    + apply Rplus_le_compat; auto. eapply Rle_trans; [exact E'|]. apply Rmult_le_compat_l; lra.
    + apply Req_le. ring.
Qed.

End Sum.
