(** * Averages, totals and weighted sums of doubles: distance from the exact results. *)

From Coq Require Import String ZArith Bool List Lia Reals Lra.
From Flocq Require Import Core.Core Relative Plus_error.
From Flocq Require BinarySingleNaN.
From Flocq Require Import IEEE754.Binary IEEE754.Bits.
From Verif Require Import Base.StrMap Base.Num Base.NumB64 Model.Core Model.Ops Model.Make Model.Run.
From Verif Require Import Spec.Streams Spec.Operators Spec.Drift Proofs.Lists Proofs.Window Proofs.Basic Proofs.Fire Proofs.MovAvgB64.
From Verif Require Import Proofs.DriftB64.
Import ListNotations.
Open Scope string_scope.
Open Scope list_scope.
Open Scope R_scope.

Local Notation u := half_ulp.

(** [m] roundings with [m <= 2^52] at most double the first order error *)
Lemma growth_linear (m : nat) : INR m <= 2 ^ 52 -> (1 + u) ^ m <= 1 + 2 * INR m * u.
Proof.
  pose proof half_ulp_pos as Hu.
  assert (U : 2 * 2 ^ 52 * u = 1) by (unfold half_ulp; field; apply pow_nonzero; lra).
  induction m as [|m IH]; intros H.
  - cbn. lra.
  - rewrite S_INR in *. cbn [pow]. specialize (IH ltac:(lra)).
    assert (2 * INR m * u <= 1) by nra.
    apply Rle_trans with ((1 + u) * (1 + 2 * INR m * u)).
    + apply Rmult_le_compat_l; lra.
    + assert (u * (2 * INR m * u) <= u * 1) by (apply Rmult_le_compat_l; lra). nra.
Qed.

Lemma lt_emax (x : binary64) : Rabs (real x) < bpow radix2 1024.
Proof. apply (abs_B2R_lt_emax 53 1024 x). Qed.

Lemma div_close (x y : binary64) : finite x -> 1 <= real y ->
  finite (b64_div mode_NE x y) /\
  Rabs (real (b64_div mode_NE x y) - real x / real y) <= u * Rabs (real x / real y) + tiny.
Proof.
  intros Fx Hy. unfold b64_div. assert (Ny : B2R 53 1024 y <> 0) by (unfold real in Hy; lra).
  pose proof (Bdiv_correct 53 1024 eq_refl eq_refl binop_nan_pl64 mode_NE x y Ny) as C.
  change (BinarySingleNaN.round_mode mode_NE) with ZnearestE in C.
  change (SpecFloat.fexp 53 1024) with fexp64 in C.
  rewrite Rlt_bool_true in C.
  - destruct C as (C1 & C2 & _). split; [unfold finite; rewrite C2; exact Fx|].
    unfold real. rewrite C1. apply rnd_any.
  - eapply Rle_lt_trans; [|apply (lt_emax x)].
    apply abs_round_le_generic; [apply FLT_exp_valid; reflexivity|apply _| |].
    + apply generic_format_abs, finite_format.
    + fold (real x) (real y). unfold Rdiv.
      rewrite Rabs_mult, (Rabs_pos_eq (/ real y)) by (left; apply Rinv_0_lt_compat; lra).
      rewrite <- (Rmult_1_r (Rabs (real x))) at 2. apply Rmult_le_compat_l; [apply Rabs_pos|].
      rewrite <- Rinv_1. apply Rinv_le; lra.
Qed.

Lemma mult_close (x y : binary64) : finite x -> finite y ->
  (1 + u) * Rabs (real x * real y) + tiny < bpow radix2 1024 ->
  finite (b64_mult mode_NE x y) /\
  Rabs (real (b64_mult mode_NE x y) - real x * real y) <= u * Rabs (real x * real y) + tiny.
Proof.
  intros Fx Fy H. unfold b64_mult.
  pose proof (Bmult_correct 53 1024 eq_refl eq_refl binop_nan_pl64 mode_NE x y) as C.
  change (BinarySingleNaN.round_mode mode_NE) with ZnearestE in C.
  change (SpecFloat.fexp 53 1024) with fexp64 in C.
  pose proof (rnd_any (real x * real y)) as A.
  rewrite Rlt_bool_true in C.
  - destruct C as (C1 & C2 & _). split; [unfold finite in *; rewrite C2, Fx, Fy; reflexivity|].
    unfold real. rewrite C1. apply A.
  - eapply Rle_lt_trans; [|exact H]. fold (real x) (real y).
    replace (rnd64 (real x * real y)) with (rnd64 (real x * real y) - real x * real y + real x * real y) by ring.
    eapply Rle_trans; [apply Rabs_triang|]. lra.
Qed.

(** adding up from zero: [E] bounds the distance of the terms from the exact ones, [A] the
    sum of the absolute values of the exact terms *)
Lemma fold_close (xs : list binary64) (es : list R) (d : R) :
  0 <= d ->
  Forall2 (fun x e => finite x /\ Rabs (real x - e) <= u * Rabs e + d) xs es ->
  (rsum (map Rabs es) + INR (length xs) * d) * (1 + u) ^ (length xs + 1) < bpow radix2 1024 ->
  let s := fold_left (b64_plus mode_NE) xs (b64_ofZ 0) in
  finite s /\
  Rabs (real s - rsum es) <=
    rsum (map Rabs es) * ((1 + u) ^ (length xs + 1) - 1) + INR (length xs) * d * (1 + u) ^ length xs.
Proof.
  intros Hd. pose proof half_ulp_pos as Hu. revert es.
  induction xs as [|x xs IH] using rev_ind; intros es F Hov.
  - inversion F; subst. destruct (b64_ofZ_exact 0) as [R0 F0]; [lia|]. cbn [fold_left]. split; [exact F0|].
    unfold real. rewrite R0. cbn. rewrite Rminus_0_r, Rabs_R0. lra.
  - apply Forall2_app_inv_l in F as (e1 & e2 & F1 & F2 & ->).
    inversion F2 as [|x' e ? ? [Fx Ex] F3]; subst. inversion F3; subst. clear F2 F3.
    rewrite fold_left_app. cbn [fold_left].
    rewrite map_app, !rsum_app. cbn [map].
    replace (rsum [Rabs e]) with (Rabs e) by (unfold rsum; cbn [fold_right]; lra).
    replace (rsum [e]) with e by (unfold rsum; cbn [fold_right]; lra).
    rewrite map_app, rsum_app in Hov. cbn [map] in Hov.
    replace (rsum [Rabs e]) with (Rabs e) in Hov by (unfold rsum; cbn [fold_right]; lra).
    rewrite app_length in *. cbn [length] in *.
    set (A := rsum (map Rabs e1)) in *. set (k := length xs) in *.
    assert (HA : 0 <= A).
    { unfold A. clear. induction e1 as [|x l IH]; cbn; [lra|]. pose proof (Rabs_pos x). fold (rsum (map Rabs l)). lra. }
    assert (HS : Rabs (rsum e1) <= A).
    { unfold A. clear. induction e1 as [|x l IH]; cbn; [rewrite Rabs_R0; lra|].
      fold (rsum l) (rsum (map Rabs l)). pose proof (Rabs_triang x (rsum l)). lra. }
    replace (INR (k + 1)) with (INR k + 1) in * by (rewrite plus_INR; cbn; lra).
    replace (k + 1 + 1)%nat with (S (S k)) in * by lia. replace (k + 1)%nat with (S k) in * by lia.
    cbn [pow] in *. set (P := (1 + u) ^ k) in *.
    assert (HP : 1 <= P) by (apply pow_R1_Rle; lra).
    assert (Hk : 0 <= INR k) by apply pos_INR.
    pose proof (Rabs_pos e) as He.
    assert (Hkd : 0 <= INR k * d) by (apply Rmult_le_pos; lra).
    assert (HuP : 0 <= u * P) by (apply Rmult_le_pos; lra).
    assert (HuuP : 0 <= u * (u * P)) by (apply Rmult_le_pos; lra).
    assert (Hov1 : (A + INR k * d) * ((1 + u) * P) < bpow radix2 1024).
    { eapply Rle_lt_trans; [|exact Hov].
      apply Rmult_le_compat; [lra|apply Rmult_le_pos; lra|lra|lra]. }
    destruct (IH e1 F1 Hov1) as [Fs Es]. cbn zeta in *. fold A in Es. clearbody A.
    set (s := fold_left (b64_plus mode_NE) xs (b64_ofZ 0)) in *.
    (* the two errors before adding *)
    assert (D : Rabs (real s + real x - (rsum e1 + e)) <=
                A * ((1 + u) * P - 1) + INR k * d * P + (u * Rabs e + d)).
    { replace (real s + real x - (rsum e1 + e)) with (real s - rsum e1 + (real x - e)) by ring.
      eapply Rle_trans; [apply Rabs_triang|]. lra. }
    assert (D2 : Rabs (real s + real x) <= (A + Rabs e) * ((1 + u) * P) + (INR k + 1) * d * P).
    { replace (real s + real x) with (real s + real x - (rsum e1 + e) + (rsum e1 + e)) by ring.
      eapply Rle_trans; [apply Rabs_triang|]. pose proof (Rabs_triang (rsum e1) e).
      apply Rle_trans with (A * ((1 + u) * P - 1) + INR k * d * P + (u * Rabs e + d) + (A + Rabs e)); [lra|].
      assert (d * 1 <= d * P) by (apply Rmult_le_compat_l; lra).
      assert (Rabs e * (1 + u) * 1 <= Rabs e * (1 + u) * P) by (apply Rmult_le_compat_l; [apply Rmult_le_pos; lra|lra]).
      lra. }
    destruct (plus_close s x Fs Fx) as [F' E'].
    { eapply Rle_lt_trans; [|exact Hov].
      apply Rle_trans with ((1 + u) * ((A + Rabs e) * ((1 + u) * P) + (INR k + 1) * d * P)).
      - apply Rmult_le_compat_l; lra.
      - assert (X : 0 <= (INR k + 1) * d) by (apply Rmult_le_pos; lra).
        assert (Y : (INR k + 1) * d * P <= (INR k + 1) * d * ((1 + u) * P)) by (apply Rmult_le_compat_l; lra).
        assert (Z : (1 + u) * ((INR k + 1) * d * P) <= (1 + u) * ((INR k + 1) * d * ((1 + u) * P))) by (apply Rmult_le_compat_l; lra).
        lra. }
    split; auto.
    replace (real (b64_plus mode_NE s x) - (rsum e1 + e))
      with (real (b64_plus mode_NE s x) - (real s + real x) + (real s + real x - (rsum e1 + e))) by ring.
    eapply Rle_trans; [apply Rabs_triang|].
    assert (G1 : u * Rabs (real s + real x) <= u * ((A + Rabs e) * ((1 + u) * P) + (INR k + 1) * d * P))
      by (apply Rmult_le_compat_l; lra).
    assert (G2 : Rabs e * (1 + u) * 1 <= Rabs e * (1 + u) * P) by (apply Rmult_le_compat_l; [apply Rmult_le_pos; lra|lra]).
    assert (G3 : d * 1 <= d * P) by (apply Rmult_le_compat_l; lra).
    lra.
Qed.

