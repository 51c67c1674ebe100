(** * IEEE 754 binary64 values ([double]), from Flocq.

    All operations round to nearest, ties to even.  [pow] and [cos] come from the C
    library, whose accuracy is not specified: they are parameters. *)

From Coq Require Import ZArith Bool Lia Reals Lra.
From Flocq Require Import Core.Core.
From Flocq Require BinarySingleNaN.
From Flocq Require Import IEEE754.Binary IEEE754.Bits.
Notation mode_NE := BinarySingleNaN.mode_NE.
From Verif Require Import Base.Num.
Open Scope Z_scope.

Definition b64_ofZ (z : Z) : binary64 :=
  binary_normalize 53 1024 (eq_refl _) (eq_refl _) mode_NE z 0 false.

Definition b64_cmp (f : comparison -> bool) (x y : binary64) : bool :=
  match b64_compare x y with Some c => f c | None => false end.

Definition b64_lt := b64_cmp (fun c => match c with Lt => true | _ => false end).
Definition b64_le := b64_cmp (fun c => match c with Gt => false | _ => true end).
Definition b64_eq := b64_cmp (fun c => match c with Eq => true | _ => false end).

(** conversion to uint64_t: truncation towards zero; undefined when the truncated value
    does not fit, or for infinities and NaN *)
Definition b64_toT (x : binary64) : option Z :=
  if is_finite 53 1024 x then
    let z := Btrunc 53 1024 x in
    if (0 <=? z) && (z <? two64) then Some z else None
  else None.

Definition b64_ops (pow : binary64 -> binary64 -> binary64) (cos : binary64 -> binary64) : NumOps := {|
  V := binary64;
  v0 := b64_ofZ 0;
  v1 := b64_ofZ 1;
  vhalf := b64_of_bits 0x3FE0000000000000;
  vpi := b64_of_bits 0x400921FB54442D18;
  vadd := b64_plus mode_NE;
  vsub := b64_minus mode_NE;
  vmul := b64_mult mode_NE;
  vdiv := b64_div mode_NE;
  vneg := b64_opp;
  vlt := b64_lt;
  vle := b64_le;
  veq := b64_eq;
  vofZ := b64_ofZ;
  vtoT := b64_toT;
  vpow := pow;
  vsqrt := b64_sqrt mode_NE;
  vcos := cos;
  vbits := bits_of_b64;
  vofbits := b64_of_bits
|}.

Lemma b64_codec pow cos : NumCodec (b64_ops pow cos).
Proof.
  split; cbn.
  - intro x. change two64 with (2 ^ (52 + 11 + 1)).
    exact (bits_of_binary_float_range 52 11 eq_refl eq_refl x).
  - exact (binary_float_of_bits_of_binary_float 52 11 eq_refl eq_refl eq_refl).
Qed.

Lemma generic_small (t : Z) : 0 <= t <= 2 ^ 53 ->
  generic_format radix2 (FLT_exp (3 - 1024 - 53) 53) (IZR t).
Proof.
  intros Ht.
  destruct (Z.eq_dec t (2 ^ 53)) as [->|n].
  - change (IZR (2 ^ 53)) with (bpow radix2 53).
    apply generic_format_bpow. unfold FLT_exp. lia.
  - apply generic_format_FLT. exists (Float radix2 t 0).
    + unfold F2R; cbn. now rewrite Rmult_1_r.
    + cbn. rewrite Z.abs_eq by lia. change (Z.pow_pos 2 53) with (2 ^ 53). lia.
    + cbn. lia.
Qed.

Lemma b64_ofZ_exact t : 0 <= t <= 2 ^ 53 ->
  B2R 53 1024 (b64_ofZ t) = IZR t /\ is_finite 53 1024 (b64_ofZ t) = true.
Proof.
  intros Ht. unfold b64_ofZ.
  pose proof (binary_normalize_correct 53 1024 (eq_refl _) (eq_refl _) mode_NE t 0 false) as H.
  assert (E : F2R (Float radix2 t 0) = IZR t) by (unfold F2R; cbn; now rewrite Rmult_1_r).
  rewrite E in H.
  rewrite round_generic in H; [|apply _|now apply generic_small].
  rewrite Rlt_bool_true in H.
  - now destruct H as (H1 & H2 & _).
  - change (bpow radix2 1024) with (IZR (2 ^ 1024)). rewrite <- abs_IZR. apply IZR_lt.
    rewrite Z.abs_eq by lia. apply Z.le_lt_trans with (2 ^ 53); [lia|]. now apply Z.pow_lt_mono_r.
Qed.

Lemma b64_time pow cos : NumTime (b64_ops pow cos).
Proof.
  split; cbn. intros t Ht. unfold b64_toT.
  destruct (b64_ofZ_exact t Ht) as [HR HF]. rewrite HF.
  assert (E : Btrunc 53 1024 (b64_ofZ t) = t).
  { apply eq_IZR. rewrite (Btrunc_correct 53 1024 (eq_refl _)), HR.
    apply round_generic; [apply _|]. apply generic_format_FIX.
    exists (Float radix2 t 0); [unfold F2R; cbn; now rewrite Rmult_1_r|reflexivity]. }
  rewrite E. assert (2 ^ 53 < two64) by reflexivity.
  destruct (0 <=? t) eqn:?; destruct (t <? two64) eqn:?; cbn; auto; lia.
Qed.
