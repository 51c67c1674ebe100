(** * Conversion of values to [uint64_t] truncates *)

From Coq Require Import ZArith Bool Lia QArith Qcanon Qround.
From Verif Require Import Base.Num Base.NumQc.
Open Scope Z_scope.

(** A value between an integer of the type and the next one becomes that integer; a value not
    below 2^64 cannot be converted. *)
Class NumTrunc (NO : NumOps) := {
  vtoT_trunc : forall x z, 0 <= z < two64 -> vle (vofZ z) x = true -> vlt x (vofZ (z + 1)) = true -> vtoT x = Some z;
  vtoT_over : forall x, vle (vofZ two64) x = true -> vtoT x = None
}.

Lemma qc_ofZ_le z (x : Qc) : qc_le (qc_ofZ z) x = true -> z * Zpos (Qden x) <= Qnum x.
Proof.
  unfold qc_le, qc_ofZ, Qccompare. cbn [this Q2Qc]. intros H.
  assert (L : (Qred (inject_Z z) <= x)%Q) by (apply Qle_alt; destruct (_ ?= _)%Q; congruence).
  rewrite Qred_correct in L. unfold Qle, inject_Z in L. cbn in L. lia.
Qed.

Lemma qc_ofZ_lt z (x : Qc) : qc_lt x (qc_ofZ z) = true -> Qnum x < z * Zpos (Qden x).
Proof.
  intros H. apply qc_lt_spec in H. unfold Qclt, qc_ofZ in H. cbn [this Q2Qc] in H.
  rewrite Qred_correct in H. unfold Qlt, inject_Z in H. cbn in H. lia.
Qed.

#[global] Instance QcTrunc : NumTrunc QcOps.
Proof.
  split; cbn [vtoT vle vlt vofZ QcOps]; unfold qc_toT.
  - intros x z Hz H1 H2. apply qc_ofZ_le in H1. apply qc_ofZ_lt in H2.
    assert (P : 0 <= z * Zpos (Qden x)) by (apply Z.mul_nonneg_nonneg; lia).
    assert (E : Z.quot (Qnum x) (Zpos (Qden x)) = z).
    { rewrite Z.quot_div_nonneg by lia. symmetry. apply (Z.div_unique _ _ z (Qnum x - z * Zpos (Qden x))); [left; split; [lia|]|]; nia. }
    rewrite E. destruct (Z.leb_spec 0 z); [|lia]. destruct (Z.ltb_spec z two64); [|lia]. reflexivity.
  - intros x H. apply qc_ofZ_le in H. assert (0 < two64) by reflexivity.
    assert (P : 0 <= two64 * Zpos (Qden x)) by (apply Z.mul_nonneg_nonneg; lia).
    assert (two64 <= Z.quot (Qnum x) (Zpos (Qden x))).
    { rewrite Z.quot_div_nonneg by lia. apply Z.div_le_lower_bound; lia. }
    destruct (Z.ltb_spec (Z.quot (Qnum x) (Zpos (Qden x))) two64); [lia|]. now rewrite andb_false_r.
Qed.
