(** * Comparing small integers *)

From Coq Require Import ZArith Reals Lia Bool QArith Qcanon.
From Flocq Require Import Core.Core IEEE754.Binary IEEE754.Bits.
From Verif Require Import Base.Num Base.NumQc Base.NumB64.
Open Scope Z_scope.

(** Natural numbers below 2^53 compare as numbers do. *)
Class NumCount (NO : NumOps) := {
  vofZ_lt : forall a b, 0 <= a < 2 ^ 53 -> 0 <= b < 2 ^ 53 -> vlt (vofZ a) (vofZ b) = (a <? b);
  vofZ_eq : forall a b, 0 <= a < 2 ^ 53 -> 0 <= b < 2 ^ 53 -> veq (vofZ a) (vofZ b) = (a =? b);
  vofZ_0 : vofZ 0 = v0;
  vofZ_1 : vofZ 1 = v1
}.

Lemma qc_ofZ_compare a b : Qccompare (qc_ofZ a) (qc_ofZ b) = (a ?= b).
Proof.
  unfold Qccompare, qc_ofZ, Q2Qc. cbn [this]. rewrite <- Qred_compare. unfold Qcompare, inject_Z. cbn [Qnum Qden].
  now rewrite !Z.mul_1_r.
Qed.

#[global] Instance QcCount : NumCount QcOps.
Proof.
  split; [intros a b _ _|intros a b _ _|reflexivity|reflexivity].
  - change (qc_lt (qc_ofZ a) (qc_ofZ b) = (a <? b)). unfold qc_lt. rewrite qc_ofZ_compare. reflexivity.
  - change (qc_eq (qc_ofZ a) (qc_ofZ b) = (a =? b)). unfold qc_eq. rewrite qc_ofZ_compare, Z.eqb_compare. reflexivity.
Qed.

Lemma b64_ofZ_compare a b : 0 <= a < 2 ^ 53 -> 0 <= b < 2 ^ 53 ->
  Bcompare 53 1024 (b64_ofZ a) (b64_ofZ b) = Some (a ?= b).
Proof.
  intros Ha Hb. destruct (b64_ofZ_exact a ltac:(lia)) as [Ra Fa]. destruct (b64_ofZ_exact b ltac:(lia)) as [Rb Fb].
  rewrite Bcompare_correct by assumption. rewrite Ra, Rb. f_equal. apply Rcompare_IZR.
Qed.

#[global] Instance B64Count pow cos : NumCount (b64_ops pow cos).
Proof.
  split; [intros a b Ha Hb|intros a b Ha Hb|reflexivity|reflexivity].
  - change (b64_lt (b64_ofZ a) (b64_ofZ b) = (a <? b)). unfold b64_lt, b64_cmp, b64_compare. rewrite b64_ofZ_compare by assumption. reflexivity.
  - change (b64_eq (b64_ofZ a) (b64_ofZ b) = (a =? b)). unfold b64_eq, b64_cmp, b64_compare. rewrite b64_ofZ_compare by assumption. rewrite Z.eqb_compare. reflexivity.
Qed.
