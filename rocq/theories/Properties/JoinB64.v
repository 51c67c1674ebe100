(** * And and Or on doubles (C24): every number is comparable with 0.5, a NaN is not, and
    then the operators are not even symmetric. *)

From Coq Require Import String ZArith Bool List Reals.
From Flocq Require Import IEEE754.Binary IEEE754.Bits.
From Verif Require Import Base.StrMap Base.Num Base.NumB64 Model.Core Model.Ops Model.Make Model.Run.
From Verif Require Import Spec.Streams Spec.Multi Spec.Join.
Import ListNotations.
Open Scope string_scope.
Open Scope list_scope.
Open Scope Z_scope.

Lemma vhalf_finite pow cos : exists s m e H, @vhalf (b64_ops pow cos) = B754_finite 53 1024 s m e H.
Proof.
  assert (X : match @vhalf (b64_ops pow cos) with B754_finite _ _ _ _ _ _ => true | _ => false end = true) by (vm_compute; reflexivity).
  destruct (@vhalf (b64_ops pow cos)); try discriminate. repeat eexists.
Qed.

Theorem C24_numbers_are_comparable pow cos (x : binary64) :
  is_nan 53 1024 x = false -> @comparable (b64_ops pow cos) x.
Proof.
  intros N. unfold comparable. destruct (vhalf_finite pow cos) as (s & m & e & H & E). rewrite E.
  change (b64_le (B754_finite 53 1024 s m e H) x = negb (b64_lt x (B754_finite 53 1024 s m e H))).
  unfold b64_le, b64_lt, b64_cmp, b64_compare.
  rewrite (Bcompare_swap 53 1024 x (B754_finite 53 1024 s m e H)).
  destruct (Bcompare 53 1024 x _) as [[]|] eqn:C; auto.
  exfalso. destruct x; try discriminate N; cbn in C; discriminate C.
Qed.
Print Assumptions C24_numbers_are_comparable.

(** And of (NaN, 1) is 1, And of (1, NaN) is 0 *)
Theorem C24_and_is_not_symmetric_on_nan pow cos (s : bool) (pl : positive) (H : nan_pl 53 pl = true) :
  let nan := B754_nan 53 1024 s pl H in
  let one := @v1 (b64_ops pow cos) in
  @bin_apply (b64_ops pow cos) BAnd nan one = Some one /\
  @bin_apply (b64_ops pow cos) BAnd one nan = Some (@v0 (b64_ops pow cos)).
Proof.
  cbv zeta. split; cbn [bin_apply]; destruct (vhalf_finite pow cos) as (s' & m & e & H' & E).
  - replace (@vlt (b64_ops pow cos) (B754_nan 53 1024 s pl H) vhalf) with false by (rewrite E; reflexivity).
    replace (@vle (b64_ops pow cos) vhalf (@v1 (b64_ops pow cos))) with true by (vm_compute; reflexivity). reflexivity.
  - replace (@vle (b64_ops pow cos) vhalf (B754_nan 53 1024 s pl H)) with false by (rewrite E; reflexivity).
    now rewrite andb_false_r.
Qed.
Print Assumptions C24_and_is_not_symmetric_on_nan.
