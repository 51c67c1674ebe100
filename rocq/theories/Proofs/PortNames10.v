(** * The names of ten and more ports in alphabetical order *)

From Coq Require Import String Ascii ZArith Bool List Lia Sorted Decimal DecimalFacts DecimalNat DecimalString.
From Verif Require Import Base.StrMap Base.Num Model.Core Model.Make.
Import ListNotations.
Open Scope string_scope.
Open Scope list_scope.
Lemma digits_head n d : Nat.to_uint n = D0 d -> d = Nil.
Proof.
  intros E. assert (U : Nat.to_uint n = unorm (Nat.to_uint n)) by (rewrite <- DecimalNat.Unsigned.to_of; now rewrite DecimalNat.Unsigned.of_to).
  rewrite E in U. unfold unorm in U. cbn [nzhead] in U. destruct (nzhead d) eqn:H; try discriminate U; [congruence|].
  exfalso. now apply (nzhead_nonzero d u).
Qed.
Lemma ten_before k : k <> 0%nat -> k <> 1%nat -> k <> 10%nat -> slt (iport 10) (iport k).
Proof.
  intros N0 N1 N10. unfold iport, string_of_nat, slt.
  assert (O : k = Nat.of_uint (Nat.to_uint k)) by now rewrite DecimalNat.Unsigned.of_to.
  change (Nat.to_uint 10) with (D1 (D0 Nil)).
  destruct (Nat.to_uint k) as [|d|d|d|d|d|d|d|d|d|d] eqn:E; cbn [NilEmpty.string_of_uint]; try reflexivity.
  - elim N0. exact O.
  - apply digits_head in E as X. subst d. elim N0. exact O.
  - destruct d as [|d|d|d|d|d|d|d|d|d|d]; try reflexivity; [elim N1; exact O|]. destruct d; try reflexivity. elim N10. exact O.
Qed.

Lemma one_before k : k <> 0%nat -> k <> 1%nat -> slt (iport 1) (iport k).
Proof.
  intros N0 N1. unfold iport, string_of_nat, slt.
  assert (O : k = Nat.of_uint (Nat.to_uint k)) by now rewrite DecimalNat.Unsigned.of_to.
  change (Nat.to_uint 1) with (D1 Nil).
  destruct (Nat.to_uint k) as [|d|d|d|d|d|d|d|d|d|d] eqn:E; cbn [NilEmpty.string_of_uint]; try reflexivity.
  - elim N0. exact O.
  - apply digits_head in E as X. subst d. elim N0. exact O.
  - destruct d as [|d|d|d|d|d|d|d|d|d|d]; try reflexivity. elim N1. exact O.
Qed.
(** the names of ten and more ports, sorted: i1, i10, ... *)
Lemma ten_sorted n names : (10 <= n)%nat -> StronglySorted slt names -> (forall x, In x names <-> exists k, (1 <= k <= n)%nat /\ x = iport k) ->
  exists r, names = "i1" :: "i10" :: r.
Proof.
  intros L S1 I.
  assert (I1 : In "i1" names) by (apply I; exists 1%nat; split; [lia|reflexivity]).
  assert (I10 : In "i10" names) by (apply I; exists 10%nat; split; [lia|reflexivity]).
  destruct names as [|a names]; [destruct I1|]. inversion S1 as [|? ? S2 F2]; subst. rewrite Forall_forall in F2.
  assert (a = "i1") as ->.
  { destruct I1 as [->|I1]; [reflexivity|]. specialize (F2 _ I1). destruct (proj1 (I a) (or_introl eq_refl)) as (k & K & ->).
    destruct (Nat.eq_dec k 1) as [->|N]; [reflexivity|]. exfalso. apply sltb_asym in F2. assert (X := one_before k ltac:(lia) N). unfold slt in X. change "i1" with (iport 1) in F2. congruence. }
  destruct I10 as [X|I10]; [discriminate X|]. destruct names as [|b names]; [destruct I10|]. exists names. do 2 f_equal.
  destruct I10 as [->|I10]; [reflexivity|]. inversion S2 as [|? ? _ F3]; subst. rewrite Forall_forall in F3. specialize (F3 _ I10).
  destruct (proj1 (I b) (or_intror (or_introl eq_refl))) as (k & K & ->).
  destruct (Nat.eq_dec k 10) as [->|N]; [reflexivity|]. exfalso. destruct (Nat.eq_dec k 1) as [->|N1].
  - specialize (F2 _ (or_introl eq_refl)). unfold slt in F2. rewrite sltb_irrefl in F2. discriminate F2.
  - apply sltb_asym in F3. assert (X := ten_before k ltac:(lia) N1 N). unfold slt in X. change "i10" with (iport 10) in F3. congruence.
Qed.
