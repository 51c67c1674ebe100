(** * Bounded loops: [iter_pos] as a plain iteration. *)

From Coq Require Import ZArith List Lia.
From Verif Require Import Model.Core.

Section Iter.
Context {S R : Type}.
Variable step : S -> S + R.

Fixpoint iter_n (n : nat) (s : S) : S + R :=
  match n with
  | O => inl s
  | Datatypes.S n' => match step s with inl s' => iter_n n' s' | inr r => inr r end
  end.

Lemma iter_n_add a b s :
  iter_n (a + b) s = match iter_n a s with inl s' => iter_n b s' | inr r => inr r end.
Proof.
  revert s. induction a as [|a IH]; intros s; cbn; [reflexivity|].
  destruct (step s); auto.
Qed.

Lemma iter_pos_n p s : iter_pos p step s = iter_n (Pos.to_nat p) s.
Proof.
  revert s. induction p as [p IH|p IH|]; intros s; cbn [iter_pos].
  - rewrite Pos2Nat.inj_xI. cbn [iter_n]. destruct (step s) as [s0|r]; [|reflexivity].
    replace (2 * Pos.to_nat p)%nat with (Pos.to_nat p + Pos.to_nat p)%nat by lia.
    rewrite iter_n_add, (IH s0). destruct (iter_n _ s0); [apply IH|reflexivity].
  - rewrite Pos2Nat.inj_xO. replace (2 * Pos.to_nat p)%nat with (Pos.to_nat p + Pos.to_nat p)%nat by lia.
    rewrite iter_n_add, (IH s). destruct (iter_n _ s); [apply IH|reflexivity].
  - change (Pos.to_nat 1) with 1%nat. cbn [iter_n]. destruct (step s); reflexivity.
Qed.

Lemma iter_pos_done p k s r :
  (Z.of_nat k <= Z.pos p)%Z -> iter_n k s = inr r -> iter_pos p step s = inr r.
Proof.
  intros Hk E. rewrite iter_pos_n. replace (Pos.to_nat p) with (k + (Pos.to_nat p - k))%nat by lia.
  now rewrite iter_n_add, E.
Qed.

End Iter.
