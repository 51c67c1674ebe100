(** * Programs in which every operator hears from at most one other *)

From Coq Require Import String Bool List Permutation.
From Verif Require Import Base.StrMap Base.Num Model.Core Model.Ops Model.Graph Spec.Log Spec.Definition.
Import ListNotations.
Open Scope string_scope.
Open Scope list_scope.

Section Forest.
Context {NO : NumOps}.

(** No operator is connected to two others' outputs, and no output port is connected twice to
    the same operator.  An operator may have several outputs, a port several connections, and two ports
    of one operator may lead to the same operator. *)
Definition forest (h : heap) : Prop :=
  (forall a a' b, wired h a b -> wired h a' b -> a = a') /\
  (forall a port, NoDup (map fst (wires h a port))).

(** The same operators in the same state with the same connections, except that the
    connections of a port may be in another order. *)
Definition reordered (h h' : heap) : Prop :=
  skeys h' = skeys h /\
  forall id o o', sfind id h = Some o -> sfind id h' = Some o' ->
    unwired o' = unwired o /\ forall port, Permutation (targets o port) (targets o' port).

End Forest.
