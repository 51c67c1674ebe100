(** * One input of a join leads: the others have its times *)

From Coq Require Import String ZArith List.
From Verif Require Import Base.Num Model.Core Spec.Streams.
Import ListNotations.
Open Scope Z_scope.

(** [other] has every time of [lead], but for those it has not reached yet *)
Definition keeps_up {NO : NumOps} (lead other : list msg) : Prop :=
  forall t, In t (times lead) -> In t (times other) \/ Forall (fun u => u < t) (times other).
