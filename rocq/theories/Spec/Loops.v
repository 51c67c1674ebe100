(** * Definitions whose connections form a loop (C30) *)

From Coq Require Import String ZArith Bool List.
From Verif Require Import Base.StrMap Base.Num Model.Core Model.Graph Model.Json Spec.Definition.
Import ListNotations.
Open Scope string_scope.
Open Scope list_scope.

Section Loops.
Context {NO : NumOps}.

(** the types that answer each message at once *)
Definition always_answers : list string :=
  ["Add"; "Scale"; "Power"; "Constant"; "Identity"; "Count"; "CumulativeSum"; "TimeShift"; "Function"].

(** operators of these types, each connected to one of them: following the connections never
    leaves the list, so there is a cycle in it *)
Definition a_loop (ops : heap) (conns : list connection) (loop : list string) : Prop :=
  forall a, In a loop ->
    (exists o, sfind a ops = Some o /\ In (type_name (op_kind o)) always_answers) /\
    (exists c, In c conns /\ c_from c = a /\ In (c_to c) loop).

End Loops.
