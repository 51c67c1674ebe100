(** * Operators that accept every message (C56) *)

From Coq Require Import String ZArith Bool List.
From Verif Require Import Base.StrMap Base.Num Model.Core Model.Ops Model.Graph Spec.Pipeline Spec.Bounds.
Import ListNotations.
Open Scope string_scope.
Open Scope list_scope.
Open Scope Z_scope.

Section Reliable.
Context {NO : NumOps}.

(** the inputs are declared to buffer at least [k] messages *)
Definition window_at_least (k : Z) (o : op) : Prop :=
  forall port q, sfind port (o_data (op_base o)) = Some q -> k <= ip_max q.

(** All types but Demultiplexer, Variable, AutoRegressive, Difference, Function and the three
    resamplers; a RelativeStrengthIndex is over at least one difference, a FiniteImpulseResponse
    has a coefficient, and the ids inside a Pipeline contain no ':' *)
Definition reliable (o : op) : Prop :=
  match op_kind o with
  | KInput _ _ | KOutput _ | KCollector | KJoin _ | KBinary _ | KLinear _ | KFilter _ _ | KAdd _ | KScale _
  | KPower _ | KConstant _ | KIdentity | KMovAvg | KStdDev | KPeak | KCount _ | KCumSum _ | KTimeShift _ _ => True
  | KFIR coeff => coeff <> []
  | KRSI _ _ _ _ _ => window_at_least 2 o
  | KPipeline _ ops _ _ _ => forall id, In id (skeys ops) -> has_colon id = false
  | _ => False
  end.

(** so are all operators of the program, those inside Pipelines included *)
Definition reliable_program (p : program) : Prop :=
  forall path o, lookup path (p_ops p) = Some o -> reliable o.

(** the messages of a call are for inputs which the entry operator has *)
Definition addressed (p : program) (batch : opmsg) : Prop :=
  forall port ms, In (port, ms) batch ->
    exists o, sfind (p_entry p) (p_ops p) = Some o /\ In port (skeys (o_data (op_base o))).

End Reliable.
