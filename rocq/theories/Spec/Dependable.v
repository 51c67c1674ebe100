(** * Definitions that work from creation on (C98) *)

From Coq Require Import String ZArith Bool List.
From Verif Require Import Base.StrMap Base.Num Model.Core Model.Make Model.Codec Model.Json Model.Factory Model.Schema Spec.Schema.
Import ListNotations.
Open Scope string_scope.
Open Scope list_scope.
Open Scope Z_scope.

Section Dependable.
Context {NO : NumOps}.

(** all types of the schema but Demultiplexer, Variable, AutoRegressive, Difference, Function and
    the three resamplers *)
Definition dependable_types : list string :=
  ["Input"; "Output"; "Join"; "Linear"; "Minus"; "Plus"; "Multiplication"; "Division"; "And"; "Or";
   "GreaterThanStream"; "LessThanStream"; "GreaterThan"; "LessThan"; "EqualTo"; "Add"; "Scale"; "Power";
   "Constant"; "Identity"; "MovingAverage"; "StandardDeviation"; "PeakDetector"; "Count"; "CumulativeSum";
   "TimeShift"; "FiniteImpulseResponse"].

(** a FiniteImpulseResponse has a coefficient (the schema allows none) *)
Definition dependable (x : json) : Prop :=
  In (text_at "type" x) dependable_types /\
  (text_at "type" x = "FiniteImpulseResponse" -> list_at "coeff" x <> []).

(** the connections form no cycle: [rank] decreases along all of them *)
Definition downhill (rank : string -> nat) (c : json) : Prop :=
  (rank (text_at "to" c) < rank (text_at "from" c))%nat.

(** all messages of a call are for inputs of the operator that [e] describes *)
Definition for_inputs (e : json) (batch : opmsg) : Prop :=
  forall port ms, In (port, ms) batch -> In port (data_inputs e).

(** a call about the program that fits the operator that [e] describes: everything but creating it
    again or deleting it *)
Definition proper (e : json) (c : call) : Prop :=
  match c with
  | Add _ port _ => In port (data_inputs e)
  | ProcessMap _ _ batch => for_inputs e batch
  | ProcessBatch _ _ times values ports =>
      length times = length values /\ length times = length ports /\ Forall (fun port => In port (data_inputs e)) ports
  | Process _ _ | Serialize _ | GetEntry _ | GetEntryPorts _ | GetFilter _ => True
  | CreateText _ _ _ | CreateBytes _ _ _ | Delete _ => False
  end.

End Dependable.
