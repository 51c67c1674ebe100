(** * Definitions of programs as a user writes them: operators with their ports, connections *)

From Coq Require Import String ZArith Bool List.
From Verif Require Import Base.StrMap Base.Num Model.Core Model.Make Model.Codec Model.Json Model.Factory Model.Schema.
Import ListNotations.
Open Scope string_scope.
Open Scope list_scope.
Open Scope Z_scope.

Section Schema.
Context {NO : NumOps}.

(** the member [key] of an object *)
Definition member (key : string) (x : json) : option json :=
  match x with JObj m => sfind key m | _ => None end.
Definition text_at (key : string) (x : json) : string :=
  match member key x with Some (JStr s) => s | _ => "" end.
Definition list_at (key : string) (x : json) : list json :=
  match member key x with Some (JArr l) => l | _ => [] end.

(** ** The ports of the operator that a definition describes *)

(** a number, or the length of a list *)
Definition count (key : string) (default : nat) (x : json) : nat :=
  match member key x with
  | Some (JInt z) => Z.to_nat z
  | Some (JArr l) => length l
  | _ => default
  end.

Definition numbered (letter : string) (n : nat) : list string :=
  map (fun k => (letter ++ string_of_nat k)%string) (seq 1 n).

Definition data_inputs (x : json) : list string :=
  match text_at "type" x with
  | "Input" | "Output" | "Join" => numbered "i" (count "numPorts" 1 x)
  | "Linear" => numbered "i" (count "coeff" 0 x)
  | "Minus" | "Plus" | "Multiplication" | "Division" | "And" | "Or" | "GreaterThanStream" | "LessThanStream" =>
      ["i1"; "i2"]
  | _ => ["i1"]
  end.
Definition control_inputs (x : json) : list string :=
  match text_at "type" x with
  | "Variable" => ["c1"]
  | "Demultiplexer" => numbered "c" (count "numPorts" 1 x)
  | _ => []
  end.
Definition outputs (x : json) : list string :=
  match text_at "type" x with
  | "Input" | "Output" | "Join" | "Demultiplexer" => numbered "o" (count "numPorts" 1 x)
  | _ => ["o1"]
  end.

(** ** Operators that can be created.  The schema says less: it does not require "numPorts" of a
    Join and "coeff" of a Linear, has no upper bounds, and no Function can be created (C43). *)

(** a number that fits: written as an integer, or a number in the range of [int] *)
Definition number_fits (x : json) : Prop :=
  match x with
  | JInt _ => True
  | JNum v => exists z, vtoT v = Some z /\ z < 2 ^ 31
  | _ => False
  end.
Definition if_given (key : string) (P : json -> Prop) (x : json) : Prop :=
  match member key x with Some y => P y | None => True end.
(** less than 2^31-1 ports *)
Definition few_ports (x : json) : Prop :=
  match x with JInt n => 0 <= n < 2 ^ 31 - 1 | _ => False end.

Definition ready (x : json) : Prop :=
  match text_at "type" x with
  | "Function" => False
  | "Join" => member "numPorts" x <> None /\ if_given "numPorts" few_ports x
  | "Input" | "Output" | "Demultiplexer" => if_given "numPorts" few_ports x
  | "Linear" => member "coeff" x <> None
  | "ConstantResampler" => if_given "interval" (fun y => exists z, y = JInt z) x
  | "MovingAverage" | "StandardDeviation" | "PeakDetector" => if_given "n" number_fits x
  | "CosineResampler" | "HermiteResampler" => if_given "dt" number_fits x
  | "TimeShift" => if_given "dt" number_fits x /\ if_given "times" number_fits x
  | "Variable" => if_given "value" number_fits x
  | _ => True
  end.

(** ** Connections *)

(** the first operator with this id; the others are ignored *)
Definition described (ops : list json) (id : string) : option json :=
  find (fun x => String.eqb id (text_at "id" x)) ops.

(** a port may be left out when there is only one *)
Definition names_output (port : string) (x : json) : Prop :=
  if String.eqb port "" then exists p, outputs x = [p] else In port (outputs x).
Definition names_input (port : string) (x : json) : Prop :=
  if String.eqb port "" then exists p, data_inputs x = [p] /\ control_inputs x = []
  else In port (data_inputs x ++ control_inputs x).

Definition linked (ops : list json) (c : json) : Prop :=
  exists a b, described ops (text_at "from" c) = Some a /\ described ops (text_at "to" c) = Some b /\
    names_output (text_at "fromPort" c) a /\ names_input (text_at "toPort" c) b.

(** ** Operators whose written form the schema describes: it has no RelativeStrengthIndex and no
    Pipeline, LessThan takes whole numbers only, minima are checked as [int64_t] *)
Definition in_schema {SL : SchemaLib} (o : op) : Prop :=
  match op_kind o with
  | KRSI _ _ _ _ _ | KPipeline _ _ _ _ _ => False
  | KInput _ _ | KOutput _ => o_data (op_base o) <> []
  | KAutoReg c => c <> []
  | KFilter FLess v => exists z, whole v = Some z
  | KTimeShift dt _ => 1 <= dt < 2 ^ 63
  | KConstResampler dt _ _ _ => dt < 2 ^ 63
  | _ => True
  end.

(** ** Histories of calls *)

(** everything but the creation of a program from an invalid definition *)
Definition accepted {SL : SchemaLib} {JT : JsonText} (c : call) : bool :=
  match c with
  | CreateText _ _ text => match validate text with Ok b => b | _ => true end
  | _ => true
  end.
(** the calls with their replies *)
Definition with_replies {A} (cs : list call) (rs : list A) : list (call * A) := combine cs rs.

Definition from_bytes (c : call) : bool := match c with CreateBytes _ _ _ => true | _ => false end.

End Schema.
