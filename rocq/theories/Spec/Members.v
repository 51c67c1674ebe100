(** * What a definition says: the members that are read, and their defaults (C96) *)

From Coq Require Import String ZArith Bool List.
From Verif Require Import Base.StrMap Base.Num Model.Core Model.Graph Model.Json.
Import ListNotations.
Open Scope string_scope.
Open Scope list_scope.
Open Scope Z_scope.

Section Members.
Context {NO : NumOps}.

Definition one_of (names : list string) (s : string) : bool := existsb (String.eqb s) names.

(** the members of an operator of this type that mean something, besides its type and id *)
Definition parameters (type : string) : list string :=
  if one_of ["Input"; "Output"; "Demultiplexer"; "Join"] type then ["numPorts"]
  else if one_of ["CosineResampler"; "HermiteResampler"] type then ["dt"]
  else if one_of ["MovingAverage"; "StandardDeviation"; "PeakDetector"; "RelativeStrengthIndex"] type then ["n"]
  else if one_of ["FiniteImpulseResponse"; "Linear"; "AutoRegressive"] type then ["coeff"]
  else if one_of ["GreaterThan"; "LessThan"; "EqualTo"; "Scale"; "Constant"; "Add"; "Power"; "Variable"] type then ["value"]
  else if one_of ["ConstantResampler"] type then ["interval"]
  else if one_of ["TimeShift"] type then ["dt"; "times"]
  else if one_of ["Function"] type then ["points"]
  else if one_of ["Pipeline"] type then ["prog"]
  else [].

(** what stands for a parameter that is not given *)
Definition default (type key : string) : option json :=
  if one_of ["Input"; "Output"; "Demultiplexer"] type && one_of ["numPorts"] key then Some (JInt 1)
  else if one_of ["TimeShift"] type && one_of ["dt"; "times"] key then Some (JInt 1)
  else if one_of ["Variable"] type && one_of ["value"] key then Some (JInt 0)
  else None.

Definition given (key : string) (otherwise : option json) (m : list (string * json)) : option json :=
  match sfind key m with Some x => Some x | None => otherwise end.

(** two descriptions of the same operator *)
Definition same_operator (x y : json) : Prop :=
  x = y \/
  exists m m' type, x = JObj m /\ y = JObj m' /\
    sfind "type" m = Some (JStr type) /\ sfind "type" m' = Some (JStr type) /\
    sfind "id" m = sfind "id" m' /\
    forall key, In key (parameters type) -> given key (default type key) m = given key (default type key) m'.

(** two descriptions of the same connection *)
Definition same_connection (x y : json) : Prop :=
  x = y \/
  exists m m', x = JObj m /\ y = JObj m' /\
    (forall key, In key ["from"; "to"] -> sfind key m = sfind key m') /\
    (forall key, In key ["fromPort"; "toPort"] -> given key (Some (JStr "")) m = given key (Some (JStr "")) m').

(** two definitions with the same operators, connections and entry, in the same order *)
Definition same_definition (x y : json) : Prop :=
  exists m m' ops ops' conns conns', x = JObj m /\ y = JObj m' /\
    given "entryOperator" (Some (JStr "")) m = given "entryOperator" (Some (JStr "")) m' /\
    sfind "operators" m = Some (JArr ops) /\ sfind "operators" m' = Some (JArr ops') /\ Forall2 same_operator ops ops' /\
    sfind "connections" m = Some (JArr conns) /\ sfind "connections" m' = Some (JArr conns') /\ Forall2 same_connection conns conns'.

(** and the same output section *)
Definition same_output (x y : json) : Prop :=
  exists m m', x = JObj m /\ y = JObj m' /\ sfind "output" m = sfind "output" m'.

(** the members of a definition whose form is checked, besides its operators and connections *)
Definition checked : list string :=
  ["title"; "description"; "date"; "apiVersion"; "author"; "license"; "entryOperator"; "output"].
Definition same_header (x y : json) : Prop :=
  exists m m', x = JObj m /\ y = JObj m' /\ forall key, In key checked -> sfind key m = sfind key m'.

(** connections that have the members for their ends and no other *)
Definition only_ends (x : json) : Prop :=
  exists m conns, x = JObj m /\ sfind "connections" m = Some (JArr conns) /\
    Forall (fun c => forall mc, c = JObj mc -> forall key y, In (key, y) mc -> In key ["from"; "to"; "fromPort"; "toPort"]) conns.

(** programs that differ only in the text they were made from *)
Definition same_program (p q : program) : Prop :=
  p_ops p = p_ops q /\ p_entry p = p_entry q /\ p_filter p = p_filter q.

(** examples/data/debug-test.json:1-97 *)
Definition debug_definition : json :=
  JObj [
  ("apiVersion", JStr "v1");
  ("author", JStr "Someone <someone@gmail.com>");
  ("connections", JArr [
    JObj [("from", JStr "in1"); ("fromPort", JStr "o1"); ("to", JStr "ma1"); ("toPort", JStr "i1")];
    JObj [("from", JStr "ma1"); ("fromPort", JStr "o1"); ("to", JStr "minus"); ("toPort", JStr "i1")];
    JObj [("from", JStr "minus"); ("fromPort", JStr "o1"); ("to", JStr "peak"); ("toPort", JStr "i1")];
    JObj [("from", JStr "peak"); ("fromPort", JStr "o1"); ("to", JStr "join"); ("toPort", JStr "i1")];
    JObj [("from", JStr "join"); ("fromPort", JStr "o2"); ("to", JStr "out1"); ("toPort", JStr "i1")];
    JObj [("from", JStr "in1"); ("fromPort", JStr "o1"); ("to", JStr "ma2"); ("toPort", JStr "i1")];
    JObj [("from", JStr "ma2"); ("fromPort", JStr "o1"); ("to", JStr "minus"); ("toPort", JStr "i2")];
    JObj [("from", JStr "in1"); ("fromPort", JStr "o1"); ("to", JStr "join"); ("toPort", JStr "i2")]]);
  ("date", JStr "2002-02-02");
  ("description", JStr "This is a program to detect peaks in PPG...");
  ("entryOperator", JStr "in1");
  ("license", JStr "MIT");
  ("operators", JArr [
    JObj [("id", JStr "in1"); ("type", JStr "Input")];
    JObj [("id", JStr "ma1"); ("n", JInt 6); ("type", JStr "MovingAverage")];
    JObj [("id", JStr "ma2"); ("n", JInt 250); ("type", JStr "MovingAverage")];
    JObj [("id", JStr "minus"); ("policies", JObj [("i1", JObj [("eager", JBool false)])]); ("type", JStr "Minus")];
    JObj [("id", JStr "peak"); ("n", JInt 13); ("type", JStr "PeakDetector")];
    JObj [("id", JStr "join"); ("numPorts", JInt 2); ("policies", JObj [("i1", JObj [("eager", JBool false)])]); ("type", JStr "Join")];
    JObj [("id", JStr "out1"); ("numPorts", JInt 1); ("type", JStr "Output")]]);
  ("title", JStr "Peak detector")].

End Members.
