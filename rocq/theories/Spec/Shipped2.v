(** * Three more of the programs shipped with the repository, as parsed JSON (C89, C90)

    Objects list their members by name, as nlohmann's [json] keeps them. *)

From Coq Require Import String ZArith Bool List.
From Verif Require Import Base.Num Model.Core Model.Json Spec.Streams Spec.Operators Spec.Join Spec.Windows.
Import ListNotations.
Open Scope string_scope.
Open Scope list_scope.
Open Scope Z_scope.

Section Shipped2.
Context {NO : NumOps}.

(** examples/data/program-test-2.json:1-45 *)
Definition maxima_definition : json :=
  JObj [
  ("apiVersion", JStr "v1");
  ("author", JStr "Eduardo");
  ("connections", JArr [
    JObj [("from", JStr "in1"); ("fromPort", JStr "o1"); ("to", JStr "peak"); ("toPort", JStr "i1")];
    JObj [("from", JStr "peak"); ("fromPort", JStr "o1"); ("to", JStr "join"); ("toPort", JStr "i1")];
    JObj [("from", JStr "in1"); ("fromPort", JStr "o1"); ("to", JStr "join"); ("toPort", JStr "i2")]]);
  ("date", JStr "now");
  ("description", JStr "This is a program to detect peaks");
  ("entryOperator", JStr "in1");
  ("license", JStr "MIT");
  ("operators", JArr [
    JObj [("id", JStr "in1"); ("type", JStr "Input")];
    JObj [("id", JStr "peak"); ("n", JInt 3); ("type", JStr "PeakDetector")];
    JObj [("id", JStr "join"); ("numPorts", JInt 2); ("type", JStr "Join")]]);
  ("title", JStr "Peak detector")].

(** examples/data/program-test-3.json:1-83 *)
Definition scales_definition : json :=
  JObj [
  ("apiVersion", JStr "v1");
  ("author", JStr "Eduardo");
  ("connections", JArr [
    JObj [("from", JStr "in1"); ("fromPort", JStr "o1"); ("to", JStr "id1"); ("toPort", JStr "i1")];
    JObj [("from", JStr "id1"); ("fromPort", JStr "o1"); ("to", JStr "join"); ("toPort", JStr "i1")];
    JObj [("from", JStr "id1"); ("fromPort", JStr "o1"); ("to", JStr "join"); ("toPort", JStr "i2")];
    JObj [("from", JStr "join"); ("fromPort", JStr "o1"); ("to", JStr "sc1"); ("toPort", JStr "i1")];
    JObj [("from", JStr "join"); ("fromPort", JStr "o2"); ("to", JStr "sc2"); ("toPort", JStr "i1")];
    JObj [("from", JStr "sc1"); ("fromPort", JStr "o1"); ("to", JStr "out1"); ("toPort", JStr "i1")];
    JObj [("from", JStr "sc2"); ("fromPort", JStr "o1"); ("to", JStr "out1"); ("toPort", JStr "i2")]]);
  ("date", JStr "now");
  ("description", JStr "This is a program to test the join operator");
  ("entryOperator", JStr "in1");
  ("license", JStr "MIT");
  ("operators", JArr [
    JObj [("id", JStr "in1"); ("type", JStr "Input")];
    JObj [("id", JStr "id1"); ("type", JStr "Identity")];
    JObj [("id", JStr "join"); ("numPorts", JInt 2); ("type", JStr "Join")];
    JObj [("id", JStr "sc1"); ("type", JStr "Scale"); ("value", JInt 2)];
    JObj [("id", JStr "sc2"); ("type", JStr "Scale"); ("value", JInt 3)];
    JObj [("id", JStr "out1"); ("numPorts", JInt 2); ("type", JStr "Output")]]);
  ("title", JStr "Join Operator Test")].

(** examples/data/program-test-4.json:1-178 *)
Definition switch_definition : json :=
  JObj [
  ("apiVersion", JStr "v1");
  ("author", JStr "Eduardo");
  ("connections", JArr [
    JObj [("from", JStr "in"); ("fromPort", JStr "o1"); ("to", JStr "dm"); ("toPort", JStr "i1")];
    JObj [("from", JStr "in"); ("fromPort", JStr "o1"); ("to", JStr "count"); ("toPort", JStr "i1")];
    JObj [("from", JStr "count"); ("fromPort", JStr "o1"); ("to", JStr "lt"); ("toPort", JStr "i1")];
    JObj [("from", JStr "count"); ("fromPort", JStr "o1"); ("to", JStr "gt"); ("toPort", JStr "i1")];
    JObj [("from", JStr "count"); ("fromPort", JStr "o1"); ("to", JStr "et"); ("toPort", JStr "i1")];
    JObj [("from", JStr "lt"); ("fromPort", JStr "o1"); ("to", JStr "clt20o"); ("toPort", JStr "i1")];
    JObj [("from", JStr "lt"); ("fromPort", JStr "o1"); ("to", JStr "clt20z"); ("toPort", JStr "i1")];
    JObj [("from", JStr "clt20o"); ("fromPort", JStr "o1"); ("to", JStr "dm"); ("toPort", JStr "c1")];
    JObj [("from", JStr "clt20z"); ("fromPort", JStr "o1"); ("to", JStr "dm"); ("toPort", JStr "c2")];
    JObj [("from", JStr "gt"); ("fromPort", JStr "o1"); ("to", JStr "cgt20o"); ("toPort", JStr "i1")];
    JObj [("from", JStr "gt"); ("fromPort", JStr "o1"); ("to", JStr "cgt20z"); ("toPort", JStr "i1")];
    JObj [("from", JStr "cgt20o"); ("fromPort", JStr "o1"); ("to", JStr "dm"); ("toPort", JStr "c2")];
    JObj [("from", JStr "cgt20z"); ("fromPort", JStr "o1"); ("to", JStr "dm"); ("toPort", JStr "c1")];
    JObj [("from", JStr "et"); ("fromPort", JStr "o1"); ("to", JStr "cet20z"); ("toPort", JStr "i1")];
    JObj [("from", JStr "et"); ("fromPort", JStr "o1"); ("to", JStr "cet20o"); ("toPort", JStr "i1")];
    JObj [("from", JStr "cet20z"); ("fromPort", JStr "o1"); ("to", JStr "dm"); ("toPort", JStr "c1")];
    JObj [("from", JStr "cet20o"); ("fromPort", JStr "o1"); ("to", JStr "dm"); ("toPort", JStr "c2")]]);
  ("date", JStr "now");
  ("description", JStr "This program is for testing the demultiplexer opperator");
  ("entryOperator", JStr "in");
  ("license", JStr "MIT");
  ("operators", JArr [
    JObj [("id", JStr "in"); ("type", JStr "Input")];
    JObj [("id", JStr "count"); ("type", JStr "Count")];
    JObj [("id", JStr "dm"); ("numPorts", JInt 2); ("type", JStr "Demultiplexer")];
    JObj [("id", JStr "lt"); ("type", JStr "LessThan"); ("value", JInt 20)];
    JObj [("id", JStr "gt"); ("type", JStr "GreaterThan"); ("value", JInt 20)];
    JObj [("id", JStr "et"); ("type", JStr "EqualTo"); ("value", JInt 20)];
    JObj [("id", JStr "clt20z"); ("type", JStr "Constant"); ("value", JInt 0)];
    JObj [("id", JStr "clt20o"); ("type", JStr "Constant"); ("value", JInt 1)];
    JObj [("id", JStr "cet20z"); ("type", JStr "Constant"); ("value", JInt 0)];
    JObj [("id", JStr "cet20o"); ("type", JStr "Constant"); ("value", JInt 1)];
    JObj [("id", JStr "cgt20z"); ("type", JStr "Constant"); ("value", JInt 0)];
    JObj [("id", JStr "cgt20o"); ("type", JStr "Constant"); ("value", JInt 1)];
    JObj [("id", JStr "out"); ("numPorts", JInt 2); ("type", JStr "Output")]]);
  ("title", JStr "Join eager Input test")].

(** ** What they compute *)

(** the messages that are the largest of three consecutive ones, in the middle *)
Definition maxima_of (x : list msg) : list msg := map middle (filter is_peak (windows 3 x)).

(** every value times [c] *)
Definition scaled (c : Z) (x : list msg) : list msg := map (fun m => mkMsg (mtime m) (vmul (mval m) (vofZ c))) x.

End Shipped2.
