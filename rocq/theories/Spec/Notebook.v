(** * The program of the peak detection notebook, as parsed JSON (C94)

    Objects list their members by name, as nlohmann's [json] keeps them. *)

From Coq Require Import String ZArith Bool List.
From Verif Require Import Base.Num Model.Core Model.Json Spec.Streams Spec.Operators Spec.Join Spec.Windows.
Import ListNotations.
Open Scope string_scope.
Open Scope list_scope.
Open Scope Z_scope.

Section Notebook.
Context {NO : NumOps}.

(** examples/notebook/rtbot_peak_detection.ipynb, first code cell: what [Program.toJson] of
    libs/wrappers/python/rtbot.py gives for the operators and connections added there; the sizes
    of the windows, 20, 200 and 13 in the notebook, are parameters *)
Definition notebook_definition (a b c : nat) : json :=
  JObj [
  ("apiVersion", JStr "v1");
  ("author", JStr "user");
  ("connections", JArr [
    JObj [("from", JStr "in1"); ("fromPort", JStr "o1"); ("to", JStr "ma1"); ("toPort", JStr "i1")];
    JObj [("from", JStr "ma1"); ("fromPort", JStr "o1"); ("to", JStr "minus"); ("toPort", JStr "i1")];
    JObj [("from", JStr "minus"); ("fromPort", JStr "o1"); ("to", JStr "peak"); ("toPort", JStr "i1")];
    JObj [("from", JStr "peak"); ("fromPort", JStr "o1"); ("to", JStr "join"); ("toPort", JStr "i1")];
    JObj [("from", JStr "join"); ("fromPort", JStr "o2"); ("to", JStr "out1"); ("toPort", JStr "i1")];
    JObj [("from", JStr "in1"); ("fromPort", JStr "o1"); ("to", JStr "ma2"); ("toPort", JStr "i1")];
    JObj [("from", JStr "ma2"); ("fromPort", JStr "o1"); ("to", JStr "minus"); ("toPort", JStr "i2")];
    JObj [("from", JStr "in1"); ("fromPort", JStr "o1"); ("to", JStr "join"); ("toPort", JStr "i2")]]);
  ("license", JStr "MIT");
  ("operators", JArr [
    JObj [("id", JStr "in1"); ("numPorts", JInt 1); ("type", JStr "Input")];
    JObj [("id", JStr "ma1"); ("n", JInt (Z.of_nat a)); ("type", JStr "MovingAverage")];
    JObj [("id", JStr "ma2"); ("n", JInt (Z.of_nat b)); ("type", JStr "MovingAverage")];
    JObj [("id", JStr "minus"); ("type", JStr "Minus")];
    JObj [("id", JStr "peak"); ("n", JInt (Z.of_nat c)); ("type", JStr "PeakDetector")];
    JObj [("id", JStr "join"); ("numPorts", JInt 2); ("type", JStr "Join")];
    JObj [("id", JStr "out1"); ("numPorts", JInt 1); ("type", JStr "Output")]]);
  ("title", JStr "test")].

(** ** What it computes *)

(** at every message that completes a group of [b]: the mean of the last [a] values minus the mean of the group *)
Definition trendless (a b : nat) (x : list msg) : list msg :=
  map (over (fun vs => vsub (mean (lastn a vs)) (mean vs))) (windows b x).
(** the messages of [x] at the times where this has the largest of [c] consecutive values in the middle *)
Definition tops (a b c : nat) (x : list msg) : list msg :=
  map (fun w => at_time x (mtime (middle w))) (filter is_peak (windows c (trendless a b x))).

End Notebook.
