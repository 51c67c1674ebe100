(** * Two of the programs shipped with the repository, as parsed JSON

    Objects list their members by name, as nlohmann's [json] keeps them. *)

From Coq Require Import String ZArith Bool List.
From Verif Require Import Base.Num Model.Core Model.Json Spec.Streams Spec.Operators Spec.Join Spec.Windows.
Import ListNotations.
Open Scope string_scope.
Open Scope list_scope.
Open Scope Z_scope.

Section Shipped.
Context {NO : NumOps}.

(** examples/data/program-test-1.json:1-99 *)
Definition peaks_definition : json :=
  JObj [
  ("apiVersion", JStr "v1");
  ("author", JStr "Someone <someone@gmail.com>");
  ("connections", JArr [
    JObj [("from", JStr "in1"); ("fromPort", JStr "o1"); ("to", JStr "ma1"); ("toPort", JStr "i1")];
    JObj [("from", JStr "ma1"); ("fromPort", JStr "o1"); ("to", JStr "minus"); ("toPort", JStr "i1")];
    JObj [("from", JStr "minus"); ("fromPort", JStr "o1"); ("to", JStr "peak"); ("toPort", JStr "i1")];
    JObj [("from", JStr "peak"); ("fromPort", JStr "o1"); ("to", JStr "join"); ("toPort", JStr "i1")];
    JObj [("from", JStr "join"); ("fromPort", JStr "o2"); ("to", JStr "out1"); ("toPort", JStr "i1")];
    JObj [("from", JStr "in1"); ("fromPort", JStr "o1"); ("to", JStr "ma2"); ("toPort", JStr "i1")];
    JObj [("from", JStr "ma2"); ("fromPort", JStr "o1"); ("to", JStr "minus"); ("toPort", JStr "i2")];
    JObj [("from", JStr "in1"); ("fromPort", JStr "o1"); ("to", JStr "join"); ("toPort", JStr "i2")]]);
  ("date", JStr "1985-04-12");
  ("description", JStr "This is a program to detect peaks in PPG...");
  ("entryOperator", JStr "in1");
  ("license", JStr "MIT");
  ("operators", JArr [
    JObj [("id", JStr "in1"); ("type", JStr "Input")];
    JObj [("id", JStr "ma1"); ("n", JInt 6); ("type", JStr "MovingAverage")];
    JObj [("id", JStr "ma2"); ("n", JInt 250); ("type", JStr "MovingAverage")];
    JObj [("id", JStr "minus"); ("type", JStr "Minus")];
    JObj [("id", JStr "peak"); ("n", JInt 13); ("type", JStr "PeakDetector")];
    JObj [("id", JStr "join"); ("numPorts", JInt 2); ("type", JStr "Join")];
    JObj [("id", JStr "out1"); ("numPorts", JInt 1); ("type", JStr "Output")]]);
  ("output", JObj [("out1", JArr [JStr "o1"])]);
  ("title", JStr "Peak detector")].

(** examples/data/program-test-6.json:1-31 *)
Definition bands_definition : json :=
  JObj [
  ("apiVersion", JStr "v1");
  ("author", JStr "Eduardo");
  ("connections", JArr [
    JObj [("from", JStr "510"); ("fromPort", JStr "o1"); ("to", JStr "37"); ("toPort", JStr "i3")];
    JObj [("from", JStr "495"); ("fromPort", JStr "o1"); ("to", JStr "37"); ("toPort", JStr "i1")];
    JObj [("from", JStr "861"); ("fromPort", JStr "o1"); ("to", JStr "37"); ("toPort", JStr "i2")];
    JObj [("from", JStr "996"); ("fromPort", JStr "o1"); ("to", JStr "495"); ("toPort", JStr "i2")];
    JObj [("from", JStr "510"); ("fromPort", JStr "o1"); ("to", JStr "495"); ("toPort", JStr "i1")];
    JObj [("from", JStr "996"); ("fromPort", JStr "o1"); ("to", JStr "861"); ("toPort", JStr "i2")];
    JObj [("from", JStr "510"); ("fromPort", JStr "o1"); ("to", JStr "861"); ("toPort", JStr "i1")];
    JObj [("from", JStr "865"); ("fromPort", JStr "o1"); ("to", JStr "996"); ("toPort", JStr "i1")];
    JObj [("from", JStr "262"); ("fromPort", JStr "o1"); ("to", JStr "865"); ("toPort", JStr "i1")];
    JObj [("from", JStr "262"); ("fromPort", JStr "o1"); ("to", JStr "510"); ("toPort", JStr "i1")];
    JObj [("from", JStr "754"); ("fromPort", JStr "o1"); ("to", JStr "262"); ("toPort", JStr "i1")]]);
  ("date", JStr "now");
  ("description", JStr "This program is generated by the compiler, it represents the bollinger bands operator");
  ("entryOperator", JStr "754");
  ("operators", JArr [
    JObj [("id", JStr "37"); ("numPorts", JInt 3); ("type", JStr "Output")];
    JObj [("id", JStr "495"); ("type", JStr "Minus")];
    JObj [("id", JStr "861"); ("type", JStr "Plus")];
    JObj [("id", JStr "996"); ("type", JStr "Scale"); ("value", JInt 2)];
    JObj [("id", JStr "865"); ("n", JInt 14); ("type", JStr "StandardDeviation")];
    JObj [("id", JStr "510"); ("n", JInt 14); ("type", JStr "MovingAverage")];
    JObj [("dt", JInt 1); ("id", JStr "262"); ("type", JStr "HermiteResampler")];
    JObj [("id", JStr "754"); ("numPorts", JInt 1); ("type", JStr "Input")]]);
  ("output", JObj [("37", JArr [JStr "o2"; JStr "o1"; JStr "o3"])]);
  ("title", JStr "Bollinger Bands")].

(** ** What they compute *)

(** at every message that completes a group of 250: the mean of the last 6 values minus the mean of the 250 *)
Definition detrended (x : list msg) : list msg :=
  map (over (fun vs => vsub (mean (lastn 6 vs)) (mean vs))) (windows 250 x).
(** the messages of [x] at the times where [detrended x] has the largest of 13 consecutive values in the middle *)
Definition peaks_of (x : list msg) : list msg :=
  map (fun w => at_time x (mtime (middle w))) (filter is_peak (windows 13 (detrended x))).

(** the mean of 14 consecutive values, and the mean minus or plus two standard deviations *)
Definition middle_band (y : list msg) : list msg := map (over mean) (windows 14 y).
Definition lower_band (y : list msg) : list msg :=
  map (over (fun vs => vsub (mean vs) (vmul (deviation vs) (vofZ 2)))) (windows 14 y).
Definition upper_band (y : list msg) : list msg :=
  map (over (fun vs => vadd (mean vs) (vmul (deviation vs) (vofZ 2)))) (windows 14 y).

End Shipped.
