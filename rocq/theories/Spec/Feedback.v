(** * The generated program with feedback shipped with the repository, as parsed JSON (C91)

    Objects list their members by name, as nlohmann's [json] keeps them. *)

From Coq Require Import String ZArith Bool List.
From Verif Require Import Base.Num Model.Core Model.Json.
Import ListNotations.
Open Scope string_scope.
Open Scope list_scope.
Open Scope Z_scope.

Section Feedback.
Context {NO : NumOps}.

(** examples/data/program-test-5.json with [a] for 0.92857142857 and [b] for 0.07142857142 *)
Definition feedback_definition (a b : V) : json :=
  JObj [
  ("apiVersion", JStr "v1");
  ("author", JStr "Eduardo");
  ("connections", JArr [
    JObj [("from", JStr "911"); ("fromPort", JStr "o1"); ("to", JStr "467"); ("toPort", JStr "i1")];
    JObj [("from", JStr "216"); ("fromPort", JStr "o1"); ("to", JStr "911"); ("toPort", JStr "i1")];
    JObj [("from", JStr "232"); ("fromPort", JStr "o1"); ("to", JStr "216"); ("toPort", JStr "i1")];
    JObj [("from", JStr "420"); ("fromPort", JStr "o1"); ("to", JStr "232"); ("toPort", JStr "i1")];
    JObj [("from", JStr "287"); ("fromPort", JStr "o1"); ("to", JStr "420"); ("toPort", JStr "i1")];
    JObj [("from", JStr "130"); ("fromPort", JStr "o1"); ("to", JStr "287"); ("toPort", JStr "i2")];
    JObj [("from", JStr "876"); ("fromPort", JStr "o1"); ("to", JStr "287"); ("toPort", JStr "i2")];
    JObj [("from", JStr "746"); ("fromPort", JStr "o1"); ("to", JStr "287"); ("toPort", JStr "i1")];
    JObj [("from", JStr "946"); ("fromPort", JStr "o1"); ("to", JStr "287"); ("toPort", JStr "i1")];
    JObj [("from", JStr "130"); ("fromPort", JStr "o1"); ("to", JStr "837"); ("toPort", JStr "i1")];
    JObj [("from", JStr "177"); ("fromPort", JStr "o1"); ("to", JStr "130"); ("toPort", JStr "i2")];
    JObj [("from", JStr "855"); ("fromPort", JStr "o1"); ("to", JStr "130"); ("toPort", JStr "i2")];
    JObj [("from", JStr "572"); ("fromPort", JStr "o1"); ("to", JStr "130"); ("toPort", JStr "i2")];
    JObj [("from", JStr "837"); ("fromPort", JStr "o1"); ("to", JStr "130"); ("toPort", JStr "i1")];
    JObj [("from", JStr "746"); ("fromPort", JStr "o1"); ("to", JStr "717"); ("toPort", JStr "i1")];
    JObj [("from", JStr "177"); ("fromPort", JStr "o1"); ("to", JStr "746"); ("toPort", JStr "i2")];
    JObj [("from", JStr "136"); ("fromPort", JStr "o1"); ("to", JStr "746"); ("toPort", JStr "i2")];
    JObj [("from", JStr "794"); ("fromPort", JStr "o1"); ("to", JStr "746"); ("toPort", JStr "i2")];
    JObj [("from", JStr "717"); ("fromPort", JStr "o1"); ("to", JStr "746"); ("toPort", JStr "i1")];
    JObj [("from", JStr "876"); ("fromPort", JStr "o1"); ("to", JStr "837"); ("toPort", JStr "i1")];
    JObj [("from", JStr "946"); ("fromPort", JStr "o1"); ("to", JStr "717"); ("toPort", JStr "i1")];
    JObj [("from", JStr "342"); ("fromPort", JStr "o1"); ("to", JStr "855"); ("toPort", JStr "i1")];
    JObj [("from", JStr "764"); ("fromPort", JStr "o1"); ("to", JStr "177"); ("toPort", JStr "i1")];
    JObj [("from", JStr "342"); ("fromPort", JStr "o1"); ("to", JStr "136"); ("toPort", JStr "i1")];
    JObj [("from", JStr "794"); ("fromPort", JStr "o1"); ("to", JStr "572"); ("toPort", JStr "i1")];
    JObj [("from", JStr "887"); ("fromPort", JStr "o1"); ("to", JStr "342"); ("toPort", JStr "i1")];
    JObj [("from", JStr "887"); ("fromPort", JStr "o1"); ("to", JStr "764"); ("toPort", JStr "i1")];
    JObj [("from", JStr "887"); ("fromPort", JStr "o1"); ("to", JStr "794"); ("toPort", JStr "i1")];
    JObj [("from", JStr "144"); ("fromPort", JStr "o2"); ("to", JStr "887"); ("toPort", JStr "i1")];
    JObj [("from", JStr "996"); ("fromPort", JStr "o1"); ("to", JStr "876"); ("toPort", JStr "c1")];
    JObj [("from", JStr "861"); ("fromPort", JStr "o1"); ("to", JStr "876"); ("toPort", JStr "i1")];
    JObj [("from", JStr "649"); ("fromPort", JStr "o1"); ("to", JStr "876"); ("toPort", JStr "i1")];
    JObj [("from", JStr "996"); ("fromPort", JStr "o1"); ("to", JStr "946"); ("toPort", JStr "c1")];
    JObj [("from", JStr "861"); ("fromPort", JStr "o1"); ("to", JStr "946"); ("toPort", JStr "i1")];
    JObj [("from", JStr "654"); ("fromPort", JStr "o1"); ("to", JStr "946"); ("toPort", JStr "i1")];
    JObj [("from", JStr "138"); ("fromPort", JStr "o1"); ("to", JStr "649"); ("toPort", JStr "i1")];
    JObj [("from", JStr "58"); ("fromPort", JStr "o1"); ("to", JStr "654"); ("toPort", JStr "i1")];
    JObj [("from", JStr "28"); ("fromPort", JStr "o1"); ("to", JStr "138"); ("toPort", JStr "i1")];
    JObj [("from", JStr "416"); ("fromPort", JStr "o1"); ("to", JStr "138"); ("toPort", JStr "i1")];
    JObj [("from", JStr "180"); ("fromPort", JStr "o1"); ("to", JStr "416"); ("toPort", JStr "i1")];
    JObj [("from", JStr "28"); ("fromPort", JStr "o1"); ("to", JStr "58"); ("toPort", JStr "i1")];
    JObj [("from", JStr "806"); ("fromPort", JStr "o1"); ("to", JStr "58"); ("toPort", JStr "i1")];
    JObj [("from", JStr "34"); ("fromPort", JStr "o1"); ("to", JStr "180"); ("toPort", JStr "i1")];
    JObj [("from", JStr "34"); ("fromPort", JStr "o1"); ("to", JStr "28"); ("toPort", JStr "i1")];
    JObj [("from", JStr "34"); ("fromPort", JStr "o1"); ("to", JStr "806"); ("toPort", JStr "i1")];
    JObj [("from", JStr "144"); ("fromPort", JStr "o1"); ("to", JStr "34"); ("toPort", JStr "i1")];
    JObj [("from", JStr "98"); ("fromPort", JStr "o1"); ("to", JStr "144"); ("toPort", JStr "c2")];
    JObj [("from", JStr "434"); ("fromPort", JStr "o1"); ("to", JStr "144"); ("toPort", JStr "c2")];
    JObj [("from", JStr "37"); ("fromPort", JStr "o1"); ("to", JStr "144"); ("toPort", JStr "c1")];
    JObj [("from", JStr "283"); ("fromPort", JStr "o1"); ("to", JStr "144"); ("toPort", JStr "c1")];
    JObj [("from", JStr "754"); ("fromPort", JStr "o1"); ("to", JStr "144"); ("toPort", JStr "i1")];
    JObj [("from", JStr "996"); ("fromPort", JStr "o1"); ("to", JStr "98"); ("toPort", JStr "i1")];
    JObj [("from", JStr "495"); ("fromPort", JStr "o1"); ("to", JStr "98"); ("toPort", JStr "i1")];
    JObj [("from", JStr "510"); ("fromPort", JStr "o1"); ("to", JStr "434"); ("toPort", JStr "i1")];
    JObj [("from", JStr "996"); ("fromPort", JStr "o1"); ("to", JStr "283"); ("toPort", JStr "i1")];
    JObj [("from", JStr "510"); ("fromPort", JStr "o1"); ("to", JStr "283"); ("toPort", JStr "i1")];
    JObj [("from", JStr "865"); ("fromPort", JStr "o1"); ("to", JStr "37"); ("toPort", JStr "i1")];
    JObj [("from", JStr "865"); ("fromPort", JStr "o1"); ("to", JStr "495"); ("toPort", JStr "i1")];
    JObj [("from", JStr "262"); ("fromPort", JStr "o1"); ("to", JStr "861"); ("toPort", JStr "i1")];
    JObj [("from", JStr "262"); ("fromPort", JStr "o1"); ("to", JStr "996"); ("toPort", JStr "i1")];
    JObj [("from", JStr "262"); ("fromPort", JStr "o1"); ("to", JStr "865"); ("toPort", JStr "i1")];
    JObj [("from", JStr "262"); ("fromPort", JStr "o1"); ("to", JStr "510"); ("toPort", JStr "i1")];
    JObj [("from", JStr "754"); ("fromPort", JStr "o1"); ("to", JStr "262"); ("toPort", JStr "i1")]]);
  ("date", JStr "now");
  ("description", JStr "This program is generated by the compiler, it represents the rsi operator");
  ("entryOperator", JStr "754");
  ("operators", JArr [
    JObj [("id", JStr "467"); ("numPorts", JInt 1); ("type", JStr "Output")];
    JObj [("id", JStr "911"); ("type", JStr "Add"); ("value", JInt 100)];
    JObj [("id", JStr "216"); ("type", JStr "Scale"); ("value", JInt (-100))];
    JObj [("id", JStr "232"); ("type", JStr "Power"); ("value", JInt (-1))];
    JObj [("id", JStr "420"); ("type", JStr "Add"); ("value", JInt 1)];
    JObj [("id", JStr "287"); ("type", JStr "Division")];
    JObj [("coeff", JArr [JNum a; JNum b]); ("id", JStr "130"); ("type", JStr "Linear")];
    JObj [("coeff", JArr [JNum a; JNum b]); ("id", JStr "746"); ("type", JStr "Linear")];
    JObj [("dt", JInt 1); ("id", JStr "837"); ("times", JInt 1); ("type", JStr "TimeShift")];
    JObj [("dt", JInt 1); ("id", JStr "717"); ("times", JInt 1); ("type", JStr "TimeShift")];
    JObj [("id", JStr "855"); ("type", JStr "Scale"); ("value", JInt (-1))];
    JObj [("id", JStr "177"); ("type", JStr "Constant"); ("value", JInt 0)];
    JObj [("id", JStr "136"); ("type", JStr "Constant"); ("value", JInt 0)];
    JObj [("id", JStr "572"); ("type", JStr "Constant"); ("value", JInt 0)];
    JObj [("id", JStr "342"); ("type", JStr "LessThan"); ("value", JInt 0)];
    JObj [("id", JStr "764"); ("type", JStr "EqualTo"); ("value", JInt 0)];
    JObj [("id", JStr "794"); ("type", JStr "GreaterThan"); ("value", JInt 0)];
    JObj [("id", JStr "887"); ("type", JStr "Difference")];
    JObj [("id", JStr "876"); ("type", JStr "Variable"); ("value", JInt 0)];
    JObj [("id", JStr "946"); ("type", JStr "Variable"); ("value", JInt 0)];
    JObj [("id", JStr "649"); ("type", JStr "Scale"); ("value", JNum b)];
    JObj [("id", JStr "654"); ("type", JStr "Scale"); ("value", JNum b)];
    JObj [("id", JStr "138"); ("type", JStr "CumulativeSum")];
    JObj [("id", JStr "416"); ("type", JStr "Scale"); ("value", JInt (-1))];
    JObj [("id", JStr "58"); ("type", JStr "CumulativeSum")];
    JObj [("id", JStr "180"); ("type", JStr "LessThan"); ("value", JInt 0)];
    JObj [("id", JStr "28"); ("type", JStr "EqualTo"); ("value", JInt 0)];
    JObj [("id", JStr "806"); ("type", JStr "GreaterThan"); ("value", JInt 0)];
    JObj [("id", JStr "34"); ("type", JStr "Difference")];
    JObj [("id", JStr "144"); ("numPorts", JInt 2); ("type", JStr "Demultiplexer")];
    JObj [("id", JStr "98"); ("type", JStr "Constant"); ("value", JInt 1)];
    JObj [("id", JStr "434"); ("type", JStr "Constant"); ("value", JInt 0)];
    JObj [("id", JStr "283"); ("type", JStr "Constant"); ("value", JInt 1)];
    JObj [("id", JStr "37"); ("type", JStr "Constant"); ("value", JInt 0)];
    JObj [("id", JStr "495"); ("type", JStr "Constant"); ("value", JInt 1)];
    JObj [("id", JStr "861"); ("type", JStr "EqualTo"); ("value", JInt 16)];
    JObj [("id", JStr "996"); ("type", JStr "EqualTo"); ("value", JInt 15)];
    JObj [("id", JStr "865"); ("type", JStr "GreaterThan"); ("value", JInt 15)];
    JObj [("id", JStr "510"); ("type", JStr "LessThan"); ("value", JInt 15)];
    JObj [("id", JStr "262"); ("type", JStr "Count")];
    JObj [("id", JStr "754"); ("numPorts", JInt 1); ("type", JStr "Input")]]);
  ("output", JObj [("467", JArr [JStr "o1"])]);
  ("title", JStr "RSI")].

(** ** What it computes *)

Section Index.
(** the weights of the average so far and of the new value *)
Variables a b : V.

Fixpoint diffs (x : list msg) : list V :=
  match x with
  | p :: ((m :: _) as r) => vsub (mval m) (mval p) :: diffs r
  | _ => []
  end.

(** the gains and the losses of the first differences; a difference of zero is both *)
Definition ups (ds : list V) : list V := flat_map (fun d => if vlt v0 d || veq d v0 then [d] else []) ds.
Definition downs (ds : list V) : list V :=
  flat_map (fun d => if vlt d v0 then [vmul d (vofZ (-1))] else if veq d v0 then [d] else []) ds.
(** their sum times [b]; zero if there are none *)
Definition start (l : list V) : V := match l with [] => v0 | _ => vmul (fold_left vadd l v0) b end.

(** the gain and the loss of a later difference *)
Definition gain (d : V) : V := if vlt v0 d then d else v0.
Definition loss (d : V) : V := if vlt d v0 then vmul d (vofZ (-1)) else v0.
Definition smooth (average x : V) : V := vadd (vadd v0 (vmul average a)) (vmul x b).

(** 100 - 100 / (1 + g / l), as the program computes it *)
Definition index (g l : V) : V :=
  vadd (vmul (vpow (vadd (vdiv g l) (vofZ 1)) (vofZ (-1))) (vofZ (-100))) (vofZ 100).
(** nothing when the average loss is zero *)
Definition answer (t : Z) (g l : V) : list msg := if veq l v0 then [] else [mkMsg t (index g l)].

Fixpoint follow (g l : V) (p : msg) (x : list msg) : list msg :=
  match x with
  | [] => []
  | m :: x' =>
      let d := vsub (mval m) (mval p) in
      let g' := smooth g (gain d) in
      let l' := smooth l (loss d) in
      answer (mtime m) g' l' ++ follow g' l' m x'
  end.

(** the messages [x] from the fifteenth on *)
Definition strengths (x : list msg) : list msg :=
  match skipn 14 x with
  | [] => []
  | m :: rest =>
      let ds := diffs (firstn 15 x) in
      let g := start (ups ds) in
      let l := start (downs ds) in
      answer (mtime m) g l ++ follow g l m rest
  end.

(** the answer to the fifteenth message comes with the sixteenth, unless that message
    repeats the value before *)
Definition shown (x : list msg) : list msg :=
  match skipn 13 x with
  | [p; m] => if veq (vsub (mval m) (mval p)) v0 then strengths x else []
  | _ => strengths x
  end.

(** every difference is one of: negative, zero, positive *)
Definition comparable (d : V) : Prop :=
  (vlt d v0 = true /\ veq d v0 = false /\ vlt v0 d = false) \/
  (vlt d v0 = false /\ veq d v0 = true /\ vlt v0 d = false) \/
  (vlt d v0 = false /\ veq d v0 = false /\ vlt v0 d = true).

(** one message per unit of time *)
Fixpoint steady (x : list msg) : Prop :=
  match x with
  | p :: ((m :: _) as r) => mtime m = mtime p + 1 /\ steady r
  | _ => True
  end.
End Index.

End Feedback.
