(** * The program of the Fibonacci notebook, as parsed JSON (C93)

    Objects list their members by name, as nlohmann's [json] keeps them. *)

From Coq Require Import String ZArith Bool List.
From Verif Require Import Base.StrMap Base.Num Model.Core Model.Json.
Import ListNotations.
Open Scope string_scope.
Open Scope list_scope.
Open Scope Z_scope.

Section Fibonacci.
Context {NO : NumOps}.

(** examples/notebook/Fibonacci.ipynb, first cell: what [Program.toJson] of
    libs/wrappers/python/rtbot.py gives for the operators and connections added there *)
Definition fibonacci_definition : json :=
  JObj [
  ("apiVersion", JStr "v1");
  ("connections", JArr [
    JObj [("from", JStr "in1"); ("fromPort", JStr "o1"); ("to", JStr "count1"); ("toPort", JStr "i1")];
    JObj [("from", JStr "in1"); ("fromPort", JStr "o1"); ("to", JStr "demul1"); ("toPort", JStr "i1")];
    JObj [("from", JStr "count1"); ("fromPort", JStr "o1"); ("to", JStr "eq1"); ("toPort", JStr "i1")];
    JObj [("from", JStr "count1"); ("fromPort", JStr "o1"); ("to", JStr "eq2"); ("toPort", JStr "i1")];
    JObj [("from", JStr "count1"); ("fromPort", JStr "o1"); ("to", JStr "gt1"); ("toPort", JStr "i1")];
    JObj [("from", JStr "eq1"); ("fromPort", JStr "o1"); ("to", JStr "constc1eq1"); ("toPort", JStr "i1")];
    JObj [("from", JStr "eq1"); ("fromPort", JStr "o1"); ("to", JStr "constc2eq1"); ("toPort", JStr "i1")];
    JObj [("from", JStr "eq2"); ("fromPort", JStr "o1"); ("to", JStr "constc1eq2"); ("toPort", JStr "i1")];
    JObj [("from", JStr "eq2"); ("fromPort", JStr "o1"); ("to", JStr "constc2eq2"); ("toPort", JStr "i1")];
    JObj [("from", JStr "constc1eq1"); ("fromPort", JStr "o1"); ("to", JStr "demul1"); ("toPort", JStr "c1")];
    JObj [("from", JStr "constc2eq1"); ("fromPort", JStr "o1"); ("to", JStr "demul1"); ("toPort", JStr "c2")];
    JObj [("from", JStr "constc1eq2"); ("fromPort", JStr "o1"); ("to", JStr "demul1"); ("toPort", JStr "c1")];
    JObj [("from", JStr "constc2eq2"); ("fromPort", JStr "o1"); ("to", JStr "demul1"); ("toPort", JStr "c2")];
    JObj [("from", JStr "demul1"); ("fromPort", JStr "o1"); ("to", JStr "dt2"); ("toPort", JStr "i1")];
    JObj [("from", JStr "demul1"); ("fromPort", JStr "o2"); ("to", JStr "dt1"); ("toPort", JStr "i1")];
    JObj [("from", JStr "dt1"); ("fromPort", JStr "o1"); ("to", JStr "constdt1"); ("toPort", JStr "i1")];
    JObj [("from", JStr "dt2"); ("fromPort", JStr "o1"); ("to", JStr "constdt2"); ("toPort", JStr "i1")];
    JObj [("from", JStr "constdt1"); ("fromPort", JStr "o1"); ("to", JStr "varn_1"); ("toPort", JStr "i1")];
    JObj [("from", JStr "constdt2"); ("fromPort", JStr "o1"); ("to", JStr "varn_2"); ("toPort", JStr "i1")];
    JObj [("from", JStr "gt1"); ("fromPort", JStr "o1"); ("to", JStr "varn_1"); ("toPort", JStr "c1")];
    JObj [("from", JStr "gt1"); ("fromPort", JStr "o1"); ("to", JStr "varn_2"); ("toPort", JStr "c1")];
    JObj [("from", JStr "varn_1"); ("fromPort", JStr "o1"); ("to", JStr "plus1"); ("toPort", JStr "i2")];
    JObj [("from", JStr "varn_2"); ("fromPort", JStr "o1"); ("to", JStr "plus1"); ("toPort", JStr "i1")];
    JObj [("from", JStr "plus1"); ("fromPort", JStr "o1"); ("to", JStr "dt3"); ("toPort", JStr "i1")];
    JObj [("from", JStr "plus1"); ("fromPort", JStr "o1"); ("to", JStr "dt4"); ("toPort", JStr "i1")];
    JObj [("from", JStr "dt3"); ("fromPort", JStr "o1"); ("to", JStr "varn_1"); ("toPort", JStr "i1")];
    JObj [("from", JStr "dt4"); ("fromPort", JStr "o1"); ("to", JStr "varn_2"); ("toPort", JStr "i1")]]);
  ("description", JStr "Computes the Fibonnaci sequence");
  ("operators", JArr [
    JObj [("id", JStr "in1"); ("numPorts", JInt 1); ("type", JStr "Input")];
    JObj [("id", JStr "count1"); ("type", JStr "Count")];
    JObj [("id", JStr "eq1"); ("type", JStr "EqualTo"); ("value", JInt 1)];
    JObj [("id", JStr "eq2"); ("type", JStr "EqualTo"); ("value", JInt 2)];
    JObj [("id", JStr "gt1"); ("type", JStr "GreaterThan"); ("value", JInt 2)];
    JObj [("id", JStr "demul1"); ("numPorts", JInt 2); ("type", JStr "Demultiplexer")];
    JObj [("id", JStr "constc1eq1"); ("type", JStr "Constant"); ("value", JInt 1)];
    JObj [("id", JStr "constc2eq1"); ("type", JStr "Constant"); ("value", JInt 0)];
    JObj [("id", JStr "constc1eq2"); ("type", JStr "Constant"); ("value", JInt 1)];
    JObj [("id", JStr "constc2eq2"); ("type", JStr "Constant"); ("value", JInt 1)];
    JObj [("dt", JInt 1); ("id", JStr "dt1"); ("times", JInt 1); ("type", JStr "TimeShift")];
    JObj [("dt", JInt 1); ("id", JStr "dt2"); ("times", JInt 2); ("type", JStr "TimeShift")];
    JObj [("id", JStr "constdt1"); ("type", JStr "Constant"); ("value", JInt 1)];
    JObj [("id", JStr "constdt2"); ("type", JStr "Constant"); ("value", JInt 1)];
    JObj [("id", JStr "varn_2"); ("type", JStr "Variable"); ("value", JInt 0)];
    JObj [("id", JStr "varn_1"); ("type", JStr "Variable"); ("value", JInt 0)];
    JObj [("dt", JInt 1); ("id", JStr "dt3"); ("times", JInt 1); ("type", JStr "TimeShift")];
    JObj [("dt", JInt 1); ("id", JStr "dt4"); ("times", JInt 2); ("type", JStr "TimeShift")];
    JObj [("id", JStr "plus1"); ("type", JStr "Plus")]]);
  ("title", JStr "Fibonnaci")].

(** the same with the member "entryOperator" *)
Definition with_entry (id : string) (j : json) : json :=
  match j with JObj l => JObj (sset "entryOperator" (JStr id) l) | _ => j end.

(** ** What it should answer *)

(** 1, 1, 2, 3, 5, … *)
Fixpoint fib (n : nat) : V :=
  match n with
  | O => vofZ 1
  | S m => match m with O => vofZ 1 | S l => vadd (fib l) (fib m) end
  end.

(** the messages that follow the time [t] one apart, up to the first gap *)
Fixpoint unbroken (t : Z) (x : list msg) : list msg :=
  match x with
  | [] => []
  | m :: x' => if mtime m =? t + 1 then m :: unbroken (mtime m) x' else []
  end.

(** the numbers from the [n]-th on, at the times of the messages [x] *)
Fixpoint numbers (n : nat) (x : list msg) : list msg :=
  match x with
  | [] => []
  | m :: x' => mkMsg (mtime m) (fib n) :: numbers (S n) x'
  end.

Definition shown (x : list msg) : list msg :=
  match x with
  | _ :: m2 :: x' => numbers 2 (unbroken (mtime m2) x')
  | _ => []
  end.

(** the messages that a call can never use again, but which the program keeps *)
Definition kept (x : list msg) : list msg := skipn 2 x.

End Fibonacci.

(** the Fibonacci numbers *)
Fixpoint fibonacci (n : nat) : Z :=
  match n with
  | O => 1
  | S m => match m with O => 1 | S l => fibonacci l + fibonacci m end
  end.
