(** * The operator classes of the Python and JavaScript packages as documented *)

From Coq Require Import String ZArith Bool List.
From Verif Require Import Base.StrMap Base.Num Model.Core Model.Make Model.Codec Model.Json Model.Factory Model.Schema Model.Wrapper.
From Verif Require Import Spec.Definition Spec.Schema.
Import ListNotations.
Open Scope string_scope.
Open Scope list_scope.
Open Scope Z_scope.

Section Classes.
Context {NO : NumOps}.

(** the documented parameters of a type after its id, with their default values *)
Definition documented (ty : string) : list (string * option json) :=
  match ty with
  | "Input" | "Output" | "Demultiplexer" => [("numPorts", Some (JInt 1))]
  | "Join" => [("numPorts", Some (JInt 2))]
  | "Variable" => [("value", Some (JInt 0))]
  | "TimeShift" => [("dt", Some (JInt 1)); ("times", Some (JInt 1))]
  | "ConstantResampler" => [("interval", None)]
  | "CosineResampler" | "HermiteResampler" => [("dt", None)]
  | "MovingAverage" | "StandardDeviation" | "PeakDetector" => [("n", None)]
  | "LessThan" | "GreaterThan" | "EqualTo" | "Constant" | "Scale" | "Add" | "Power" => [("value", None)]
  | "AutoRegressive" | "FiniteImpulseResponse" | "Linear" => [("coeff", None)]
  | "Function" => [("points", None)]
  | _ => []
  end.

(** the types that have a class *)
Definition has_class (ty : string) : Prop :=
  In ty ["Input"; "Output"; "Join"; "Demultiplexer"; "Variable"; "Identity"; "ConstantResampler"; "StandardDeviation";
         "HermiteResampler"; "CumulativeSum"; "LessThan"; "Or"; "EqualTo"; "Constant"; "MovingAverage"; "AutoRegressive";
         "Division"; "And"; "GreaterThanStream"; "Function"; "Scale"; "Plus"; "LessThanStream"; "Difference"; "PeakDetector";
         "Multiplication"; "TimeShift"; "Minus"; "CosineResampler"; "FiniteImpulseResponse"; "Linear"; "Count"; "Add"; "Power";
         "GreaterThan"].

(** the arguments that were given, and the default values of the others *)
Definition completed (ty : string) (l : list (string * json)) : list (string * json) :=
  flat_map (fun kd => match sfind (fst kd) l, snd kd with
                      | Some v, _ => [(fst kd, v)]
                      | None, Some v => [(fst kd, v)]
                      | None, None => []
                      end) (documented ty).

(** the documented ranges of the parameters *)
Definition in_range_of {SL : SchemaLib} (ty : string) (l : list (string * json)) : Prop :=
  match ty, l with
  | "Input", [(_, JInt n)] | "Output", [(_, JInt n)] | "Demultiplexer", [(_, JInt n)] => 1 <= n
  | "Join", [(_, JInt n)] => 2 <= n
  | "Linear", [(_, JArr c)] => (2 <= length c)%nat
  | "AutoRegressive", [(_, JArr c)] => c <> []
  | "LessThan", [(_, JNum v)] => exists z, whole v = Some z
  | "TimeShift", ("dt", JInt dt) :: _ => 1 <= dt
  | _, _ => True
  end.

(** JSON that survives being written by Python and read by the library *)
Definition readable {JT : JsonText} {PJ : PyJson} (x : json) : Prop := parse (py_dumps x) = Ok x.

(** numbers that the library can use, as in [ready] of Spec/Schema.v; nothing is asked to be present *)
Definition sized (x : json) : Prop :=
  match text_at "type" x with
  | "Function" => False
  | "Input" | "Output" | "Demultiplexer" | "Join" => if_given "numPorts" few_ports x
  | "ConstantResampler" => if_given "interval" (fun y => exists z, y = JInt z) x
  | "MovingAverage" | "StandardDeviation" | "PeakDetector" => if_given "n" number_fits x
  | "CosineResampler" | "HermiteResampler" => if_given "dt" number_fits x
  | "TimeShift" => if_given "dt" number_fits x /\ if_given "times" number_fits x
  | "Variable" => if_given "value" number_fits x
  | _ => True
  end.

End Classes.
