(** * What a program definition asks for *)

From Coq Require Import String ZArith Bool List.
From Verif Require Import Base.StrMap Base.Num Model.Core Model.Ops Model.Make Model.Graph Model.Json.
Import ListNotations.
Open Scope string_scope.
Open Scope list_scope.
Open Scope rtbot_scope.

Section Definition_.
Context {NO : NumOps} {JT : JsonText}.

(** ** The lists of a definition *)
Definition operators_of (g : string -> junk) (j : json) : res heap :=
  let! xs := jat "operators" j in read_ops (read_op g) (jitems xs) [].
Definition connections_of (j : json) : res (list connection) :=
  let! cs := jat "connections" j in map_res conn_of (jitems cs).

(** ** Which port a connection means *)

(** the named output, or the only one when none is named *)
Definition output_choice (outputs : list string) (named port : string) : Prop :=
  (named <> "" /\ port = named /\ In named outputs) \/ (named = "" /\ outputs = [port] /\ port <> "").

(** the named input (data or control), or the only one when none is named *)
Definition input_choice (data control : list string) (named port : string) : Prop :=
  (named <> "" /\ port = named /\ In named (data ++ control)) \/
  (named = "" /\ data = [port] /\ control = [] /\ port <> "").

Definition chooses (from to : op) (fromPort toPort : string) (ports : string * string) : Prop :=
  output_choice (o_outs (op_base from)) fromPort (fst ports) /\
  input_choice (skeys (o_data (op_base to))) (skeys (o_ctrl (op_base to))) toPort (snd ports).

(** a listed connection resolves to an output and an input port *)
Definition resolves (h : heap) (c : connection) (ports : string * string) : Prop :=
  exists from to, sfind (c_from c) h = Some from /\ sfind (c_to c) h = Some to /\
    chooses from to (c_fromPort c) (c_toPort c) ports.

(** ** The wires *)

(** where an operator sends what it emits on a port *)
Definition targets (o : op) (port : string) : list (string * string) :=
  match sfind port (o_conns (op_base o)) with Some l => l | None => [] end.

(** the listed connections that leave port [port] of operator [id], in their order *)
Definition listed (id port : string) (l : list (connection * (string * string))) : list (string * string) :=
  map (fun x => (c_to (fst x), snd (snd x)))
    (filter (fun x => String.eqb (c_from (fst x)) id && String.eqb (fst (snd x)) port) l).

(** the operator without its connections *)
Definition unwired (o : op) : op := let 'Op b k := o in Op (set_conns b []) k.

(** ** Definitions of single operators *)

(** {"type": ty, "id": id, and the further members} *)
Definition definition (ty id : string) (l : list (string * json)) : json :=
  jobj (("type", JStr ty) :: ("id", JStr id) :: l).

Open Scope Z_scope.

(** the operator a definition describes *)
Inductive meant (id : string) : string -> list (string * json) -> res op -> Prop :=
| Mt_input n : 0 <= n < 2 ^ 31 - 1 -> meant id "Input" [("numPorts", JInt n)] (mk_input id (Z.to_nat n))
| Mt_output n : 0 <= n < 2 ^ 31 - 1 -> meant id "Output" [("numPorts", JInt n)] (mk_output id (Z.to_nat n))
| Mt_demux n : 0 <= n < 2 ^ 31 - 1 -> meant id "Demultiplexer" [("numPorts", JInt n)] (mk_demux id (Z.to_nat n))
| Mt_join n : 0 <= n < 2 ^ 31 - 1 -> meant id "Join" [("numPorts", JInt n)] (mk_join id (Z.to_nat n))
| Mt_cosine dt : 0 <= dt < two64 -> meant id "CosineResampler" [("dt", JInt dt)] (mk_cosine id dt)
| Mt_hermite dt : 0 <= dt < two64 -> meant id "HermiteResampler" [("dt", JInt dt)] (mk_hermite id dt)
| Mt_movavg n : 0 <= n < two64 -> meant id "MovingAverage" [("n", JInt n)] (mk_movavg id n)
| Mt_stddev n : 0 <= n < two64 -> meant id "StandardDeviation" [("n", JInt n)] (mk_stddev id n)
| Mt_peak n : 0 <= n < two64 -> meant id "PeakDetector" [("n", JInt n)] (mk_peak id n)
| Mt_fir c : meant id "FiniteImpulseResponse" [("coeff", JArr (map JNum c))] (mk_fir id c)
| Mt_linear c : meant id "Linear" [("coeff", JArr (map JNum c))] (mk_linear id c)
| Mt_autoreg c : meant id "AutoRegressive" [("coeff", JArr (map JNum c))] (mk_autoreg id c)
| Mt_minus : meant id "Minus" [] (mk_binary id BMinus)
| Mt_plus : meant id "Plus" [] (mk_binary id BPlus)
| Mt_mult : meant id "Multiplication" [] (mk_binary id BMult)
| Mt_div : meant id "Division" [] (mk_binary id BDiv)
| Mt_and : meant id "And" [] (mk_binary id BAnd)
| Mt_or : meant id "Or" [] (mk_binary id BOr)
| Mt_greater_stream : meant id "GreaterThanStream" [] (mk_binary id BGreater)
| Mt_less_stream : meant id "LessThanStream" [] (mk_binary id BLess)
| Mt_greater v : meant id "GreaterThan" [("value", JNum v)] (mk_filter id FGreater v)
| Mt_less v : meant id "LessThan" [("value", JNum v)] (mk_filter id FLess v)
| Mt_equal v : meant id "EqualTo" [("value", JNum v)] (mk_filter id FEqual v)
| Mt_scale v : meant id "Scale" [("value", JNum v)] (mk_scale id v)
| Mt_constant v : meant id "Constant" [("value", JNum v)] (mk_constant id v)
| Mt_add v : meant id "Add" [("value", JNum v)] (mk_add id v)
| Mt_power v : meant id "Power" [("value", JNum v)] (mk_power id v)
| Mt_cumsum : meant id "CumulativeSum" [] (mk_cumsum id)
| Mt_count : meant id "Count" [] (mk_count id)
| Mt_difference : meant id "Difference" [] (mk_difference id true)
| Mt_identity : meant id "Identity" [] (mk_identity id)
| Mt_variable v : meant id "Variable" [("value", JNum v)] (mk_variable id v)
| Mt_timeshift dt times : 0 <= dt < two64 -> - 2 ^ 31 <= times < 2 ^ 31 ->
    meant id "TimeShift" [("dt", JInt dt); ("times", JInt times)] (mk_timeshift id dt times)
(* parameters left out: the defaults of Input.md, Output.md, Demultiplexer.md, Variable.md, TimeShift.md *)
| Mt_input_0 : meant id "Input" [] (mk_input id 1)
| Mt_output_0 : meant id "Output" [] (mk_output id 1)
| Mt_demux_0 : meant id "Demultiplexer" [] (mk_demux id 1)
| Mt_variable_0 : meant id "Variable" [] (mk_variable id (vofZ 0))
| Mt_timeshift_0 : meant id "TimeShift" [] (mk_timeshift id 1 1)
| Mt_timeshift_dt dt : 0 <= dt < two64 -> meant id "TimeShift" [("dt", JInt dt)] (mk_timeshift id dt 1)
| Mt_timeshift_times times : - 2 ^ 31 <= times < 2 ^ 31 ->
    meant id "TimeShift" [("times", JInt times)] (mk_timeshift id 1 times).

(** the parameters which the code narrows to [int] are in range and whole *)
Definition narrow (ty : string) (l : list (string * json)) : Prop :=
  match ty, l with
  | "Variable", [(_, JNum v)] => exists z, - 2 ^ 31 <= z < 2 ^ 31 /\ v = vofZ z
  | "TimeShift", ("dt", JInt dt) :: _ => dt < 2 ^ 31
  | _, _ => True
  end.

End Definition_.
