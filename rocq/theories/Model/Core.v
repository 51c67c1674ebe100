(** * Core data structures: outcomes, messages, ports, operators. *)

From Coq Require Import String ZArith Bool List.
From Verif Require Import Base.StrMap Base.Num.
Import ListNotations.
Open Scope string_scope.
Open Scope list_scope.
Open Scope Z_scope.

(** ** Outcome of a C++ call *)

Inductive exn : Type :=
| RuntimeError (what : string)      (* std::runtime_error *)
| OutOfRange                        (* std::out_of_range, from .at() *)
| LengthError                       (* a container grown beyond max_size() *)
| JsonError (what : string).        (* nlohmann::json exceptions *)

Inductive res (A : Type) : Type :=
| Ok (a : A)
| Throw (e : exn)                   (* an exception leaves the call *)
| UB                                (* undefined behaviour *)
| Diverges                          (* an inner loop never ends *)
| OutOfFuel.                        (* the recursion bound of the model was reached *)
Arguments Ok {A} a.
Arguments Throw {A} e.
Arguments UB {A}.
Arguments Diverges {A}.
Arguments OutOfFuel {A}.

Definition rbind {A B} (x : res A) (f : A -> res B) : res B :=
  match x with
  | Ok a => f a
  | Throw e => Throw e
  | UB => UB
  | Diverges => Diverges
  | OutOfFuel => OutOfFuel
  end.

(** Computations over a state that survives exceptions. *)
Definition sres (S A : Type) := (res A * S)%type.

Definition sbind {S S' A B} (x : sres S A) (k : A -> S -> sres S' B) (k' : S -> S') : sres S' B :=
  match x with
  | (Ok a, s) => k a s
  | (Throw e, s) => (Throw e, k' s)
  | (UB, s) => (UB, k' s)
  | (Diverges, s) => (Diverges, k' s)
  | (OutOfFuel, s) => (OutOfFuel, k' s)
  end.

Definition bind {S A B} (x : sres S A) (k : A -> S -> sres S B) : sres S B :=
  sbind x k (fun s => s).

Declare Scope rtbot_scope.
Delimit Scope rtbot_scope with rtbot.
Notation "'let!' x := e 'in' k" := (rbind e (fun x => k))
  (at level 200, x pattern, e at level 100, k at level 200, right associativity) : rtbot_scope.
Notation "'do!' ( x , s ) <- e ; k" := (bind e (fun x s => k))
  (at level 200, x name, s name, e at level 100, k at level 200, right associativity) : rtbot_scope.
Open Scope rtbot_scope.

(** a bounded loop with early exit: at most [p] steps; the bound is in binary so
    that 2^31 or 2^64 steps can be written down (and executed, if the loop ends
    early). [inl] = continue, [inr] = exit. *)
Fixpoint iter_pos {S R} (p : positive) (step : S -> S + R) (s : S) : S + R :=
  match p with
  | xH => step s
  | xO q => match iter_pos q step s with
            | inl s' => iter_pos q step s'
            | inr r => inr r
            end
  | xI q => match step s with
            | inl s0 => match iter_pos q step s0 with
                        | inl s' => iter_pos q step s'
                        | inr r => inr r
                        end
            | inr r => inr r
            end
  end.

Section Core.
Context {NO : NumOps}.

(** [struct Message] libs/core/include/rtbot/Message.h:14-22 (time, value) *)
Record msg := mkMsg { mtime : Z; mval : V }.

(** the value-initialised message returned by [return {};] *)
Definition msg0 : msg := mkMsg 0 v0.

(** PortMessage, OperatorMessage, ProgramMessage: Message.h:70-90 *)
Definition portmsg := list msg.
Definition opmsg := smap portmsg.
Definition progmsg := smap opmsg.

(** [Operator::Input] libs/core/include/rtbot/Operator.h:48-138 *)
Record inport := mkPort {
  ip_id : string;
  ip_max : Z;
  ip_sum : V;
  ip_data : list msg
}.

(** [Input::Input(id, max)] Operator.h:49-53; max 0 means "no bound" *)
Definition new_port (id : string) (max : Z) : inport :=
  mkPort id (if max =? 0 then two64 - 1 else max) v0 [].

(** [Input::size()] Operator.h:59 *)
Definition ip_size (p : inport) : Z := Z.of_nat (length (ip_data p)).

(** push_back followed by the sum update used by all receive functions
    (Operator.h:409-411, Join.h:37-39, Demultiplexer.h:36-38) *)
Definition ip_push (p : inport) (m : msg) : inport :=
  mkPort (ip_id p) (ip_max p) (vadd (ip_sum p) (mval m)) (ip_data p ++ [m]).

(** [setSum(getSum() - front().value); pop_front();] ([None]: the queue is empty, UB) *)
Definition ip_pop (p : inport) : option inport :=
  match ip_data p with
  | [] => None
  | m :: rest => Some (mkPort (ip_id p) (ip_max p) (vsub (ip_sum p) (mval m)) rest)
  end.

(** [pop_front()] alone (the sum is not updated) *)
Definition ip_drop (p : inport) : inport :=
  mkPort (ip_id p) (ip_max p) (ip_sum p) (tl (ip_data p)).

(** [front()]: undefined on an empty deque *)
Definition ip_front (p : inport) : option msg := hd_error (ip_data p).

(** The common part of an operator: fields of [Operator], Operator.h:140-145.
    Connections: destination operator id and input port. *)
Record base := mkBase {
  o_id : string;
  o_data : smap inport;
  o_ctrl : smap inport;
  o_outs : list string;
  o_conns : smap (list (string * string));
  o_toproc : list string
}.

Inductive binop := BPlus | BMinus | BMult | BDiv | BAnd | BOr | BGreater | BLess.
Inductive filterop := FGreater | FLess | FEqual.
Inductive interp := ILinear | IHermite.

(** Operator kinds with their own parameters and state.
    [KPipeline]: [all_op], [inputs] ("id:port" -> operator id), [outputs], [portsMap]
    of libs/api/include/rtbot/Pipeline.h:15-17; its inner operators are a nested heap
    (they only ever point to each other).  [p_json] is the text of the inner program. *)
Inductive op : Type :=
| Op (b : base) (k : kind)
with kind : Type :=
| KInput (portsMap : smap string) (lastSent : smap msg)
| KOutput (portsMap : smap string)
| KCollector
| KJoin (controlMap : smap string)
| KBinary (f : binop)
| KLinear (coeff : list V)
| KDemux (controlMap : smap string)
| KFilter (f : filterop) (value : V)
| KAdd (value : V)
| KScale (value : V)
| KPower (value : V)
| KConstant (value : V)
| KIdentity
| KMovAvg
| KStdDev
| KFIR (coeff : list V)
| KAutoReg (coeff : list V)
| KPeak
| KCount (count : Z)
| KCumSum (accumulated : V)
| KDifference (useOldestTime : bool)
| KTimeShift (dt times : Z)
| KConstResampler (dt nextEmit : Z) (initiated : bool) (lastValue : V)
| KCosineResampler (dt carryOver : Z)
| KHermiteResampler (dt carryOver : Z) (before : option msg)
| KFunction (points : list (V * V)) (type : interp)
| KVariable (value : V) (initialized : bool)
| KRSI (averageGain averageLoss prevAverageGain prevAverageLoss : V) (initialized : bool)
| KPipeline (p_json : string) (all_op : list (string * op))
            (inputs outputs : smap string) (p_portsMap : smap string).

Definition op_base (o : op) : base := let 'Op b _ := o in b.
Definition op_kind (o : op) : kind := let 'Op _ k := o in k.

Definition set_data (b : base) (d : smap inport) : base :=
  mkBase (o_id b) d (o_ctrl b) (o_outs b) (o_conns b) (o_toproc b).
Definition set_ctrl (b : base) (c : smap inport) : base :=
  mkBase (o_id b) (o_data b) c (o_outs b) (o_conns b) (o_toproc b).
Definition set_toproc (b : base) (t : list string) : base :=
  mkBase (o_id b) (o_data b) (o_ctrl b) (o_outs b) (o_conns b) t.
Definition set_conns (b : base) (c : smap (list (string * string))) : base :=
  mkBase (o_id b) (o_data b) (o_ctrl b) (o_outs b) c (o_toproc b).
Definition set_outs (b : base) (outs : list string) : base :=
  mkBase (o_id b) (o_data b) (o_ctrl b) outs (o_conns b) (o_toproc b).

(** [typeName()] of each class *)
Definition type_name (k : kind) : string :=
  match k with
  | KInput _ _ => "Input"
  | KOutput _ => "Output"
  | KCollector => "Collector"
  | KJoin _ => "Join"
  | KBinary BPlus => "Plus"
  | KBinary BMinus => "Minus"
  | KBinary BMult => "Multiplication"
  | KBinary BDiv => "Division"
  | KBinary BAnd => "And"
  | KBinary BOr => "Or"
  | KBinary BGreater => "GreaterThanStream"
  | KBinary BLess => "LessThanStream"
  | KLinear _ => "Linear"
  | KDemux _ => "Demultiplexer"
  | KFilter FGreater _ => "GreaterThan"
  | KFilter FLess _ => "LessThan"
  | KFilter FEqual _ => "EqualTo"
  | KAdd _ => "Add"
  | KScale _ => "Scale"
  | KPower _ => "Power"
  | KConstant _ => "Constant"
  | KIdentity => "Identity"
  | KMovAvg => "MovingAverage"
  | KStdDev => "StandardDeviation"
  | KFIR _ => "FiniteImpulseResponse"
  | KAutoReg _ => "AutoRegressive"
  | KPeak => "PeakDetector"
  | KCount _ => "Count"
  | KCumSum _ => "CumulativeSum"
  | KDifference _ => "Difference"
  | KTimeShift _ _ => "TimeShift"
  | KConstResampler _ _ _ _ => "ConstantResampler"
  | KCosineResampler _ _ => "CosineResampler"
  | KHermiteResampler _ _ _ => "HermiteResampler"
  | KFunction _ _ => "Function"
  | KVariable _ _ => "Variable"
  | KRSI _ _ _ _ _ => "RelativeStrengthIndex"
  | KPipeline _ _ _ _ _ => "Pipeline"
  end.

End Core.
