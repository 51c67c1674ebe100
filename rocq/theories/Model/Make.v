(** * Construction of operators: the C++ constructors, and [connect]. *)

From Coq Require Import String Ascii ZArith Bool List Decimal DecimalString.
From Verif Require Import Base.StrMap Base.Num Model.Core Model.Ops.
Import ListNotations.
Open Scope string_scope.
Open Scope list_scope.
Open Scope Z_scope.
Open Scope rtbot_scope.

(** [std::to_string] on a non-negative integer *)
Definition string_of_nat (n : nat) : string := NilEmpty.string_of_uint (Nat.to_uint n).
Definition iport (n : nat) : string := ("i" ++ string_of_nat n)%string.
Definition oport (n : nat) : string := ("o" ++ string_of_nat n)%string.
Definition cport (n : nat) : string := ("c" ++ string_of_nat n)%string.
#[global] Arguments iport n : simpl never.
#[global] Arguments oport n : simpl never.
#[global] Arguments cport n : simpl never.

Section Make.
Context {NO : NumOps}.

(** [Operator(id)] Operator.h:281 *)
Definition base0 (id : string) : base := mkBase id [] [] [] [] [].

(** [addDataInput] Operator.h:518-527 *)
Definition add_data (b : base) (port : string) (max : Z) : res base :=
  if String.eqb port "" then Throw (RuntimeError "input port have to be specified")
  else if shas port (o_data b) || shas port (o_ctrl b)
  then Throw (RuntimeError "refers to an already existing input port")
  else Ok (set_data b (semplace port (new_port port max) (o_data b))).

(** [addControlInput] Operator.h:529-538 *)
Definition add_ctrl (b : base) (port : string) (max : Z) : res base :=
  if String.eqb port "" then Throw (RuntimeError "control port have to be specified")
  else if shas port (o_data b) || shas port (o_ctrl b)
  then Throw (RuntimeError "refers to an already existing input port")
  else Ok (set_ctrl b (semplace port (new_port port max) (o_ctrl b))).

(** [addOutput] Operator.h:566-569 *)
Definition add_out (b : base) (port : string) : base := set_outs b (sset_add port (o_outs b)).

(** the constructors' loops [for (int i = 1; i <= numPorts; i++)]; [ks] is [1..numPorts]
    (port counts are assumed to be below 2^31) *)
Fixpoint add_ports (ks : list nat) (max : Z) (outs : bool) (b : base) : res base :=
  match ks with
  | [] => Ok b
  | i :: ks' =>
      let! b1 := add_data b (iport i) max in
      add_ports ks' max outs (if outs then add_out b1 (oport i) else b1)
  end.

Fixpoint add_ctrls (ks : list nat) (b : base) : res base :=
  match ks with
  | [] => Ok b
  | i :: ks' =>
      let! b1 := add_ctrl b (cport i) 0 in
      add_ctrls ks' (add_out b1 (oport i))
  end.

Definition port_map (from : nat -> string) (n : nat) : smap string :=
  fold_left (fun m i => semplace (from i) (oport i) m) (seq 1 n) [].

(** one input [i1] of the given size, one output [o1] *)
Definition simple_base (id : string) (max : Z) : res base :=
  let! b := add_data (base0 id) "i1" max in Ok (add_out b "o1").

(** Input.h:15-23 *)
Definition mk_input (id : string) (n : nat) : res op :=
  let! b := add_ports (seq 1 n) 1 true (base0 id) in Ok (Op b (KInput (port_map iport n) [])).

(** Output.h:19-27 *)
Definition mk_output (id : string) (n : nat) : res op :=
  let! b := add_ports (seq 1 n) 1 true (base0 id) in Ok (Op b (KOutput (port_map iport n))).

(** Collector.h:11 *)
Definition mk_collector (id : string) (n : Z) : res op :=
  let! b := add_data (base0 id) "i1" n in Ok (Op b KCollector).

(** Join.h:15-26 *)
Definition mk_join (id : string) (n : nat) : res op :=
  if Nat.ltb n 2 then Throw (RuntimeError "number of ports have to be greater than or equal 2")
  else let! b := add_ports (seq 1 n) 0 true (base0 id) in Ok (Op b (KJoin (port_map iport n))).

(** BinaryJoin.h:16-24 *)
Definition mk_binary (id : string) (f : binop) : res op :=
  let! b := add_ports (seq 1 2) 0 false (base0 id) in Ok (Op (add_out b "o1") (KBinary f)).

(** Linear.h:14-23 *)
Definition mk_linear (id : string) (coeff : list V) : res op :=
  if Nat.ltb (length coeff) 2 then Throw (RuntimeError "number of ports have to be greater than or equal 2")
  else let! b := add_ports (seq 1 (length coeff)) 0 false (base0 id) in
       Ok (Op (add_out b "o1") (KLinear coeff)).

(** Demultiplexer.h:12-24 *)
Definition mk_demux (id : string) (n : nat) : res op :=
  if Nat.ltb n 1 then Throw (RuntimeError "number of output ports have to be greater than or equal 1")
  else let! b := add_ctrls (seq 1 n) (base0 id) in
       let! b := add_data b "i1" 0 in
       Ok (Op b (KDemux (port_map cport n))).

Definition mk_simple (id : string) (max : Z) (k : kind) : res op :=
  let! b := simple_base id max in Ok (Op b k).

(** FilterByValue.h:17-21 *)
Definition mk_filter (id : string) (f : filterop) (v : V) : res op := mk_simple id 1 (KFilter f v).
(** Add.h:13-17, Scale.h:14-18, Power.h:16-20, Constant.h:13-17, Identity.h:14-17 *)
Definition mk_add (id : string) (v : V) : res op := mk_simple id 1 (KAdd v).
Definition mk_scale (id : string) (v : V) : res op := mk_simple id 1 (KScale v).
Definition mk_power (id : string) (v : V) : res op := mk_simple id 1 (KPower v).
Definition mk_constant (id : string) (v : V) : res op := mk_simple id 1 (KConstant v).
Definition mk_identity (id : string) : res op := mk_simple id 1 KIdentity.
(** MovingAverage.h:14-17, StandardDeviation.h:18-21, PeakDetector.h:14-17 *)
Definition mk_movavg (id : string) (n : Z) : res op := mk_simple id n KMovAvg.
Definition mk_stddev (id : string) (n : Z) : res op := mk_simple id n KStdDev.
Definition mk_peak (id : string) (n : Z) : res op := mk_simple id n KPeak.
(** FiniteImpulseResponse.h:14-18, AutoRegressive.h:16-20 *)
Definition mk_fir (id : string) (c : list V) : res op := mk_simple id (Z.of_nat (length c)) (KFIR c).
Definition mk_autoreg (id : string) (c : list V) : res op := mk_simple id (Z.of_nat (length c)) (KAutoReg c).
(** Count.h:16-20, CumulativeSum.h:16-20, Difference.h:14-18, TimeShift.h:16-21 *)
Definition mk_count (id : string) : res op := mk_simple id 1 (KCount 0).
Definition mk_cumsum (id : string) : res op := mk_simple id 1 (KCumSum v0).
Definition mk_difference (id : string) (u : bool) : res op := mk_simple id 2 (KDifference u).
Definition mk_timeshift (id : string) (dt times : Z) : res op := mk_simple id 1 (KTimeShift dt times).
(** ConstantResampler.h:19-26; nextEmit and lastValue are not initialised by the C++
    constructor: they are parameters here *)
Definition mk_constres (id : string) (dt garbage_next : Z) (garbage_last : V) : res op :=
  if dt <=? 0 then Throw (RuntimeError "time interval must be positive")
  else mk_simple id 1 (KConstResampler dt garbage_next false garbage_last).
(** CosineResampler.h:22-27, HermiteResampler.h:23-28 *)
Definition mk_cosine (id : string) (dt : Z) : res op := mk_simple id 2 (KCosineResampler dt 0).
Definition mk_hermite (id : string) (dt : Z) : res op := mk_simple id 4 (KHermiteResampler dt 0 None).

(** [pair::operator<] on points *)
Definition point_lt (p q : V * V) : bool :=
  vlt (fst p) (fst q) || (negb (vlt (fst q) (fst p)) && vlt (snd p) (snd q)).

(** [std::sort(points.begin(), points.end())] Function.h:26, as an insertion sort *)
Fixpoint insert_point (p : V * V) (l : list (V * V)) : list (V * V) :=
  match l with
  | [] => [p]
  | q :: l' => if point_lt q p then q :: insert_point p l' else p :: l
  end.
Definition sort_points (l : list (V * V)) : list (V * V) := fold_right insert_point [] l.

(** Function.h:21-39 *)
Definition mk_function (id : string) (points : list (V * V)) (ty : string) : res op :=
  if Nat.ltb (length points) 2
  then Throw (RuntimeError "at least 2 points are required for interpolation")
  else if String.eqb ty "linear" then mk_simple id 1 (KFunction (sort_points points) ILinear)
  else if String.eqb ty "hermite" then mk_simple id 1 (KFunction (sort_points points) IHermite)
  else Throw (RuntimeError "invalid interpolation type").

(** Variable.h:15-21 *)
Definition mk_variable (id : string) (v : V) : res op :=
  let! b := add_data (base0 id) "i1" 0 in
  let! b := add_ctrl b "c1" 1 in
  Ok (Op (add_out b "o1") (KVariable v false)).

(** RelativeStrengthIndex.h:16-19; the averages are not initialised by the constructor and
    never read before being written, they are parameters here ([n + 1] is a size_t) *)
Definition mk_rsi (id : string) (n : Z) (g1 g2 g3 g4 : V) : res op :=
  mk_simple id (wrap (n + 1)) (KRSI g1 g2 g3 g4 false).

(** ** [connect] Operator.h:599-631.  [Ok None] is the [nullptr] result. *)

Definition all_inputs (b : base) : list string := skeys (o_data b) ++ skeys (o_ctrl b).

Definition connect (src child : op) (childId outPort inPort : string) : res (option op) :=
  let 'Op b k := src in
  let out := o_outs b in
  let ins := all_inputs (op_base child) in
  let outPort :=
    if String.eqb outPort "" then match out with [o] => o | _ => outPort end else outPort in
  let inPort :=
    if String.eqb inPort ""
    then match ins with
         | [i] => if shas i (o_data (op_base child)) then i else inPort
         | _ => inPort
         end
    else inPort in
  if String.eqb inPort "" then
    Throw (RuntimeError "input port found empty and could not be deducted")
  else if String.eqb outPort "" then
    Throw (RuntimeError "output port found empty and could not be deducted")
  else if sset_mem outPort out && sset_mem inPort ins then
    let old := match sfind outPort (o_conns b) with Some l => l | None => [] end in
    Ok (Some (Op (set_conns b (sset outPort (old ++ [(childId, inPort)]) (o_conns b))) k))
  else Ok None.

End Make.
