(** * Program definitions: JSON values, reading and writing operators, [Program::init] and the
      constructor of [Pipeline] (libs/api/src/{FactoryOp,Program,Pipeline}.cpp).

    The text level is nlohmann::json's [parse] and [dump], which are parameters here
    ([JsonText]).  The C++ code parses the definition, dumps each operator's value and parses
    it again ([readOp(x.dump())]); the model hands over the value itself, that is it takes
    [parse (dump x) = x] for granted there.  Strings are assumed to be valid UTF-8 ([dump]
    throws otherwise). *)

From Coq Require Import String Ascii ZArith Bool List.
From Verif Require Import Base.StrMap Base.Num Model.Core Model.Ops Model.Make Model.Run Model.Graph.
Import ListNotations.
Open Scope string_scope.
Open Scope list_scope.
Open Scope Z_scope.
Open Scope rtbot_scope.

Section Json.
Context {NO : NumOps}.

(** nlohmann::json values.  [JInt] is number_integer or number_unsigned (-2^63 .. 2^64-1),
    [JNum] is number_float; an object is a std::map. *)
Inductive json : Type :=
| JNull
| JBool (b : bool)
| JInt (z : Z)
| JNum (v : V)
| JStr (s : string)
| JArr (l : list json)
| JObj (m : list (string * json)).

(** [json::parse(text)] (it throws on malformed text) and [value.dump()] *)
Class JsonText := {
  parse : string -> res json;
  dump : json -> string
}.

(** nesting of arrays and objects *)
Fixpoint jdepth (j : json) : nat :=
  match j with
  | JArr l => S ((fix go (l : list json) := match l with [] => O | x :: r => Nat.max (jdepth x) (go r) end) l)
  | JObj m =>
      S ((fix go (m : list (string * json)) :=
            match m with [] => O | (_, x) :: r => Nat.max (jdepth x) (go r) end) m)
  | _ => O
  end.

(** ** Access, as nlohmann::json 3 does it *)

(** a parse_error, distinguished from the other exceptions of the library because
    [createProgram] catches it (FactoryOp.cpp:444-454) *)
Definition parse_error : exn := JsonError "parse_error".
Definition type_error : exn := JsonError "type_error".

(** [j[key]] on a const value: a missing key is undefined behaviour, a value that is not an
    object throws type_error *)
Definition jindex (key : string) (j : json) : res json :=
  match j with
  | JObj m => match sfind key m with Some x => Ok x | None => UB end
  | _ => Throw type_error
  end.

(** [j.at(key)] *)
Definition jat (key : string) (j : json) : res json :=
  match j with
  | JObj m => match sfind key m with Some x => Ok x | None => Throw (JsonError "out_of_range") end
  | _ => Throw type_error
  end.

(** [j[i]] on a const array *)
Definition jnth (i : nat) (j : json) : res json :=
  match j with
  | JArr l => match nth_error l i with Some x => Ok x | None => UB end
  | _ => Throw type_error
  end.

(** [j.get<string>()] *)
Definition get_str (j : json) : res string :=
  match j with JStr s => Ok s | _ => Throw type_error end.

(** [j.get<uint64_t>()], [j.get<size_t>()]: integers are cast, out of range doubles are
    undefined, booleans are rejected *)
Definition get_u64 (j : json) : res Z :=
  match j with
  | JInt z => Ok (wrap z)
  | JNum v => match vtoT v with Some z => Ok z | None => UB end
  | _ => Throw type_error
  end.

(** two's complement truncation to [int] *)
Definition wrap32 (z : Z) : Z := (z + 2 ^ 31) mod 2 ^ 32 - 2 ^ 31.

(** conversion of a double to [int] *)
Definition int_of_V (v : V) : res Z :=
  match vtoT v with
  | Some z => if z <? 2 ^ 31 then Ok z else UB
  | None => match vtoT (vneg v) with
            | Some z => if z <=? 2 ^ 31 then Ok (- z) else UB
            | None => UB
            end
  end.

(** [j.get<int>()]: also accepts booleans *)
Definition get_int (j : json) : res Z :=
  match j with
  | JInt z => Ok (wrap32 z)
  | JNum v => int_of_V v
  | JBool b => Ok (if b then 1 else 0)
  | _ => Throw type_error
  end.

(** [j.get<double>()] *)
Definition get_V (j : json) : res V :=
  match j with
  | JInt z => Ok (vofZ z)
  | JNum v => Ok v
  | _ => Throw type_error
  end.

Section MapRes.
Context {A B : Type} (f : A -> res B).
Fixpoint map_res (l : list A) : res (list B) :=
  match l with
  | [] => Ok []
  | x :: r => let! y := f x in let! ys := map_res r in Ok (y :: ys)
  end.
End MapRes.

(** [j.get<vector<double>>()], [j.get<vector<string>>()] *)
Definition get_Vs (j : json) : res (list V) :=
  match j with JArr l => map_res get_V l | _ => Throw type_error end.
Definition get_strs (j : json) : res (list string) :=
  match j with JArr l => map_res get_str l | _ => Throw type_error end.

(** [j.value(key, default)] *)
Definition jvalue {A} (get : json -> res A) (key : string) (default : A) (j : json) : res A :=
  match j with
  | JObj m => match sfind key m with Some x => get x | None => Ok default end
  | _ => Throw type_error
  end.

(** [for (x : j)]: elements of an array, values of an object; null has none, any other value
    is its own only element *)
Definition jitems (j : json) : list json :=
  match j with
  | JArr l => l
  | JObj m => map snd m
  | JNull => []
  | _ => [j]
  end.

(** ** Operators *)

(** contents of the members which constructors leave uninitialised, by operator id *)
Record junk := mkJunk { junk_t : Z; junk_1 : V; junk_2 : V; junk_3 : V; junk_4 : V }.

(** a number of ports as [size_t]; the constructors' [for (int i = 1; i <= numPorts; i++)]
    overflows for 2^31-1 ports and more (this includes negative numbers given as [int]) *)
Definition ports_of (z : Z) : res nat :=
  if (0 <=? z) && (z <? 2 ^ 31 - 1) then Ok (Z.to_nat z) else UB.

Definition id_of (j : json) : res string := let! x := jindex "id" j in get_str x.
Definition V_of (key : string) (j : json) : res V := let! x := jindex key j in get_V x.
Definition Vs_of (key : string) (j : json) : res (list V) := let! x := jindex key j in get_Vs x.
Definition u64_of (key : string) (j : json) : res Z := let! x := jindex key j in get_u64 x.

(** the points of a Function, FactoryOp.cpp:418-422 *)
Definition point_of (j : json) : res (V * V) :=
  let! x := jnth 0 j in let! a := get_V x in
  let! y := jnth 1 j in let! b := get_V y in Ok (a, b).

(** the [from_json] functions, FactoryOp.cpp:52-428, of all operators but Pipeline; [None]: the
    type is not in the registry (FactoryOp.cpp:458-496).  The uninitialised members [g] are those
    of the operator with the id in question. *)
Definition from_json (g : string -> junk) (type : string) (j : json) : option (res op) :=
  let with_id (k : string -> res op) := Some (let! id := id_of j in k id) in
  let simple mk := with_id mk in
  let value mk := with_id (fun id => let! v := V_of "value" j in mk id v) in
  let coeff mk := with_id (fun id => let! c := Vs_of "coeff" j in mk id c) in
  let u64 key mk := with_id (fun id => let! n := u64_of key j in mk id n) in
  let ports mk := with_id (fun id => let! z := jvalue get_int "numPorts" 1 j in let! n := ports_of z in mk id n) in
  if String.eqb type "Input" then ports mk_input
  else if String.eqb type "Output" then ports mk_output
  else if String.eqb type "Demultiplexer" then ports mk_demux
  else if String.eqb type "Join" then u64 "numPorts" (fun id z => let! n := ports_of z in mk_join id n)
  else if String.eqb type "CosineResampler" then u64 "dt" mk_cosine
  else if String.eqb type "HermiteResampler" then u64 "dt" mk_hermite
  else if String.eqb type "MovingAverage" then u64 "n" mk_movavg
  else if String.eqb type "StandardDeviation" then u64 "n" mk_stddev
  else if String.eqb type "PeakDetector" then u64 "n" mk_peak
  else if String.eqb type "RelativeStrengthIndex" then
    u64 "n" (fun id n => let x := g id in mk_rsi id n (junk_1 x) (junk_2 x) (junk_3 x) (junk_4 x))
  else if String.eqb type "ConstantResampler" then
    u64 "interval" (fun id dt => let x := g id in mk_constres id dt (junk_t x) (junk_1 x))
  else if String.eqb type "FiniteImpulseResponse" then coeff mk_fir
  else if String.eqb type "Linear" then coeff mk_linear
  else if String.eqb type "AutoRegressive" then coeff mk_autoreg
  else if String.eqb type "Minus" then simple (fun id => mk_binary id BMinus)
  else if String.eqb type "And" then simple (fun id => mk_binary id BAnd)
  else if String.eqb type "Or" then simple (fun id => mk_binary id BOr)
  else if String.eqb type "Division" then simple (fun id => mk_binary id BDiv)
  else if String.eqb type "Multiplication" then simple (fun id => mk_binary id BMult)
  else if String.eqb type "Plus" then simple (fun id => mk_binary id BPlus)
  else if String.eqb type "GreaterThanStream" then simple (fun id => mk_binary id BGreater)
  else if String.eqb type "LessThanStream" then simple (fun id => mk_binary id BLess)
  else if String.eqb type "GreaterThan" then value (fun id => mk_filter id FGreater)
  else if String.eqb type "LessThan" then value (fun id => mk_filter id FLess)
  else if String.eqb type "EqualTo" then value (fun id => mk_filter id FEqual)
  else if String.eqb type "Scale" then value mk_scale
  else if String.eqb type "Constant" then value mk_constant
  else if String.eqb type "Add" then value mk_add
  else if String.eqb type "Power" then value mk_power
  else if String.eqb type "CumulativeSum" then simple mk_cumsum
  else if String.eqb type "Count" then simple mk_count
  else if String.eqb type "Difference" then simple (fun id => mk_difference id true)
  else if String.eqb type "Identity" then simple mk_identity
  else if String.eqb type "Variable" then
    with_id (fun id => let! v := jvalue get_int "value" 0 j in mk_variable id (vofZ v))
  else if String.eqb type "TimeShift" then
    with_id (fun id => let! dt := jvalue get_int "dt" 1 j in
                       let! times := jvalue get_int "times" 1 j in mk_timeshift id (wrap dt) times)
  else if String.eqb type "Function" then
    Some (let! x := jindex "points" j in
          let! points := map_res point_of (jitems x) in
          let! id := id_of j in
          let! ty := jvalue get_str "type" "linear" j in mk_function id points ty)
  else None.

(** ** Connections, Program.cpp:23-39, Pipeline.cpp:20-32 *)

Record connection := mkConn { c_from : string; c_to : string; c_toPort : string; c_fromPort : string }.

Definition conn_of (j : json) : res connection :=
  let! a := jindex "from" j in let! a := get_str a in
  let! b := jindex "to" j in let! b := get_str b in
  let! p := jvalue get_str "toPort" "" j in
  let! q := jvalue get_str "fromPort" "" j in
  Ok (mkConn a b p q).

(** one round of the loops of Program.cpp:59-63 and Pipeline.cpp:51-58 *)
Definition connect1 (c : connection) (h : heap) : res heap :=
  match sfind (c_from c) h, sfind (c_to c) h with
  | Some a, Some b =>
      let! x := connect a b (c_to c) (c_fromPort c) (c_toPort c) in
      match x with
      | Some a' => Ok (sset (c_from c) a' h)
      | None => Throw (RuntimeError "Couldn't connect")
      end
  | _, _ => Throw OutOfRange
  end.

(** Program.cpp:58-64 *)
Fixpoint read_conns (l : list json) (h : heap) : res heap :=
  match l with
  | [] => Ok h
  | x :: r => let! c := conn_of x in let! h' := connect1 c h in read_conns r h'
  end.

(** the ports which Pipeline.cpp:60-71 marks as used *)
Definition used_input (c : connection) (h : heap) : string :=
  match sfind (c_to c) h with
  | Some o =>
      match o_data (op_base o), o_ctrl (op_base o) with
      | [(p, _)], [] => (c_to c ++ ":" ++ p)%string
      | _, _ => (c_to c ++ ":" ++ c_toPort c)%string
      end
  | None => (c_to c ++ ":" ++ c_toPort c)%string
  end.
Definition used_output (c : connection) (h : heap) : string :=
  match sfind (c_from c) h with
  | Some o =>
      match o_outs (op_base o) with
      | [p] => (c_from c ++ ":" ++ p)%string
      | _ => (c_from c ++ ":" ++ c_fromPort c)%string
      end
  | None => (c_from c ++ ":" ++ c_fromPort c)%string
  end.

(** Pipeline.cpp:48-72 *)
Fixpoint pipe_conns (l : list json) (h : heap) (ui uo : list string) : res (heap * list string * list string) :=
  match l with
  | [] => Ok (h, ui, uo)
  | x :: r =>
      let! c := conn_of x in
      let! h' := connect1 c h in
      pipe_conns r h' (sset_add (used_input c h') ui) (sset_add (used_output c h') uo)
  end.

(** the free ports of one operator, Pipeline.cpp:76-82 *)
Definition free_ports (id : string) (used ports : list string) (acc : smap string) : smap string :=
  fold_left (fun acc port =>
    let key := (id ++ ":" ++ port)%string in
    if sset_mem key used then acc else semplace key id acc) ports acc.

(** Pipeline.cpp:75-83 *)
Definition free_inputs (used : list string) (h : heap) : smap string :=
  fold_left (fun acc x => free_ports (fst x) used (skeys (o_data (op_base (snd x)))) acc) h [].
Definition free_outputs (used : list string) (h : heap) : smap string :=
  fold_left (fun acc x => free_ports (fst x) used (o_outs (op_base (snd x))) acc) h [].

(** Pipeline.cpp:86-91 *)
Fixpoint pipe_inputs (c : nat) (keys : list string) (b : base) (pm : smap string) : res (base * smap string) :=
  match keys with
  | [] => Ok (b, pm)
  | key :: r => let! b' := add_data b (iport c) 1 in pipe_inputs (S c) r b' (semplace (iport c) key pm)
  end.

(** Pipeline.cpp:94-99 *)
Fixpoint pipe_outs (c : nat) (keys : list string) (b : base) (pm : smap string) : base * smap string :=
  match keys with
  | [] => (b, pm)
  | key :: r => pipe_outs (S c) r (add_out b (oport c)) (semplace key (oport c) pm)
  end.

Section Read.
Variable readOp : json -> res op.

(** Program.cpp:52-55, Pipeline.cpp:42-45: when an id occurs twice the first operator stays *)
Fixpoint read_ops (l : list json) (h : heap) : res heap :=
  match l with
  | [] => Ok h
  | x :: r =>
      let! idj := jindex "id" x in
      let! o := readOp x in
      let! id := get_str idj in
      read_ops r (semplace id o h)
  end.

(** [Pipeline(id, json_prog)] Pipeline.cpp:36-100; [text] is the text of [prog] *)
Definition mk_pipeline (id text : string) (prog : json) : res op :=
  let! xs := jat "operators" prog in
  let! h := read_ops (jitems xs) [] in
  let! cs := jat "connections" prog in
  let! x := pipe_conns (jitems cs) h [] [] in
  let '(h', ui, uo) := x in
  let ins := free_inputs ui h' in
  let outs := free_outputs uo h' in
  let! y := pipe_inputs 1 (skeys ins) (base0 id) [] in
  let '(b, pm) := pipe_outs 1 (skeys outs) (fst y) (snd y) in
  Ok (Op b (KPipeline text h' ins outs pm)).
End Read.

Context {JT : JsonText}.

(** [FactoryOp::readOp] FactoryOp.cpp:500-506 and, for Pipelines, [from_json]
    FactoryOp.cpp:397-399; [n] bounds the nesting of Pipelines *)
Fixpoint read_op_n (n : nat) (g : string -> junk) (j : json) : res op :=
  match n with
  | O => OutOfFuel
  | S n' =>
      let! tj := jat "type" j in
      let! type := get_str tj in
      if String.eqb type "Pipeline" then
        let! idj := jat "id" j in
        let! id := get_str idj in
        let! prog := jat "prog" j in
        mk_pipeline (read_op_n n' g) id (dump prog) prog
      else
        match from_json g type j with
        | Some r => r
        | None => Throw (RuntimeError "invalid Operator type while parsing")
        end
  end.

Definition read_op (g : string -> junk) (j : json) : res op := read_op_n (S (jdepth j)) g j.

(** ** Writing, the [to_json] functions, FactoryOp.cpp:52-428, and [to_string] FactoryOp.h:43-48 *)

Definition jobj (l : list (string * json)) : json := JObj (fold_left (fun m x => semplace (fst x) (snd x) m) l []).

(** [getDataInputMaxSize()] Operator.h:310-320, of an operator with one data input *)
Definition max_of (b : base) : Z := match o_data b with [(_, p)] => ip_max p | _ => 0 end.
Definition len {A} (l : list A) : json := JInt (Z.of_nat (length l)).

(** the members besides "type" and "id"; Collector is not in the registry *)
Definition members (b : base) (k : kind) : res (list (string * json)) :=
  match k with
  | KInput _ _ | KOutput _ | KJoin _ => Ok [("numPorts", len (o_data b))]
  | KDemux _ => Ok [("numPorts", len (o_outs b))]
  | KCosineResampler dt _ | KHermiteResampler dt _ _ => Ok [("dt", JInt dt)]
  | KMovAvg | KStdDev | KPeak | KRSI _ _ _ _ _ => Ok [("n", JInt (max_of b))]
  | KFIR c | KLinear c | KAutoReg c => Ok [("coeff", JArr (map JNum c))]
  | KFilter _ v | KConstant v | KAdd v | KScale v | KPower v | KVariable v _ => Ok [("value", JNum v)]
  | KTimeShift dt times => Ok [("dt", JInt dt); ("times", JInt times)]
  | KConstResampler dt _ _ _ => Ok [("interval", JInt dt)]
  | KFunction points _ => Ok [("points", JArr (map (fun p => JArr [JNum (fst p); JNum (snd p)]) points))]
  | KPipeline text _ _ _ _ => let! prog := parse text in Ok [("prog", prog)]
  | KBinary _ | KCumSum _ | KCount _ | KDifference _ | KIdentity => Ok []
  | KCollector => Throw (RuntimeError "invalid Operator type while parsing")
  end.

(** [FactoryOp::writeOp] FactoryOp.cpp:508-513 (before the final [dump]) *)
Definition write_op (o : op) : res json :=
  let 'Op b k := o in
  let! l := members b k in
  Ok (jobj (("type", JStr (type_name k)) :: ("id", JStr (o_id b)) :: l)).

(** ** [Program::init] Program.cpp:41-77 *)

(** [outputFilter = j.at("output").get<map<string, vector<string>>>()], with every exception
    ignored (Program.cpp:47-50) *)
Definition filter_of (j : json) : res (smap (list string)) :=
  match (let! x := jat "output" j in
         match x with
         | JObj m => map_res (fun kv => let! l := get_strs (snd kv) in Ok (fst kv, l)) m
         | _ => Throw type_error
         end) with
  | Throw _ => Ok []
  | r => r
  end.

(** the program after init; [j] is the parsed text.  When the entry operator does not exist,
    everything is cleared and [all_op.at("")] throws; when it has control inputs, everything is
    cleared and the exception is built but not thrown (Program.cpp:65-76). *)
Definition init (g : string -> junk) (text : string) (j : json) : res program :=
  let! entry := jvalue get_str "entryOperator" "" j in
  if String.eqb entry "" then Throw (RuntimeError "Entry operator was not specified")
  else
    let! filter := filter_of j in
    let! xs := jat "operators" j in
    let! h := read_ops (read_op g) (jitems xs) [] in
    let! cs := jat "connections" j in
    let! h' := read_conns (jitems cs) h in
    match sfind entry h' with
    | None => Throw OutOfRange
    | Some o =>
        match o_ctrl (op_base o) with
        | [] => Ok (mkProgram text h' entry filter)
        | _ => Ok (mkProgram text [] "" [])
        end
    end.

(** [Program(string const&)] Program.h:22 *)
Definition new_prog (g : string -> junk) (text : string) : res program :=
  let! j := parse text in init g text j.

End Json.

Arguments JsonText {NO}.
