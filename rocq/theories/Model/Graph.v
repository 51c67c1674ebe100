(** * Emission and execution over a graph of operators. *)

From Coq Require Import String Ascii ZArith Bool List.
From Verif Require Import Base.StrMap Base.Num Model.Core Model.Ops.
Import ListNotations.
Open Scope string_scope.
Open Scope list_scope.
Open Scope Z_scope.
Open Scope rtbot_scope.

Section Graph.
Context {NO : NumOps}.

(** operators by id; the pointers of the C++ code are ids *)
Definition heap := smap op.

(** ** [mergeOutput] Operator.h:633-645 *)

Definition odefault {A} (d : A) (x : option A) : A := match x with Some a => a | None => d end.

(** [auto& vec = out[id]; for (m : msgs) vec.push_back(m);] *)
Fixpoint merge_op (out x : opmsg) : opmsg :=
  match x with
  | [] => out
  | (port, msgs) :: x' => merge_op (sset port (odefault [] (sfind port out) ++ msgs) out) x'
  end.

Fixpoint merge_pm (out x : progmsg) : progmsg :=
  match x with
  | [] => out
  | (id, om) :: x' => merge_pm (sset id (merge_op (odefault [] (sfind id out)) om) out) x'
  end.

(** ** Port tests *)

(** [isDataInput] Operator.h:577-582 *)
Definition is_data_input (o : op) (port : string) : bool := shas port (o_data (op_base o)).
(** [isControlInput] Operator.h:584-589 *)
Definition is_control_input (o : op) (port : string) : bool := shas port (o_ctrl (op_base o)).

(** ** Pipeline helpers *)

(** [split2] Pipeline.h:70-76: text before / after the first ':' *)
Fixpoint split2 (s : string) : string * string :=
  match s with
  | EmptyString => ("", "")
  | String c s' =>
      if Ascii.eqb c ":" then ("", s')
      else let '(a, b) := split2 s' in (String c a, b)
  end.

(** [receiveData] including [Pipeline::receiveData] Pipeline.h:39-47.  The fuel bounds the
    nesting depth of pipelines. *)
Fixpoint recv_data (n : nat) (o : op) (m : msg) (port : string) : sres op unit :=
  match op_kind o with
  | KPipeline js ops ins outs pm =>
      match n with
      | O => (OutOfFuel, o)
      | S n' =>
          let b := op_base o in
          let key :=
            match ins with
            | [(k, _)] => if String.eqb port "" then Some k else sfind port pm
            | _ => sfind port pm
            end in
          match key with
          | None => (Throw OutOfRange, o)
          | Some key =>
              match sfind key ins with
              | None => (Throw OutOfRange, o)
              | Some inner =>
                  match sfind inner ops with
                  | None => (UB, o)
                  | Some oi =>
                      match recv_data n' oi m (snd (split2 key)) with
                      | (Ok _, oi') =>
                          (Ok tt, Op (set_toproc b (sset_add key (o_toproc b)))
                                     (KPipeline js (sset inner oi' ops) ins outs pm))
                      | (r, oi') => (r, Op b (KPipeline js (sset inner oi' ops) ins outs pm))
                      end
                  end
              end
          end
      end
  | _ => recv_data_local o m port
  end.

(** [connection.fOperator->receiveData / receiveControl], Operator.h:479-485 *)
Definition deliver1 (n : nat) (m : msg) (c : string * string) (h : heap) : sres heap unit :=
  let '(dst, port) := c in
  match sfind dst h with
  | None => (UB, h)
  | Some o =>
      if is_data_input o port then
        let '(r, o') := recv_data n o m port in (r, sset dst o' h)
      else if is_control_input o port then
        let '(r, o') := recv_ctrl_local o m port in (r, sset dst o' h)
      else (Ok tt, h)
  end.

Fixpoint deliver (n : nat) (m : msg) (cs : list (string * string)) (h : heap) : sres heap unit :=
  match cs with
  | [] => (Ok tt, h)
  | c :: cs' => do! (_u, h1) <- deliver1 n m c h; deliver n m cs' h1
  end.

Section Emit.
(** executing an operator: [rec ctl id heap] *)
Variable rec : bool -> string -> heap -> sres heap progmsg.
Variable n : nat.

(** Operator.h:486-493 *)
Definition execute1 (c : string * string) (h : heap) : sres heap progmsg :=
  let '(dst, port) := c in
  match sfind dst h with
  | None => (UB, h)
  | Some o =>
      if is_data_input o port then rec false dst h
      else if is_control_input o port then rec true dst h
      else (Ok [], h)
  end.

Fixpoint execute_all (cs : list (string * string)) (out : progmsg) (h : heap) : sres heap progmsg :=
  match cs with
  | [] => (Ok out, h)
  | c :: cs' => do! (x, h1) <- execute1 c h; execute_all cs' (merge_pm out x) h1
  end.

(** [emit(Message, {port})] Operator.h:466-497: first deliver to all, then execute all *)
Definition emit_msg (b : base) (port : string) (m : msg) (h : heap) : sres heap progmsg :=
  let out := [(o_id b, [(port, [m])])] in
  match sfind port (o_conns b) with
  | None => (Ok out, h)
  | Some cs => do! (_u, h1) <- deliver n m cs h; execute_all cs out h1
  end.

(** [emit(PortMessage, {port})] Operator.h:499-505 *)
Fixpoint emit_port (b : base) (port : string) (ms : portmsg) (out : progmsg) (h : heap)
  : sres heap progmsg :=
  match ms with
  | [] => (Ok out, h)
  | m :: ms' => do! (x, h1) <- emit_msg b port m h; emit_port b port ms' (merge_pm out x) h1
  end.

(** [emit(OperatorMessage)] Operator.h:507-516 *)
Fixpoint emit_op (b : base) (oms : opmsg) (out : progmsg) (h : heap) : sres heap progmsg :=
  match oms with
  | [] => (Ok out, h)
  | (port, ms) :: oms' =>
      if sset_mem port (o_outs b) then
        do! (x, h1) <- emit_port b port ms [] h; emit_op b oms' (merge_pm out x) h1
      else (Throw (RuntimeError "refers to a non existing output port"), h)
  end.

(** Pipeline.h:50-54: execute the inner operators that received something *)
Fixpoint pipe_run (keys : list string) (ins : smap string) (out : progmsg) (ops : heap)
  : sres heap progmsg :=
  match keys with
  | [] => (Ok out, ops)
  | key :: keys' =>
      match sfind key ins with
      | None => (Throw OutOfRange, ops)
      | Some inner =>
          do! (x, ops1) <- rec false inner ops; pipe_run keys' ins (merge_pm out x) ops1
      end
  end.
End Emit.

(** Pipeline.h:60-63: the part of the inner results that is on an output of the pipeline *)
Fixpoint pipe_ports (id : string) (om : opmsg) (outs pm : smap string) (acc : opmsg) : res opmsg :=
  match om with
  | [] => Ok acc
  | (port, ms) :: om' =>
      let key := (id ++ ":" ++ port)%string in
      if shas key outs then
        match sfind key pm with
        | Some name => pipe_ports id om' outs pm (semplace name ms acc)
        | None => Throw OutOfRange
        end
      else pipe_ports id om' outs pm acc
  end.

Fixpoint pipe_outputs (r : progmsg) (outs pm : smap string) (acc : opmsg) : res opmsg :=
  match r with
  | [] => Ok acc
  | (id, om) :: r' => let! acc' := pipe_ports id om outs pm acc in pipe_outputs r' outs pm acc'
  end.

(** local part of [Pipeline::executeData] Pipeline.h:49-65 *)
Definition pipe_exec (rec : bool -> string -> heap -> sres heap progmsg)
  (b : base) (js : string) (ops : heap) (ins outs pm : smap string) : sres op opmsg :=
  match pipe_run rec (o_toproc b) ins [] ops with
  | (Ok r, ops') =>
      (pipe_outputs r outs pm [], Op (set_toproc b []) (KPipeline js ops' ins outs pm))
  | (Throw e, ops') => (Throw e, Op b (KPipeline js ops' ins outs pm))
  | (UB, ops') => (UB, Op b (KPipeline js ops' ins outs pm))
  | (Diverges, ops') => (Diverges, Op b (KPipeline js ops' ins outs pm))
  | (OutOfFuel, ops') => (OutOfFuel, Op b (KPipeline js ops' ins outs pm))
  end.

(** local part of the virtual [executeData] / [executeControl] *)
Definition exec_local (rec : bool -> string -> heap -> sres heap progmsg) (ctl : bool) (o : op)
  : sres op opmsg :=
  if ctl then exec_ctrl_local o
  else match op_kind o with
       | KPipeline js ops ins outs pm => pipe_exec rec (op_base o) js ops ins outs pm
       | _ => exec_data_local o
       end.

(** [executeData] / [executeControl] with emission; [n] bounds the depth of the recursion *)
Fixpoint exec (n : nat) (ctl : bool) (id : string) (h : heap) : sres heap progmsg :=
  match n with
  | O => (OutOfFuel, h)
  | S n' =>
      match sfind id h with
      | None => (UB, h)
      | Some o =>
          match exec_local (exec n') ctl o with
          | (Ok out, o') => emit_op (exec n') n' (op_base o') out [] (sset id o' h)
          | (Throw e, o') => (Throw e, sset id o' h)
          | (UB, o') => (UB, sset id o' h)
          | (Diverges, o') => (Diverges, sset id o' h)
          | (OutOfFuel, o') => (OutOfFuel, sset id o' h)
          end
      end
  end.

(** ** [Program] libs/api/include/rtbot/Program.h *)

Record program := mkProgram {
  p_text : string;                       (* program_json *)
  p_ops : heap;                          (* all_op *)
  p_entry : string;                      (* entryOperator *)
  p_filter : smap (list string)          (* outputFilter *)
}.

Definition set_ops (p : program) (h : heap) : program :=
  mkProgram (p_text p) h (p_entry p) (p_filter p).

(** one message sent to the entry operator, Program.h:109-110 *)
Definition send1 (n : nat) (entry : string) (port : string) (m : msg) (h : heap) : sres heap progmsg :=
  match sfind entry h with
  | None => (Throw OutOfRange, h)
  | Some o =>
      match recv_data n o m port with
      | (Ok _, o') => exec n false entry (sset entry o' h)
      | (Throw e, o') => (Throw e, sset entry o' h)
      | (UB, o') => (UB, sset entry o' h)
      | (Diverges, o') => (Diverges, sset entry o' h)
      | (OutOfFuel, o') => (OutOfFuel, sset entry o' h)
      end
  end.

(** Program.h:108-114 *)
Fixpoint send_port (n : nat) (entry port : string) (ms : portmsg) (out : progmsg) (h : heap)
  : sres heap progmsg :=
  match ms with
  | [] => (Ok out, h)
  | m :: ms' =>
      do! (x, h1) <- send1 n entry port m h; send_port n entry port ms' (merge_pm out x) h1
  end.

(** Program.h:107-115 *)
Fixpoint send_batch (n : nat) (entry : string) (batch : opmsg) (out : progmsg) (h : heap)
  : sres heap progmsg :=
  match batch with
  | [] => (Ok out, h)
  | (port, ms) :: batch' =>
      do! (out1, h1) <- send_port n entry port ms out h; send_batch n entry batch' out1 h1
  end.

(** [Program::receiveDebug] Program.h:101-118 *)
Definition receive_debug (n : nat) (p : program) (batch : opmsg) : sres program progmsg :=
  if shas (p_entry p) (p_ops p) then
    let '(r, h) := send_batch n (p_entry p) batch [] (p_ops p) in (r, set_ops p h)
  else (Throw (RuntimeError "Entry operator was not found"), p).

(** Program.h:79-90: one operator of the filter *)
Fixpoint filter_ports (ports : list string) (om : opmsg) (acc : option opmsg) : option opmsg :=
  match ports with
  | [] => acc
  | port :: ports' =>
      match sfind port om with
      | None => filter_ports ports' om acc
      | Some ms =>
          filter_ports ports' om
            (Some (match acc with
                   | None => [(port, ms)]
                   | Some a => merge_op a [(port, ms)]
                   end))
      end
  end.

(** Program.h:77-91 *)
Fixpoint apply_filter (f : smap (list string)) (r : progmsg) (acc : progmsg) : progmsg :=
  match f with
  | [] => acc
  | (id, ports) :: f' =>
      let acc' :=
        match sfind id r with
        | None => acc
        | Some om =>
            match filter_ports ports om (sfind id acc) with
            | Some a => sset id a acc
            | None => acc
            end
        end in
      apply_filter f' r acc'
  end.

(** [Program::receive] Program.h:71-98 *)
Definition receive (n : nat) (p : program) (batch : opmsg) : sres program progmsg :=
  match receive_debug n p batch with
  | (Ok r, p') =>
      (Ok (match p_filter p with [] => r | f => apply_filter f r [] end), p')
  | r => r
  end.

End Graph.
