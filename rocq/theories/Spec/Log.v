(** * What happens while a program processes messages, as a flat log.

    The same computation as in Model/Graph.v, but instead of assembling a result map every
    call made on an operator and every message it emits is written down, in the order in
    which it happens.  Result maps, merging and filters do not occur here. *)

From Coq Require Import String ZArith Bool List.
From Verif Require Import Base.StrMap Base.Num Model.Core Model.Ops Model.Graph Model.Run Spec.Shape.
Import ListNotations.
Open Scope string_scope.
Open Scope list_scope.
Open Scope Z_scope.
Open Scope rtbot_scope.

Section Log.
Context {NO : NumOps}.

Inductive entry :=
| LSend (port : string) (m : msg)                   (* the user sends [m] to the entry operator *)
| LCall (id : string) (e : ev) (out : opmsg)        (* call [e] on operator [id] computes [out] *)
| LEmit (id port : string) (m : msg).               (* operator [id] emits [m] on [port] *)

Definition ldeliver1 (n : nat) (m : msg) (c : string * string) (h : heap) : sres heap (list entry) :=
  let '(dst, port) := c in
  match sfind dst h with
  | None => (UB, h)
  | Some o =>
      if is_data_input o port then
        do! (_u, h1) <- (let '(r, o') := recv_data n o m port in (r, sset dst o' h));
        (Ok [LCall dst (EData port m) []], h1)
      else if is_control_input o port then
        do! (_u, h1) <- (let '(r, o') := recv_ctrl_local o m port in (r, sset dst o' h));
        (Ok [LCall dst (ECtrl port m) []], h1)
      else (Ok [], h)
  end.

Fixpoint ldeliver (n : nat) (m : msg) (cs : list (string * string)) (h : heap) : sres heap (list entry) :=
  match cs with
  | [] => (Ok [], h)
  | c :: cs' =>
      do! (l1, h1) <- ldeliver1 n m c h;
      do! (l2, h2) <- ldeliver n m cs' h1;
      (Ok (l1 ++ l2), h2)
  end.

Section Emit.
Variable rec : bool -> string -> heap -> sres heap (list entry).
Variable n : nat.

Definition lexecute1 (c : string * string) (h : heap) : sres heap (list entry) :=
  let '(dst, port) := c in
  match sfind dst h with
  | None => (UB, h)
  | Some o =>
      if is_data_input o port then rec false dst h
      else if is_control_input o port then rec true dst h
      else (Ok [], h)
  end.

Fixpoint lexecute_all (cs : list (string * string)) (h : heap) : sres heap (list entry) :=
  match cs with
  | [] => (Ok [], h)
  | c :: cs' =>
      do! (l1, h1) <- lexecute1 c h;
      do! (l2, h2) <- lexecute_all cs' h1;
      (Ok (l1 ++ l2), h2)
  end.

Definition lemit_msg (b : base) (port : string) (m : msg) (h : heap) : sres heap (list entry) :=
  match sfind port (o_conns b) with
  | None => (Ok [LEmit (o_id b) port m], h)
  | Some cs =>
      do! (l1, h1) <- ldeliver n m cs h;
      do! (l2, h2) <- lexecute_all cs h1;
      (Ok ((LEmit (o_id b) port m :: l1) ++ l2), h2)
  end.

Fixpoint lemit_port (b : base) (port : string) (ms : portmsg) (h : heap) : sres heap (list entry) :=
  match ms with
  | [] => (Ok [], h)
  | m :: ms' =>
      do! (l1, h1) <- lemit_msg b port m h;
      do! (l2, h2) <- lemit_port b port ms' h1;
      (Ok (l1 ++ l2), h2)
  end.

Fixpoint lemit_op (b : base) (oms : opmsg) (h : heap) : sres heap (list entry) :=
  match oms with
  | [] => (Ok [], h)
  | (port, ms) :: oms' =>
      if sset_mem port (o_outs b) then
        do! (l1, h1) <- lemit_port b port ms h;
        do! (l2, h2) <- lemit_op b oms' h1;
        (Ok (l1 ++ l2), h2)
      else (Throw (RuntimeError "refers to a non existing output port"), h)
  end.
End Emit.

Fixpoint lexec (n : nat) (ctl : bool) (id : string) (h : heap) : sres heap (list entry) :=
  match n with
  | O => (OutOfFuel, h)
  | S n' =>
      match sfind id h with
      | None => (UB, h)
      | Some o =>
          match exec_local (exec n') ctl o with
          | (Ok out, o') =>
              do! (l, h1) <- lemit_op (lexec n') n' (op_base o') out (sset id o' h);
              (Ok (LCall id (if ctl then EExecC else EExec) out :: l), h1)
          | (Throw e, o') => (Throw e, sset id o' h)
          | (UB, o') => (UB, sset id o' h)
          | (Diverges, o') => (Diverges, sset id o' h)
          | (OutOfFuel, o') => (OutOfFuel, sset id o' h)
          end
      end
  end.

(** one message from the user *)
Definition lsend1 (n : nat) (ep port : string) (m : msg) (h : heap) : sres heap (list entry) :=
  match sfind ep h with
  | None => (Throw OutOfRange, h)
  | Some o =>
      do! (_u, h1) <- (let '(r, o') := recv_data n o m port in (r, sset ep o' h));
      do! (l, h2) <- lexec n false ep h1;
      (Ok ([LSend port m; LCall ep (EData port m) []] ++ l), h2)
  end.

(** the messages of a batch, in the order in which they are processed: by port name, then in
    the order given *)
Definition batch_messages (batch : opmsg) : list (string * msg) :=
  flat_map (fun pm => map (pair (fst pm)) (snd pm)) batch.

Fixpoint lsend_all (n : nat) (ep : string) (ms : list (string * msg)) (h : heap) : sres heap (list entry) :=
  match ms with
  | [] => (Ok [], h)
  | (port, m) :: ms' =>
      do! (l1, h1) <- lsend1 n ep port m h;
      do! (l2, h2) <- lsend_all n ep ms' h1;
      (Ok (l1 ++ l2), h2)
  end.

(** ** Views of a log *)

(** what operator [id] emitted on [port] *)
Definition emitted (id port : string) (l : list entry) : list msg :=
  flat_map (fun x => match x with
                     | LEmit i p m => if String.eqb id i && String.eqb port p then [m] else []
                     | _ => [] end) l.

(** the calls made on operator [id], and what they computed *)
Definition calls (id : string) (l : list entry) : list ev :=
  flat_map (fun x => match x with LCall i e _ => if String.eqb id i then [e] else [] | _ => [] end) l.
Definition returned (id : string) (l : list entry) : list opmsg :=
  flat_map (fun x => match x with LCall i _ out => if String.eqb id i then [out] else [] | _ => [] end) l.

(** every delivery to an input port: operator, port, message *)
Definition deliveries (l : list entry) : list (string * string * msg) :=
  flat_map (fun x => match x with
                     | LCall id (EData p m) _ | LCall id (ECtrl p m) _ => [(id, p, m)]
                     | _ => [] end) l.

(** the messages of operator [id], port [port] in a result map *)
Definition result_at (r : progmsg) (id port : string) : list msg :=
  odefault [] (sfind port (odefault [] (sfind id r))).

(** ** The wiring of a program *)

(** where output [port] of operator [id] is connected to *)
Definition wires (h : heap) (id port : string) : list (string * string) :=
  match sfind id h with
  | Some o => odefault [] (sfind port (o_conns (op_base o)))
  | None => []
  end.

Definition has_input (h : heap) (c : string * string) : bool :=
  match sfind (fst c) h with
  | Some o => is_data_input o (snd c) || is_control_input o (snd c)
  | None => false
  end.

(** the operators have the ids they are filed under *)
Definition named (h : heap) : Prop := forall id o, sfind id h = Some o -> o_id (op_base o) = id.

(** some connection goes from [a] to [b] *)
Definition wired (h : heap) (a b : string) : Prop := exists port p, In (b, p) (wires h a port).

Inductive reachable (h : heap) (a : string) : string -> Prop :=
| reach_here : reachable h a a
| reach_next b c : reachable h a b -> wired h b c -> reachable h a c.

(** no cycles: every connection goes to a strictly smaller rank *)
Definition ranked (rank : string -> nat) (h : heap) : Prop :=
  forall a b, wired h a b -> (rank b < rank a)%nat.

(** ** What a log has to satisfy *)

(** the messages the user sent *)
Definition sent (l : list entry) : list (string * msg) :=
  flat_map (fun x => match x with LSend p m => [(p, m)] | _ => [] end) l.

(** what must be delivered: every message of the user to the entry operator, every emitted
    message to all the input ports its output port is connected to, in this order *)
Definition routed (h : heap) (ep : string) (l : list entry) : list (string * string * msg) :=
  flat_map (fun x => match x with
                     | LSend p m => [(ep, p, m)]
                     | LEmit id p m => map (fun c => (c, m)) (filter (has_input h) (wires h id p))
                     | LCall _ _ _ => []
                     end) l.

(** from the states [h] to the states [h']: operators that were not called keep their
    state; the others compute in each call what is logged when they are called by themselves
    with the same sequence of calls, and end up in the same state.  (Pipelines are operators
    made of operators and have a log of their own.) *)
Definition replays (h : heap) (l : list entry) (h' : heap) : Prop :=
  (forall id, calls id l = [] -> sfind id h' = sfind id h) /\
  (forall id o, sfind id h = Some o -> is_pipeline o = false ->
     exists o', sfind id h' = Some o' /\ is_pipeline o' = false /\
       run o (calls id l) = (Ok (returned id l), o')).

(** on every port, exactly what the calls computed is emitted, in the same order *)
Definition balanced (l : list entry) : Prop :=
  forall id port, emitted id port l = on_port port (returned id l).

End Log.
