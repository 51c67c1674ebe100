(** * Composite operators, libs/core/include/rtbot/Composite.h

    Composites exist in the C++ interface only: they cannot be written in a JSON program and
    cannot contain each other.  The objects of a C++ user are modelled here as a [world]:
    operators by address (their own and those that Composites have created), and Composites by
    address.  Connections are to addresses, of an operator or of a Composite. *)

From Coq Require Import String ZArith Bool List.
From Verif Require Import Base.StrMap Base.Num Model.Core Model.Ops Model.Make Model.Graph.
Import ListNotations.
Open Scope string_scope.
Open Scope list_scope.
Open Scope Z_scope.
Open Scope rtbot_scope.

Section Composite.
Context {NO : NumOps}.

(** Composite.h:353-357 (members), and the ports it has as an [Operator] *)
Record composite := mkComposite {
  c_base : base;               (* ports, added by createInput and createOutput *)
  c_ops : smap string;         (* ops: address by id *)
  c_in : option string;        (* input *)
  c_out : option string        (* output *)
}.

Record world := mkWorld { w_ops : heap; w_comps : smap composite }.

(** ** Messages *)

Section Messages.
(** Composites do not change while messages are processed *)
Variable comps : smap composite.

(** [receiveData] / [receiveControl]: an operator receives by itself *)
Definition recv_at (n : nat) (ctl : bool) (m : msg) (a port : string) (h : heap) : sres heap unit :=
  match sfind a h with
  | None => (UB, h)
  | Some o => let '(r, o') := if ctl then recv_ctrl_local o m port else recv_data n o m port in (r, sset a o' h)
  end.

Definition no_input : exn := RuntimeError "Composite: the input operator have not been found".

(** Operator.h:479-485 for a connection to any object; for a Composite the test is on its own
    ports and the input operator receives, Composite.h:305-310 and 319-324 *)
Definition cdeliver1 (n : nat) (m : msg) (c : string * string) (h : heap) : sres heap unit :=
  let '(dst, port) := c in
  match sfind dst comps with
  | None => deliver1 n m c h
  | Some k =>
      if shas port (o_data (c_base k)) then
        match c_in k with Some a => recv_at n false m a port h | None => (Throw no_input, h) end
      else if shas port (o_ctrl (c_base k)) then
        match c_in k with Some a => recv_at n true m a port h | None => (Throw no_input, h) end
      else (Ok tt, h)
  end.

Fixpoint cdeliver (n : nat) (m : msg) (cs : list (string * string)) (h : heap) : sres heap unit :=
  match cs with
  | [] => (Ok tt, h)
  | c :: cs' => do! (_u, h1) <- cdeliver1 n m c h; cdeliver n m cs' h1
  end.

Section Emit.
Variable rec : bool -> string -> heap -> sres heap progmsg.
Variable n : nat.

(** Operator.h:486-493; for a Composite the input operator is executed, Composite.h:312-317 and 326-331 *)
Definition cexecute1 (c : string * string) (h : heap) : sres heap progmsg :=
  let '(dst, port) := c in
  match sfind dst comps with
  | None => execute1 rec c h
  | Some k =>
      if shas port (o_data (c_base k)) then
        match c_in k with Some a => rec false a h | None => (Throw no_input, h) end
      else if shas port (o_ctrl (c_base k)) then
        match c_in k with Some a => rec true a h | None => (Throw no_input, h) end
      else (Ok [], h)
  end.

Fixpoint cexecute_all (cs : list (string * string)) (out : progmsg) (h : heap) : sres heap progmsg :=
  match cs with
  | [] => (Ok out, h)
  | c :: cs' => do! (x, h1) <- cexecute1 c h; cexecute_all cs' (merge_pm out x) h1
  end.

(** the three [emit]s, Operator.h:466-516, as in Model/Graph.v *)
Definition cemit_msg (b : base) (port : string) (m : msg) (h : heap) : sres heap progmsg :=
  let out := [(o_id b, [(port, [m])])] in
  match sfind port (o_conns b) with
  | None => (Ok out, h)
  | Some cs => do! (_u, h1) <- cdeliver n m cs h; cexecute_all cs out h1
  end.

Fixpoint cemit_port (b : base) (port : string) (ms : portmsg) (out : progmsg) (h : heap) : sres heap progmsg :=
  match ms with
  | [] => (Ok out, h)
  | m :: ms' => do! (x, h1) <- cemit_msg b port m h; cemit_port b port ms' (merge_pm out x) h1
  end.

Fixpoint cemit_op (b : base) (oms : opmsg) (out : progmsg) (h : heap) : sres heap progmsg :=
  match oms with
  | [] => (Ok out, h)
  | (port, ms) :: oms' =>
      if sset_mem port (o_outs b) then
        do! (x, h1) <- cemit_port b port ms [] h; cemit_op b oms' (merge_pm out x) h1
      else (Throw (RuntimeError "refers to a non existing output port"), h)
  end.
End Emit.

(** [executeData] / [executeControl] of an operator; the operators inside a Pipeline are not
    connected to Composites *)
Fixpoint cexec (n : nat) (ctl : bool) (a : string) (h : heap) : sres heap progmsg :=
  match n with
  | O => (OutOfFuel, h)
  | S n' =>
      match sfind a h with
      | None => (UB, h)
      | Some o =>
          match exec_local (exec n') ctl o with
          | (Ok out, o') => cemit_op (cexec n') n' (op_base o') out [] (sset a o' h)
          | (Throw e, o') => (Throw e, sset a o' h)
          | (UB, o') => (UB, sset a o' h)
          | (Diverges, o') => (Diverges, sset a o' h)
          | (OutOfFuel, o') => (OutOfFuel, sset a o' h)
          end
      end
  end.

(** the user calls [receiveData], then [executeData], of an operator or a Composite *)
Definition csend (n : nat) (x port : string) (m : msg) (h : heap) : sres heap progmsg :=
  let to a := do! (_u, h1) <- recv_at n false m a port h; cexec n false a h1 in
  match sfind x comps with
  | None => to x
  | Some k => match c_in k with Some a => to a | None => (Throw no_input, h) end
  end.
End Messages.

(** ** Construction *)

(** is there an object at this address *)
Definition used (w : world) (a : string) : bool := shas a (w_ops w) || shas a (w_comps w).

(** a new object; an address in use is never given to it, which is expressed by [UB] *)
Definition put_op (w : world) (a : string) (o : op) : res world :=
  if used w a then UB else Ok (mkWorld (sset a o (w_ops w)) (w_comps w)).

Definition set_comp (c : string) (k : composite) (w : world) : world :=
  mkWorld (w_ops w) (sset c k (w_comps w)).

(** Composite.h:46 *)
Definition new_composite (w : world) (c : string) : res world :=
  if used w c then UB else Ok (set_comp c (mkComposite (base0 c) [] None None) w).

Definition not_unique : exn := RuntimeError "Composite: unique id is required".

(** the loops of createInput, Composite.h:57-58 *)
Fixpoint add_data_ports (l : list string) (b : base) : res base :=
  match l with
  | [] => Ok b
  | p :: l' => let! b' := add_data b p 1 in add_data_ports l' b'
  end.
Fixpoint add_ctrl_ports (l : list string) (b : base) : res base :=
  match l with
  | [] => Ok b
  | p :: l' => let! b' := add_ctrl b p 1 in add_ctrl_ports l' b'
  end.

(** [createInput] Composite.h:52-65.  The new operator is at [a]. *)
Definition create_input (w : world) (c a id : string) (numPorts : nat) : res world :=
  match sfind c (w_comps w) with
  | None => UB
  | Some k =>
      if shas id (c_ops k) then Throw not_unique
      else match c_in k with
           | Some _ => Throw (RuntimeError "Composite: input operator already setup")
           | None =>
               let! o := mk_input id numPorts in
               let! b1 := add_data_ports (skeys (o_data (op_base o))) (c_base k) in
               let! b2 := add_ctrl_ports (skeys (o_ctrl (op_base o))) b1 in
               let! w1 := put_op w a o in
               Ok (set_comp c (mkComposite b2 (sset id a (c_ops k)) (Some a) (c_out k)) w1)
           end
  end.

(** [createOutput] Composite.h:219-231 *)
Definition create_output (w : world) (c a id : string) (numPorts : nat) : res world :=
  match sfind c (w_comps w) with
  | None => UB
  | Some k =>
      if shas id (c_ops k) then Throw not_unique
      else match c_out k with
           | Some _ => Throw (RuntimeError "Composite: output operator already setup")
           | None =>
               let! o := mk_output id numPorts in
               let b := fold_left add_out (o_outs (op_base o)) (c_base k) in
               let! w1 := put_op w a o in
               Ok (set_comp c (mkComposite b (sset id a (c_ops k)) (c_in k) (Some a)) w1)
           end
  end.

(** the other create functions, Composite.h:67-217 and 233-279; [r] is the constructor call *)
Definition create (w : world) (c a id : string) (r : res op) : res world :=
  match sfind c (w_comps w) with
  | None => UB
  | Some k =>
      if shas id (c_ops k) then Throw not_unique
      else let! o := r in
           let! w1 := put_op w a o in
           Ok (set_comp c (mkComposite (c_base k) (sset id a (c_ops k)) (c_in k) (c_out k)) w1)
  end.

(** [createInternalConnection] Composite.h:288-303 *)
Definition create_internal (w : world) (c from to out inp : string) : res world :=
  match sfind c (w_comps w) with
  | None => UB
  | Some k =>
      match sfind from (c_ops k), sfind to (c_ops k) with
      | Some a, Some b =>
          match sfind a (w_ops w), sfind b (w_ops w) with
          | Some oa, Some ob =>
              let! x := connect oa ob b out inp in
              match x with
              | Some oa' => Ok (mkWorld (sset a oa' (w_ops w)) (w_comps w))
              | None => Throw (RuntimeError "Composite: connection was not successful")
              end
          | _, _ => UB
          end
      | _, _ => Throw (RuntimeError "has not been added to the operator list, please use add[Operator] first")
      end
  end.

(** the ports of the object at [y], as [connect] looks at them; a Composite has the ports that
    were added to it *)
Definition child_at (w : world) (y : string) : option op :=
  match sfind y (w_comps w) with
  | Some k => Some (Op (c_base k) KIdentity)
  | None => sfind y (w_ops w)
  end.

(** [x.connect(y, out, inp)], Operator.h:599-631 and Composite.h:337-351: a Composite connects
    its output operator.  [Ok None] is the [nullptr] result. *)
Definition connect_at (w : world) (x y out inp : string) : res (option world) :=
  let from a :=
    match sfind a (w_ops w), child_at w y with
    | Some o, Some child =>
        let! r := connect o child y out inp in
        Ok (match r with Some o' => Some (mkWorld (sset a o' (w_ops w)) (w_comps w)) | None => None end)
    | _, _ => UB
    end in
  match sfind x (w_comps w) with
  | None => from x
  | Some k =>
      match c_out k with
      | Some a => from a
      | None => Throw (RuntimeError "Composite: output operator have not been found")
      end
  end.

End Composite.
