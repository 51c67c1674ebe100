(** * What the wiring of a program gives to its operators (C88) *)

From Coq Require Import String ZArith Bool List.
From Verif Require Import Base.StrMap Base.Num Model.Core Model.Ops Model.Graph Model.Run.
From Verif Require Import Spec.Streams Spec.Join Spec.Preserving.
Import ListNotations.
Open Scope string_scope.
Open Scope list_scope.

Section Cause.
Context {NO : NumOps}.

(** how a call ends, without its value *)
Definition ending {A} (r : res A) : res unit :=
  match r with Ok _ => Ok tt | Throw e => Throw e | UB => UB | Diverges => Diverges | OutOfFuel => OutOfFuel end.

(** [x] is the beginning of [y] *)
Definition initial {A} (x y : list A) : Prop := exists z, y = x ++ z.

(** input [port] of [id] is a data input *)
Definition listens (h : heap) (id port : string) : Prop :=
  exists o, sfind id h = Some o /\ is_data_input o port = true.

(** [id] hears from one output only: what [src] emits arrives at [port] *)
Definition only_source (h : heap) (id port : string) (src : string * string) : Prop :=
  fed_by h id port src /\ listens h id port /\
  forall port' src' o, fed_by h id port' src' -> sfind id h = Some o ->
    is_data_input o port' || is_control_input o port' = true -> port' = port.

(** the event is for an input of the operator *)
Definition for_inputs (o : op) (e : ev) : Prop :=
  match e with
  | EData port _ => is_data_input o port = true
  | ECtrl port _ => is_control_input o port = true
  | EExec => True
  | EExecC => exists port, is_control_input o port = true
  end.

(** The calls [evs] on operator [id] are what the wiring gives it, when the user sends the
    messages [ms] to the entry operator [ep] and the others have computed [made]:
    - the entry gets messages of the user, one by one, in the order in which they were sent;
    - every other operator gets messages and executions for its own inputs, at each input
      messages which the output connected to it has emitted, in this order;
    - one that hears from one output only is executed after each message. *)
Definition given (h : heap) (ep : string) (ms : list (string * msg)) (made : string -> list opmsg) (id : string) (evs : list ev) : Prop :=
  (id = ep -> initial evs (flat_map (fun pm => [EData (fst pm) (snd pm); EExec]) ms)) /\
  (id <> ep ->
     (forall o, sfind id h = Some o -> Forall (for_inputs o) evs) /\
     (forall port a q, fed_by h id port (a, q) -> listens h id port -> initial (hist port evs) (on_port q (made a))) /\
     (forall port a q, only_source h id port (a, q) -> initial evs (feed port (on_port q (made a))))).

(** operator [o], by itself, fails when it is called with [evs]: a call fails, or its result is
    for an output which the operator does not have *)
Definition breaks (o : op) (evs : list ev) (f : res unit) : Prop :=
  ending (fst (run o evs)) = f /\ f <> Ok tt \/
  (exists outs out o' port ms, run o evs = (Ok outs, o') /\ In out outs /\ In (port, ms) out /\
     sset_mem port (o_outs (op_base o)) = false /\ f = Throw (RuntimeError "refers to a non existing output port")).

(** [G a q l] is an assumption about the messages [l] that operator [a] has emitted on output [q].
    Every operator, as long as what it hears meets the assumptions, answers every sequence of
    calls which the wiring can give it, on outputs it has, and what it emits meets them too. *)
Definition contract (h : heap) (ep : string) (ms : list (string * msg)) (G : string -> string -> list msg -> Prop) : Prop :=
  forall id o made evs, sfind id h = Some o ->
    (forall port a q, fed_by h id port (a, q) -> G a q (on_port q (made a))) ->
    given h ep ms made id evs ->
    exists outs o', run o evs = (Ok outs, o') /\
      (forall out port l, In out outs -> In (port, l) out -> sset_mem port (o_outs (op_base o)) = true) /\
      forall q, G id q (on_port q outs).

End Cause.
