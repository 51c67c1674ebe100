(** * Driving a single operator through its public interface.

    [receiveData], [receiveControl], [executeData] and [executeControl] are the calls a
    caller (a test, a Program, or the emission of another operator) makes.  A history is a
    list of such calls; nothing here depends on how the calls are scheduled. *)

From Coq Require Import String ZArith Bool List.
From Verif Require Import Base.StrMap Base.Num Model.Core Model.Ops.
Import ListNotations.
Open Scope string_scope.
Open Scope list_scope.
Open Scope Z_scope.
Open Scope rtbot_scope.

Section Run.
Context {NO : NumOps}.

Inductive ev :=
| EData (port : string) (m : msg)     (* receiveData(m, port) *)
| ECtrl (port : string) (m : msg)     (* receiveControl(m, port) *)
| EExec                               (* executeData() *)
| EExecC.                             (* executeControl() *)

(** one call: what it emits and the new state *)
Definition step (o : op) (e : ev) : sres op opmsg :=
  match e with
  | EData port m => do! (_u, o1) <- recv_data_local o m port; (Ok [], o1)
  | ECtrl port m => do! (_u, o1) <- recv_ctrl_local o m port; (Ok [], o1)
  | EExec => exec_data_local o
  | EExecC => exec_ctrl_local o
  end.

(** a sequence of calls: the list of emissions, one per call; stops at the first failure *)
Fixpoint run (o : op) (evs : list ev) : sres op (list opmsg) :=
  match evs with
  | [] => (Ok [], o)
  | e :: evs' =>
      do! (x, o1) <- step o e;
      do! (xs, o2) <- run o1 evs';
      (Ok (x :: xs), o2)
  end.

(** the usual way: receive a message, execute, receive the next *)
Definition feed (port : string) (ms : list msg) : list ev :=
  flat_map (fun m => [EData port m; EExec]) ms.

(** messages of one output port, in order of emission *)
Definition on_port (port : string) (outs : list opmsg) : list msg :=
  flat_map (fun om => match sfind port om with Some ms => ms | None => [] end) outs.

End Run.
