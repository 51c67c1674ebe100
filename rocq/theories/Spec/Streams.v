(** * Specification vocabulary: histories of messages and of calls.  Nothing here
    mentions the state of an operator. *)

From Coq Require Import String ZArith Bool List Sorted.
From Verif Require Import Base.StrMap Base.Num Model.Core Model.Run.
Import ListNotations.
Open Scope string_scope.
Open Scope list_scope.
Open Scope Z_scope.

(** the last [n] elements ([l] itself when it is shorter) *)
Definition lastn {A} (n : nat) (l : list A) : list A := skipn (length l - n) l.

(** all non-empty prefixes, shortest first *)
Fixpoint prefixes {A} (l : list A) : list (list A) :=
  match l with
  | [] => []
  | x :: l' => [x] :: map (cons x) (prefixes l')
  end.

Section Spec.
Context {NO : NumOps}.

Definition vsum (l : list V) : V := fold_left vadd l v0.
Definition values (l : list msg) : list V := map mval l.
Definition times (l : list msg) : list Z := map mtime l.
Definition increasing (l : list Z) : Prop := StronglySorted Z.lt l.

(** the data messages of a history of calls *)
Fixpoint received (evs : list ev) : list msg :=
  match evs with
  | [] => []
  | EData _ m :: r => m :: received r
  | _ :: r => received r
  end.

(** was a data message received after the last [executeData]? *)
Definition pending (evs : list ev) : bool :=
  fold_left (fun p e => match e with EData _ _ => true | EExec => false | _ => p end) evs false.

(** the calls of an operator with one data input [i1]: the port may be left empty *)
Definition one_input (evs : list ev) : Prop :=
  Forall (fun e => match e with
                   | EData p _ => p = "i1" \/ p = ""
                   | EExec | EExecC => True
                   | ECtrl _ _ => False
                   end) evs.

(** [answers f evs]: the emissions of an operator that reacts to the calls [executeData]
    with something new received, by emitting [f] of everything received so far *)
Definition answer (f : list msg -> opmsg) (evs : list ev) : opmsg :=
  match rev evs with
  | EExec :: before => if pending (rev before) then f (received evs) else []
  | _ => []
  end.
Definition answers (f : list msg -> opmsg) (evs : list ev) : list opmsg :=
  map (answer f) (prefixes evs).

(** the messages that were the latest one at a reacting [executeData] *)
Fixpoint processed_from (latest : option msg) (evs : list ev) : list msg :=
  match evs with
  | [] => []
  | EData _ m :: r => processed_from (Some m) r
  | EExec :: r => match latest with
                  | Some m => m :: processed_from None r
                  | None => processed_from None r
                  end
  | _ :: r => processed_from latest r
  end.
Definition processed (evs : list ev) : list msg := processed_from None evs.

(** is the last call of the history an execution that must react: something new was
    received, and at least [n] messages in all *)
Definition reacts (n : Z) (evs : list ev) : bool :=
  match rev evs with
  | EExec :: before => pending (rev before) && (n <=? Z.of_nat (length (received evs)))
  | _ => false
  end.

(** one message on output [o1] *)
Definition emits (m : msg) : opmsg := [("o1", [m])].
Definition emits_nothing : opmsg := [].

End Spec.
