(** * Specification vocabulary for operators with several inputs. *)

From Coq Require Import String ZArith Bool List.
From Verif Require Import Base.StrMap Base.Num Model.Core Model.Make Model.Run Spec.Streams Spec.Operators.
Import ListNotations.
Open Scope string_scope.
Open Scope list_scope.
Open Scope Z_scope.

Section Spec.
Context {NO : NumOps}.

(** the calls seen from one data port: its own messages and the executions *)
Definition project (port : string) (evs : list ev) : list ev :=
  filter (fun e => match e with EData p _ => String.eqb p port | EExec => true | _ => false end) evs.

(** all data goes to existing inputs [i1..in], no control messages *)
Definition data_on (n : nat) (evs : list ev) : Prop :=
  Forall (fun e => match e with
                   | EData p _ => exists k, (1 <= k <= n)%nat /\ p = iport k
                   | EExec => True
                   | _ => False
                   end) evs.

(** the last message of a non-empty list is later than all the others *)
Definition is_record (ms : list msg) : bool :=
  forallb (fun m => mtime m <? last_time ms) (removelast ms).

(** the messages strictly later than everything before them *)
Definition records (ms : list msg) : list msg :=
  map (fun p => last p msg0) (filter is_record (prefixes ms)).

End Spec.
