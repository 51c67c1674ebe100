(** * Specification of Demultiplexer: messages wait in order for their instructions. *)

From Coq Require Import String ZArith Bool List Sorted.
From Verif Require Import Base.StrMap Base.Num Model.Core Model.Make Model.Run Spec.Streams Spec.Join.
Import ListNotations.
Open Scope string_scope.
Open Scope list_scope.
Open Scope Z_scope.

Section Spec.
Context {NO : NumOps}.

(** the messages received on one control port *)
Fixpoint chist (port : string) (evs : list ev) : list msg :=
  match evs with
  | [] => []
  | ECtrl p m :: r => if String.eqb p port then m :: chist port r else chist port r
  | _ :: r => chist port r
  end.

(** all data goes to the input, all control messages to the controls [c1..cn] *)
Definition demux_calls (n : nat) (evs : list ev) : Prop :=
  Forall (fun e => match e with
                   | EData p _ => p = "i1" \/ p = ""
                   | ECtrl p _ => exists k, (1 <= k <= n)%nat /\ p = cport k
                   | _ => True
                   end) evs.

Definition ordered_controls (n : nat) (evs : list ev) : Prop :=
  forall k, (1 <= k <= n)%nat -> increasing (times (chist (cport k) evs)).

(** what a control that received [h] says about time [t] *)
Inductive instruction := Awaited | Given (open : bool) | Mismatch.
Definition instruct (h : list msg) (t : Z) : instruction :=
  match find (fun m => t <=? mtime m) h with
  | None => Awaited                                  (* nothing at or after [t] yet *)
  | Some m =>
      if (mtime m =? t) && (veq (mval m) v1 || veq (mval m) v0)
      then Given (veq (mval m) v1)
      else Mismatch                                  (* [t] was skipped, or is neither 0 nor 1 *)
  end.

Definition says (evs : list ev) (t : Z) (k : nat) : instruction := instruct (chist (cport k) evs) t.
Definition is_given (i : instruction) : bool := match i with Given _ => true | _ => false end.
Definition is_mismatch (i : instruction) : bool := match i with Mismatch => true | _ => false end.

(** [Some ds]: no call fails and each call routes a message or nothing; [None]: some call fails.
    [before] are the calls made so far and [waiting] the data not routed yet. *)
Fixpoint demux_spec (n : nat) (before : list ev) (waiting : list msg) (evs : list ev) : option (list (option msg)) :=
  match evs with
  | [] => Some []
  | e :: r =>
      let silent w := option_map (cons None) (demux_spec n (before ++ [e]) w r) in
      match e with
      | EData _ m => silent (waiting ++ [m])
      | ECtrl _ _ => silent waiting
      | _ =>
          match waiting with
          | [] => silent waiting
          | d :: w =>
              if existsb (fun k => is_mismatch (says before (mtime d) k)) (seq 1 n) then None
              else if forallb (fun k => is_given (says before (mtime d) k)) (seq 1 n)
              then option_map (cons (Some d)) (demux_spec n (before ++ [e]) w r)
              else silent waiting
          end
      end
  end.

(** [d] is emitted once on exactly the outputs [ok] whose control [ck] says open at its time *)
Definition routed (n : nat) (evs : list ev) (d : msg) (out : opmsg) : Prop :=
  (forall k, (1 <= k <= n)%nat ->
     sfind (oport k) out = match says evs (mtime d) k with Given true => Some [d] | _ => None end) /\
  (forall x ms, sfind x out = Some ms -> exists k, (1 <= k <= n)%nat /\ x = oport k).

Definition routes (n : nat) (evs : list ev) (d : option msg) (out : opmsg) : Prop :=
  match d with Some d => routed n evs d out | None => out = emits_nothing end.

End Spec.
