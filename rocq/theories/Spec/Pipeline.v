(** * Specification of Pipelines (C48) *)

From Coq Require Import String Ascii ZArith Bool List.
From Verif Require Import Base.StrMap Base.Num Model.Core Model.Ops Model.Make Model.Run Model.Graph.
From Verif Require Import Spec.Log Spec.Definition.
Import ListNotations.
Open Scope string_scope.
Open Scope list_scope.
Open Scope rtbot_scope.

Fixpoint has_colon (s : string) : bool :=
  match s with
  | EmptyString => false
  | String c s' => Ascii.eqb c ":" || has_colon s'
  end.

Section Pipeline.
Context {NO : NumOps}.

(** the operators inside a Pipeline *)
Definition inner_of (o : op) : heap :=
  match op_kind o with KPipeline _ ops _ _ _ => ops | _ => [] end.

(** ** The ports of a Pipeline *)

(** a data input of an operator that no connection goes to *)
Definition free_input (h : heap) (id port : string) : Prop :=
  (exists o, sfind id h = Some o /\ In port (skeys (o_data (op_base o)))) /\
  (forall src o p, sfind src h = Some o -> ~ In (id, port) (targets o p)).

(** an output of an operator from which no connection starts *)
Definition free_output (h : heap) (id port : string) : Prop :=
  exists o, sfind id h = Some o /\ In port (o_outs (op_base o)) /\ targets o port = [].

(** the free ports are numbered from 1, in the order of the texts "id:port" *)
Definition numbered (free : string -> string -> Prop) (mk : nat -> string) (name id port : string) : Prop :=
  exists keys k,
    ssorted keys /\
    (forall key, In key keys <-> exists i p, key = (i ++ ":" ++ p)%string /\ free i p) /\
    free id port /\ nth_error keys k = Some (id ++ ":" ++ port)%string /\ name = mk (S k).

(** input [name] of a Pipeline around [h] is port [port] of the inner operator [id] *)
Definition input_is (h : heap) : string -> string -> string -> Prop := numbered (free_input h) iport.
Definition output_is (h : heap) : string -> string -> string -> Prop := numbered (free_output h) oport.

(** ** Histories *)

(** the Pipeline receives a message and is executed: what it computes *)
Definition pipe_call (n : nat) (o : op) (x : string * msg) : sres op opmsg :=
  do! (_u, o1) <- recv_data (S n) o (snd x) (fst x); exec_local (exec n) false o1.

Fixpoint pipe_calls (n : nat) (o : op) (l : list (string * msg)) : sres op (list opmsg) :=
  match l with
  | [] => (Ok [], o)
  | x :: l' =>
      do! (om, o1) <- pipe_call n o x;
      do! (oms, o2) <- pipe_calls n o1 l';
      (Ok (om :: oms), o2)
  end.

(** the operators [h] as a program of their own with entry operator [id], given a message *)
Definition program_call (n : nat) (h : heap) (x : string * string * msg) : sres heap progmsg :=
  let '(id, port, m) := x in
  let '(r, p) := receive_debug n (mkProgram "" h id []) [(port, [m])] in (r, p_ops p).

Fixpoint program_calls (n : nat) (h : heap) (l : list (string * string * msg)) : sres heap (list progmsg) :=
  match l with
  | [] => (Ok [], h)
  | x :: l' =>
      do! (r, h1) <- program_call n h x;
      do! (rs, h2) <- program_calls n h1 l';
      (Ok (r :: rs), h2)
  end.

(** the Pipeline shows of the result [r] of the inner program the free outputs, under its names *)
Definition shows (h : heap) (r : progmsg) (om : opmsg) : Prop :=
  (forall name id port, output_is h name id port -> odefault [] (sfind name om) = result_at r id port) /\
  (forall name ms, sfind name om = Some ms -> ms <> [] /\ exists id port, output_is h name id port).

Definition same_failure {A B} (a : res A) (b : res B) : Prop :=
  match a, b with
  | Throw e, Throw e' => e = e'
  | UB, UB | Diverges, Diverges | OutOfFuel, OutOfFuel => True
  | _, _ => False
  end.

(** ** Any operator by itself, Pipelines included (compare Model/Run.v) *)

Definition call (n : nat) (o : op) (e : ev) : sres op opmsg :=
  match e with
  | EData port m => do! (_u, o1) <- recv_data n o m port; (Ok [], o1)
  | ECtrl port m => do! (_u, o1) <- recv_ctrl_local o m port; (Ok [], o1)
  | EExec => exec_local (exec n) false o
  | EExecC => exec_local (exec n) true o
  end.

Fixpoint calls_of (n : nat) (o : op) (evs : list ev) : sres op (list opmsg) :=
  match evs with
  | [] => (Ok [], o)
  | e :: evs' =>
      do! (x, o1) <- call n o e;
      do! (xs, o2) <- calls_of n o1 evs';
      (Ok (x :: xs), o2)
  end.

(** every operator computes in each call what is logged when it is called by itself with the
    same sequence of calls (and enough fuel), and ends up in the same state *)
Definition replays_all (h : heap) (l : list entry) (h' : heap) : Prop :=
  forall id o, sfind id h = Some o -> exists o', sfind id h' = Some o' /\
    exists n0, forall n, (n0 <= n)%nat -> calls_of n o (calls id l) = (Ok (returned id l), o').

(** receive a message, execute, receive the next *)
Definition one_by_one (l : list (string * msg)) : list ev :=
  flat_map (fun x => [EData (fst x) (snd x); EExec]) l.

(** an output that is connected to an input of operator [id] is connected to nothing else *)
Definition fed_directly (h : heap) (id : string) : Prop :=
  forall src o port q, sfind src h = Some o -> In (id, q) (targets o port) -> targets o port = [(id, q)].

End Pipeline.
