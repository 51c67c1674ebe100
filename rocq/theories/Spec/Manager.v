(** * What the manager of programs promises *)

From Coq Require Import String ZArith Bool List.
From Verif Require Import Base.StrMap Base.Num Model.Core Model.Graph Model.Codec Model.Json Model.Factory.
Import ListNotations.
Open Scope string_scope.
Open Scope list_scope.

Section Manager.
Context {NO : NumOps} {NC : NumCodec NO} {JT : JsonText}.

(** the program a call is about *)
Definition about (c : call) : string :=
  match c with
  | CreateText id _ _ | CreateBytes id _ _ | Delete id | Add id _ _ | Process _ id | ProcessMap _ id _
  | ProcessBatch _ id _ _ _ | Serialize id | GetEntry id | GetEntryPorts id | GetFilter id => id
  end.
Definition is_about (id : string) (c : call) : bool := String.eqb (about c) id.

(** the replies to the calls about [id] *)
Definition replies_about (id : string) (cs : list call) (rs : list (res reply)) : list (res reply) :=
  map snd (filter (fun x => is_about id (fst x)) (combine cs rs)).

(** everything the manager has of program [id] *)
Definition same_at (id : string) (m m' : manager) : Prop :=
  sfind id (f_programs m) = sfind id (f_programs m') /\ sfind id (f_buffer m) = sfind id (f_buffer m').

(** after any history of calls *)
Definition reachable_manager (m : manager) : Prop := exists n cs, m = snd (do_calls n cs no_programs).

(** the messages of a list of (port, message) pairs that are for [port], in their order *)
Definition for_port (port : string) (l : list (string * msg)) : list msg :=
  map snd (filter (fun x => String.eqb (fst x) port) l).

(** the batch with exactly the messages of [l], each port's in their order *)
Definition is_batch_of (l : list (string * msg)) (batch : opmsg) : Prop :=
  swf batch /\ forall port, sfind port batch = match for_port port l with [] => None | ms => Some ms end.

(** the same call, except for the memory that the constructors do not initialise *)
Inductive same_call : call -> call -> Prop :=
| Same_create id g g' text : same_call (CreateText id g text) (CreateText id g' text)
| Same_load id g g' bs : same_call (CreateBytes id g bs) (CreateBytes id g' bs)
| Same_call c : same_call c c.

Definition is_serialize (c : call) : bool := match c with Serialize _ => true | _ => false end.

(** the replies to all calls except those that ask for a snapshot *)
Definition replies_without_snapshots (cs : list call) (rs : list (res reply)) : list (res reply) :=
  map snd (filter (fun x => negb (is_serialize (fst x))) (combine cs rs)).

End Manager.
