(** * The manager of programs, [FactoryOp] (libs/api/include/rtbot/FactoryOp.h,
      libs/api/src/FactoryOp.cpp) and the functions of libs/api/src/bindings.cpp on top of it.

    [createProgram] here is that of FactoryOp; the bindings' version, which validates the definition
    first, is in Model/Schema.v.  The bindings' conversion of results to JSON
    text is not modelled either; the replies are the results themselves. *)

From Coq Require Import String Ascii ZArith Bool List.
From Verif Require Import Base.StrMap Base.Num Model.Core Model.Graph Model.Codec Model.Json.
Import ListNotations.
Open Scope string_scope.
Open Scope list_scope.
Open Scope Z_scope.
Open Scope rtbot_scope.

Section Factory.
Context {NO : NumOps} {NC : NumCodec NO} {JT : JsonText}.

(** FactoryOp.h:20-22 *)
Record manager := mkManager {
  f_programs : smap program;             (* programs *)
  f_buffer : smap opmsg                  (* messageBuffer *)
}.

Definition set_programs (m : manager) (ps : smap program) : manager := mkManager ps (f_buffer m).
Definition set_buffer (m : manager) (b : smap opmsg) : manager := mkManager (f_programs m) b.

(** calls of the manager.  [g] is what the constructors of the new program's operators find in
    the memory they do not initialise. *)
Inductive call : Type :=
| CreateText (id : string) (g : string -> junk) (text : string)
| CreateBytes (id : string) (g : string -> junk) (bs : bytes)
| Delete (id : string)
| Add (id port : string) (m : msg)
| Process (debug : bool) (id : string)
| ProcessMap (debug : bool) (id : string) (batch : opmsg)
| ProcessBatch (debug : bool) (id : string) (times : list Z) (values : list V) (ports : list string)
| Serialize (id : string)
| GetEntry (id : string)
| GetEntryPorts (id : string)
| GetFilter (id : string).

Inductive reply : Type :=
| RText (s : string)
| RBool (b : bool)
| RResult (r : progmsg)
| RBytes (bs : bytes)
| RPorts (l : list string)
| RFilter (f : smap (list string)).

Definition not_found : exn := RuntimeError "Program was not found".

(** [throw] if there is no such program *)
Definition with_program (m : manager) (id : string) (k : program -> res reply) : sres manager reply :=
  match sfind id (f_programs m) with
  | None => (Throw not_found, m)
  | Some p => (k p, m)
  end.

(** [createProgram(id, json)] FactoryOp.cpp:442-454: [map::emplace] keeps an existing element; only
    parse errors are caught (the text of the message is not modelled) *)
Definition create_text (id : string) (g : string -> junk) (text : string) (m : manager) : sres manager reply :=
  match new_prog g text with
  | Ok p => (Ok (RText ""), set_programs m (semplace id p (f_programs m)))
  | Throw (JsonError "parse_error") => (Ok (RText "Unable to parse program"), m)
  | Throw e => (Throw e, m)
  | UB => (UB, m)
  | Diverges => (Diverges, m)
  | OutOfFuel => (OutOfFuel, m)
  end.

(** [createProgram(id, bytes)] FactoryOp.cpp:436-440 *)
Definition create_bytes (id : string) (g : string -> junk) (bs : bytes) (m : manager) : sres manager reply :=
  if shas id (f_programs m) then (Throw (RuntimeError "Program already exists"), m)
  else match load (new_prog g) bs with
       | Ok p => (Ok (RText id), set_programs m (semplace id p (f_programs m)))
       | Throw e => (Throw e, m)
       | UB => (UB, m)
       | Diverges => (Diverges, m)
       | OutOfFuel => (OutOfFuel, m)
       end.

(** [deleteProgram] FactoryOp.h:66 *)
Definition delete (id : string) (m : manager) : sres manager reply :=
  (Ok (RBool (shas id (f_programs m))), set_programs m (serase id (f_programs m))).

(** [addToMessageBuffer] FactoryOp.h:68-72 *)
Definition add_to_buffer (id port : string) (x : msg) (m : manager) : sres manager reply :=
  if shas id (f_programs m) then
    let b := odefault [] (sfind id (f_buffer m)) in
    (Ok (RBool true), set_buffer m (sset id (sset port (odefault [] (sfind port b) ++ [x]) b) (f_buffer m)))
  else (Throw not_found, m).

(** [receive] / [receiveDebug] *)
Definition receive_as (debug : bool) (n : nat) (p : program) (batch : opmsg) : sres program progmsg :=
  if debug then receive_debug n p batch else receive n p batch.

(** [processMessageMap], [processMessageMapDebug] FactoryOp.h:115-127 *)
Definition process_map (debug : bool) (n : nat) (id : string) (batch : opmsg) (m : manager) : sres manager reply :=
  match sfind id (f_programs m) with
  | None => (Ok (RResult []), m)
  | Some p =>
      let '(r, p') := receive_as debug n p batch in
      (let! x := r in Ok (RResult x), set_programs m (sset id p' (f_programs m)))
  end.

(** [processMessageBuffer], [processMessageBufferDebug] FactoryOp.h:74-98 *)
Definition process_buffer (debug : bool) (n : nat) (id : string) (m : manager) : sres manager reply :=
  if shas id (f_programs m) then
    match sfind id (f_buffer m) with
    | None | Some [] => (Ok (RResult []), m)
    | Some b =>
        do! (r, m1) <- process_map debug n id b m;
        (Ok r, set_buffer m1 (serase id (f_buffer m1)))
    end
  else (Throw not_found, m).

(** [addBatchToMessageBuffers] bindings.cpp:156-168 *)
Fixpoint add_all (id : string) (l : list (string * msg)) (m : manager) : sres manager unit :=
  match l with
  | [] => (Ok tt, m)
  | (port, x) :: r => do! (_u, m1) <- add_to_buffer id port x m; add_all id r m1
  end.

Definition entries (times : list Z) (values : list V) (ports : list string) : list (string * msg) :=
  combine ports (map (fun tv => mkMsg (fst tv) (snd tv)) (combine times values)).

(** [processBatch], [processBatchDebug] bindings.cpp:170-196 *)
Definition process_batch (debug : bool) (n : nat) (id : string) (times : list Z) (values : list V) (ports : list string)
    (m : manager) : sres manager reply :=
  if Nat.eqb (length times) (length values) && Nat.eqb (length times) (length ports) then
    do! (_u, m1) <- add_all id (entries times values ports) m; process_buffer debug n id m1
  else (Throw (RuntimeError "vectors passed to processBatch are not of the same length"), m).

(** [getProgramEntryPorts] Program.h:56-62 *)
Definition entry_ports (p : program) : res reply :=
  if String.eqb (p_entry p) "" then Throw (RuntimeError "Entry operator was not defined")
  else match sfind (p_entry p) (p_ops p) with
       | None => Throw (RuntimeError "Entry operator was not found")
       | Some o => Ok (RPorts (skeys (o_data (op_base o))))
       end.

(** one call; [n] bounds the depth of execution *)
Definition do_call (n : nat) (c : call) (m : manager) : sres manager reply :=
  match c with
  | CreateText id g text => create_text id g text m
  | CreateBytes id g bs => create_bytes id g bs m
  | Delete id => delete id m
  | Add id port x => add_to_buffer id port x m
  | Process debug id => process_buffer debug n id m
  | ProcessMap debug id batch => process_map debug n id batch m
  | ProcessBatch debug id times values ports => process_batch debug n id times values ports m
  | Serialize id => with_program m id (fun p => Ok (RBytes (serialize p)))
  | GetEntry id => with_program m id (fun p => Ok (RText (p_entry p)))
  | GetEntryPorts id => with_program m id entry_ports
  | GetFilter id => with_program m id (fun p => Ok (RFilter (p_filter p)))
  end.

(** a history of calls; exceptions are caught by the caller, who goes on *)
Fixpoint do_calls (n : nat) (cs : list call) (m : manager) : list (res reply) * manager :=
  match cs with
  | [] => ([], m)
  | c :: r =>
      let '(x, m1) := do_call n c m in
      let '(xs, m2) := do_calls n r m1 in
      (x :: xs, m2)
  end.

Definition no_programs : manager := mkManager [] [].

End Factory.
