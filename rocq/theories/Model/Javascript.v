(** * The JavaScript module: libs/wrappers/javascript/src/api.ts and the methods of program.ts that
      run a program.

    What embind (the bridge between JavaScript and the compiled C++,
    libs/api/wasm/emscripten-bindings.cpp) does with the numbers it is given is a parameter.
    Simplifications: times are integers; [JSON.stringify] and class-transformer's
    [instanceToPlain], which make the text of a definition, are not modelled (the text is an
    argument), nor are the random ids of programs, the validation by the JavaScript schema, the
    verbose log and the loading of the wasm module. *)

From Coq Require Import String ZArith Bool List.
From Verif Require Import Base.StrMap Base.Num Model.Core Model.Graph Model.Codec Model.Json Model.Factory Model.Schema Model.Wrapper.
Import ListNotations.
Open Scope string_scope.
Open Scope list_scope.
Open Scope Z_scope.
Open Scope rtbot_scope.

Section Javascript.
Context {NO : NumOps} {SL : SchemaLib} {JT : JsonText} {NC : NumCodec NO}.

(** [addToMessageBuffer] takes an [unsigned long] and a [double], bindings.cpp:116; a value that is
    [undefined] is [None].  [js_finite] tells the values that JSON text has; the others are
    dumped as null. *)
Class JsRuntime := {
  js_ulong : Z -> res Z;
  js_double : option V -> res V;
  js_finite : V -> bool
}.
Context {JR : JsRuntime}.

(** api.ts:8-11 *)
Definition js_message : Type := Z * option V.
(** [{ [portId]: RtBotMessage[] }], in the order of [Object.entries] *)
Definition js_messages : Type := list (string * list js_message).

(** a message of an answer, as [JSON.parse] gives it: null is [None].  (Times that a double does
    not hold exactly are not modelled.) *)
Definition js_show (x : msg) : js_message := (mtime x, if js_finite (mval x) then Some (mval x) else None).

Definition js_error (s : string) : exn := RuntimeError s.

(** ** class RtBot, api.ts:13-66 *)

(** api.ts:59 *)
Definition js_add (id port : string) (x : js_message) (m : manager) : sres manager reply :=
  match js_ulong (fst x) with
  | Ok t =>
      match js_double (snd x) with
      | Ok v => add_to_buffer id port (mkMsg t v) m
      | Throw e => (Throw e, m)
      | UB => (UB, m)
      | Diverges => (Diverges, m)
      | OutOfFuel => (OutOfFuel, m)
      end
  | Throw e => (Throw e, m)
  | UB => (UB, m)
  | Diverges => (Diverges, m)
  | OutOfFuel => (OutOfFuel, m)
  end.

(** [prepareInternalMessageBuffer] api.ts:53-61 *)
Fixpoint js_add_all (id port : string) (xs : list js_message) (m : manager) : sres manager unit :=
  match xs with
  | [] => (Ok tt, m)
  | x :: r => do! (_u, m1) <- js_add id port x m; js_add_all id port r m1
  end.
Fixpoint js_prepare (id : string) (ms : js_messages) (m : manager) : sres manager unit :=
  match ms with
  | [] => (Ok tt, m)
  | (port, xs) :: r => do! (_u, m1) <- js_add_all id port xs m; js_prepare id r m1
  end.

(** [process], [processDebug] api.ts:37-51 when nothing else runs meanwhile.  The answer is
    what [JSON.parse] reads; here it is the result itself, see [js_show]. *)
Definition js_process (debug : bool) (n : nat) (id : string) (ms : js_messages) (m : manager) : sres manager progmsg :=
  do! (_u, m1) <- js_prepare id ms m;
  do! (r, m2) <- process_buffer debug n id m1;
  match r with RResult out => (Ok out, m2) | _ => (UB, m2) end.

(** ** Calls that overlap.  Each [await this.rtbot] of [process] and [processDebug] ends a step: the
    rest of the call is put at the end of the queue of microtasks, which are run in order.  A
    call is therefore made of two steps, and other calls may be made between any two steps. *)
Inductive js_event : Type :=
| JsCall (k : nat) (debug : bool) (id : string) (ms : js_messages)   (* the call number k is made *)
| JsTick.                                                          (* the first microtask is run *)

(** what is left of a call *)
Inductive js_task : Type :=
| Prepare (k : nat) (debug : bool) (id : string) (ms : js_messages)
| Finish (k : nat) (debug : bool) (id : string).

(** the calls that are answered in the course of the events, with their answers *)
Fixpoint js_events (n : nat) (es : list js_event) (q : list js_task) (m : manager) :
  list (nat * res reply) * (list js_task * manager) :=
  match es with
  | [] => ([], (q, m))
  | JsCall k debug id ms :: r => js_events n r (q ++ [Prepare k debug id ms]) m
  | JsTick :: r =>
      match q with
      | [] => js_events n r [] m
      | Prepare k debug id ms :: q' =>
          match js_prepare id ms m with
          | (Ok _, m1) => js_events n r (q' ++ [Finish k debug id]) m1
          | (x, m1) => let '(l, s) := js_events n r q' m1 in ((k, (let! _u := x in Ok (RText ""))) :: l, s)
          end
      | Finish k debug id :: q' =>
          let '(x, m1) := process_buffer debug n id m in
          let '(l, s) := js_events n r q' m1 in ((k, x) :: l, s)
      end
  end.

(** ** The methods of class Program, program.ts:85-117 *)

(** [createProgram] and the check of its answer, program.ts:91-97, api.ts:104-110: an answer that
    is not empty has an error (or is no JSON text, which is an exception as well) *)
Definition js_create (id : string) (g : string -> junk) (text : string) (m : manager) : sres manager unit :=
  do! (r, m1) <- create_checked id g text m;
  match r with
  | RText s => if String.eqb s "" then (Ok tt, m1) else (Throw (js_error "Error"), m1)
  | _ => (UB, m1)
  end.

(** [getProgramEntryPorts] *)
Definition js_ports (id : string) (m : manager) : sres manager (list string) :=
  do! (r, m1) <- with_program m id entry_ports;
  match r with RPorts ps => (Ok ps, m1) | _ => (UB, m1) end.

(** [start] program.ts:87-100; the result is [defaultPort] *)
Definition js_start (id : string) (g : string -> junk) (text : string) (m : manager) : sres manager (option string) :=
  do! (_u, m1) <- js_create id g text m;
  do! (ps, m2) <- js_ports id m1;
  (Ok (hd_error ps), m2).

(** [processMessage], [processMessageDebug] program.ts:102-112 *)
Definition js_process_message (debug : bool) (n : nat) (id : string) (defaultPort : option string)
    (time : Z) (value : V) (port : option string) (m : manager) : sres manager progmsg :=
  match (match port with Some p => Some p | None => defaultPort end) with
  | Some p => if String.eqb p "" then (Throw (js_error "Please specify an entry port to send the message"), m)
              else js_process debug n id [(p, [(time, Some value)])] m
  | None => (Throw (js_error "Please specify an entry port to send the message"), m)
  end.

(** [stop] program.ts:114-116 *)
Definition js_stop (id : string) (m : manager) : sres manager unit :=
  do! (_u, m1) <- delete id m; (Ok tt, m1).

(** a history of calls on one object of class Program, one after the other; exceptions are caught
    by the caller, who goes on.  The state is the member [defaultPort] and the manager. *)
Inductive js_action : Type :=
| JsStart (g : string -> junk) (text : string)
| JsMessage (debug : bool) (time : Z) (value : V) (port : option string)
| JsStop.
Inductive js_outcome : Type :=
| Done (r : res unit)
| Answer (r : res progmsg).

Definition js_act (n : nat) (id : string) (a : js_action) (s : option string * manager) : js_outcome * (option string * manager) :=
  let '(dp, m) := s in
  match a with
  | JsStart g text =>
      match js_start id g text m with
      | (Ok dp', m1) => (Done (Ok tt), (dp', m1))
      | (r, m1) => (Done (let! _u := r in Ok tt), (dp, m1))
      end
  | JsMessage debug time value port =>
      let '(r, m1) := js_process_message debug n id dp time value port m in (Answer r, (dp, m1))
  | JsStop => let '(r, m1) := js_stop id m in (Done r, (dp, m1))
  end.
Fixpoint js_acts (n : nat) (id : string) (l : list js_action) (s : option string * manager) :
  list js_outcome * (option string * manager) :=
  match l with
  | [] => ([], s)
  | a :: r =>
      let '(x, s1) := js_act n id a s in
      let '(xs, s2) := js_acts n id r s1 in
      (x :: xs, s2)
  end.

(** ** class RtBotRun, api.ts:76-157, format COLLAPSED.  [outputs] is a member of the object. *)
Definition js_table : Type := smap (list js_message).

(** api.ts:125-137 *)
Fixpoint js_record_op (op : string) (om : opmsg) (t : js_table) : js_table :=
  match om with
  | [] => t
  | (port, ms) :: r =>
      js_record_op op r
        match ms with
        | [] => t
        | _ => sset (table_key op port) (odefault [] (sfind (table_key op port) t) ++ map js_show ms) t
        end
  end.
Fixpoint js_record (out : progmsg) (t : js_table) : js_table :=
  match out with
  | [] => t
  | (op, om) :: r => js_record r (js_record_op op om t)
  end.

(** api.ts:119-120: one message for every entry port; [values[i]] may be undefined *)
Fixpoint js_row (ports : list string) (time : Z) (values : list V) : js_messages :=
  match ports with
  | [] => []
  | p :: r => (p, [(time, hd_error values)]) :: js_row r time (tl values)
  end.

(** api.ts:118-148; the state is the manager and [outputs] *)
Fixpoint js_rows (n : nat) (id : string) (ports : list string) (rows : list row) (t : js_table) (m : manager) :
  sres (js_table * manager) unit :=
  match rows with
  | [] => (Ok tt, (t, m))
  | (time, values) :: r =>
      match js_process true n id (js_row ports time values) m with
      | (Ok out, m1) => js_rows n id ports r (js_record out t) m1
      | (Throw e, m1) => (Throw e, (t, m1))
      | (UB, m1) => (UB, (t, m1))
      | (Diverges, m1) => (Diverges, (t, m1))
      | (OutOfFuel, m1) => (OutOfFuel, (t, m1))
      end
  end.

(** [run] api.ts:98-152 *)
Definition js_run (n : nat) (id : string) (g : string -> junk) (text : string) (rows : list row)
    (t : js_table) (m : manager) : sres (js_table * manager) unit :=
  let begin := do! (_u, m1) <- js_create id g text m; js_ports id m1 in
  match begin with
  | (Ok ports, m1) =>
      do! (_u, s) <- js_rows n id ports rows t m1;
      (Ok tt, (fst s, snd (delete id (snd s))))
  | (Throw e, m1) => (Throw e, (t, m1))
  | (UB, m1) => (UB, (t, m1))
  | (Diverges, m1) => (Diverges, (t, m1))
  | (OutOfFuel, m1) => (OutOfFuel, (t, m1))
  end.

End Javascript.

Arguments JsRuntime {NO}.

(** ** The calls of [progressCb], api.ts:115-118, 141-147: the rows i after which it is called (with
    i divided by the number of rows) *)
Fixpoint js_progress_from (step : nat) (i counter rows : nat) : list nat :=
  match rows with
  | O => []
  | S r => if Nat.eqb (S counter) step then i :: js_progress_from step (S i) 0 r
           else js_progress_from step (S i) (S counter) r
  end.
Definition js_progress (rows : nat) : list nat := js_progress_from (Nat.div rows 20) 0 0 rows.
