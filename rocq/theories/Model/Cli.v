(** * The command line tool: apps/cli, and the format EXTENDED of RtBotRun, which it uses
      (libs/wrappers/javascript/src/api.ts:68-157).

    Simplifications: reading files, the CSV parser (its rows of texts are an argument),
    [JSON.parse] of the program's text, the validation by the JavaScript schema, the verbose log
    and the screen (blessed) are not modelled; an exception in a handler of a key is the
    outcome [Throw] (it ends the tool). *)

From Coq Require Import String Ascii ZArith Bool List.
From Verif Require Import Base.StrMap Base.Num Model.Core Model.Make Model.Graph Model.Codec Model.Json Model.Factory Model.Schema Model.Wrapper Model.Javascript.
Import ListNotations.
Open Scope string_scope.
Open Scope list_scope.
Open Scope Z_scope.
Open Scope rtbot_scope.

Section Cli.
Context {NO : NumOps} {SL : SchemaLib} {JT : JsonText} {NC : NumCodec NO} {JR : JsRuntime}.

(** ** class RtBotRun, format EXTENDED *)

(** an element of [ExtendedFormat], api.ts:74: [in] and [out] *)
Definition js_entry : Type := js_messages * progmsg.

(** what is passed for [progressCb], api.ts:88: nothing (or [false]), a function, or anything else *)
Inductive progress_cb : Type := NoCallback | Callback | NotAFunction.

(** api.ts:115-148; [step] is [progressStepSize], [counter] is [progressStepCounter] *)
Fixpoint ext_rows (n : nat) (id : string) (ports : list string) (cb : progress_cb) (step counter : nat) (rows : list row)
    (t : list js_entry) (m : manager) : sres (list js_entry * manager) unit :=
  match rows with
  | [] => (Ok tt, (t, m))
  | (time, values) :: r =>
      let msgs := js_row ports time values in
      match js_process true n id msgs m with
      | (Ok out, m1) =>
          let t1 := t ++ [(msgs, out)] in
          match cb with
          | NoCallback => ext_rows n id ports cb step counter r t1 m1
          | Callback => ext_rows n id ports cb step (if Nat.eqb (S counter) step then 0 else S counter)%nat r t1 m1
          | NotAFunction =>
              if Nat.eqb (S counter) step then (Throw (js_error "this.progressCb is not a function"), (t1, m1))
              else ext_rows n id ports cb step (S counter) r t1 m1
          end
      | (Throw e, m1) => (Throw e, (t, m1))
      | (UB, m1) => (UB, (t, m1))
      | (Diverges, m1) => (Diverges, (t, m1))
      | (OutOfFuel, m1) => (OutOfFuel, (t, m1))
      end
  end.

(** [run] api.ts:98-152 *)
Definition js_run_extended (n : nat) (id : string) (g : string -> junk) (text : string) (cb : progress_cb) (rows : list row)
    (t : list js_entry) (m : manager) : sres (list js_entry * manager) unit :=
  let begin := do! (_u, m1) <- js_create id g text m; js_ports id m1 in
  match begin with
  | (Ok ports, m1) =>
      do! (_u, s) <- ext_rows n id ports cb (Nat.div (length rows) 20) 0 rows t m1;
      (Ok tt, (fst s, snd (delete id (snd s))))
  | (Throw e, m1) => (Throw e, (t, m1))
  | (UB, m1) => (UB, (t, m1))
  | (Diverges, m1) => (Diverges, (t, m1))
  | (OutOfFuel, m1) => (OutOfFuel, (t, m1))
  end.

(** ** The command "debug", apps/cli/src/commands/debug.ts *)

(** what the tool makes of texts and numbers.  [cli_time] is
    [Math.round(scaleTimeFactor * parseFloat(t))] and [cli_value] is
    [scaleValueFactor * parseFloat(v)], debug.ts:88-89, [None] if it is not a number; [cli_text] is
    the text of a cell, store.ts:90-92. *)
Class CliText := {
  cli_time : string -> option Z;
  cli_value : string -> option V;
  cli_text : list js_message -> string
}.
Context {CT : CliText}.

(** debug.ts:82-96; the float of [undefined] is not a number *)
Definition cli_row (r : list string) : option row :=
  match r with
  | t :: v :: _ =>
      match cli_time t, cli_value v with
      | Some time, Some value => Some (time, [value])
      | _, _ => None
      end
  | _ => None
  end.
Fixpoint cli_data (rows : list (list string)) : list row :=
  match rows with
  | [] => []
  | r :: rs => match cli_row r with Some x => x :: cli_data rs | None => cli_data rs end
  end.

(** debug.ts:97-104: the fourth argument of the constructor of RtBotRun is [progressCb], not
    [verbose]. *)
Definition cli_debug (n : nat) (id : string) (g : string -> junk) (text : string) (verbose : bool) (rows : list (list string))
    (m : manager) : sres (list js_entry * manager) unit :=
  js_run_extended n id g text (if verbose then NotAFunction else NoCallback) (cli_data rows) [] m.

(** ** The state of the debugger's screen, apps/cli/src/tui/store.ts *)

(** store.ts:17 (without [type]) *)
Record dbg_op := mkDbgOp { d_id : string; d_selected : bool; d_ports : list string }.

(** store.ts:19-30 (without [timeCursor], which nothing uses); [d_result] has the [out] of each
    iteration *)
Record dbg := mkDbg {
  d_iteration : nat; d_max : nat; d_operators : list dbg_op; d_result : list progmsg; d_columns : list (list string)
}.

(** store.ts:52-56: [numPorts] of an operator may be missing *)
Definition dbg_ports (numPorts : option nat) : list string :=
  match numPorts with
  | Some (S k) => map oport (seq 1 (S k))
  | _ => ["o1"]
  end.
(** store.ts:46-58 *)
Definition dbg_operators (ops : list (string * option nat)) : list dbg_op :=
  map (fun x => mkDbgOp (fst x) true (dbg_ports (snd x))) ops.

(** [h.split(":")], the first two parts, store.ts:87 *)
Fixpoint until_colon (s : string) : string * option string :=
  match s with
  | EmptyString => ("", None)
  | String c r => if Ascii.eqb c ":" then ("", Some r) else let '(a, b) := until_colon r in (String c a, b)
  end.
Definition split_header (h : string) : string * option string :=
  let '(a, b) := until_colon h in
  (a, match b with Some r => Some (fst (until_colon r)) | None => None end).

(** store.ts:72-76 *)
Definition dbg_headers (ops : list dbg_op) : list string :=
  flat_map (fun o => if Nat.ltb 1 (length (d_ports o)) then map (fun p => d_id o ++ ":" ++ p)%string (d_ports o) else [d_id o])
           (filter d_selected ops).

(** store.ts:86-95, one cell; [r] is [state.result[i]], which may be undefined.  (Ids that
    every JavaScript object has as properties, as "constructor", are not modelled.) *)
Definition dbg_cell (r : option progmsg) (h : string) : res string :=
  let '(op, port) := split_header h in
  if String.eqb op "" then Ok "-"
  else match r with
       | None => Throw (js_error "Cannot read properties of undefined")
       | Some out =>
           match sfind op out with
           | None => Ok "-"
           | Some om =>
               match sfind (odefault "o1" port) om with
               | Some ms => Ok (cli_text (map js_show ms))
               | None => Throw (js_error "Cannot read properties of undefined")
               end
           end
       end.
Fixpoint dbg_cells (r : option progmsg) (hs : list string) : res (list string) :=
  match hs with
  | [] => Ok []
  | h :: t => let! c := dbg_cell r h in let! cs := dbg_cells r t in Ok (c :: cs)
  end.

(** the text of a number, as in the template `${i}` *)
Definition js_nat (i : nat) : string := string_of_nat i.

(** store.ts:84-97; [i] counts up, [k] rows are left *)
Fixpoint dbg_rows (result : list progmsg) (hs : list string) (i k : nat) : res (list (list string)) :=
  match k with
  | O => Ok []
  | S k' =>
      let! row := dbg_cells (nth_error result i) hs in
      let! rows := dbg_rows result hs (S i) k' in
      Ok ((js_nat i :: row) :: rows)
  end.

(** [computeColumns] store.ts:66-101; an exception leaves the state as it is *)
Definition dbg_columns (s : dbg) : sres dbg unit :=
  let hs := dbg_headers (d_operators s) in
  let set c := mkDbg (d_iteration s) (d_max s) (d_operators s) (d_result s) c in
  match d_iteration s with
  | O => (Ok tt, set [("iter" :: hs)])
  | S i =>
      match dbg_rows (d_result s) hs i (Nat.min (d_iteration s) (d_max s) + 10 - i) with
      | Ok rows => (Ok tt, set (("iter" :: hs) :: rows))
      | Throw e => (Throw e, s)
      | UB => (UB, s)
      | Diverges => (Diverges, s)
      | OutOfFuel => (OutOfFuel, s)
      end
  end.

(** [init] store.ts:37-43 *)
Definition dbg_init (ops : list (string * option nat)) (result : list progmsg) : sres dbg unit :=
  dbg_columns (mkDbg 0 (length result) (dbg_operators ops) result []).

(** the keys and check boxes, store.ts:102-116; select-operators-form.ts:37-42, index.ts:22-27 *)
Inductive dbg_action : Type :=
| Forward
| Backward
| Select (id : string) (selected : bool).

(** [updateOperator] store.ts:60-65: the first operator with this id *)
Fixpoint dbg_select (id : string) (selected : bool) (ops : list dbg_op) : list dbg_op :=
  match ops with
  | [] => []
  | o :: r => if String.eqb (d_id o) id then mkDbgOp (d_id o) selected (d_ports o) :: r else o :: dbg_select id selected r
  end.

Definition dbg_at (i : nat) (s : dbg) : dbg := mkDbg i (d_max s) (d_operators s) (d_result s) (d_columns s).
Definition dbg_act (a : dbg_action) (s : dbg) : sres dbg unit :=
  match a with
  | Forward => dbg_columns (dbg_at (Nat.min (d_iteration s + 1) (d_max s)) s)
  | Backward => dbg_columns (dbg_at (d_iteration s - 1) s)
  | Select id b => dbg_columns (mkDbg (d_iteration s) (d_max s) (dbg_select id b (d_operators s)) (d_result s) (d_columns s))
  end.
(** the actions one after the other; an exception ends the tool *)
Fixpoint dbg_acts (l : list dbg_action) (s : dbg) : sres dbg unit :=
  match l with
  | [] => (Ok tt, s)
  | a :: r => do! (_u, s1) <- dbg_act a s; dbg_acts r s1
  end.

End Cli.

Arguments CliText {NO}.
