(** * The command line tool: what to expect *)

From Coq Require Import String ZArith Bool List.
From Verif Require Import Base.StrMap Base.Num Model.Core Model.Make Model.Graph Model.Codec Model.Json Model.Factory Model.Schema Model.Wrapper Model.Javascript Model.Cli.
From Verif Require Import Spec.Wrapper Spec.Javascript.
Import ListNotations.
Open Scope string_scope.
Open Scope list_scope.
Open Scope Z_scope.
Open Scope rtbot_scope.

Section Cli.
Context {NO : NumOps} {JR : JsRuntime} {CT : CliText}.

(** the rows of a file with a time and a value *)
Definition numeric (rows : list (list string)) : list row :=
  flat_map (fun r => match r with
                     | t :: v :: _ => match cli_time t, cli_value v with Some time, Some value => [(time, [value])] | _, _ => [] end
                     | _ => []
                     end) rows.

(** rows and answers side by side *)
Definition entries (ports : list string) (rows : list row) (outs : list progmsg) : list js_entry :=
  combine (map (fun r => to_js (row_batch ports r)) rows) outs.

(** ** The debugger *)

(** an id that the debugger can show *)
Definition showable (id : string) : Prop := id <> "" /\ no_colon id = true.

(** the iteration that the keys lead to, of [max] *)
Definition position (max : nat) (l : list dbg_action) : nat :=
  fold_left (fun i a => match a with Forward => Nat.min (i + 1) max | Backward => (i - 1)%nat | Select _ _ => i end) l 0%nat.

(** whether an operator is selected: what its check box was last set to *)
Definition chosen (l : list dbg_action) (id : string) : bool :=
  fold_left (fun b a => match a with Select id' b' => if String.eqb id' id then b' else b | _ => b end) l true.

(** the outputs of the selected operators *)
Definition listed (l : list dbg_action) (ops : list (string * option nat)) : list (string * string) :=
  flat_map (fun x => if chosen l (fst x) then map (pair (fst x)) (dbg_ports (snd x)) else []) ops.

(** what an operator emitted on an output in an iteration *)
Definition cell (out : progmsg) (x : string * string) : string :=
  match sfind (fst x) out with
  | Some om => cli_text (map js_show (odefault [] (sfind (snd x) om)))
  | None => "-"
  end.

(** the rows of the table at iteration [k] *)
Definition table_rows (l : list dbg_action) (ops : list (string * option nat)) (result : list progmsg) (k : nat) : list (list string) :=
  map (fun i => string_of_nat i :: map (cell (nth i result [])) (listed l ops)) (seq (k - 1) 11).

End Cli.
