(** * Reading a diagram (C95) *)

From Coq Require Import String Ascii ZArith Bool List.
From Verif Require Import Base.StrMap Base.Num Model.Core Model.Json Model.Wrapper Spec.Wrapper.
Import ListNotations.
Open Scope string_scope.
Open Scope list_scope.

(** what comes before the first [c] and what comes after it *)
Fixpoint split_at (c : ascii) (s : string) : option (string * string) :=
  match s with
  | "" => None
  | String d r => if Ascii.eqb d c then Some ("", r) else match split_at c r with Some (a, b) => Some (String d a, b) | None => None end
  end.
(** what comes after [pre], which [s] has to begin with *)
Fixpoint strip (pre s : string) : option string :=
  match pre, s with
  | "", _ => Some s
  | String c p, String d r => if Ascii.eqb c d then strip p r else None
  | String _ _, "" => None
  end.

Definition dquote : ascii := ascii_of_nat 34.
Definition text (c : ascii) : string := String c "".
Notation "'let?' x := a 'in' b" := (match a with Some x => b | None => None end) (at level 200, x pattern, a at level 100, b at level 200).

(** an arrow: the operators at its two ends with their types, and the ports *)
Record arrow := mkArrow { a_from : string; a_from_type : string; a_from_port : string; a_to_port : string; a_to : string; a_to_type : string }.

(** a label begins with the type, arguments are in parentheses *)
Definition type_of (label : string) : string := match split_at "(" label with Some (k, _) => k | None => label end.

(** an operator, [id("label")] *)
Definition read_node (s : string) : option (string * string * string) :=
  let? (id, s) := split_at "(" s in
  let? s := strip (text dquote) s in
  let? (label, s) := split_at dquote s in
  let? s := strip ")" s in
  Some (id, type_of label, s).
(** a line, [node --> |port:port| node;] *)
Definition read_line (s : string) : option (arrow * string) :=
  let? (from, from_type, s) := read_node s in
  let? s := strip " --> |" s in
  let? (fp, s) := split_at ":" s in
  let? (tp, s) := split_at "|" s in
  let? s := strip " " s in
  let? (to, to_type, s) := read_node s in
  let? s := strip (";" ++ text (ascii_of_nat 10)) s in
  Some (mkArrow from from_type fp tp to to_type, s).
Fixpoint read_lines (n : nat) (s : string) : option (list arrow) :=
  match s, n with
  | "", _ => Some []
  | _, O => None
  | _, S n => let? (a, r) := read_line s in let? l := read_lines n r in Some (a :: l)
  end.
Definition read_diagram (s : string) : option (list arrow) :=
  let? r := strip "flowchart LR;" s in read_lines (String.length r) r.

(** [c] does not occur in [s] *)
Definition lacks (c : ascii) (s : string) : Prop := split_at c s = None.

Section Drawn.
Context {NO : NumOps}.

(** the type of the operator of [p] with this id *)
Definition type_in (p : py_program) (id : string) : string :=
  match find (fun x => String.eqb (json_member "id" x) id) (py_operators p) with Some x => json_member "type" x | None => "" end.
(** the arrow of a connection *)
Definition drawn (p : py_program) (c : json) : arrow :=
  mkArrow (json_member "from" c) (type_in p (json_member "from" c)) (json_member "fromPort" c)
    (json_member "toPort" c) (json_member "to" c) (type_in p (json_member "to" c)).

(** the texts in [p] do not contain the punctuation of the diagram *)
Definition plain_operator (py_str : json -> string) (x : json) : Prop :=
  lacks "(" (json_member "id" x) /\
  match x with JObj m => Forall (fun ky => lacks dquote (py_str (snd ky))) m | _ => True end.
Definition plain_connection (c : json) : Prop := lacks ":" (json_member "fromPort" c) /\ lacks "|" (json_member "toPort" c).
End Drawn.
