(** * The diagram of a program, libs/wrappers/python/rtbot.py:145-172 *)

From Coq Require Import String Ascii ZArith Bool List.
From Verif Require Import Base.StrMap Base.Num Model.Core Model.Json Model.Wrapper.
Import ListNotations.
Open Scope string_scope.
Open Scope list_scope.
Open Scope rtbot_scope.

Section Mermaid.
Context {NO : NumOps}.
(** what an f-string makes of a value *)
Variable py_str : json -> string.

(** [x[key]]; [None[key]] is a TypeError *)
Definition py_at (key : string) (x : json) : res json :=
  match x with
  | JObj m => match sfind key m with Some y => Ok y | None => Throw (py_error "KeyError") end
  | _ => Throw (py_error "TypeError")
  end.

(** [next((x for x in self.operators if x["id"] == con[key]), None)] rtbot.py:148-149: without operators
    the member is not looked at *)
Definition py_end (key : string) (con : json) (ops : list json) : res json :=
  match ops with
  | [] => Ok JNull
  | _ =>
      let! y := py_at key con in
      Ok (match y with
          | JStr s => match find (fun x => String.eqb (json_id x) s) ops with Some x => x | None => JNull end
          | _ => JNull
          end)
  end.

(** [",".join(args)] *)
Fixpoint py_join (l : list string) : string :=
  match l with
  | [] => ""
  | [s] => s
  | s :: r => (s ++ "," ++ py_join r)%string
  end.

(** rtbot.py:152-168; the members come in the order of their names here, in Python in that of their insertion *)
Definition py_label (x : json) : string :=
  let args := match x with
              | JObj m => flat_map (fun '(k, y) => if String.eqb k "id" || String.eqb k "type" then [] else [py_str y]) m
              | _ => []
              end in
  match args with [] => "" | _ => ("(" ++ py_join args ++ ")")%string end.

Definition quote : string := String (ascii_of_nat 34) "".
Definition newline : string := String (ascii_of_nat 10) "".

(** rtbot.py:148-170 *)
Definition py_line (ops : list json) (con : json) : res string :=
  let! from := py_end "from" con ops in
  let! to := py_end "to" con ops in
  let! fromType := py_at "type" from in
  let! toType := py_at "type" to in
  let! a := py_at "from" con in
  let! fp := py_at "fromPort" con in
  let! tp := py_at "toPort" con in
  let! b := py_at "to" con in
  Ok (py_str a ++ "(" ++ quote ++ py_str fromType ++ py_label from ++ quote ++ ") --> |" ++ py_str fp ++ ":" ++ py_str tp ++ "| " ++
      py_str b ++ "(" ++ quote ++ py_str toType ++ py_label to ++ quote ++ ");" ++ newline)%string.

Fixpoint py_lines (ops cons : list json) : res string :=
  match cons with
  | [] => Ok ""
  | c :: r => let! s := py_line ops c in let! t := py_lines ops r in Ok (s ++ t)%string
  end.

(** [toMermaidJs] rtbot.py:145-172 *)
Definition py_mermaid (p : py_program) : res string :=
  let! s := py_lines (py_operators p) (py_connections p) in Ok ("flowchart LR;" ++ s)%string.
End Mermaid.
