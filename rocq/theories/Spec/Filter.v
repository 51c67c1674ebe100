(** * What the output section of a program asks for *)

From Coq Require Import String ZArith Bool List.
From Verif Require Import Base.StrMap Base.Num Model.Core Model.Ops Model.Graph.
Import ListNotations.
Open Scope string_scope.
Open Scope list_scope.

Section Filter.
Context {NO : NumOps}.

(** the entry of a result for operator [id], port [port]; [None]: there is no such entry *)
Definition entry_at (r : progmsg) (id port : string) : option (list msg) :=
  match sfind id r with Some om => sfind port om | None => None end.

(** is this port of this operator listed in the output section? *)
Definition listed (f : smap (list string)) (id port : string) : bool :=
  match sfind id f with
  | Some ports => existsb (String.eqb port) ports
  | None => false
  end.

End Filter.
