(** * What the generated program with feedback shows for any times (C91) *)

From Coq Require Import ZArith Bool List.
From Verif Require Import Base.Num Model.Core Spec.Feedback.
Import ListNotations.
Open Scope list_scope.
Open Scope Z_scope.

Section Gap.
Context {NO : NumOps}.

(** the messages before the first that is not one unit later than the message before it *)
Fixpoint until_gap (x : list msg) : list msg :=
  match x with
  | p :: ((m :: _) as r) => if mtime m =? mtime p + 1 then p :: until_gap r else [p]
  | _ => x
  end.

(** Only the times from the fifteenth message on matter. The answer to the fifteenth message may come
    with the sixteenth ([shown]), whatever its time. *)
Definition shown_until_gap (a b : V) (x : list msg) : list msg :=
  match skipn 14 x with
  | (_ :: _ :: _) as r => strengths a b (firstn 14 x ++ until_gap r)
  | _ => shown a b x
  end.
End Gap.
