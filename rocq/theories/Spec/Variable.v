(** * Specification of Variable: a store that answers one question at a time.

    A data message at time [t] sets the value from time [t] on; a control message at time
    [q] asks for the value at [q].  The question can be answered once data at or after [q]
    is known; only the latest question is remembered. *)

From Coq Require Import String ZArith Bool List Sorted.
From Verif Require Import Base.StrMap Base.Num Model.Core Model.Run Spec.Streams.
Import ListNotations.
Open Scope string_scope.
Open Scope list_scope.
Open Scope Z_scope.

Section Spec.
Context {NO : NumOps}.

(** the value of the last data message not after [q], the default if there is none *)
Definition value_at (dflt : V) (data : list msg) (q : Z) : V :=
  mval (last (filter (fun m => mtime m <=? q) data) (mkMsg q dflt)).

(** some data message is at or after [q] *)
Definition covered (data : list msg) (q : Z) : bool := existsb (fun m => q <=? mtime m) data.

(** what each call of a history emits, given the data received and the question open before it *)
Fixpoint variable_answers (dflt : V) (data : list msg) (open : option Z) (evs : list ev) : list opmsg :=
  match evs with
  | [] => []
  | EData _ m :: r => emits_nothing :: variable_answers dflt (data ++ [m]) open r
  | ECtrl _ m :: r => emits_nothing :: variable_answers dflt data (Some (mtime m)) r
  | _ :: r =>
      match open with
      | Some q =>
          if covered data q
          then emits (mkMsg q (value_at dflt data q)) :: variable_answers dflt data None r
          else emits_nothing :: variable_answers dflt data open r
      | None => emits_nothing :: variable_answers dflt data open r
      end
  end.

(** calls of an operator with one data input and one control input *)
Definition variable_calls (evs : list ev) : Prop :=
  Forall (fun e => match e with
                   | EData p _ => p = "i1" \/ p = ""
                   | ECtrl p _ => p = "c1" \/ p = ""
                   | _ => True
                   end) evs.

Fixpoint questions (evs : list ev) : list Z :=
  match evs with
  | [] => []
  | ECtrl _ m :: r => mtime m :: questions r
  | _ :: r => questions r
  end.

Definition nondecreasing (l : list Z) : Prop := Sorted.StronglySorted Z.le l.

End Spec.
