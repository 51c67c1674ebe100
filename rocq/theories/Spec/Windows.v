(** * Streams computed window by window *)

From Coq Require Import String ZArith Bool List.
From Verif Require Import Base.Num Model.Core Spec.Streams Spec.Operators Spec.Snapshot Spec.Log.
Import ListNotations.
Open Scope string_scope.
Open Scope list_scope.
Open Scope Z_scope.

(** all groups of [n] consecutive elements of [l], in order *)
Definition windows {A} (n : nat) (l : list A) : list (list A) :=
  map (fun i => firstn n (skipn i l)) (seq 0 (S (length l) - n)).

Section Windows.
Context {NO : NumOps}.

(** one message per window: its last time, and a function of its values *)
Definition over (f : list V -> V) (w : list msg) : msg := mkMsg (last_time w) (f (values w)).

(** the largest in the middle *)
Definition is_peak (w : list msg) : bool :=
  forallb (fun x => negb (vlt (mval (nth (length w / 2) w msg0)) x)) (values w).
Definition middle (w : list msg) : msg := nth (length w / 2) w msg0.

(** what the answers to a sequence of calls show for one output port *)
Definition answered (rs : list (res progmsg)) (id port : string) : list msg :=
  flat_map (fun r => match r with Ok out => result_at out id port | _ => [] end) rs.

End Windows.
