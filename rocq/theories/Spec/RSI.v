(** * The relative strength index, as Wilder defines it. *)

From Coq Require Import String ZArith Bool List.
From Verif Require Import Base.StrMap Base.Num Model.Core Model.Run Spec.Streams Spec.Operators.
Import ListNotations.
Open Scope string_scope.
Open Scope list_scope.
Open Scope Z_scope.

Section Spec.
Context {NO : NumOps}.

(** the consecutive differences of a list of values *)
Fixpoint changes (xs : list V) : list V :=
  match xs with
  | a :: ((b :: _) as r) => vsub b a :: changes r
  | _ => []
  end.

(** what a change contributes to the gains, and to the losses *)
Definition gain (d : V) : V := if vlt v0 d then d else v0.
Definition loss (d : V) : V := if vlt d v0 then vneg d else v0.

(** weight (n-1)/n for the average so far, 1/n for the new amount *)
Definition smooth (n : Z) (avg x : V) : V := vdiv (vadd (vmul avg (vofZ (n - 1))) x) (vofZ n).

(** the mean of the first [n] amounts, smoothed with each later one *)
Definition wilder (n : Z) (xs : list V) : V :=
  fold_left (smooth n) (skipn (Z.to_nat n) xs) (mean (firstn (Z.to_nat n) xs)).

(** the index of an average gain and an average loss *)
Definition strength (g l : V) : V :=
  if vlt v0 l then vsub (vofZ 100) (vdiv (vofZ 100) (vadd v1 (vdiv g l))) else vofZ 100.

(** nothing before [n + 1] messages, then the index of the whole history *)
Definition relative_strength (n : Z) (hist : list msg) : opmsg :=
  if Z.of_nat (length hist) <? n + 1 then emits_nothing
  else let d := changes (values hist) in
       emits (mkMsg (last_time hist) (strength (wilder n (map gain d)) (wilder n (map loss d)))).

(** when several messages may arrive between two executions: the windows of [n + 1]
    messages at the reacting executions; the first gives the initial averages, each later
    one its last change *)
Definition seen_windows (n : Z) (evs : list ev) : list (list V) :=
  map (fun p => values (lastn (Z.to_nat (n + 1)) (received p))) (filter (reacts (n + 1)) (prefixes evs)).

Definition wilder_windows (n : Z) (part : V -> V) (ws : list (list V)) : V :=
  match ws with
  | [] => v0
  | w :: ws' => fold_left (smooth n) (map (fun w => part (last (changes w) v0)) ws')
                          (mean (map part (changes w)))
  end.

End Spec.
