(** * What each operator should emit, as a function of the messages received.

    Each definition is the mathematical content of an operator's documentation; none of
    them mentions buffers, running sums or any other state. *)

From Coq Require Import String ZArith Bool List.
From Verif Require Import Base.StrMap Base.Num Model.Core Model.Run Spec.Streams.
Import ListNotations.
Open Scope string_scope.
Open Scope list_scope.
Open Scope Z_scope.

Section Spec.
Context {NO : NumOps}.

(** nothing before [n] messages, then [f] of the last [n] *)
Definition when_full (n : Z) (f : list msg -> opmsg) (hist : list msg) : opmsg :=
  if Z.of_nat (length hist) <? n then emits_nothing else f (lastn (Z.to_nat n) hist).

Definition last_time (w : list msg) : Z := mtime (last w msg0).
Definition last_value (w : list msg) : V := mval (last w msg0).

Definition mean (xs : list V) : V := vdiv (vsum xs) (vofZ (Z.of_nat (length xs))).

(** the arithmetic mean of the last [n] values, stamped with the latest time *)
Definition moving_average (n : Z) : list msg -> opmsg :=
  when_full n (fun w => emits (mkMsg (last_time w) (mean (values w)))).

(** the sample standard deviation of the last [n] values *)
Definition deviation (xs : list V) : V :=
  vsqrt (vdiv (vsum (map (fun x => vmul (vsub x (mean xs)) (vsub x (mean xs))) xs))
              (vofZ (Z.of_nat (length xs) - 1))).
Definition standard_deviation (n : Z) : list msg -> opmsg :=
  when_full n (fun w => emits (mkMsg (last_time w) (deviation (values w)))).

(** sum of [x(t-i) * b(i)], [i] from 0 (newest) to [n-1] *)
Definition fir (coeff : list V) : list msg -> opmsg :=
  when_full (Z.of_nat (length coeff))
    (fun w => emits (mkMsg (last_time w)
       (vsum (map (fun xc => vmul (fst xc) (snd xc)) (combine (rev (values w)) coeff))))).

(** the centre of the window, when no value of the window exceeds it *)
Definition peak (n : Z) : list msg -> opmsg :=
  when_full n (fun w =>
    let c := nth (length w / 2) w msg0 in
    if forallb (fun x => negb (vlt (mval c) x)) (values w) then emits c else emits_nothing).

(** newest minus the one before it, stamped with the newest time *)
Definition difference : list msg -> opmsg :=
  when_full 2 (fun w =>
    match w with
    | [a; b] => emits (mkMsg (mtime b) (vsub (mval b) (mval a)))
    | _ => emits_nothing
    end).

(** operators that transform each message on its own *)
Definition mapping (f : msg -> opmsg) : list msg -> opmsg :=
  when_full 1 (fun w => f (last w msg0)).

Definition keep_if (test : V -> bool) (m : msg) : opmsg :=
  if test (mval m) then emits m else emits_nothing.
Definition apply_value (f : V -> V) (m : msg) : opmsg := emits (mkMsg (mtime m) (f (mval m))).

End Spec.

(** * AutoRegressive *)
Section AR.
Context {NO : NumOps}.

(** the output at index [k], zero before the start *)
Definition y_at (ys : list V) (k : Z) : V :=
  if k <? 0 then v0 else nth (Z.to_nat k) ys v0.

(** y_k = x_k + sum over i of c_i * y_(k - lag i); the terms are added in the order of i *)
Definition recurrence (lag : nat -> Z) (coeff xs ys : list V) : Prop :=
  length ys = length xs /\
  forall k, (k < length xs)%nat ->
    nth k ys v0 =
    fold_left vadd
      (map (fun i => vmul (nth i coeff v0) (y_at ys (Z.of_nat k - lag i))) (seq 0 (length coeff)))
      (nth k xs v0).

(** as documented: c_i multiplies the output i+1 steps ago *)
Definition documented_lag (i : nat) : Z := Z.of_nat i + 1.
(** the other way round: c_i multiplies the output n-i steps ago *)
Definition reversed_lag (n : nat) (i : nat) : Z := Z.of_nat n - Z.of_nat i.
End AR.
