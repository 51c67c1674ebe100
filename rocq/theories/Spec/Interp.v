(** * Specification of interpolation between points. *)

From Coq Require Import ZArith Bool List.
From Verif Require Import Base.Num.
Import ListNotations.
Open Scope list_scope.

Section Spec.
Context {NO : NumOps}.

(** the value at [x] of the straight line through [p] and [q] *)
Definition line (p q : V * V) (x : V) : V :=
  vadd (snd p) (vdiv (vmul (vsub (snd q) (snd p)) (vsub x (fst p))) (vsub (fst q) (fst p))).

(** [p] and [q] are neighbours among the points, [p] on the left *)
Definition neighbours (points : list (V * V)) (p q : V * V) : Prop :=
  In p points /\ In q points /\ vlt (fst p) (fst q) = true /\
  forall r, In r points -> vle (fst r) (fst p) = true \/ vle (fst q) (fst r) = true.

(** they bracket [x]: [x] lies between them, or before the first point (then they are the
    first two), or after the last point (then they are the last two) *)
Definition bracket (points : list (V * V)) (x : V) (p q : V * V) : Prop :=
  neighbours points p q /\
  ((vle (fst p) x = true /\ vle x (fst q) = true) \/
   (vle x (fst p) = true /\ forall r, In r points -> vle (fst p) (fst r) = true) \/
   (vle (fst q) x = true /\ forall r, In r points -> vle (fst r) (fst q) = true)).

(** all points on the line of slope [m] through (0, [c]) *)
Definition on_line (m c : V) (points : list (V * V)) : Prop :=
  forall p, In p points -> snd p = vadd (vmul m (fst p)) c.

End Spec.
