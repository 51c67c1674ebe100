(** * Specification of the curve before the first message of a HermiteResampler *)

From Coq Require Import ZArith Bool List.
From Verif Require Import Base.StrMap Base.Num Model.Core Spec.Streams Spec.Resample.
Import ListNotations.
Open Scope list_scope.
Open Scope Z_scope.

Section Spec.
Context {NO : NumOps}.

(** the sum of the squared distances of the messages from the line of slope [m] through (0, [n]) *)
Definition distance (m n : V) (h : list msg) : V :=
  vsum (map (fun y => let r := vsub (vadd (vmul m (vofZ (mtime y))) n) (mval y) in vmul r r) h).

(** no other line is nearer *)
Definition best_line (m n : V) (h : list msg) : Prop :=
  forall m' n', vle (distance m n h) (distance m' n' h) = true.

(** the point one average gap before the first message (rounded down), on the line that fits the
    first four messages best *)
Definition made_up (h : list msg) (y0 : msg) : Prop :=
  exists m n, best_line m n (firstn 4 h) /\
    mtime y0 = first_time h - (mtime (nth 3 h msg0) - first_time h) / 3 /\
    mval y0 = vadd (vmul m (vofZ (mtime y0))) n.

(** four neighbouring messages of the history, or the first three preceded by the made up point *)
Definition neighbours_made_up (h : list msg) (y0 y1 y2 y3 : msg) : Prop :=
  (exists l1 l2, h = l1 ++ y0 :: y1 :: y2 :: y3 :: l2) \/ ((exists l2, h = y1 :: y2 :: y3 :: l2) /\ made_up h y0).

(** three neighbouring messages of the history *)
Definition neighbours3 (h : list msg) (y1 y2 y3 : msg) : Prop := exists l1 l2, h = l1 ++ y1 :: y2 :: y3 :: l2.

(** messages at [t], [t + g], [t + 2g], ..., on the line of slope [m] through (0, [n]) *)
Definition straight (t g : Z) (m n : V) (k : nat) : list msg :=
  map (fun i => let x := t + Z.of_nat i * g in mkMsg x (vadd (vmul m (vofZ x)) n)) (seq 0 k).

End Spec.
