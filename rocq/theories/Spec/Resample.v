(** * Specification of the resamplers. *)

From Coq Require Import ZArith Bool List.
From Verif Require Import Base.StrMap Base.Num Model.Core Spec.Streams.
Import ListNotations.
Open Scope list_scope.
Open Scope Z_scope.

(** the times [t0 + k*d], k = 1, 2, ..., that are not after [t] *)
Definition grid (t0 d t : Z) : list Z :=
  map (fun k => t0 + Z.of_nat k * d) (seq 1 (Z.to_nat ((t - t0) / d))).

Section Spec.
Context {NO : NumOps}.

Definition first_time (h : list msg) : Z := match h with [] => 0 | m :: _ => mtime m end.
Definition newest_time (h : list msg) : Z := mtime (last h msg0).

(** the latest message not after [g] *)
Definition held (h : list msg) (g : Z) : msg := last (filter (fun m => mtime m <=? g) h) msg0.
(** the two messages around [g]: the latest strictly before, the earliest not before *)
Definition left_of (h : list msg) (g : Z) : msg := last (filter (fun m => mtime m <? g) h) msg0.
Definition right_of (h : list msg) (g : Z) : msg := hd msg0 (filter (fun m => g <=? mtime m) h).

(** one message per grid point of the history *)
Definition resampled (value : list msg -> Z -> V) (d : Z) (h : list msg) : list msg :=
  map (fun g => mkMsg g (value h g)) (grid (first_time h) d (newest_time h)).

Definition hold_last (h : list msg) (g : Z) : V := mval (held h g).

(** y1 (1 - w) + y2 w, w = (1 - cos (pi mu)) / 2, mu the relative position between the two messages *)
Definition cosine_at (h : list msg) (g : Z) : V :=
  let a := left_of h g in
  let b := right_of h g in
  let mu := vdiv (vofZ (g - mtime a)) (vofZ (mtime b - mtime a)) in
  let w := vdiv (vsub v1 (vcos (vmul mu vpi))) (vofZ 2) in
  vadd (vmul (mval a) (vsub v1 w)) (vmul (mval b) w).

(** polynomials of degree three and their slopes *)
Definition cubic (c0 c1 c2 c3 x : V) : V := vadd (vadd (vadd c0 (vmul c1 x)) (vmul c2 (vmul x x))) (vmul c3 (vmul x (vmul x x))).
Definition cubic_slope (c1 c2 c3 x : V) : V := vadd (vadd c1 (vmul (vofZ 2) (vmul c2 x))) (vmul (vofZ 3) (vmul c3 (vmul x x))).

(** [v] is the value at [x] of the cubic that goes from [y1] at 0 to [y2] at 1, with slope half
    the difference of the neighbours at both ends *)
Definition smooth (y0 y1 y2 y3 x v : V) : Prop :=
  exists c0 c1 c2 c3,
    cubic c0 c1 c2 c3 v0 = y1 /\ cubic c0 c1 c2 c3 v1 = y2 /\
    vmul (vofZ 2) (cubic_slope c1 c2 c3 v0) = vsub y2 y0 /\ vmul (vofZ 2) (cubic_slope c1 c2 c3 v1) = vsub y3 y1 /\
    v = cubic c0 c1 c2 c3 x.

(** four neighbouring messages of the history, or the first three with any first *)
Definition neighbours4 (h : list msg) (y0 y1 y2 y3 : msg) : Prop :=
  (exists l1 l2, h = l1 ++ y0 :: y1 :: y2 :: y3 :: l2) \/ (exists l2, h = y1 :: y2 :: y3 :: l2).

(** the relative position of time [t] between two messages *)
Definition relative (a b : msg) (t : Z) : V := vdiv (vofZ (t - mtime a)) (vofZ (mtime b - mtime a)).

End Spec.
