(** * Words for the error of floating point results. *)

From Coq Require Import ZArith List Reals.
From Flocq Require Import IEEE754.Binary IEEE754.Bits.
Import ListNotations.
Open Scope R_scope.

(** the real number a finite double stands for *)
Definition real (x : binary64) : R := B2R 53 1024 x.

(** neither infinite nor NaN *)
Definition finite (x : binary64) : Prop := is_finite 53 1024 x = true.

(** the relative error of one rounding, [2^-53] *)
Definition half_ulp : R := / 2 ^ 53.

(** the absolute error of one rounding near zero, [2^-1075] *)
Definition tiny : R := / 2 ^ 1075.

(** sum of real numbers *)
Definition rsum (l : list R) : R := fold_right Rplus 0 l.
