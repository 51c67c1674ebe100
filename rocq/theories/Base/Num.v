(** * Values.

    The C++ code is instantiated with [T = uint64_t] and [V = double].  Times are
    integers in [Z]; every C++ operation on times is followed by [wrap].  Values are
    abstract: [NumOps] lists the primitive operations on [double] the code uses.
    Laws are in separate records, required only by the theorems that need them. *)

From Coq Require Import ZArith Lia Bool.
Open Scope Z_scope.

(** ** 64 bit unsigned arithmetic *)

Definition two64 : Z := 2 ^ 64.
Definition wrap (z : Z) : Z := z mod two64.
Definition is_time (t : Z) : Prop := 0 <= t < two64.

Lemma wrap_id z : 0 <= z < two64 -> wrap z = z.
Proof. intros; now apply Z.mod_small. Qed.

Lemma wrap_range z : 0 <= wrap z < two64.
Proof. apply Z.mod_pos_bound. reflexivity. Qed.

(** ** Operations on values *)

Class NumOps := {
  V : Type;
  v0 : V;                       (* 0 *)
  v1 : V;                       (* 1 *)
  vhalf : V;                    (* 0.5 *)
  vpi : V;                      (* 3.1415926535897932 *)
  vadd : V -> V -> V;
  vsub : V -> V -> V;
  vmul : V -> V -> V;
  vdiv : V -> V -> V;
  vneg : V -> V;
  vlt : V -> V -> bool;         (* < *)
  vle : V -> V -> bool;         (* <= *)
  veq : V -> V -> bool;         (* == *)
  vofZ : Z -> V;                (* conversion from an integer type *)
  vtoT : V -> option Z;         (* conversion to uint64_t, None = undefined behaviour *)
  vpow : V -> V -> V;           (* std::pow *)
  vsqrt : V -> V;               (* std::sqrt *)
  vcos : V -> V;                (* std::cos *)
  vbits : V -> Z;               (* the 8 bytes of the value, as a 64 bit integer *)
  vofbits : Z -> V
}.

(** The 8 byte image determines the value (true of [double]). *)
Class NumCodec (NO : NumOps) := {
  vbits_range : forall x, 0 <= vbits x < two64;
  vofbits_vbits : forall x, vofbits (vbits x) = x
}.

(** Times below 2^53 survive a conversion to [double] and back. *)
Class NumTime (NO : NumOps) := {
  vtoT_vofZ : forall t, 0 <= t <= 2 ^ 53 -> vtoT (vofZ t) = Some t
}.

(** Exact arithmetic: an ordered field. *)
Class NumField (NO : NumOps) := {
  vinv : V -> V;
  v_add_0_l : forall x, vadd v0 x = x;
  v_add_comm : forall x y, vadd x y = vadd y x;
  v_add_assoc : forall x y z, vadd x (vadd y z) = vadd (vadd x y) z;
  v_mul_1_l : forall x, vmul v1 x = x;
  v_mul_comm : forall x y, vmul x y = vmul y x;
  v_mul_assoc : forall x y z, vmul x (vmul y z) = vmul (vmul x y) z;
  v_distr_l : forall x y z, vmul (vadd x y) z = vadd (vmul x z) (vmul y z);
  v_sub_def : forall x y, vsub x y = vadd x (vneg y);
  v_opp_def : forall x, vadd x (vneg x) = v0;
  v_1_neq_0 : v1 <> v0;
  v_div_def : forall x y, vdiv x y = vmul x (vinv y);
  v_inv_l : forall x, x <> v0 -> vmul (vinv x) x = v1;
  (* order *)
  v_eq_spec : forall x y, veq x y = true <-> x = y;
  v_lt_irrefl : forall x, vlt x x = false;
  v_lt_trans : forall x y z, vlt x y = true -> vlt y z = true -> vlt x z = true;
  v_lt_total : forall x y, vlt x y = true \/ x = y \/ vlt y x = true;
  v_le_spec : forall x y, vle x y = negb (vlt y x);
  v_lt_add : forall x y z, vlt x y = true -> vlt (vadd x z) (vadd y z) = true;
  v_lt_mul : forall x y z, vlt v0 z = true -> vlt x y = true -> vlt (vmul x z) (vmul y z) = true;
  (* integers *)
  v_ofZ_0 : vofZ 0 = v0;
  v_ofZ_1 : vofZ 1 = v1;
  v_ofZ_add : forall a b, vofZ (a + b) = vadd (vofZ a) (vofZ b);
  v_ofZ_mul : forall a b, vofZ (a * b) = vmul (vofZ a) (vofZ b);
  v_half : vadd vhalf vhalf = v1;
  v_pow_2 : forall x, vpow x (vofZ 2) = vmul x x
}.
