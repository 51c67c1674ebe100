(** * Exact rational values: the instance used to compute examples.

    [Qc] satisfies all the laws of [NumField].  [pow] is exact for integer exponents;
    [sqrt] and [cos] have no rational value and are arbitrary here (no theorem about
    this instance uses them). *)

From Coq Require Import ZArith Bool Lia QArith Qcanon Qround Field.
From Verif Require Import Base.Num.
Open Scope Z_scope.

Definition qc_lt (x y : Qc) : bool := match Qccompare x y with Lt => true | _ => false end.
Definition qc_le (x y : Qc) : bool := match Qccompare x y with Gt => false | _ => true end.
Definition qc_eq (x y : Qc) : bool := match Qccompare x y with Eq => true | _ => false end.
Definition qc_ofZ (z : Z) : Qc := Q2Qc (inject_Z z).

(** conversion to an unsigned integer: truncation, undefined outside (-1, 2^64) *)
Definition qc_toT (x : Qc) : option Z :=
  let z := Z.quot (Qnum x) (Zpos (Qden x)) in
  if (0 <=? z) && (z <? two64) then Some z else None.

(** [x ^ y] for integer [y], otherwise 0 *)
Definition qc_pow (x y : Qc) : Qc :=
  if Pos.eqb (Qden y) 1 then
    match Qnum y with
    | Z0 => 1%Qc
    | Zpos p => Qcpower x (Pos.to_nat p)
    | Zneg p => Qcinv (Qcpower x (Pos.to_nat p))
    end
  else 0%Qc.

#[global] Instance QcOps : NumOps := {
  V := Qc;
  v0 := 0%Qc;
  v1 := 1%Qc;
  vhalf := Q2Qc (1 # 2);
  vpi := Q2Qc (31415926535897932 # 10000000000000000);
  vadd := Qcplus;
  vsub := Qcminus;
  vmul := Qcmult;
  vdiv := Qcdiv;
  vneg := Qcopp;
  vlt := qc_lt;
  vle := qc_le;
  veq := qc_eq;
  vofZ := qc_ofZ;
  vtoT := qc_toT;
  vpow := qc_pow;
  vsqrt := fun x => x;
  vcos := fun x => x;
  vbits := fun _ => 0;
  vofbits := fun _ => 0%Qc
}.

Lemma qc_lt_spec x y : qc_lt x y = true <-> (x < y)%Qc.
Proof. unfold qc_lt. rewrite Qclt_alt. destruct (x ?= y)%Qc; split; congruence. Qed.

Lemma qc_eq_spec x y : qc_eq x y = true <-> x = y.
Proof. unfold qc_eq. rewrite Qceq_alt. destruct (x ?= y)%Qc; split; congruence. Qed.

Lemma qc_ofZ_add a b : qc_ofZ (a + b) = (qc_ofZ a + qc_ofZ b)%Qc.
Proof.
  unfold qc_ofZ, Qcplus. apply Qc_is_canon. unfold Q2Qc; cbn [this]. rewrite !Qred_correct. rewrite inject_Z_plus. reflexivity.
Qed.

Lemma qc_ofZ_mul a b : qc_ofZ (a * b) = (qc_ofZ a * qc_ofZ b)%Qc.
Proof.
  unfold qc_ofZ, Qcmult. apply Qc_is_canon. unfold Q2Qc; cbn [this]. rewrite !Qred_correct. rewrite inject_Z_mult. reflexivity.
Qed.

#[global] Instance QcField : NumField QcOps.
Proof.
  refine {| vinv := Qcinv |}; cbn; intros.
  - apply Qcplus_0_l.
  - apply Qcplus_comm.
  - apply Qcplus_assoc.
  - apply Qcmult_1_l.
  - apply Qcmult_comm.
  - apply Qcmult_assoc.
  - apply Qcmult_plus_distr_l.
  - reflexivity.
  - apply Qcplus_opp_r.
  - intro H. discriminate H.
  - reflexivity.
  - now apply Qcmult_inv_l.
  - apply qc_eq_spec.
  - destruct (qc_lt x x) eqn:E; [|reflexivity]. apply qc_lt_spec in E. now apply Qclt_not_eq in E.
  - rewrite qc_lt_spec in *. eapply Qclt_trans; eauto.
  - rewrite !qc_lt_spec. destruct (Qc_dec x y) as [[H|H]|H]; auto.
  - unfold qc_le, qc_lt. unfold Qccompare. rewrite <- (Qcompare_antisym y x).
    destruct (Qcompare y x); reflexivity.
  - rewrite qc_lt_spec in *. unfold Qclt, Qcplus, Q2Qc in *. cbn [this]. rewrite !Qred_correct.
    now apply Qplus_lt_l.
  - rewrite qc_lt_spec in *. unfold Qclt, Qcmult, Q2Qc in *. cbn [this] in *. rewrite !Qred_correct.
    now apply Qmult_lt_r.
  - reflexivity.
  - reflexivity.
  - apply qc_ofZ_add.
  - apply qc_ofZ_mul.
  - apply Qc_is_canon. reflexivity.
  - change (x * (x * 1) = x * x)%Qc. now rewrite Qcmult_1_r.
Qed.

#[global] Instance QcTime : NumTime QcOps.
Proof.
  split. cbn. intros t Ht. unfold qc_toT, qc_ofZ, Q2Qc.
  assert (E : Qred (inject_Z t) = inject_Z t).
  { unfold inject_Z, Qred. pose proof (Z.ggcd_gcd t 1) as G.
    pose proof (Z.ggcd_correct_divisors t 1) as D.
    destruct (Z.ggcd t 1) as [g [a b]]. cbn in *. rewrite Z.gcd_1_r in G. subst g.
    destruct D as [D1 D2]. destruct a as [|a|a], b as [|b|b]; cbn in *; f_equal; lia. }
  cbn [this]. rewrite E. cbn [Qnum Qden inject_Z]. rewrite Z.quot_1_r.
  assert (2 ^ 53 < two64) by reflexivity.
  destruct (0 <=? t) eqn:?; destruct (t <? two64) eqn:?; cbn; auto; lia.
Qed.
