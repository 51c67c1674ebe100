(** * Conversions between [double] and [int] *)

From Coq Require Import ZArith Reals Lia Bool QArith Qcanon Psatz.
From Flocq Require Import Core.Core IEEE754.Binary IEEE754.Bits.
From Verif Require Import Base.Num Base.NumQc Base.NumB64.
Open Scope Z_scope.

(** Converting to an unsigned type gives a number of that type; an [int] survives a conversion
    to [double] and back. *)
Class NumInt (NO : NumOps) := {
  vtoT_range : forall x z, vtoT x = Some z -> 0 <= z < two64;
  vtoT_int : forall z, 0 <= z < 2 ^ 31 -> vtoT (vofZ z) = Some z;
  vtoT_neg : forall z, - 2 ^ 31 <= z < 0 -> vtoT (vofZ z) = None /\ vtoT (vneg (vofZ z)) = Some (- z)
}.

Lemma Qred_inject t : Qred (inject_Z t) = inject_Z t.
Proof.
  unfold inject_Z, Qred. pose proof (Z.ggcd_gcd t 1) as G.
  pose proof (Z.ggcd_correct_divisors t 1) as D.
  destruct (Z.ggcd t 1) as [g [a b]]. cbn in *. rewrite Z.gcd_1_r in G. subst g.
  destruct D as [D1 D2]. destruct a as [|a|a], b as [|b|b]; cbn in *; f_equal; lia.
Qed.

#[global] Instance QcInt : NumInt QcOps.
Proof.
  split.
  - cbn. unfold qc_toT. intros x z. destruct (_ && _) eqn:E; [|discriminate]. intros [= <-].
    apply andb_true_iff in E as [E1 E2]. apply Z.leb_le in E1. apply Z.ltb_lt in E2. now split.
  - intros z Hz. apply (@vtoT_vofZ _ QcTime). lia.
  - cbn. intros z Hz. unfold qc_toT, qc_ofZ. cbn [this Q2Qc]. rewrite Qred_inject. cbn [Qnum Qden inject_Z].
    rewrite Z.quot_1_r. split.
    + destruct (0 <=? z) eqn:?; [lia|reflexivity].
    + unfold Qcopp, Q2Qc. cbn [this]. rewrite Qred_inject.
      change (- inject_Z z)%Q with (inject_Z (- z)). rewrite Qred_inject. cbn [Qnum Qden inject_Z].
      rewrite Z.quot_1_r. assert (2 ^ 31 < two64) by reflexivity.
      destruct (0 <=? - z) eqn:?; destruct (- z <? two64) eqn:?; cbn; auto; lia.
Qed.

Lemma b64_ofZ_exact_neg z : - 2 ^ 53 <= z <= 0 ->
  B2R 53 1024 (b64_ofZ z) = IZR z /\ is_finite 53 1024 (b64_ofZ z) = true.
Proof.
  intros Ht. unfold b64_ofZ.
  pose proof (binary_normalize_correct 53 1024 (eq_refl _) (eq_refl _) mode_NE z 0 false) as H.
  assert (E : F2R (Float radix2 z 0) = IZR z) by (unfold F2R; cbn; now rewrite Rmult_1_r).
  rewrite E in H.
  rewrite round_generic in H; [|apply _|].
  - rewrite Rlt_bool_true in H.
    + now destruct H as (H1 & H2 & _).
    + change (bpow radix2 1024) with (IZR (2 ^ 1024)). rewrite <- abs_IZR. apply IZR_lt.
      rewrite Z.abs_neq by lia. apply Z.le_lt_trans with (2 ^ 53); [lia|]. now apply Z.pow_lt_mono_r.
  - replace z with (- - z) by lia. rewrite opp_IZR. apply generic_format_opp. apply generic_small. lia.
Qed.

Lemma Btrunc_int x z : B2R 53 1024 x = IZR z -> Btrunc 53 1024 x = z.
Proof.
  intros HR. apply eq_IZR. rewrite (Btrunc_correct 53 1024 (eq_refl _)), HR.
  apply round_generic; [apply _|]. apply generic_format_FIX.
  exists (Float radix2 z 0); [unfold F2R; cbn; now rewrite Rmult_1_r|reflexivity].
Qed.

Lemma b64_int pow cos : NumInt (b64_ops pow cos).
Proof.
  split.
  - cbn. unfold b64_toT. intros x z. destruct (is_finite _ _ _); [|discriminate].
    destruct (_ && _) eqn:E; [|discriminate]. intros [= <-]. apply andb_true_iff in E as [E1 E2]. apply Z.leb_le in E1. apply Z.ltb_lt in E2. now split.
  - intros z Hz. apply (@vtoT_vofZ _ (b64_time pow cos)). lia.
  - cbn. intros z Hz. destruct (b64_ofZ_exact_neg z) as [R F]; [lia|]. unfold b64_toT. split.
    + rewrite F, (Btrunc_int _ z R). destruct (0 <=? z) eqn:?; [lia|reflexivity].
    + unfold b64_opp. rewrite is_finite_Bopp, F, (Btrunc_int _ (- z)).
      * assert (2 ^ 31 < two64) by reflexivity.
        destruct (0 <=? - z) eqn:?; destruct (- z <? two64) eqn:?; cbn; auto; lia.
      * rewrite B2R_Bopp, R. now rewrite opp_IZR.
Qed.
