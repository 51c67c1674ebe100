(** * Accuracy and range over IEEE binary64 (C62, C63, C64, C65).

    [pow] and [cos] of the C library are arbitrary; C65 assumes of [pow] that squares of
    numbers are numbers without a sign. *)

From Coq Require Import String ZArith Bool List Lia Reals Lra.
From Flocq Require Import Core.Core.
From Flocq Require BinarySingleNaN.
From Flocq Require Import IEEE754.Binary IEEE754.Bits.
From Verif Require Import Base.StrMap Base.Num Base.NumB64 Model.Core Model.Ops Model.Make Model.Run.
From Verif Require Import Spec.Streams Spec.Operators Spec.Drift.
From Verif Require Import Proofs.Lists Proofs.Window Proofs.Basic Proofs.Fire Proofs.MovAvgB64 Proofs.DriftB64 Proofs.SumB64 Proofs.RsiB64.
From Verif Require Import Properties.Single Properties.SingleB64.
Import ListNotations.
Open Scope string_scope.
Open Scope list_scope.
Open Scope R_scope.

(** the real numbers the values of some messages stand for *)
Definition reals {lpow lcos} (h : list (@msg (b64_ops lpow lcos))) : list R :=
  map (fun m => real (@mval (b64_ops lpow lcos) m)) h.

(** every value is a number of absolute value at most [B] *)
Definition bounded_by {lpow lcos} (B : R) (h : list (@msg (b64_ops lpow lcos))) : Prop :=
  forall m, In m h -> finite (@mval (b64_ops lpow lcos) m) /\ Rabs (real (@mval (b64_ops lpow lcos) m)) <= B.

Lemma last_answer {NO : NumOps} (f : list msg -> opmsg) (h : list msg) : h <> [] ->
  last (answers f (feed "i1" h)) [] = f h.
Proof.
  intros Hh. destruct h as [|m l _] using rev_ind; [congruence|].
  rewrite feed_app. cbn [feed flat_map app]. change ([EData "i1" m; EExec]) with ([EData "i1" m] ++ [EExec]).
  rewrite app_assoc, answers_snoc, last_last. unfold answer. rewrite rev_app_distr. cbn [rev app].
  rewrite rev_involutive, pending_snoc. cbn [orb].
  rewrite !received_app, received_feed. cbn [received app]. rewrite app_nil_r. reflexivity.
Qed.

Section Floats.
Variable lpow : binary64 -> binary64 -> binary64.
Variable lcos : binary64 -> binary64.
Notation NO := (b64_ops lpow lcos).
Notation message := (@msg NO).
Local Notation u := half_ulp.

(** ** C62 *)

(** Any number of messages, as long as nothing overflows. *)
Theorem C62_any_length (id : string) (n : Z) (B : R) (h : list message) :
  (0 < n <= 2 ^ 53)%Z -> (n <= Z.of_nat (length h))%Z -> 0 <= B -> bounded_by B h ->
  IZR n * B * (1 + half_ulp) ^ (2 * length h) < 2 ^ 1024 ->
  exists v,
    last_emission (@mk_movavg NO id n) h = Some (emits (dm lpow lcos (last_time h) v)) /\
    finite v /\
    Rabs (real v - rsum (lastn (Z.to_nat n) (reals h)) / IZR n) <=
      B * ((1 + half_ulp) ^ (2 * length h + 1) - 1) + tiny.
Proof.
  intros Hn Hl HB Hb Hov.
  exists (b64_div mode_NE (@ip_sum NO (@port_after NO "i1" n h)) (b64_ofZ n)).
  assert (Hh : h <> []) by (intros ->; cbn in Hl; lia).
  split.
  - unfold last_emission, mk_movavg. rewrite mk_simple_sop.
    rewrite run_moving_average_any by (lia || (apply one_input_feed; auto)).
    f_equal. rewrite last_answer by auto.
    destruct (Z.ltb_spec (Z.of_nat (length h)) n) as [L|L]; [lia|]. reflexivity.
  - pose proof half_ulp_pos as Hu.
    destruct (running_close lpow lcos n B h ltac:(lia) HB Hb) as [Fs Es].
    { rewrite <- (bpow_nat 1024) in Hov. exact Hov. }
    set (s := ip_sum _) in *. destruct (b64_ofZ_exact n ltac:(lia)) as [Rn Fn].
    assert (N1 : 1 <= IZR n) by (apply IZR_le; lia).
    destruct (div_close s (b64_ofZ n) Fs) as [Fd Ed]. { unfold real. rewrite Rn. exact N1. }
    split; [exact Fd|].
    assert (EQ : rsum (lastn (Z.to_nat n) (reals h)) =
                 rsum (map (fun m : message => real (@mval NO m)) (lastn (Z.to_nat n) h))).
    { f_equal. unfold reals, lastn. rewrite map_length. now rewrite skipn_map. }
    rewrite EQ. set (W := rsum _) in *.
    assert (Rn' : real (b64_ofZ n) = IZR n) by exact Rn. rewrite Rn' in Ed.
    set (P := (1 + u) ^ (2 * length h)) in *.
    assert (HP : 1 <= P) by (apply pow_R1_Rle; lra).
    assert (BW : Rabs W <= IZR n * B).
    { unfold W. eapply Rle_trans; [apply (rsum_bound B)|].
      - intros x Hx. apply in_map_iff in Hx as (m & <- & Hm). apply lastn_In in Hm. now apply Hb.
      - rewrite map_length, lastn_length. apply Rmult_le_compat_r; auto.
        rewrite INR_IZR_INZ. apply IZR_le. lia. }
    assert (I : 0 < / IZR n) by (apply Rinv_0_lt_compat; lra).
    assert (A1 : Rabs (real s / IZR n - W / IZR n) <= B * (P - 1)).
    { replace (real s / IZR n - W / IZR n) with ((real s - W) * / IZR n) by (field; lra).
      rewrite Rabs_mult, (Rabs_pos_eq (/ IZR n)) by lra.
      apply Rmult_le_reg_r with (IZR n); [lra|]. rewrite Rmult_assoc, Rinv_l, Rmult_1_r by lra. lra. }
    assert (A2 : Rabs (real s / IZR n) <= B * P).
    { replace (real s / IZR n) with (real s / IZR n - W / IZR n + W / IZR n) by ring.
      eapply Rle_trans; [apply Rabs_triang|].
      assert (Rabs (W / IZR n) <= B).
      { unfold Rdiv. rewrite Rabs_mult, (Rabs_pos_eq (/ IZR n)) by lra.
        apply Rmult_le_reg_r with (IZR n); [lra|]. rewrite Rmult_assoc, Rinv_l, Rmult_1_r by lra. lra. }
      lra. }
    rewrite pow_add, pow_1. fold P.
    set (a := real (b64_div mode_NE s (b64_ofZ n))) in *.
    replace (a - W / IZR n) with (a - real s / IZR n + (real s / IZR n - W / IZR n)) by ring.
    eapply Rle_trans; [apply Rabs_triang|].
    assert (u * Rabs (real s / IZR n) <= u * (B * P)) by (apply Rmult_le_compat_l; lra). lra.
Qed.

(** Up to [2^51] messages: the error grows at most linearly with their number. *)
Theorem C62_drift (id : string) (n : Z) (B : R) (h : list message) :
  (0 < n <= 2 ^ 53)%Z -> (n <= Z.of_nat (length h) < 2 ^ 51)%Z -> 0 <= B -> bounded_by B h ->
  IZR n * B <= 2 ^ 1022 ->
  exists v,
    last_emission (@mk_movavg NO id n) h = Some (emits (dm lpow lcos (last_time h) v)) /\
    finite v /\
    Rabs (real v - rsum (lastn (Z.to_nat n) (reals h)) / IZR n) <=
      (2 * INR (length h) + 1) * B / 2 ^ 52 + tiny.
Proof.
  intros Hn Hl HB Hb Hs.
  assert (L : INR (length h) + 1 <= 2 ^ 51).
  { rewrite INR_IZR_INZ, <- plus_IZR. replace (2 ^ 51) with (IZR (2 ^ 51)) by (rewrite <- (bpow_nat 51); reflexivity).
    apply IZR_le. lia. }
  assert (L0 : 0 <= INR (length h)) by apply pos_INR.
  assert (T51 : 2 * 2 ^ 51 = 2 ^ 52) by (change (2 ^ 52) with (2 * 2 ^ 51); reflexivity).
  assert (U : 2 * 2 ^ 52 * u = 1) by (unfold half_ulp; field; apply pow_nonzero; lra).
  pose proof half_ulp_pos as Hu.
  assert (D : INR (2 * length h) = 2 * INR (length h)) by (rewrite mult_INR; cbn; lra).
  destruct (C62_any_length id n B h Hn ltac:(lia) HB Hb) as (v & E & F & R).
  - pose proof (growth_linear (2 * length h)) as G. rewrite D in G. specialize (G ltac:(lra)).
    assert (X : 2 * (2 * INR (length h)) * u <= 1) by nra.
    apply Rle_lt_trans with (2 ^ 1022 * 2).
    + apply Rmult_le_compat; auto; try lra.
      * apply Rmult_le_pos; auto. apply IZR_le. lia.
      * apply pow_le. lra.
    + replace (2 ^ 1022 * 2) with (2 ^ 1023) by (change (2 ^ 1023) with (2 * 2 ^ 1022); ring).
      apply Rlt_pow; [lra|lia].
  - exists v. split; auto. split; auto. eapply Rle_trans; [exact R|].
    pose proof (growth_linear (2 * length h + 1)) as G. rewrite plus_INR, D in G. cbn [INR] in G.
    specialize (G ltac:(lra)).
    assert (X : B * ((1 + u) ^ (2 * length h + 1) - 1) <= B * (2 * (2 * INR (length h) + 1) * u)) by (apply Rmult_le_compat_l; lra).
    replace ((2 * INR (length h) + 1) * B / 2 ^ 52) with (B * (2 * (2 * INR (length h) + 1) * u)); [lra|].
    assert (V : u = / 2 ^ 52 / 2).
    { apply Rmult_eq_reg_l with (2 * 2 ^ 52); [rewrite U; field; apply pow_nonzero; lra|].
      apply Rmult_integral_contrapositive. split; [lra|apply pow_nonzero; lra]. }
    rewrite V. field.
Qed.

(** ** C63 *)

Lemma linear_bound (A : R) (k : nat) : 0 <= A -> INR (k + 1) <= 2 ^ 52 ->
  A * ((1 + u) ^ (k + 1) - 1) <= INR (k + 1) * A / 2 ^ 52.
Proof.
  intros HA Hk. pose proof (growth_linear (k + 1) Hk) as G.
  assert (X : A * ((1 + u) ^ (k + 1) - 1) <= A * (2 * INR (k + 1) * u)) by (apply Rmult_le_compat_l; lra).
  replace (INR (k + 1) * A / 2 ^ 52) with (A * (2 * INR (k + 1) * u)); [exact X|].
  unfold half_ulp. change (2 ^ 53) with (2 * 2 ^ 52). field.
Qed.

Lemma no_overflow (A : R) (k : nat) : 0 <= A <= 2 ^ 1022 -> INR (k + 1) <= 2 ^ 52 ->
  A * (1 + u) ^ (k + 1) < bpow radix2 1024.
Proof.
  intros HA Hk. pose proof (growth_linear (k + 1) Hk) as G.
  assert (U : 2 * 2 ^ 52 * u = 1) by (unfold half_ulp; change (2 ^ 53) with (2 * 2 ^ 52); field).
  pose proof half_ulp_pos as Hu. pose proof (pos_INR (k + 1)) as P0.
  assert (X : 2 * INR (k + 1) * u <= 1) by nra.
  apply Rle_lt_trans with (2 ^ 1022 * 2).
  - apply Rmult_le_compat; try lra. apply pow_le. lra.
  - change (bpow radix2 1024) with (bpow radix2 (Z.of_nat 1024)). rewrite bpow_nat.
    replace (2 ^ 1022 * 2) with (2 ^ 1023) by (change (2 ^ 1023) with (2 * 2 ^ 1022); ring).
    apply Rlt_pow; [lra|lia].
Qed.

Lemma abs_sum_pos l : 0 <= rsum (map Rabs l).
Proof. induction l as [|x l IH]; cbn; [lra|]. pose proof (Rabs_pos x). fold (rsum (map Rabs l)). lra. Qed.

(** The total a CumulativeSum emits for the [k]-th message is within [(k+1) * 2^-52] of the
    exact total, relative to the sum of the absolute values. *)
Theorem C63_cumulative_sum (id : string) (h : list message) :
  h <> [] -> (Z.of_nat (length h) < 2 ^ 52)%Z -> (forall m, In m h -> finite (@mval NO m)) ->
  rsum (map Rabs (reals h)) <= 2 ^ 1022 ->
  exists v,
    last_emission (@mk_cumsum NO id) h = Some (emits (dm lpow lcos (last_time h) v)) /\
    finite v /\
    Rabs (real v - rsum (reals h)) <= INR (length h + 1) * rsum (map Rabs (reals h)) / 2 ^ 52.
Proof.
  intros Hh Hl Hf Hs.
  exists (fold_left (b64_plus mode_NE) (map (@mval NO) h) (b64_ofZ 0)). split.
  - unfold last_emission. destruct (@mk_cumsum NO id) as [o| | | |] eqn:Ho; try discriminate Ho.
    destruct (@C10_cumulative_sum NO id o (feed "i1" h) Ho (one_input_feed h)) as [o' ->].
    f_equal. assert (X : exists before, feed "i1" h = before ++ [EExec] /\ pending before = true).
    { destruct h as [|m l _] using rev_ind; [congruence|]. exists (feed "i1" l ++ [EData "i1" m]).
      split; [rewrite feed_app; cbn [feed flat_map app]; now rewrite <- app_assoc|]. now rewrite pending_snoc. }
    destruct X as (before & E & P). rewrite E, prefixes_snoc, map_app. cbn [map]. rewrite last_last.
    unfold aggregate at 1. rewrite rev_app_distr. cbn [rev app]. rewrite rev_involutive, P, <- E.
    rewrite received_feed, processed_feed. reflexivity.
  - assert (K : INR (length h + 1) <= 2 ^ 52).
    { rewrite INR_IZR_INZ. replace (2 ^ 52) with (IZR (2 ^ 52)) by (rewrite <- (bpow_nat 52); reflexivity).
      apply IZR_le. lia. }
    pose proof (abs_sum_pos (reals h)) as P.
    destruct (fold_close (map (@mval NO) h) (reals h) 0) as [F E].
    + lra.
    + unfold reals. clear - Hf. pose proof half_ulp_pos as Hu. induction h as [|m h IH]; cbn [map]; constructor.
      * split; [apply Hf; cbn; auto|]. rewrite Rminus_eq_0, Rabs_R0.
        pose proof (Rabs_pos (real (@mval NO m))). assert (0 <= u * Rabs (real (@mval NO m))) by (apply Rmult_le_pos; lra). lra.
      * apply IH. intros; apply Hf; cbn; auto.
    + rewrite map_length. rewrite Rmult_0_r, Rplus_0_r. apply no_overflow; auto.
    + split; [exact F|]. rewrite map_length in E. rewrite Rmult_0_r, Rmult_0_l, Rplus_0_r in E.
      eapply Rle_trans; [exact E|]. apply linear_bound; auto.
Qed.

(** the exact products of a window, newest value first, with the coefficients *)
Definition products (xs cs : list R) : list R := map (fun xc => fst xc * snd xc) (combine (rev xs) cs).

Lemma fir_terms (xs cs : list binary64) :
  Forall finite xs -> Forall finite cs ->
  rsum (map Rabs (map (fun xc => fst xc * snd xc) (combine (map real xs) (map real cs)))) <= 2 ^ 1022 ->
  Forall2 (fun x e => finite x /\ Rabs (real x - e) <= u * Rabs e + tiny)
    (map (fun xc => b64_mult mode_NE (fst xc) (snd xc)) (combine xs cs))
    (map (fun xc => fst xc * snd xc) (combine (map real xs) (map real cs))).
Proof.
  revert cs. induction xs as [|x xs IH]; intros cs Fx Fc Hs; [constructor|].
  destruct cs as [|c cs]; [constructor|]. cbn [map combine] in *.
  inversion Fx as [|? ? F1 F2]; inversion Fc as [|? ? F3 F4]; subst.
  change (rsum (?x :: ?l)) with (x + rsum l) in Hs. cbn [fst snd] in *.
  set (r := rsum _) in *.
  assert (P : 0 <= r) by (unfold r; apply abs_sum_pos).
  pose proof (Rabs_pos (real x * real c)) as P1.
  constructor.
  - cbn [fst snd]. apply mult_close; auto.
    assert (U : u <= 1). { unfold half_ulp. apply Rle_trans with (/ 1); [apply Rinv_le; [lra|apply pow_R1_Rle; lra]|rewrite Rinv_1; lra]. }
    assert (T : tiny <= 1). { unfold tiny. apply Rle_trans with (/ 1); [apply Rinv_le; [lra|apply pow_R1_Rle; lra]|rewrite Rinv_1; lra]. }
    pose proof half_ulp_pos as Hu.
    change (bpow radix2 1024) with (bpow radix2 (Z.of_nat 1024)). rewrite bpow_nat.
    change (2 ^ 1024) with (2 * (2 * 2 ^ 1022)).
    assert (1 <= 2 ^ 1022) by (apply pow_R1_Rle; lra).
    assert ((1 + u) * Rabs (real x * real c) <= 2 * 2 ^ 1022) by (apply Rmult_le_compat; lra). lra.
  - apply IH; auto. fold r. lra.
Qed.

(** What a FiniteImpulseResponse emits, relative to the sum of the absolute values of its [n]
    terms, is within [(n+1) * 2^-52] of the exact weighted sum, up to underflow. *)
Theorem C63_fir (id : string) (coeff : list binary64) (h : list message) :
  coeff <> [] -> (length coeff <= length h)%nat -> (Z.of_nat (length coeff) < 2 ^ 52)%Z ->
  Forall finite coeff ->
  (forall m, In m (lastn (length coeff) h) -> finite (@mval NO m)) ->
  let terms := products (lastn (length coeff) (reals h)) (map real coeff) in
  rsum (map Rabs terms) <= 2 ^ 1021 ->
  exists v,
    last_emission (@mk_fir NO id coeff) h = Some (emits (dm lpow lcos (last_time h) v)) /\
    finite v /\
    Rabs (real v - rsum terms) <=
      INR (length coeff + 1) * rsum (map Rabs terms) / 2 ^ 52 + 2 * INR (length coeff) * tiny.
Proof.
  intros Hc Hl Hn Fc Fh terms Hs.
  assert (Hh : h <> []) by (intros ->; destruct coeff; [congruence|cbn in Hl; lia]).
  set (w := lastn (length coeff) h).
  assert (Lw : length w = length coeff) by (unfold w; rewrite lastn_length; lia).
  set (xs := rev (map (@mval NO) w) : list binary64).
  assert (Et : terms = map (fun xc => fst xc * snd xc) (combine (map real xs) (map real coeff))).
  { unfold terms, products, xs, w, reals, lastn. rewrite map_length, map_rev, map_map. now rewrite skipn_map. }
  assert (Lx : length (combine xs coeff) = length coeff) by (unfold xs; rewrite combine_length, rev_length, map_length; lia).
  set (ys := map (fun xc => b64_mult mode_NE (fst xc) (snd xc)) (combine xs coeff)).
  assert (Ly : length ys = length coeff) by (unfold ys; now rewrite map_length).
  exists (fold_left (b64_plus mode_NE) ys (b64_ofZ 0)).
  split.
  - unfold last_emission. destruct (@mk_fir NO id coeff) as [o| | | |] eqn:Ho; try discriminate Ho.
    destruct (@C07_fir NO id coeff o (feed "i1" h) Hc Ho (one_input_feed h)) as [o' ->].
    f_equal. rewrite last_answer by auto. unfold fir, when_full.
    match goal with |- context [if ?b then _ else _] =>
      assert (L : b = false) by (apply Z.ltb_ge, inj_le; exact Hl) end.
    rewrite L.
    rewrite Nat2Z.id. fold w. unfold last_time, w. rewrite lastn_last; [reflexivity|].
    destruct coeff; [congruence|discriminate].
  - assert (K : INR (length coeff + 1) <= 2 ^ 52).
    { rewrite INR_IZR_INZ. replace (2 ^ 52) with (IZR (2 ^ 52)) by (rewrite <- (bpow_nat 52); reflexivity).
      apply IZR_le. lia. }
    pose proof (abs_sum_pos terms) as P. pose proof tiny_pos as Ht. pose proof (pos_INR (length coeff)) as Pc.
    assert (E21 : 2 ^ 1022 = 2 * 2 ^ 1021) by reflexivity.
    assert (P21 : 0 < 2 ^ 1021) by (apply pow_lt; lra).
    assert (N52 : INR (length coeff) * tiny <= 1).
    { rewrite plus_INR in K. cbn [INR] in K. unfold tiny.
      apply Rmult_le_reg_r with (2 ^ 1075); [apply pow_lt; lra|].
      rewrite Rmult_assoc, Rinv_l by (apply pow_nonzero; lra). rewrite Rmult_1_r, Rmult_1_l.
      apply Rle_trans with (2 ^ 52); [lra|]. apply Rle_pow; [lra|lia]. }
    assert (P21' : 1 <= 2 ^ 1021) by (apply pow_R1_Rle; lra).
    destruct (fold_close ys terms tiny) as [F E].
    + lra.
    + rewrite Et. unfold ys. apply fir_terms; auto.
      * apply Forall_forall. intros x Hx. apply in_rev in Hx. apply in_map_iff in Hx as (m & <- & Hm).
        apply Fh. exact Hm.
      * rewrite <- Et. lra.
    + rewrite Ly. apply no_overflow; auto.
      assert (0 <= INR (length coeff) * tiny) by (apply Rmult_le_pos; lra). lra.
    + split; [exact F|]. rewrite Ly in E. eapply Rle_trans; [exact E|].
      pose proof (linear_bound (rsum (map Rabs terms)) (length coeff) P K) as LB.
      assert (G : (1 + u) ^ length coeff <= 2).
      { pose proof (growth_linear (length coeff)) as G. rewrite plus_INR in K. cbn [INR] in K. specialize (G ltac:(lra)).
        assert (U : 2 * 2 ^ 52 * u = 1) by (unfold half_ulp; change (2 ^ 53) with (2 * 2 ^ 52); field).
        pose proof half_ulp_pos as Hu. nra. }
      assert (INR (length coeff) * tiny * (1 + u) ^ length coeff <= INR (length coeff) * tiny * 2)
        by (apply Rmult_le_compat_l; [apply Rmult_le_pos; lra|lra]). lra.
Qed.

(** ** C64 *)

(** Whatever the history, infinities and NaN included: an emitted value is NaN or a number
    from 0 to 100. *)
Theorem C64_in_range (id : string) (n : Z) (g1 g2 g3 g4 : binary64) (o : @op NO) (evs : list (@ev NO)) (outs : list (@opmsg NO)) (o' : @op NO) :
  (1 <= n < two64 - 1)%Z -> @mk_rsi NO id n g1 g2 g3 g4 = Ok o -> one_input evs ->
  run o evs = (Ok outs, o') ->
  forall m, In m (on_port "o1" outs) ->
  is_nan 53 1024 (@mval NO m) = true \/ finite (@mval NO m) /\ 0 <= real (@mval NO m) <= 100.
Proof.
  intros Hn Ho Hone R m Hm. unfold mk_rsi in Ho. rewrite mk_simple_sop in Ho. injection Ho as <-.
  replace (wrap (n + 1)) with (n + 1)%Z in R by (unfold wrap, two64 in *; rewrite Z.mod_small; lia).
  rewrite run_rsi_any in R by auto. injection R as <- _.
  unfold on_port in Hm. apply in_flat_map in Hm as (out & Hout & Hm).
  apply in_map_iff in Hout as (p & <- & _). unfold rsi_now in Hm.
  destruct (reacts (n + 1) p); [|destruct Hm].
  destruct (averages_after (windows n p)) as [[g l]|] eqn:E; [|destruct Hm].
  destruct Hm as [<-|[]]. cbn [mval].
  destruct (averages_after_up lpow lcos _ _ _ E) as [Ug Ul].
  exact (rsi_of_range lpow lcos g l Ug Ul).
Qed.

(** Values up to [2^969] in absolute value: always a number from 0 to 100. *)
Theorem C64_number (id : string) (n : Z) (g1 g2 g3 g4 : binary64) (o : @op NO) (evs : list (@ev NO)) :
  (1 <= n <= 2 ^ 53)%Z -> @mk_rsi NO id n g1 g2 g3 g4 = Ok o -> one_input evs ->
  bounded_by (2 ^ 969) (received evs) ->
  exists outs o', run o evs = (Ok outs, o') /\
  forall m, In m (on_port "o1" outs) -> finite (@mval NO m) /\ 0 <= real (@mval NO m) <= 100.
Proof.
  intros Hn Ho Hone Hb. unfold mk_rsi in Ho. rewrite mk_simple_sop in Ho. injection Ho as <-.
  replace (wrap (n + 1)) with (n + 1)%Z by (unfold wrap, two64 in *; rewrite Z.mod_small; lia).
  rewrite run_rsi_any by (auto; unfold two64; lia). eexists _, _. split; [reflexivity|].
  intros m Hm. unfold on_port in Hm. apply in_flat_map in Hm as (out & Hout & Hm).
  apply in_map_iff in Hout as (p & <- & Hp). unfold rsi_now in Hm.
  destruct (reacts (n + 1) p); [|destruct Hm].
  destruct (averages_after (windows n p)) as [[g l]|] eqn:E; [|destruct Hm].
  destruct Hm as [<-|[]]. cbn [mval].
  destruct (averages_after_up lpow lcos _ _ _ E) as [Ug Ul].
  assert (Sub : forall x, In x (received p) -> In x (received evs)).
  { clear - Hp. revert p Hp. induction evs as [|e evs IH]; cbn [prefixes]; intros p Hp x Hx; [destruct Hp|].
    destruct Hp as [<-|Hp].
    - destruct e; cbn in *; tauto.
    - apply in_map_iff in Hp as (q & <- & Hq). destruct e; cbn in *; try (eapply IH; eauto).
      destruct Hx as [<-|Hx]; auto. right. eapply IH; eauto. }
  destruct (averages_after_within lpow lcos n (windows n p) g l Hn) as [[Fg _] [Fl _]]; auto.
  { apply Forall_forall. intros w Hw. destruct (windows_full n p w Hw ltac:(lia)) as [Lw Iw]. split; auto.
    apply Forall_forall. intros x Hx. destruct (Hb x) as [Fx Rx]; auto. split; auto.
    change (bpow radix2 969) with (bpow radix2 (Z.of_nat 969)). now rewrite bpow_nat. }
  exact (rsi_of_within lpow lcos g l Ug Ul Fg Fl).
Qed.

(** ** C65 *)

(** a number, possibly infinite, whose sign bit is not set *)
Definition not_negative (x : binary64) : Prop := is_nan 53 1024 x = false /\ Bsign 53 1024 x = false.

(** the squares computed by the C library *)
Definition squares_ok (f : binary64 -> binary64 -> binary64) : Prop :=
  forall x, is_nan 53 1024 x = false -> not_negative (f x (b64_ofZ 2)).

Lemma finite_number (x : binary64) : finite x -> is_nan 53 1024 x = false.
Proof. unfold finite. destruct x; cbn; auto. Qed.

Lemma add_not_negative x y : not_negative x -> not_negative y -> not_negative (b64_plus mode_NE x y).
Proof.
  intros [Nx Sx] [Ny Sy].
  assert (N : is_nan 53 1024 (b64_plus mode_NE x y) = false).
  { destruct (is_finite 53 1024 x && is_finite 53 1024 y) eqn:F.
    - apply andb_prop in F as [Fx Fy]. unfold b64_plus.
      pose proof (Bplus_correct 53 1024 eq_refl eq_refl binop_nan_pl64 mode_NE x y Fx Fy) as C.
      destruct (Rlt_bool _ _).
      + destruct C as (_ & C & _). apply finite_number, C.
      + destruct C as [C _]. cbn in C. apply B2FF_inf in C. match type of C with ?a = _ => change (is_nan 53 1024 a = false) end. now rewrite C.
    - destruct x as [sx|sx|sx plx Hpx|sx mx ex Hbx], y as [sy|sy|sy ply Hpy|sy my ey Hby]; try discriminate; cbn in *; subst; auto. }
  split; auto. destruct (up_plus x y) as [U|U]; unfold up; auto. congruence.
Qed.

Lemma div_not_negative x n : not_negative x -> (1 <= n <= 2 ^ 53)%Z -> not_negative (b64_div mode_NE x (b64_ofZ n)).
Proof.
  intros [Nx Sx] Hn. destruct (b64_ofZ_exact n ltac:(lia)) as [Rn Fn].
  assert (N1 : 1 <= IZR n) by (apply IZR_le; lia).
  assert (N : is_nan 53 1024 (b64_div mode_NE x (b64_ofZ n)) = false).
  { destruct (is_finite 53 1024 x) eqn:Fx.
    - apply finite_number, div_close; auto. unfold real. now rewrite Rn.
    - destruct x as [sx|sx|sx plx Hpx|sx mx ex Hbx]; try discriminate.
      destruct (b64_ofZ n) as [s|s|s pl H|s m e H]; try discriminate; [|reflexivity].
      cbn in Rn. lra. }
  split; auto. destruct (up_div x (b64_ofZ n)) as [U|U]; unfold up; auto; [|congruence].
  apply up_ofZ. lia.
Qed.

Lemma sqrt_not_negative x : not_negative x -> not_negative (b64_sqrt mode_NE x).
Proof.
  intros [Nx Sx]. unfold b64_sqrt.
  pose proof (Bsqrt_correct 53 1024 eq_refl eq_refl unop_nan_pl64 mode_NE x) as (_ & F & S).
  destruct x as [sx|sx|sx plx Hpx|sx mx ex Hbx]; try discriminate; cbn in Sx; subst; try (split; reflexivity).
  apply finite_number in F. split; auto.
Qed.

Lemma sub_number x y : finite x -> finite y -> is_nan 53 1024 (b64_minus mode_NE x y) = false.
Proof.
  intros Fx Fy. unfold b64_minus.
  pose proof (Bminus_correct 53 1024 eq_refl eq_refl binop_nan_pl64 mode_NE x y Fx Fy) as C.
  destruct (Rlt_bool _ _).
  - destruct C as (_ & C & _). apply finite_number, C.
  - destruct C as [C _]. cbn in C. apply B2FF_inf in C. match type of C with ?a = _ => change (is_nan 53 1024 a = false) end. now rewrite C.
Qed.

(** No square root of a negative number and no [0/0]: what a StandardDeviation of a window of at
    least two values emits is never NaN and never negative. *)
Theorem C65_standard_deviation (id : string) (n : Z) (B : R) (h : list message) :
  squares_ok lpow ->
  (2 <= n <= 2 ^ 53)%Z -> (n <= Z.of_nat (length h))%Z -> 0 <= B -> bounded_by B h ->
  IZR n * B * (1 + half_ulp) ^ (2 * length h) < 2 ^ 1024 ->
  exists v,
    last_emission (@mk_stddev NO id n) h = Some (emits (dm lpow lcos (last_time h) v)) /\
    not_negative v.
Proof.
  intros Hp Hn Hl HB Hb Hov. assert (Hh : h <> []) by (intros ->; cbn in Hl; lia).
  exists (@std_value NO (@ip_sum NO (@port_after NO "i1" n h)) (lastn (Z.to_nat n) h)). split.
  - unfold last_emission, mk_stddev. rewrite mk_simple_sop.
    rewrite run_std_any by (lia || (apply one_input_feed; auto)).
    f_equal. rewrite last_answer by auto.
    destruct (Z.ltb_spec (Z.of_nat (length h)) n) as [L|L]; [lia|]. reflexivity.
  - destruct (running_close lpow lcos n B h ltac:(lia) HB Hb) as [Fs _].
    { rewrite <- (bpow_nat 1024) in Hov. exact Hov. }
    set (s := ip_sum _) in *. unfold std_value. cbn [vsqrt vdiv vofZ vadd vsub vpow v0 b64_ops].
    assert (Lw : Z.of_nat (length (lastn (Z.to_nat n) h)) = n) by (rewrite lastn_length; lia). rewrite Lw.
    replace (wrap (n - 1)) with (n - 1)%Z by (unfold wrap, two64; rewrite Z.mod_small; lia).
    apply sqrt_not_negative, div_not_negative; [|lia].
    destruct (b64_ofZ_exact n ltac:(lia)) as [Rn Fn].
    assert (Fa : finite (b64_div mode_NE s (b64_ofZ n))).
    { apply div_close; auto. unfold real. rewrite Rn. apply IZR_le. lia. }
    set (a := b64_div _ s _) in *. clearbody a.
    assert (W : forall m, In m (lastn (Z.to_nat n) h) -> finite (@mval NO m)).
    { intros m Hm. apply lastn_In in Hm. now apply Hb. }
    revert W. generalize (lastn (Z.to_nat n) h) as w.
    assert (Z0 : not_negative (b64_ofZ 0)) by (split; reflexivity).
    revert Z0. generalize (b64_ofZ 0) as acc. intros acc Hacc w. revert acc Hacc.
    induction w as [|m w IH]; intros acc Hacc W; [exact Hacc|].
    cbn [fold_left]. apply IH; [|intros; apply W; cbn; auto].
    apply add_not_negative; auto. apply Hp, sub_number; auto. apply W. cbn. auto.
Qed.

End Floats.
Print Assumptions C62_any_length.
Print Assumptions C62_drift.
Print Assumptions C63_cumulative_sum.
Print Assumptions C63_fir.
Print Assumptions C64_in_range.
Print Assumptions C64_number.
Print Assumptions C65_standard_deviation.

(** ** The hypotheses are met *)

(** a C library whose [pow] of a square is the rounded product *)
Example a_library : squares_ok (fun x _ => b64_mult mode_NE x x).
Proof.
  intros x Nx.
  assert (N : is_nan 53 1024 (b64_mult mode_NE x x) = false).
  { pose proof (Bmult_correct 53 1024 eq_refl eq_refl binop_nan_pl64 mode_NE x x) as C. unfold b64_mult.
    destruct (is_finite 53 1024 x) eqn:Fx.
    - destruct (Rlt_bool _ _).
      + destruct C as (_ & C & _). apply finite_number, C.
      + cbn in C. apply B2FF_inf in C.
        match type of C with ?a = _ => change (is_nan 53 1024 a = false) end. now rewrite C.
    - destruct x; try discriminate. reflexivity. }
  split; auto.
  destruct x as [sx|sx|sx plx Hpx|sx mx ex Hbx]; try discriminate; try (cbn; destruct sx; reflexivity).
  set (x := B754_finite 53 1024 sx mx ex Hbx) in *.
  pose proof (Bmult_correct 53 1024 eq_refl eq_refl binop_nan_pl64 mode_NE x x) as C.
  destruct (Rlt_bool _ _).
  - destruct C as (_ & _ & C). refine (eq_trans (C N) _). cbn. now destruct sx.
  - cbn in C. apply B2FF_inf in C.
    match type of C with ?a = _ => change (Bsign 53 1024 a = false) end. rewrite C. cbn. now destruct sx.
Qed.

Section Examples.
Variable lpow : binary64 -> binary64 -> binary64.
Variable lcos : binary64 -> binary64.
Notation NO := (b64_ops lpow lcos).

Definition three : list (@msg NO) :=
  [dm lpow lcos 1 (b64_ofZ (2 ^ 53)); dm lpow lcos 2 (b64_ofZ 1); dm lpow lcos 3 (b64_ofZ 1)].

Lemma three_bounded : bounded_by (2 ^ 53) three.
Proof.
  assert (B : forall z, (0 <= z <= 2 ^ 53)%Z -> finite (b64_ofZ z) /\ Rabs (real (b64_ofZ z)) <= 2 ^ 53).
  { intros z Hz. destruct (b64_ofZ_exact z Hz) as [E F]. split; [exact F|].
    unfold real. rewrite E, Rabs_pos_eq by (apply IZR_le; lia). rewrite <- (bpow_nat 53).
    change (bpow radix2 (Z.of_nat 53)) with (IZR (2 ^ 53)). apply IZR_le. lia. }
  intros m [<-|[<-|[<-|[]]]]; apply B; lia.
Qed.

(** the window (1, 1) after 2^53: the emitted average, 1/2, is within the bound *)
Example drift_example : exists v,
  last_emission (@mk_movavg NO "ma" 2) three = Some (emits (dm lpow lcos 3 v)) /\ finite v /\
  Rabs (real v - rsum (lastn 2 (reals three)) / 2) <= (2 * INR 3 + 1) * 2 ^ 53 / 2 ^ 52 + tiny.
Proof.
  apply (C62_drift lpow lcos "ma" 2 (2 ^ 53) three); try (cbn; lia).
  - apply pow_le. lra.
  - apply three_bounded.
  - replace (2 * 2 ^ 53) with (2 ^ 54) by reflexivity. apply Rle_pow; [lra|lia].
Qed.

(** coefficients 1 and 2 on the window (1, 1): the terms are 1 and 2 *)
Lemma two_terms : products (lastn 2 (reals three)) (map real [b64_ofZ 1; b64_ofZ 2]) = [1; 2].
Proof.
  unfold products, reals, three, lastn. cbn [map length Nat.sub skipn rev app combine fst snd mval dm].
  destruct (b64_ofZ_exact 1 ltac:(lia)) as [E1 _]. destruct (b64_ofZ_exact 2 ltac:(lia)) as [E2 _].
  unfold real. rewrite E1, E2. repeat f_equal; lra.
Qed.

Example fir_example : exists v,
  last_emission (@mk_fir NO "fir" [b64_ofZ 1; b64_ofZ 2]) three = Some (emits (dm lpow lcos 3 v)) /\ finite v /\
  Rabs (real v - rsum [1; 2]) <= INR 3 * rsum (map Rabs [1; 2]) / 2 ^ 52 + 2 * INR 2 * tiny.
Proof.
  pose proof (C63_fir lpow lcos "fir" [b64_ofZ 1; b64_ofZ 2] three) as H. cbv zeta in H.
  change (length [b64_ofZ 1; b64_ofZ 2]) with 2%nat in H. rewrite two_terms in H.
  apply H; try discriminate; try (cbn; lia).
  - repeat constructor.
  - intros m [<-|[<-|[]]]; reflexivity.
  - cbn [map]. unfold rsum. cbn [fold_right]. rewrite !Rabs_pos_eq by lra.
    apply Rle_trans with (2 ^ 2); [cbn; lra|]. apply Rle_pow; [lra|lia].
Qed.

Example deviation_example : squares_ok lpow -> exists v,
  last_emission (@mk_stddev NO "sd" 2) three = Some (emits (dm lpow lcos 3 v)) /\ not_negative v.
Proof.
  intros Hp. apply (C65_standard_deviation lpow lcos "sd" 2 (2 ^ 53) three); auto; try (cbn; lia).
  - apply pow_le. lra.
  - apply three_bounded.
  - apply Rle_lt_trans with (2 ^ 1 * 2 ^ 53 * 2 ^ (2 * 3)).
    + rewrite pow_1. apply Rmult_le_compat_l; [assert (0 < 2 ^ 53) by (apply pow_lt; lra); lra|].
      apply pow_incr. pose proof half_ulp_pos. split; [lra|]. unfold half_ulp.
      assert (/ 2 ^ 53 <= / 1) by (apply Rinv_le; [lra|apply pow_R1_Rle; lra]). rewrite Rinv_1 in *. lra.
    + rewrite <- !pow_add. apply Rlt_pow; [lra|lia].
Qed.

(** what an RSI of period 2 emits, seen through a function on its values *)
Definition rsi_seen {A} (f : binary64 -> A) (h : list (@msg NO)) : option (list (Z * A)) :=
  match @mk_rsi NO "rsi" 2 (b64_ofZ 0) (b64_ofZ 0) (b64_ofZ 0) (b64_ofZ 0) with
  | Ok o => match run o (feed "i1" h) with
            | (Ok outs, _) => Some (map (fun m => (@mtime NO m, f (@mval NO m))) (on_port "o1" outs))
            | _ => None
            end
  | _ => None
  end.

Example rsi_example :
  rsi_seen (Btrunc 53 1024) (three ++ [dm lpow lcos 4 (b64_ofZ (2 ^ 53))]) = Some [(3, 0); (4, 66)]%Z.
Proof. vm_compute. reflexivity. Qed.

(** C64 without its bound on the values does not hold: differences of finite numbers overflow *)
Definition always_a_number : Prop :=
  forall (id : string) (n : Z) (g1 g2 g3 g4 : binary64) (o : @op NO) (h : list (@msg NO)) outs o',
    (1 <= n <= 2 ^ 53)%Z -> @mk_rsi NO id n g1 g2 g3 g4 = Ok o ->
    (forall m, In m h -> finite (@mval NO m)) ->
    run o (feed "i1" h) = (Ok outs, o') ->
    forall m, In m (on_port "o1" outs) -> finite (@mval NO m).

Theorem C64_always_a_number_refuted : ~ always_a_number.
Proof.
  intros H.
  set (top := b64_of_bits 0x7FEFFFFFFFFFFFFF). set (bottom := b64_of_bits 0xFFEFFFFFFFFFFFFF).
  set (h := [dm lpow lcos 1 bottom; dm lpow lcos 2 top; dm lpow lcos 3 bottom]).
  assert (Fh : forall m, In m h -> finite (@mval NO m)).
  { intros m [<-|[<-|[<-|[]]]]; vm_compute; reflexivity. }
  assert (X : rsi_seen (is_finite 53 1024) h = Some [(3%Z, false)]) by (vm_compute; reflexivity).
  unfold rsi_seen in X.
  destruct (@mk_rsi NO "rsi" 2 (b64_ofZ 0) (b64_ofZ 0) (b64_ofZ 0) (b64_ofZ 0)) as [o| | | |] eqn:Ho; try discriminate X.
  destruct (run o (feed "i1" h)) as [[outs| | | |] o'] eqn:R; try discriminate X.
  pose proof (H "rsi" 2%Z _ _ _ _ o h outs o' ltac:(lia) Ho Fh R) as G.
  destruct (on_port "o1" outs) as [|m ms]; [discriminate X|].
  specialize (G m (or_introl eq_refl)). unfold finite in G. cbn [map] in X. rewrite G in X. discriminate X.
Qed.
End Examples.
Print Assumptions C64_always_a_number_refuted.
