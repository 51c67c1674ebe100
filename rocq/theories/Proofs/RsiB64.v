(** * RelativeStrengthIndex over IEEE binary64 *)

From Coq Require Import String ZArith Bool List Lia Reals Lra.
From Flocq Require Import Core.Core.
From Flocq Require BinarySingleNaN.
From Flocq Require Import IEEE754.Binary IEEE754.Bits.
From Verif Require Import Base.StrMap Base.Num Base.NumB64 Model.Core Model.Ops Model.Make Model.Run.
From Verif Require Import Spec.Streams Spec.Operators Spec.RSI Spec.Drift.
From Verif Require Import Proofs.Lists Proofs.Window Proofs.Basic Proofs.Fire Proofs.MovAvgB64 Proofs.DriftB64 Proofs.SumB64.
Import ListNotations.
Open Scope string_scope.
Open Scope list_scope.
Open Scope Z_scope.
Open Scope rtbot_scope.

(** ** The operator over any arithmetic *)
Section Any.
Context {NO : NumOps}.

(** the windows seen by the executions that react *)
Definition windows (n : Z) (evs : list ev) : list (list msg) :=
  map (fun p => lastn (Z.to_nat (n + 1)) (received p)) (filter (reacts (n + 1)) (prefixes evs)).

(** the averages after some windows *)
Definition averages_after (ws : list (list msg)) : option (V * V) :=
  fold_left (fun s w =>
    match (match s with None => rsi_averages w v0 v0 false | Some (g, l) => rsi_averages w g l true end) with
    | Ok a => Some a
    | _ => s
    end) ws None.

Definition rsi_kind (k0 : kind) (s : option (V * V)) : kind :=
  match s with None => k0 | Some (g, l) => KRSI g l g l true end.

Definition rsi_now (n : Z) (evs : list ev) : opmsg :=
  if reacts (n + 1) evs then
    match averages_after (windows n evs) with
    | Some (g, l) => emits (mkMsg (last_time (received evs)) (rsi_of g l))
    | None => []
    end
  else emits_nothing.

Lemma windows_snoc n evs e :
  windows n (evs ++ [e]) =
  windows n evs ++
  (if reacts (n + 1) (evs ++ [e]) then [lastn (Z.to_nat (n + 1)) (received (evs ++ [e]))] else []).
Proof.
  unfold windows. rewrite prefixes_snoc, filter_app, map_app. cbn [filter].
  destruct (reacts (n + 1) (evs ++ [e])); reflexivity.
Qed.

Lemma reacts_snoc n evs e :
  reacts n (evs ++ [e]) =
  match e with EExec => pending evs && (n <=? Z.of_nat (length (received evs))) | _ => false end.
Proof.
  unfold reacts. rewrite rev_app_distr. cbn [rev app].
  destruct e; auto. rewrite rev_involutive, received_app. cbn. now rewrite app_nil_r.
Qed.

Lemma q_at_in (w : list msg) i : 0 <= i < Z.of_nat (length w) -> exists m, q_at w i = Ok m /\ In m w.
Proof.
  intros H. unfold q_at. destruct (nth_error w (Z.to_nat i)) as [m|] eqn:E.
  2:{ apply nth_error_None in E. lia. }
  exists m. split; [|eapply nth_error_In; eauto].
  destruct w as [|x w]; [cbn in H; lia|].
  destruct (i <? 0) eqn:X; [lia|]. destruct (i <? Z.of_nat (length (x :: w))) eqn:Y; [|lia]. reflexivity.
Qed.

(** the two averages of a full window *)
Lemma averages_ok n w g l i : 1 <= n < two64 - 1 -> Z.of_nat (length w) = n + 1 ->
  exists a, rsi_averages w g l i = Ok a.
Proof.
  intros Hn Hw. unfold rsi_averages. rewrite Hw.
  assert (W1 : wrap (n + 1 - 1) = n) by (unfold wrap, two64 in *; rewrite Z.mod_small; lia).
  assert (W2 : wrap (n + 1 - 2) = n - 1) by (unfold wrap, two64 in *; rewrite Z.mod_small; lia).
  rewrite W1, W2. destruct i; cbn [negb].
  - destruct (q_at_in w n) as (a & -> & _); [lia|]. destruct (q_at_in w (n - 1)) as (b & -> & _); [lia|].
    cbn [rbind]. destruct (if vlt v0 _ then _ else _) as [? ?]. eexists; reflexivity.
  - destruct (rsi_sums w v0 v0). eexists; reflexivity.
Qed.

Lemma run_rsi_any id outs conns n g1 g2 g3 g4 evs :
  1 <= n < two64 - 1 -> one_input evs ->
  run (sop id outs conns (new_port "i1" (n + 1)) false (KRSI g1 g2 g3 g4 false)) evs =
  (Ok (map (rsi_now n) (prefixes evs)),
   sop id outs conns (port_after "i1" (n + 1) (received evs)) (pending evs)
       (rsi_kind (KRSI g1 g2 g3 g4 false) (averages_after (windows n evs)))).
Proof.
  intros Hn Hone.
  assert (Ef : eff (n + 1) = n + 1) by (unfold eff; destruct (n + 1 =? 0) eqn:X; [lia|reflexivity]).
  apply (win_run id outs conns (n + 1) one_input
           (fun evs => rsi_kind (KRSI g1 g2 g3 g4 false) (averages_after (windows n evs))) (rsi_now n)); auto; try lia.
  - apply one_input_snoc.
  - intros e. unfold rsi_kind. destruct (averages_after _) as [[? ?]|]; reflexivity.
  - intros. rewrite windows_snoc. unfold rsi_now. rewrite reacts_snoc. rewrite app_nil_r. auto.
  - intros. rewrite windows_snoc. unfold rsi_now. rewrite reacts_snoc. rewrite app_nil_r. auto.
  - intros e. rewrite Ef.
    assert (RS : reacts (n + 1) (e ++ [EExec]) = pending e && negb (Z.of_nat (length (received e)) <? n + 1)).
    { rewrite reacts_snoc. f_equal. destruct (Z.of_nat (length (received e)) <? n + 1) eqn:X; cbn [negb]; lia. }
    unfold rsi_now. rewrite windows_snoc, RS.
    destruct (pending e) eqn:Pe; cbn [andb]; [|rewrite app_nil_r; auto].
    destruct (Z.of_nat (length (received e)) <? n + 1) eqn:L; cbn [negb]; [rewrite app_nil_r; auto|].
    intros _. rewrite !received_exec.
    set (w := lastn (Z.to_nat (n + 1)) (received e)).
    assert (Hw : Z.of_nat (length w) = n + 1) by (unfold w; rewrite lastn_length; lia).
    unfold proc, process_data.
    assert (PD : ip_data (port_after "i1" (n + 1) (received e)) = w).
    { rewrite port_after_data, Ef by lia. reflexivity. }
    assert (LT : last w msg0 = last (received e) msg0) by (unfold w; apply lastn_last; lia).
    generalize dependent (port_after "i1" (n + 1) (received e)). intros p PD.
    unfold averages_after. rewrite fold_left_app. cbn [fold_left].
    change (fold_left _ (windows n e) None) with (averages_after (windows n e)).
    destruct (averages_after (windows n e)) as [[g l]|].
    + destruct (averages_ok n w g l true Hn Hw) as [[g' l'] E]. rewrite E.
      unfold rsi_kind, single_port, d_last, port_data. cbn -[rsi_averages two64].
      rewrite PD, E. unfold last_time. rewrite LT. reflexivity.
    + destruct (averages_ok n w g3 g4 false Hn Hw) as [[g' l'] E].
      change (rsi_averages w v0 v0 false) with (rsi_averages w g3 g4 false). rewrite E.
      unfold rsi_kind, single_port, d_last, port_data. cbn -[rsi_averages two64].
      rewrite PD, E. unfold last_time. rewrite LT. reflexivity.
Qed.

Lemma windows_full n evs w : In w (windows n evs) -> 0 <= n ->
  Z.of_nat (length w) = n + 1 /\ forall m, In m w -> In m (received evs).
Proof.
  intros H Hn. unfold windows in H. apply in_map_iff in H as (p & <- & Hp). apply filter_In in Hp as [Hp Hr].
  split.
  - rewrite lastn_length. unfold reacts in Hr. destruct (rev p) as [|[]]; try discriminate.
    apply andb_prop in Hr as [_ Hr]. apply Z.leb_le in Hr. lia.
  - intros m Hm. apply lastn_In in Hm. revert m Hm. clear - Hp. revert p Hp.
    induction evs as [|e evs IH]; cbn [prefixes]; intros p Hp m Hm; [destruct Hp|].
    destruct Hp as [<-|Hp].
    + destruct e; cbn in *; tauto.
    + apply in_map_iff in Hp as (q & <- & Hq). destruct e; cbn in *; try (eapply IH; eauto).
      destruct Hm as [<-|Hm]; auto. right. eapply IH; eauto.
Qed.

(** an invariant of the averages *)
Lemma averages_inv (Q : V -> Prop) (W : list msg -> Prop) ws :
  Forall W ws ->
  (forall w a, W w -> rsi_averages w v0 v0 false = Ok a -> Q (fst a) /\ Q (snd a)) ->
  (forall w g l a, W w -> Q g -> Q l -> rsi_averages w g l true = Ok a -> Q (fst a) /\ Q (snd a)) ->
  forall g l, averages_after ws = Some (g, l) -> Q g /\ Q l.
Proof.
  intros F H1 H2. unfold averages_after.
  enough (G : forall s, (forall g l, s = Some (g, l) -> Q g /\ Q l) ->
     forall g l, fold_left (fun s w => match (match s with None => rsi_averages w v0 v0 false | Some (g, l) => rsi_averages w g l true end) with
       | Ok a => Some a | _ => s end) ws s = Some (g, l) -> Q g /\ Q l) by (apply G; discriminate).
  induction F as [|w ws Hw F IH]; intros s Hs g l; cbn [fold_left]; [apply Hs|].
  apply IH. intros g' l' E. destruct s as [[a b]|].
  - destruct (Hs a b eq_refl). destruct (rsi_averages w a b true) as [[x y]| | | |] eqn:R; try (now apply Hs).
    injection E as <- <-. now apply (H2 w a b (x, y)).
  - destruct (rsi_averages w v0 v0 false) as [[x y]| | | |] eqn:R; try (now apply Hs).
    injection E as <- <-. now apply (H1 w (x, y)).
Qed.
End Any.

(** ** Signs *)
Open Scope R_scope.

(** NaN, or the sign bit is not set *)
Definition up (x : binary64) : Prop := is_nan 53 1024 x = true \/ Bsign 53 1024 x = false.

Lemma up_real x : up x -> finite x -> 0 <= real x.
Proof.
  unfold up, finite, real. destruct x as [s|s|s pl H|s m e H]; cbn [is_nan Bsign is_finite B2R]; try discriminate; try lra.
  intros [X| ->] _; [discriminate|]. cbn [cond_Zopp]. apply F2R_ge_0. cbn. lia.
Qed.

Lemma B2FF_inf (x : binary64) s : B2FF 53 1024 x = F754_infinity s -> x = B754_infinity 53 1024 s.
Proof. destruct x; cbn; try discriminate. now intros [= ->]. Qed.

Lemma up_plus x y : up x -> up y -> up (b64_plus mode_NE x y).
Proof.
  intros Hx Hy. destruct (is_finite 53 1024 x && is_finite 53 1024 y) eqn:F.
  - apply andb_prop in F as [Fx Fy]. pose proof (up_real x Hx Fx) as Px. pose proof (up_real y Hy Fy) as Py.
    assert (Sx : Bsign 53 1024 x = false) by (destruct Hx as [N|]; auto; destruct x; discriminate).
    assert (Sy : Bsign 53 1024 y = false) by (destruct Hy as [N|]; auto; destruct y; discriminate).
    unfold b64_plus.
    pose proof (Bplus_correct 53 1024 eq_refl eq_refl binop_nan_pl64 mode_NE x y Fx Fy) as C.
    destruct (Rlt_bool _ _).
    + destruct C as (_ & _ & C). right. refine (eq_trans C _). unfold real in *.
      destruct (Rcompare_spec (B2R 53 1024 x + B2R 53 1024 y) 0); auto; [lra|].
      now rewrite Sx.
    + destruct C as [C _]. rewrite Sx in C. apply B2FF_inf in C. right. now rewrite C.
  - destruct x as [sx|sx|sx plx Hpx|sx mx ex Hbx], y as [sy|sy|sy ply Hpy|sy my ey Hby]; try discriminate F;
      try (left; reflexivity); unfold up in *; cbn in *;
      destruct Hx as [Hx|Hx], Hy as [Hy|Hy]; try discriminate; subst; cbn; auto.
Qed.

Lemma up_mult x y : up x -> up y -> up (b64_mult mode_NE x y).
Proof.
  intros Hx Hy. unfold up. destruct (is_nan 53 1024 (b64_mult mode_NE x y)) eqn:N; [now left|]. right.
  assert (Nx : is_nan 53 1024 x = false) by (destruct x, y; cbn in *; auto).
  assert (Ny : is_nan 53 1024 y = false) by (destruct x, y; cbn in *; auto).
  destruct Hx as [Hx|Hx]; [congruence|]. destruct Hy as [Hy|Hy]; [congruence|].
  pose proof (Bmult_correct 53 1024 eq_refl eq_refl binop_nan_pl64 mode_NE x y) as C.
  destruct (Rlt_bool _ _).
  - destruct C as (_ & _ & C). refine (eq_trans (C N) _). now rewrite Hx, Hy.
  - rewrite Hx, Hy in C. apply B2FF_inf in C. unfold b64_mult. now rewrite C.
Qed.

Lemma up_div x y : up x -> up y -> up (b64_div mode_NE x y).
Proof.
  intros Hx Hy. unfold up. destruct (is_nan 53 1024 (b64_div mode_NE x y)) eqn:N; [now left|]. right.
  assert (Nx : is_nan 53 1024 x = false) by (destruct x, y; cbn in *; auto).
  assert (Ny : is_nan 53 1024 y = false) by (destruct x, y; cbn in *; auto).
  destruct Hx as [Hx|Hx]; [congruence|]. destruct Hy as [Hy|Hy]; [congruence|].
  destruct y as [sy|sy|sy ply Hpy|sy my ey Hby].
  - cbn in Hy. subst sy. destruct x as [sx|sx|sx plx Hpx|sx mx ex Hbx]; cbn in *; subst; try discriminate; reflexivity.
  - cbn in Hy. subst sy. destruct x as [sx|sx|sx plx Hpx|sx mx ex Hbx]; cbn in *; subst; try discriminate; reflexivity.
  - discriminate.
  - set (y := B754_finite 53 1024 sy my ey Hby) in *.
    assert (Ry : B2R 53 1024 y <> 0).
    { cbn in Hy. subst sy. unfold y. cbn [B2R]. apply Rgt_not_eq, F2R_gt_0. reflexivity. }
    pose proof (Bdiv_correct 53 1024 eq_refl eq_refl binop_nan_pl64 mode_NE x y Ry) as C.
    destruct (Rlt_bool _ _).
    + destruct C as (_ & _ & C). refine (eq_trans (C N) _). now rewrite Hx, Hy.
    + rewrite Hx, Hy in C. apply B2FF_inf in C. unfold b64_div. now rewrite C.
Qed.

Lemma up_ofZ z : (0 <= z)%Z -> up (b64_ofZ z).
Proof.
  intros Hz. unfold b64_ofZ.
  pose proof (binary_normalize_correct 53 1024 (eq_refl _) (eq_refl _) mode_NE z 0 false) as C.
  assert (E : F2R (Float radix2 z 0) = IZR z) by (unfold F2R; cbn; now rewrite Rmult_1_r).
  rewrite E in C. assert (P : 0 <= IZR z) by (apply IZR_le; lia).
  destruct (Rlt_bool (Rabs _) _).
  - destruct C as (_ & _ & C). right. refine (eq_trans C _). destruct (Rcompare_spec (IZR z) 0); auto. lra.
  - rewrite Rlt_bool_false in C by auto. apply B2FF_inf in C. right. now rewrite C.
Qed.

(** comparison with zero *)
Lemma lt_zero_pos x : b64_lt (b64_ofZ 0) x = true -> up x.
Proof.
  intros H. right. destruct x as [s|s|s pl Hp|s m e Hb].
  - discriminate H.
  - destruct s; [discriminate H|reflexivity].
  - discriminate H.
  - destruct s; [discriminate H|reflexivity].
Qed.

Lemma lt_zero_neg x : b64_lt x (b64_ofZ 0) = true -> up (b64_opp x).
Proof.
  intros H. right. destruct x as [s|s|s pl Hp|s m e Hb].
  - discriminate H.
  - destruct s; [reflexivity|discriminate H].
  - discriminate H.
  - destruct s; [reflexivity|discriminate H].
Qed.

Lemma up_minus x y : up x -> up (b64_opp y) -> up (b64_minus mode_NE x y).
Proof.
  intros Hx Hy. destruct (is_finite 53 1024 x && is_finite 53 1024 y) eqn:F.
  - apply andb_prop in F as [Fx Fy]. pose proof (up_real x Hx Fx) as Px.
    assert (Sx : Bsign 53 1024 x = false) by (destruct Hx as [N|]; auto; destruct x; discriminate).
    assert (Sy : Bsign 53 1024 y = true).
    { destruct Hy as [N|S]; destruct y; try discriminate; cbn in *; now destruct s. }
    assert (Py : 0 <= real (b64_opp y)) by (apply up_real; auto; unfold finite, b64_opp; now rewrite is_finite_Bopp).
    unfold real, b64_opp in Py. rewrite B2R_Bopp in Py.
    unfold b64_minus.
    pose proof (Bminus_correct 53 1024 eq_refl eq_refl binop_nan_pl64 mode_NE x y Fx Fy) as C.
    destruct (Rlt_bool _ _).
    + destruct C as (_ & _ & C). right. refine (eq_trans C _). unfold real in *.
      destruct (Rcompare_spec (B2R 53 1024 x - B2R 53 1024 y) 0); auto; [lra|].
      now rewrite Sx.
    + destruct C as [C _]. rewrite Sx in C. apply B2FF_inf in C. right. now rewrite C.
  - destruct x as [sx|sx|sx plx Hpx|sx mx ex Hbx], y as [sy|sy|sy ply Hpy|sy my ey Hby]; try discriminate F;
      try (left; reflexivity); unfold up in *; cbn in *;
      destruct Hx as [Hx|Hx], Hy as [Hy|Hy]; try discriminate; subst; cbn; auto.
    all: destruct sy; try discriminate; cbn; auto.
Qed.

(** ** Range *)

(** a finite value between two bounds *)
Definition within (a b : R) (x : binary64) : Prop := finite x /\ a <= real x <= b.

Lemma format_IZR z : (Z.abs z <= 2 ^ 53)%Z -> generic_format radix2 fexp64 (IZR z).
Proof. apply generic_small_abs. Qed.

Lemma rnd_le_format x b : generic_format radix2 fexp64 b -> x <= b -> rnd64 x <= b.
Proof. intros G H. apply round_le_generic; auto; [apply FLT_exp_valid; reflexivity|apply _]. Qed.
Lemma rnd_ge_format x a : generic_format radix2 fexp64 a -> a <= x -> a <= rnd64 x.
Proof. intros G H. apply round_ge_generic; auto; [apply FLT_exp_valid; reflexivity|apply _]. Qed.

Lemma between_lt a b x M : - M < a -> b < M -> a <= x <= b -> Rabs x < M.
Proof. intros. apply Rabs_lt. lra. Qed.

Lemma plus_within x y a b : finite x -> finite y ->
  generic_format radix2 fexp64 a -> generic_format radix2 fexp64 b ->
  - bpow radix2 1024 < a -> b < bpow radix2 1024 ->
  a <= real x + real y <= b -> within a b (b64_plus mode_NE x y).
Proof.
  intros Fx Fy Ga Gb La Lb H. unfold b64_plus.
  pose proof (Bplus_correct 53 1024 eq_refl eq_refl binop_nan_pl64 mode_NE x y Fx Fy) as C.
  change (BinarySingleNaN.round_mode mode_NE) with ZnearestE in C.
  change (SpecFloat.fexp 53 1024) with fexp64 in C.
  assert (R : a <= rnd64 (real x + real y) <= b) by (split; [apply rnd_ge_format|apply rnd_le_format]; auto; apply H).
  rewrite Rlt_bool_true in C by (eapply between_lt; eauto).
  destruct C as (C1 & C2 & _). split; [exact C2|]. unfold real. rewrite C1. exact R.
Qed.

Lemma minus_within x y a b : finite x -> finite y ->
  generic_format radix2 fexp64 a -> generic_format radix2 fexp64 b ->
  - bpow radix2 1024 < a -> b < bpow radix2 1024 ->
  a <= real x - real y <= b -> within a b (b64_minus mode_NE x y).
Proof.
  intros Fx Fy Ga Gb La Lb H. unfold b64_minus.
  pose proof (Bminus_correct 53 1024 eq_refl eq_refl binop_nan_pl64 mode_NE x y Fx Fy) as C.
  change (BinarySingleNaN.round_mode mode_NE) with ZnearestE in C.
  change (SpecFloat.fexp 53 1024) with fexp64 in C.
  assert (R : a <= rnd64 (real x - real y) <= b) by (split; [apply rnd_ge_format|apply rnd_le_format]; auto; apply H).
  rewrite Rlt_bool_true in C by (eapply between_lt; eauto).
  destruct C as (C1 & C2 & _). split; [exact C2|]. unfold real. rewrite C1. exact R.
Qed.

Lemma mult_within x y a b : finite x -> finite y ->
  generic_format radix2 fexp64 a -> generic_format radix2 fexp64 b ->
  - bpow radix2 1024 < a -> b < bpow radix2 1024 ->
  a <= real x * real y <= b -> within a b (b64_mult mode_NE x y).
Proof.
  intros Fx Fy Ga Gb La Lb H. unfold b64_mult.
  pose proof (Bmult_correct 53 1024 eq_refl eq_refl binop_nan_pl64 mode_NE x y) as C.
  change (BinarySingleNaN.round_mode mode_NE) with ZnearestE in C.
  change (SpecFloat.fexp 53 1024) with fexp64 in C.
  assert (R : a <= rnd64 (real x * real y) <= b) by (split; [apply rnd_ge_format|apply rnd_le_format]; auto; apply H).
  rewrite Rlt_bool_true in C by (eapply between_lt; eauto).
  destruct C as (C1 & C2 & _). split; [unfold finite in *; rewrite C2, Fx, Fy; reflexivity|]. unfold real. rewrite C1. exact R.
Qed.

Lemma div_within x y a b : finite x -> real y <> 0 ->
  generic_format radix2 fexp64 a -> generic_format radix2 fexp64 b ->
  - bpow radix2 1024 < a -> b < bpow radix2 1024 ->
  a <= real x / real y <= b -> within a b (b64_div mode_NE x y).
Proof.
  intros Fx Ny Ga Gb La Lb H. unfold b64_div.
  pose proof (Bdiv_correct 53 1024 eq_refl eq_refl binop_nan_pl64 mode_NE x y Ny) as C.
  change (BinarySingleNaN.round_mode mode_NE) with ZnearestE in C.
  change (SpecFloat.fexp 53 1024) with fexp64 in C.
  assert (R : a <= rnd64 (real x / real y) <= b) by (split; [apply rnd_ge_format|apply rnd_le_format]; auto; apply H).
  rewrite Rlt_bool_true in C by (eapply between_lt; eauto).
  destruct C as (C1 & C2 & _). split; [unfold finite in *; rewrite C2; exact Fx|]. unfold real. rewrite C1. exact R.
Qed.

Lemma big_1024 : 1000 < bpow radix2 1024.
Proof. change (bpow radix2 1024) with (IZR (2 ^ 1024)). apply IZR_lt. now apply Z.lt_le_trans with (2 ^ 10)%Z; [|apply Z.pow_le_mono_r]. Qed.

(** the index of a relative strength [rs] that is not negative, infinity included *)
Lemma index_range rs : is_nan 53 1024 rs = false -> Bsign 53 1024 rs = false ->
  within 0 100 (b64_minus mode_NE (b64_ofZ 100) (b64_div mode_NE (b64_ofZ 100) (b64_plus mode_NE (b64_ofZ 1) rs))).
Proof.
  intros Nn Sg. pose proof big_1024 as Big.
  destruct (b64_ofZ_exact 100 ltac:(lia)) as [R100 F100]. destruct (b64_ofZ_exact 1 ltac:(lia)) as [R1 F1].
  assert (G0 : generic_format radix2 fexp64 0) by apply generic_format_0.
  assert (G1 : generic_format radix2 fexp64 1) by (apply (format_IZR 1); cbn; lia).
  assert (G100 : generic_format radix2 fexp64 100) by (apply (format_IZR 100); cbn; lia).
  assert (Q : within 0 100 (b64_div mode_NE (b64_ofZ 100) (b64_plus mode_NE (b64_ofZ 1) rs))).
  { assert (T : b64_plus mode_NE (b64_ofZ 1) rs = B754_infinity 53 1024 false \/
                finite (b64_plus mode_NE (b64_ofZ 1) rs) /\ 1 <= real (b64_plus mode_NE (b64_ofZ 1) rs)).
    { destruct (is_finite 53 1024 rs) eqn:F.
      - pose proof (up_real rs (or_intror Sg) F) as P. unfold b64_plus.
        pose proof (Bplus_correct 53 1024 eq_refl eq_refl binop_nan_pl64 mode_NE (b64_ofZ 1) rs F1 F) as C.
        change (BinarySingleNaN.round_mode mode_NE) with ZnearestE in C.
        change (SpecFloat.fexp 53 1024) with fexp64 in C.
        destruct (Rlt_bool _ _).
        + destruct C as (C1 & C2 & _). right. split; [exact C2|]. unfold real. rewrite C1, R1.
          apply rnd_ge_format; auto. unfold real in P. lra.
        + destruct C as (C & _). left. apply B2FF_inf. exact C.
      - left. destruct rs as [s|s|s pl Hp|s m e Hb]; try discriminate. cbn in Sg. subst s. reflexivity. }
    destruct T as [->|[Ft Rt]].
    - split; [reflexivity|]. assert (Z0 : real (b64_div mode_NE (b64_ofZ 100) (B754_infinity 53 1024 false)) = 0) by reflexivity.
      rewrite Z0. lra.
    - apply div_within; auto; try lra. unfold real at 1 3. rewrite R100.
      split.
      + apply Rmult_le_pos; [lra|]. left. apply Rinv_0_lt_compat. lra.
      + apply Rmult_le_reg_r with (real (b64_plus mode_NE (b64_ofZ 1) rs)); [lra|].
        unfold Rdiv. rewrite Rmult_assoc, Rinv_l by lra. lra. }
  destruct Q as [Fq Rq]. apply minus_within; auto; try lra.
  unfold real at 1 3. rewrite R100. lra.
Qed.

Lemma hundred : within 0 100 (b64_ofZ 100).
Proof.
  destruct (b64_ofZ_exact 100 ltac:(lia)) as [R100 F100]. split; [exact F100|]. unfold real. rewrite R100. lra.
Qed.

Section B64.
Variable lpow : binary64 -> binary64 -> binary64.
Variable lcos : binary64 -> binary64.
Notation NO := (b64_ops lpow lcos).

Lemma rsi_of_range g l : up g -> up l ->
  is_nan 53 1024 (@rsi_of NO g l) = true \/ within 0 100 (@rsi_of NO g l).
Proof.
  intros Hg Hl. unfold rsi_of. cbn [vlt v0 vsub vdiv vadd v1 vofZ b64_ops].
  destruct (b64_lt (b64_ofZ 0) l); [|right; apply hundred].
  pose proof (up_div g l Hg Hl) as Hr. destruct Hr as [N|Sg].
  - left. destruct (b64_div mode_NE g l); try discriminate N. reflexivity.
  - destruct (is_nan 53 1024 (b64_div mode_NE g l)) eqn:N.
    + left. destruct (b64_div mode_NE g l); try discriminate N. reflexivity.
    + right. now apply index_range.
Qed.

Lemma sums_up (q : list (@msg NO)) g l : up g -> up l ->
  up (fst (@rsi_sums NO q g l)) /\ up (snd (@rsi_sums NO q g l)).
Proof.
  revert g l. induction q as [|a q IH]; intros g l Hg Hl; [split; assumption|].
  destruct q as [|b r]; [split; assumption|].
  change (@rsi_sums NO (a :: b :: r) g l) with
    (let diff := b64_minus mode_NE (@mval NO b) (@mval NO a) in
     if b64_lt (b64_ofZ 0) diff then @rsi_sums NO (b :: r) (b64_plus mode_NE g diff) l
     else if b64_lt diff (b64_ofZ 0) then @rsi_sums NO (b :: r) g (b64_minus mode_NE l diff)
     else @rsi_sums NO (b :: r) g l). cbv zeta.
  destruct (b64_lt (b64_ofZ 0) _) eqn:E1; [|destruct (b64_lt _ (b64_ofZ 0)) eqn:E2]; apply IH; auto.
  - apply up_plus; auto. now apply lt_zero_pos.
  - apply up_minus; auto. now apply lt_zero_neg.
Qed.

Lemma averages_up (w : list (@msg NO)) g l i a : up g -> up l ->
  @rsi_averages NO w g l i = Ok a -> up (fst a) /\ up (snd a).
Proof.
  intros Hg Hl. unfold rsi_averages. cbn [vlt v0 vsub vdiv vadd vmul vneg v1 vofZ b64_ops].
  assert (U0 : up (b64_ofZ 0)) by (apply up_ofZ; lia).
  assert (UW : forall z, up (b64_ofZ (wrap z))) by (intros z; apply up_ofZ; unfold wrap, two64; apply Z.mod_pos_bound; lia).
  destruct i; cbn [negb].
  - destruct (q_at w _) as [x| | | |]; cbn [rbind]; try discriminate.
    destruct (q_at w _) as [y| | | |]; cbn [rbind]; try discriminate.
    set (d := b64_minus mode_NE (@mval NO x) (@mval NO y)).
    destruct (b64_lt (b64_ofZ 0) d) eqn:E1; [|destruct (b64_lt d (b64_ofZ 0)) eqn:E2]; intros [= <-]; cbn [fst snd].
    all: split; apply up_div; auto; apply up_plus; auto using up_mult, lt_zero_pos, lt_zero_neg.
  - pose proof (sums_up w (b64_ofZ 0) (b64_ofZ 0) U0 U0) as [S1 S2].
    change (@rsi_sums NO w v0 v0) with (@rsi_sums NO w (b64_ofZ 0) (b64_ofZ 0)).
    destruct (@rsi_sums NO w (b64_ofZ 0) (b64_ofZ 0)) as [x y]. cbn [fst snd] in *. intros [= <-]. cbn [fst snd].
    split; apply up_div; auto.
Qed.

Lemma averages_after_up ws g l : @averages_after NO ws = Some (g, l) -> up g /\ up l.
Proof.
  assert (U0 : up (b64_ofZ 0)) by (apply up_ofZ; lia).
  apply (@averages_inv NO up (fun _ => True)).
  - clear. induction ws; constructor; auto.
  - intros w a _ E. exact (averages_up w (b64_ofZ 0) (b64_ofZ 0) false a U0 U0 E).
  - intros w x y a _ Hx Hy E. exact (averages_up w x y true a Hx Hy E).
Qed.

(** ** Moderate values: no NaN *)

Notation M := (bpow radix2 970).

Lemma format_times k : (Z.abs k <= 2 ^ 53)%Z -> generic_format radix2 fexp64 (IZR k * M).
Proof.
  intros H. destruct (Z.eq_dec k 0) as [->|Nk]; [rewrite Rmult_0_l; apply generic_format_0|].
  destruct (Z.eq_dec (Z.abs k) (2 ^ 53)) as [E|N].
  - assert (K : k = (2 ^ 53)%Z \/ k = (- 2 ^ 53)%Z) by lia.
    assert (G : generic_format radix2 fexp64 (IZR (2 ^ 53) * M)).
    { change (IZR (2 ^ 53)) with (bpow radix2 53). rewrite <- bpow_plus. apply generic_format_bpow. unfold FLT_exp. lia. }
    destruct K as [->| ->]; auto. rewrite opp_IZR, Ropp_mult_distr_l_reverse. now apply generic_format_opp.
  - apply generic_format_FLT. exists (Float radix2 k 970).
    + reflexivity.
    + cbn [Fnum]. change (radix2 ^ 53)%Z with (2 ^ 53)%Z. lia.
    + cbn. lia.
Qed.

Lemma times_small k : (0 <= k <= 2 ^ 53)%Z -> 0 <= IZR k * M < bpow radix2 1024.
Proof.
  intros H. pose proof (bpow_gt_0 radix2 970) as P. split.
  - apply Rmult_le_pos; [apply IZR_le; lia|lra].
  - apply Rle_lt_trans with (bpow radix2 53 * M).
    + apply Rmult_le_compat_r; [lra|]. change (bpow radix2 53) with (IZR (2 ^ 53)). apply IZR_le. lia.
    + rewrite <- bpow_plus. apply bpow_lt. lia.
Qed.

Definition moderate (m : @msg NO) : Prop := finite (@mval NO m) /\ Rabs (real (@mval NO m)) <= bpow radix2 969.

Lemma diff_within (a b : @msg NO) : moderate a -> moderate b ->
  within (- M) M (b64_minus mode_NE (@mval NO b) (@mval NO a)).
Proof.
  intros [Fa Ra] [Fb Rb]. pose proof (format_times 1 ltac:(cbn; lia)) as G1. rewrite Rmult_1_l in G1.
  pose proof (times_small 1 ltac:(lia)) as T1. rewrite Rmult_1_l in T1.
  assert (D : M = 2 * bpow radix2 969) by (change M with (bpow radix2 (1 + 969)); rewrite bpow_plus; reflexivity).
  apply minus_within; auto; try lra.
  - now apply generic_format_opp.
  - apply Rabs_le_inv in Ra, Rb. rewrite D. lra.
Qed.

Lemma lt_zero_real x : finite x -> b64_lt (b64_ofZ 0) x = true -> 0 < real x.
Proof.
  intros F H. destruct x as [s|s|s pl Hp|s m e Hb]; try discriminate.
  destruct s; [discriminate H|]. unfold real. cbn [B2R cond_Zopp]. apply F2R_gt_0. reflexivity.
Qed.
Lemma lt_real_zero x : finite x -> b64_lt x (b64_ofZ 0) = true -> real x < 0.
Proof.
  intros F H. destruct x as [s|s|s pl Hp|s m e Hb]; try discriminate.
  destruct s; [|discriminate H]. unfold real. cbn [B2R cond_Zopp]. apply F2R_lt_0. reflexivity.
Qed.

Lemma zero_within k : (0 <= k)%Z -> within 0 (IZR k * M) (b64_ofZ 0).
Proof.
  intros H. destruct (b64_ofZ_exact 0 ltac:(lia)) as [R0 F0]. split; [exact F0|]. unfold real. rewrite R0.
  split; [lra|]. apply Rmult_le_pos; [apply IZR_le; lia|apply bpow_ge_0].
Qed.

Lemma within_more k k' x : (k <= k')%Z -> within 0 (IZR k * M) x -> within 0 (IZR k' * M) x.
Proof.
  intros H [F R]. split; auto. apply IZR_le in H.
  assert (IZR k * M <= IZR k' * M) by (apply Rmult_le_compat_r; auto; apply bpow_ge_0). lra.
Qed.

Lemma sums_within (q : list (@msg NO)) (i : Z) g l :
  Forall moderate q -> (0 <= i)%Z -> (i + Z.of_nat (length q) <= 2 ^ 53 + 1)%Z ->
  within 0 (IZR i * M) g -> within 0 (IZR i * M) l ->
  let j := (i + Z.of_nat (length q) - 1)%Z in
  q <> [] -> within 0 (IZR j * M) (fst (@rsi_sums NO q g l)) /\ within 0 (IZR j * M) (snd (@rsi_sums NO q g l)).
Proof.
  revert i g l. induction q as [|a q IH]; intros i g l Fq Hi Hl Hg Hq j Hne; [congruence|].
  inversion Fq as [|? ? Ha Fq']; subst. destruct q as [|b r].
  - subst j. cbn [length rsi_sums fst snd]. replace (i + Z.of_nat 1 - 1)%Z with i by lia. auto.
  - inversion Fq' as [|? ? Hb _]; subst.
    change (@rsi_sums NO (a :: b :: r) g l) with
      (let diff := b64_minus mode_NE (@mval NO b) (@mval NO a) in
       if b64_lt (b64_ofZ 0) diff then @rsi_sums NO (b :: r) (b64_plus mode_NE g diff) l
       else if b64_lt diff (b64_ofZ 0) then @rsi_sums NO (b :: r) g (b64_minus mode_NE l diff)
       else @rsi_sums NO (b :: r) g l). cbv zeta.
    destruct (diff_within a b Ha Hb) as [Fd Rd]. set (d := b64_minus mode_NE _ _) in *.
    cbn [length] in Hl.
    assert (Ej : j = ((i + 1) + Z.of_nat (length (b :: r)) - 1)%Z) by (subst j; cbn [length]; lia).
    pose proof (format_times (i + 1) ltac:(lia)) as Gi. pose proof (times_small (i + 1) ltac:(lia)) as Ti.
    assert (Ei : IZR (i + 1) * M = IZR i * M + M) by (rewrite plus_IZR; ring).
    assert (Big := big_1024).
    assert (G0 : generic_format radix2 fexp64 0) by apply generic_format_0.
    destruct (b64_lt (b64_ofZ 0) d) eqn:E1; [|destruct (b64_lt d (b64_ofZ 0)) eqn:E2]; rewrite Ej; apply IH; auto; try lia; try discriminate.
    all: try (cbn [length]; lia).
    all: try (eapply within_more; [|eassumption]; lia).
    + apply lt_zero_real in E1; auto. destruct Hg as [Fg Rg]. apply plus_within; auto; try lra.
    + apply lt_real_zero in E2; auto. destruct Hq as [Fl Rl]. apply minus_within; auto; try lra.
Qed.

Lemma div_n x n : (1 <= n <= 2 ^ 53)%Z -> within 0 (IZR n * M) x -> within 0 M (b64_div mode_NE x (b64_ofZ n)).
Proof.
  intros Hn [Fx Rx]. destruct (b64_ofZ_exact n ltac:(lia)) as [Rn Fn].
  assert (N1 : 1 <= IZR n) by (apply IZR_le; lia).
  pose proof (format_times 1 ltac:(cbn; lia)) as G1. rewrite Rmult_1_l in G1.
  pose proof (times_small 1 ltac:(lia)) as T1. rewrite Rmult_1_l in T1.
  apply div_within; auto; try lra.
  - unfold real. rewrite Rn. lra.
  - apply generic_format_0.
  - unfold real at 2 4. rewrite Rn. split.
    + apply Rmult_le_pos; [lra|]. left. apply Rinv_0_lt_compat. lra.
    + apply Rmult_le_reg_r with (IZR n); [lra|]. unfold Rdiv. rewrite Rmult_assoc, Rinv_l by lra. lra.
Qed.

Lemma averages_within (n : Z) (w : list (@msg NO)) g l i a :
  (1 <= n <= 2 ^ 53)%Z -> Z.of_nat (length w) = (n + 1)%Z -> Forall moderate w ->
  within 0 M g -> within 0 M l ->
  @rsi_averages NO w g l i = Ok a -> within 0 M (fst a) /\ within 0 M (snd a).
Proof.
  intros Hn Hw Fw Hg Hl. unfold rsi_averages. cbn [vlt v0 vsub vdiv vadd vmul vneg v1 vofZ b64_ops].
  rewrite Hw.
  assert (W1 : wrap (n + 1 - 1) = n) by (unfold wrap, two64 in *; rewrite Z.mod_small; lia).
  assert (W2 : wrap (n + 1 - 2) = (n - 1)%Z) by (unfold wrap, two64 in *; rewrite Z.mod_small; lia).
  rewrite W1, W2. pose proof big_1024 as Big.
  destruct i; cbn [negb].
  - destruct (q_at_in w n) as (x & -> & Ix); [lia|]. destruct (q_at_in w (n - 1)) as (y & -> & Iy); [lia|].
    cbn [rbind]. rewrite Forall_forall in Fw.
    destruct (diff_within y x (Fw _ Iy) (Fw _ Ix)) as [Fd Rd].
    set (d := b64_minus mode_NE (@mval NO x) (@mval NO y)) in *.
    assert (Z0 : within 0 M (b64_ofZ 0)).
    { pose proof (zero_within 1 ltac:(lia)) as Z1. now rewrite Rmult_1_l in Z1. }
    assert (Step : forall v t, within 0 M v -> within 0 M t ->
       within 0 M (b64_div mode_NE (b64_plus mode_NE (b64_mult mode_NE v (b64_ofZ (n - 1))) t) (b64_ofZ n))).
    { intros v t [Fv Rv] [Ft Rt]. apply div_n; auto.
      destruct (b64_ofZ_exact (n - 1) ltac:(lia)) as [Rn Fn].
      assert (N1 : 0 <= IZR (n - 1)) by (apply IZR_le; lia).
      pose proof (times_small (n - 1) ltac:(lia)) as T1. pose proof (times_small n ltac:(lia)) as T2.
      assert (P : within 0 (IZR (n - 1) * M) (b64_mult mode_NE v (b64_ofZ (n - 1)))).
      { apply mult_within; auto; try lra.
        - apply generic_format_0.
        - apply format_times. lia.
        - unfold real at 2 4. rewrite Rn. split; [apply Rmult_le_pos; lra|].
          rewrite (Rmult_comm (IZR (n - 1))). apply Rmult_le_compat_r; lra. }
      destruct P as [Fp Rp].
      assert (En : IZR n * M = IZR (n - 1) * M + M) by (rewrite minus_IZR; ring).
      apply plus_within; auto; try lra.
      - apply generic_format_0.
      - apply format_times. lia. }
    assert (Neg : b64_lt d (b64_ofZ 0) = true -> within 0 M (b64_opp d)).
    { intros E. apply lt_real_zero in E; auto. unfold within, finite, real, b64_opp in *.
      rewrite is_finite_Bopp, B2R_Bopp. split; auto. lra. }
    destruct (b64_lt (b64_ofZ 0) d) eqn:E1; [|destruct (b64_lt d (b64_ofZ 0)) eqn:E2]; intros [= <-]; cbn [fst snd].
    + split; apply Step; auto. split; auto. apply lt_zero_real in E1; auto. lra.
    + split; apply Step; auto.
    + split; apply Step; auto.
  - destruct (sums_within w 0 (b64_ofZ 0) (b64_ofZ 0) Fw ltac:(lia) ltac:(lia)) as [S1 S2].
    { apply (zero_within 0). lia. } { apply (zero_within 0). lia. } { intros ->. cbn in Hw. lia. }
    rewrite Hw in S1, S2. replace (0 + (n + 1) - 1)%Z with n in S1, S2 by lia.
    change (@rsi_sums NO w v0 v0) with (@rsi_sums NO w (b64_ofZ 0) (b64_ofZ 0)).
    destruct (@rsi_sums NO w (b64_ofZ 0) (b64_ofZ 0)) as [x y]. cbn [fst snd] in *. intros [= <-]. cbn [fst snd].
    split; apply div_n; auto.
Qed.

Lemma averages_after_within n ws g l :
  (1 <= n <= 2 ^ 53)%Z -> Forall (fun w => Z.of_nat (length w) = (n + 1)%Z /\ Forall moderate w) ws ->
  @averages_after NO ws = Some (g, l) -> within 0 M g /\ within 0 M l.
Proof.
  intros Hn F. assert (Z0 : within 0 M (b64_ofZ 0)).
  { pose proof (zero_within 1 ltac:(lia)) as Z1. now rewrite Rmult_1_l in Z1. }
  apply (@averages_inv NO (within 0 M) _ ws F).
  - intros w a [Hw Fw] E. exact (averages_within n w (b64_ofZ 0) (b64_ofZ 0) false a Hn Hw Fw Z0 Z0 E).
  - intros w x y a [Hw Fw] Hx Hy E. exact (averages_within n w x y true a Hn Hw Fw Hx Hy E).
Qed.

Lemma rsi_of_within g l : up g -> up l -> finite g -> finite l -> within 0 100 (@rsi_of NO g l).
Proof.
  intros Ug Ul Fg Fl. unfold rsi_of. cbn [vlt v0 vsub vdiv vadd v1 vofZ b64_ops].
  destruct (b64_lt (b64_ofZ 0) l) eqn:E; [|apply hundred].
  apply lt_zero_real in E; auto.
  assert (N : is_nan 53 1024 (b64_div mode_NE g l) = false).
  { unfold b64_div. assert (Nl : B2R 53 1024 l <> 0) by (unfold real in E; lra).
    pose proof (Bdiv_correct 53 1024 eq_refl eq_refl binop_nan_pl64 mode_NE g l Nl) as C.
    destruct (Rlt_bool _ _).
    - destruct C as (_ & C & _). unfold finite in Fg. rewrite Fg in C. destruct (Bdiv _ _ _ _ _ _ _ _); try discriminate C; reflexivity.
    - assert (S1 : exists s, B2FF 53 1024 (Bdiv 53 1024 eq_refl eq_refl binop_nan_pl64 mode_NE g l) = F754_infinity s) by (eexists; exact C).
      destruct S1 as [s C']. apply B2FF_inf in C'. now rewrite C'. }
  apply index_range; auto.
  destruct (up_div g l Ug Ul) as [X|X]; [congruence|exact X].
Qed.

End B64.
