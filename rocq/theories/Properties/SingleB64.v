(** * Properties of the single-input operators over IEEE binary64 (C05, C11).

    [pow] and [cos] of the C library are arbitrary throughout. *)

From Coq Require Import String ZArith Bool List Lia Reals Lra.
From Flocq Require Import Core.Core.
From Flocq Require BinarySingleNaN.
From Flocq Require Import IEEE754.Binary IEEE754.Bits.
From Verif Require Import Base.StrMap Base.Num Base.NumB64 Model.Core Model.Ops Model.Make Model.Run.
From Verif Require Import Spec.Streams Spec.Operators Proofs.Lists Proofs.Window Proofs.Basic Proofs.Fire Proofs.MovAvgB64.
Import ListNotations.
Open Scope string_scope.
Open Scope list_scope.
Open Scope Z_scope.

Notation b64_fun1 := (binary64 -> binary64).
Notation b64_fun2 := (binary64 -> binary64 -> binary64).

(** the double [v] as a message at time [t] *)
Definition dm pow cos (t : Z) (v : binary64) : @msg (b64_ops pow cos) := @mkMsg (b64_ops pow cos) t v.

(** the last emission of a run that went well *)
Definition last_emission {NO : NumOps} (o : res op) (ms : list msg) : option opmsg :=
  match o with
  | Ok o => match run o (feed "i1" ms) with (Ok outs, _) => Some (last outs []) | _ => None end
  | _ => None
  end.

(** C05 as claimed: two histories that end in the same window give the same emission *)
Definition window_only pow cos : Prop :=
  forall (id : string) (n : Z) (h1 h2 : list (@msg (b64_ops pow cos))),
    0 < n -> n <= Z.of_nat (length h1) -> n <= Z.of_nat (length h2) ->
    lastn (Z.to_nat n) h1 = lastn (Z.to_nat n) h2 ->
    last_emission (@mk_movavg (b64_ops pow cos) id n) h1 = last_emission (@mk_movavg (b64_ops pow cos) id n) h2.

(** Window 2: after 2^53, 1, 1 the average of the window (1, 1) is 1/2; after 0, 1, 1 it is 1. *)
Theorem C05_window_only_refuted (pow : b64_fun2) (cos : b64_fun1) : ~ window_only pow cos.
Proof.
  intros H.
  set (big := dm pow cos 1 (b64_ofZ (2 ^ 53))). set (zero := dm pow cos 1 (b64_ofZ 0)).
  set (a := dm pow cos 2 (b64_ofZ 1)). set (b := dm pow cos 3 (b64_ofZ 1)).
  specialize (H "ma" 2 [big; a; b] [zero; a; b] ltac:(lia) ltac:(cbn; lia) ltac:(cbn; lia) eq_refl).
  assert (G : forall r, option_map (fun om : @opmsg (b64_ops pow cos) => map (fun pm => map (fun m => bits_of_b64 (@mval (b64_ops pow cos) m)) (snd pm)) om) r =
                        option_map (fun om => map (fun pm => map (fun m => bits_of_b64 (@mval (b64_ops pow cos) m)) (snd pm)) om) r) by reflexivity.
  specialize (G (last_emission (@mk_movavg (b64_ops pow cos) "ma" 2) [big; a; b])).
  rewrite H in G at 2. vm_compute in G. discriminate G.
Qed.
Print Assumptions C05_window_only_refuted.

(** Once an infinity has been received, every average emitted after it has left the
    window is NaN, whatever the values in the window. *)
Theorem C05_infinity_is_never_forgotten (pow : b64_fun2) (cos : b64_fun1) (id : string) (n : Z)
    (before after : list (@msg (b64_ops pow cos))) (t : Z) (s : bool) :
  0 < n -> n <= Z.of_nat (length after) ->
  exists tl v,
    last_emission (@mk_movavg (b64_ops pow cos) id n) (before ++ [dm pow cos t (B754_infinity 53 1024 s)] ++ after)
    = Some (emits (dm pow cos tl v)) /\ is_nan 53 1024 v = true.
Proof.
  intros Hn Hl. set (h := before ++ _ ++ after).
  assert (Hh : (Z.to_nat n < length h)%nat) by (unfold h; rewrite !app_length; cbn; lia).
  exists (last_time h), (b64_div mode_NE (@ip_sum (b64_ops pow cos) (@port_after (b64_ops pow cos) "i1" n h)) (b64_ofZ n)).
  split; [|apply average_nan; auto].
  unfold last_emission, mk_movavg. rewrite mk_simple_sop.
  rewrite run_moving_average_any by (auto; apply one_input_feed; auto).
  f_equal. revert Hh. generalize h. intros l Hl'. destruct l as [|m l _] using rev_ind; [cbn in Hl'; lia|].
  rewrite feed_app. cbn [feed flat_map app]. change ([EData "i1" m; EExec]) with ([EData "i1" m] ++ [EExec]).
  rewrite app_assoc, answers_snoc, last_last. unfold answer. rewrite rev_app_distr. cbn [rev app].
  rewrite rev_involutive, pending_snoc. cbn [orb].
  rewrite !received_app, received_feed. cbn [received app]. rewrite app_nil_r.
  destruct (Z.ltb_spec (Z.of_nat (length (l ++ [m]))) n) as [L|L]; [lia|]. reflexivity.
Qed.
Print Assumptions C05_infinity_is_never_forgotten.

(** Doubles holding integers of absolute value at most [B], with [n * B <= 2^53]: every
    emission is the double nearest to the exact average of the window. *)
Theorem C05_integers_partial (pow : b64_fun2) (cos : b64_fun1) (id : string) (n B : Z)
    (zs : list Z) (h : list (@msg (b64_ops pow cos))) :
  0 < n <= 2 ^ 53 -> 0 <= B -> n * B <= 2 ^ 53 -> n <= Z.of_nat (length h) ->
  Forall2 (fun z m => Z.abs z <= B /\ exactly z (@mval (b64_ops pow cos) m)) zs h ->
  exists v,
    last_emission (@mk_movavg (b64_ops pow cos) id n) h = Some (emits (dm pow cos (last_time h) v)) /\
    is_finite 53 1024 v = true /\
    B2R 53 1024 v = round radix2 (FLT_exp (3 - 1024 - 53) 53) ZnearestE
                      (IZR (zsum (lastn (Z.to_nat n) zs)) / IZR n)%R.
Proof.
  intros Hn HB HnB Hl F.
  exists (b64_div mode_NE (@ip_sum (b64_ops pow cos) (@port_after (b64_ops pow cos) "i1" n h)) (b64_ofZ n)).
  split.
  - unfold last_emission, mk_movavg. rewrite mk_simple_sop.
    rewrite run_moving_average_any by (lia || (apply one_input_feed; auto)).
    f_equal. clear F. destruct h as [|m l _] using rev_ind; [cbn in Hl; lia|].
    rewrite feed_app. cbn [feed flat_map app]. change ([EData "i1" m; EExec]) with ([EData "i1" m] ++ [EExec]).
    rewrite app_assoc, answers_snoc, last_last. unfold answer. rewrite rev_app_distr. cbn [rev app].
    rewrite rev_involutive, pending_snoc. cbn [orb].
    rewrite !received_app, received_feed. cbn [received app]. rewrite app_nil_r.
    destruct (Z.ltb_spec (Z.of_nat (length (l ++ [m]))) n) as [L|L]; [lia|]. reflexivity.
  - pose proof (running_exact pow cos n B zs h ltac:(lia) HB HnB F) as [Fs Rs].
    destruct (b64_ofZ_exact n ltac:(lia)) as [Rn Fn].
    set (s := ip_sum _) in *. set (S := zsum _) in *.
    assert (Nz : B2R 53 1024 (b64_ofZ n) <> 0%R) by (rewrite Rn; apply IZR_neq; lia).
    pose proof (Bdiv_correct 53 1024 eq_refl eq_refl binop_nan_pl64 mode_NE s (b64_ofZ n) Nz) as C.
    rewrite Rs, Rn in C. change (BinarySingleNaN.round_mode mode_NE) with ZnearestE in C.
    assert (HS : Z.abs S <= 2 ^ 53).
    { unfold S. etransitivity; [apply (zsum_bound B)|].
      - intros z Hz. apply lastn_In in Hz. clear - F Hz. induction F as [|a b l l' [H _] F IH]; cbn in *; [tauto|].
        destruct Hz as [<-|]; auto.
      - rewrite lastn_length. nia. }
    rewrite Rlt_bool_true in C.
    + destruct C as (C1 & C2 & _). split; [now rewrite <- Fs|exact C1].
    + apply Rle_lt_trans with (IZR (2 ^ 53)).
      * change (SpecFloat.fexp 53 1024) with (FLT_exp (3 - 1024 - 53) 53).
        apply abs_round_le_generic; [apply FLT_exp_valid; reflexivity|apply _| |].
        { apply generic_small. lia. }
        assert (P : (1 <= IZR n)%R) by (apply IZR_le; lia).
        assert (A : (Rabs (IZR S) <= IZR (2 ^ 53))%R) by (rewrite <- abs_IZR; apply IZR_le; exact HS).
        unfold Rdiv. rewrite Rabs_mult, (Rabs_pos_eq (/ IZR n)) by (left; apply Rinv_0_lt_compat; lra).
        apply Rle_trans with (Rabs (IZR S) * 1)%R; [|lra].
        apply Rmult_le_compat_l; [apply Rabs_pos|]. rewrite <- Rinv_1. apply Rinv_le; lra.
      * change (bpow radix2 1024) with (IZR (2 ^ 1024)). apply IZR_lt. now apply Z.pow_lt_mono_r.
Qed.
Print Assumptions C05_integers_partial.

Example C05_example (pow : b64_fun2) (cos : b64_fun1) :
  let h := [dm pow cos 1 (b64_ofZ 10); dm pow cos 2 (b64_ofZ 3); dm pow cos 3 (b64_ofZ 4)] in
  Forall2 (fun z m => Z.abs z <= 10 /\ exactly z (@mval (b64_ops pow cos) m)) [10; 3; 4] h /\ 2 <= Z.of_nat (length h).
Proof.
  cbn zeta. split; [|cbn; lia].
  repeat constructor; try (cbn; lia); try reflexivity; apply b64_ofZ_exact; lia.
Qed.

(** ** C11 *)

(** C11 as claimed, for all 64 bit times *)
Definition difference_all_times pow cos : Prop :=
  forall (id : string) (o : op) (evs : list (@ev (b64_ops pow cos))),
    @mk_difference (b64_ops pow cos) id true = Ok o -> one_input evs ->
    (forall m, In m (received evs) -> 0 <= mtime m < two64) ->
    exists o', run o evs = (Ok (answers difference evs), o').

(** The second message at time 2^53 + 1 is stamped 2^53. *)
Theorem C11_difference_refuted (pow : b64_fun2) (cos : b64_fun1) : ~ difference_all_times pow cos.
Proof.
  intros H.
  destruct (H "d" _ (feed "i1" [dm pow cos 1 (b64_ofZ 1); dm pow cos (2 ^ 53 + 1) (b64_ofZ 1)]) eq_refl) as [o' E].
  - apply one_input_feed; auto.
  - intros m [<-|[<-|[]]]; cbn; unfold two64; lia.
  - apply (f_equal fst) in E. cbn [fst] in E.
    apply (f_equal (fun r : res (list (@opmsg (b64_ops pow cos))) => match r with Ok l => map (fun om => map (fun pm => map mtime (snd pm)) om) l | _ => [] end)) in E.
    vm_compute in E. discriminate E.
Qed.
Print Assumptions C11_difference_refuted.

(** A message at the last representable times makes the conversion back undefined. *)
Theorem C11_difference_undefined (pow : b64_fun2) (cos : b64_fun1) :
  exists o, @mk_difference (b64_ops pow cos) "d" true = Ok o /\
    fst (run o (feed "i1" [dm pow cos 1 (b64_ofZ 1); dm pow cos (two64 - 1) (b64_ofZ 1)])) = UB.
Proof.
  eexists. split; [reflexivity|].
  match goal with |- ?r = UB =>
    assert (E : (match r with UB => true | _ => false end) = true) by (vm_compute; reflexivity); destruct r; try discriminate E
  end.
  reflexivity.
Qed.
Print Assumptions C11_difference_undefined.

(** Over doubles, with times up to 2^53, C11 holds. *)
Theorem C11_difference_b64_partial (pow : b64_fun2) (cos : b64_fun1) (id : string) (o : op) (evs : list (@ev (b64_ops pow cos))) :
  @mk_difference (b64_ops pow cos) id true = Ok o -> one_input evs ->
  (forall m, In m (received evs) -> 0 <= mtime m <= 2 ^ 53) ->
  exists o', run o evs = (Ok (answers difference evs), o').
Proof.
  intros Ho Hone Ht. unfold mk_difference in Ho. rewrite mk_simple_sop in Ho. injection Ho as <-.
  eexists. apply (@run_difference _ (b64_time pow cos)); auto. split; auto.
Qed.
Print Assumptions C11_difference_b64_partial.
