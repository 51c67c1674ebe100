(** * Operators with one input and the base class' execution. *)

From Coq Require Import String ZArith Bool List Lia Field.
From Verif Require Import Base.StrMap Base.Num Model.Core Model.Ops Model.Make Model.Run.
From Verif Require Import Spec.Streams Spec.Operators Proofs.Lists Proofs.FieldFacts Proofs.Window.
Import ListNotations.
Open Scope string_scope.
Open Scope list_scope.
Open Scope Z_scope.
Open Scope rtbot_scope.

Section Basic.
Context {NO : NumOps}.

Lemma answers_ext f g evs : (forall h, f h = g h) -> answers f evs = answers g evs.
Proof.
  intros H. unfold answers. apply map_ext. intros e. unfold answer.
  destruct (rev e) as [|[] ?]; auto. destruct (pending _); auto.
Qed.

(** the form in which the operators are used: a window of [n] messages *)
Lemma run_window id outs conns n k (g : list msg -> opmsg) :
  0 <= n -> base_kind k = true ->
  (forall h, h <> [] -> eff n <= Z.of_nat (length h) ->
     proc id outs conns (port_after "i1" n h) k =
     (Ok (g (lastn (Z.to_nat (eff n)) h)),
      (mkBase id [("i1", port_after "i1" n h)] [] outs conns ["i1"], k))) ->
  forall evs, one_input evs ->
  run (sop id outs conns (new_port "i1" n) false k) evs =
  (Ok (answers (when_full (eff n) g) evs),
   sop id outs conns (port_after "i1" n (received evs)) (pending evs) k).
Proof.
  intros Hn Hk Hg evs Hone.
  erewrite win_run_stateless with (P := one_input) (g := fun h => g (lastn (Z.to_nat (eff n)) h)); auto.
  apply one_input_snoc.
Qed.

Lemma fst_eq {A B} (x : A * B) a b : x = (a, b) -> fst x = a.
Proof. now intros ->. Qed.

(** ** Maps and filters *)

Definition map_fun (k : kind) : option (msg -> opmsg) :=
  match k with
  | KFilter f v => Some (keep_if (filter_test f v))
  | KAdd v => Some (apply_value (fun x => vadd x v))
  | KScale v => Some (apply_value (fun x => vmul x v))
  | KPower v => Some (apply_value (fun x => vpow x v))
  | KConstant v => Some (apply_value (fun _ => v))
  | KIdentity => Some (apply_value (fun x => x))
  | KTimeShift dt times => Some (fun m => emits (mkMsg (shift_time dt times (mtime m)) (mval m)))
  | _ => None
  end.

Lemma run_map id outs conns k f evs :
  map_fun k = Some f -> one_input evs ->
  run (sop id outs conns (new_port "i1" 1) false k) evs =
  (Ok (answers (mapping f) evs), sop id outs conns (port_after "i1" 1 (received evs)) (pending evs) k).
Proof.
  intros Hf Hone. unfold mapping. change 1 with (eff 1) at 2. apply run_window; auto; try lia.
  { destruct k; try discriminate Hf; reflexivity. }
  intros h Hh Hl. change (eff 1) with 1 in *. change (Z.to_nat 1) with 1%nat.
  assert (D : ip_data (port_after "i1" 1 h) = [last h msg0]).
  { rewrite port_after_data by lia. change (Z.to_nat (eff 1)) with 1%nat.
    destruct h as [|m h] using rev_ind; [congruence|]. rewrite lastn_snoc, lastn_0, last_last. reflexivity. }
  assert (L : last (lastn 1 h) msg0 = last h msg0) by (apply lastn_last; lia). rewrite L.
  unfold proc.
  destruct k; try discriminate Hf; injection Hf as <-; cbn;
    unfold keep, map_last, d_first, d_last; cbn; rewrite D; cbn; try reflexivity.
  unfold apply_value. destruct (last h msg0). reflexivity.
Qed.

(** ** Windows *)

Lemma eff_small n : 0 < n -> eff n = n.
Proof. apply eff_id. Qed.

Lemma lastn_full_length {A} n (h : list A) :
  0 <= n -> n <= Z.of_nat (length h) -> length (lastn (Z.to_nat n) h) = Z.to_nat n.
Proof. intros. rewrite lastn_length. lia. Qed.

Lemma nth_error_nth' {A} (l : list A) i d :
  (i < length l)%nat -> nth_error l i = Some (nth i l d).
Proof. intros. now apply nth_error_nth'. Qed.

Lemma run_peak id outs conns n evs :
  0 < n -> one_input evs ->
  run (sop id outs conns (new_port "i1" n) false KPeak) evs =
  (Ok (answers (peak n) evs), sop id outs conns (port_after "i1" n (received evs)) (pending evs) KPeak).
Proof.
  intros Hn Hone. unfold peak. rewrite <- (eff_small n Hn) at 2. apply run_window; auto; try lia.
  intros h Hh Hl. unfold proc. cbn -[Nat.div]. unfold port_data. cbn -[Nat.div].
  rewrite port_after_data by lia.
  rewrite eff_small in * by lia. set (w := lastn (Z.to_nat n) h).
  assert (Hw : length w = Z.to_nat n) by (apply lastn_full_length; lia).
  assert (Hw0 : w <> []) by (intro E; rewrite E in Hw; cbn in Hw; lia).
  unfold peak_value, q_at.
  assert (Hc : (length w / 2 < length w)%nat) by (apply Nat.div_lt; lia).
  destruct w as [|a w']; [congruence|]. set (w := a :: w') in *.
  assert (Z1 : (Z.of_nat (length w) / 2 <? 0) = false) by (apply Z.ltb_ge; apply Z.div_pos; lia).
  assert (Z2 : Z.of_nat (length w) / 2 = Z.of_nat (length w / 2)) by (rewrite Nat2Z.inj_div; reflexivity).
  rewrite Z1, Z2. assert (Z3 : (Z.of_nat (length w / 2) <? Z.of_nat (length w)) = true) by (apply Z.ltb_lt; lia).
  rewrite Z3, Nat2Z.id, (nth_error_nth' _ _ msg0) by auto. cbn [rbind].
  set (c := nth (length w / 2) w msg0).
  replace (forallb (fun x => negb (vlt (mval c) x)) (values w)) with (negb (existsb (fun m => vlt (mval c) (mval m)) w)).
  - unfold keep. destruct (existsb _ w); reflexivity.
  - unfold values. clearbody c. generalize w. intros l. induction l as [|x l IH]; [reflexivity|].
    cbn. rewrite negb_orb. f_equal. exact IH.
Qed.

Lemma fir_loop_spec q coeff acc :
  (length q <= length coeff)%nat ->
  fir_loop q coeff acc =
  Ok (fold_left vadd (map (fun xc => vmul (fst xc) (snd xc)) (combine (values q) coeff)) acc).
Proof.
  revert coeff acc. induction q as [|m q IH]; intros [|c cs] acc H; cbn in *; try reflexivity; try lia.
  apply IH. lia.
Qed.

Lemma run_fir id outs conns coeff evs :
  coeff <> [] -> one_input evs ->
  run (sop id outs conns (new_port "i1" (Z.of_nat (length coeff))) false (KFIR coeff)) evs =
  (Ok (answers (fir coeff) evs),
   sop id outs conns (port_after "i1" (Z.of_nat (length coeff)) (received evs)) (pending evs) (KFIR coeff)).
Proof.
  intros Hc Hone. assert (Hn : 0 < Z.of_nat (length coeff)) by (destruct coeff; cbn; [congruence|lia]).
  unfold fir. rewrite <- (eff_small _ Hn) at 2. apply run_window; auto; try lia.
  intros h Hh Hl. unfold proc. cbn. unfold port_data, d_last. cbn. rewrite port_after_data by lia.
  set (w := lastn (Z.to_nat (eff (Z.of_nat (length coeff)))) h).
  rewrite fir_loop_spec.
  - cbn. unfold keep, emits, out1, last_time, vsum, values. now rewrite map_rev.
  - rewrite rev_length. subst w. rewrite lastn_length, eff_small by lia. lia.
Qed.

(** ** Exact arithmetic *)

Section Exact.
Context {NF : NumField NO}.
Add Field vfield : v_field_theory.

Lemma port_after_sum name n h : 0 <= n ->
  ip_sum (port_after name n h) = vsum (values (ip_data (port_after name n h))).
Proof.
  intros Hn. unfold vsum, values. induction h as [|m h IH] using rev_ind; [reflexivity|].
  rewrite port_after_snoc, port_receive_after by auto.
  pose proof (port_receive_after name n h m Hn) as E. unfold port_receive in E.
  destruct (ip_max (port_after name n h) =? ip_size (port_after name n h)).
  - unfold ip_pop in E. destruct (ip_data (port_after name n h)) as [|a q] eqn:D; [discriminate|].
    injection E as <-. cbn [ip_push ip_sum ip_data ip_id ip_max]. rewrite map_app, vsum_app, IH.
    cbn [map]. rewrite !vsum_cons. cbn. ring.
  - destruct (_ <? _); [discriminate|]. injection E as <-. cbn [ip_push ip_sum ip_data].
    rewrite map_app, vsum_app, IH. cbn [map]. rewrite vsum_cons. cbn. ring.
Qed.

Lemma run_moving_average id outs conns n evs :
  0 < n -> one_input evs ->
  run (sop id outs conns (new_port "i1" n) false KMovAvg) evs =
  (Ok (answers (moving_average n) evs),
   sop id outs conns (port_after "i1" n (received evs)) (pending evs) KMovAvg).
Proof.
  intros Hn Hone. unfold moving_average. rewrite <- (eff_small n Hn) at 2. apply run_window; auto; try lia.
  intros h Hh Hl. unfold proc. cbn. unfold d_last, d_sum, d_size. cbn.
  rewrite port_after_sum by lia. unfold ip_size. rewrite port_after_data by lia.
  unfold keep, emits, mean, last_time, values. now rewrite map_length.
Qed.

Lemma std_value_spec q :
  1 <= Z.of_nat (length q) < two64 ->
  std_value (vsum (values q)) q = deviation (values q).
Proof.
  intros Hq. unfold std_value, deviation. f_equal.
  assert (LV : length (values q) = length q) by apply map_length.
  unfold mean. rewrite LV. rewrite wrap_id by lia. apply f_equal2; [|reflexivity].
  set (mu := vdiv (vsum (values q)) (vofZ (Z.of_nat (length q)))).
  unfold vsum. generalize v0 as acc. unfold values. clearbody mu. clear Hq LV.
  induction q as [|m q IH]; intros acc; cbn; [reflexivity|].
  rewrite v_pow_2. apply IH.
Qed.

Lemma run_std id outs conns n evs :
  0 < n < two64 -> one_input evs ->
  run (sop id outs conns (new_port "i1" n) false KStdDev) evs =
  (Ok (answers (standard_deviation n) evs),
   sop id outs conns (port_after "i1" n (received evs)) (pending evs) KStdDev).
Proof.
  intros Hn Hone. unfold standard_deviation. rewrite <- (eff_small n) at 2 by lia.
  apply run_window; auto; try lia.
  intros h Hh Hl. unfold proc. cbn. unfold d_last, d_sum, port_data. cbn.
  rewrite port_after_sum by lia. rewrite port_after_data by lia. rewrite std_value_spec.
  - reflexivity.
  - rewrite lastn_full_length; rewrite eff_small in * by lia; lia.
Qed.

End Exact.

(** ** Difference *)

Definition small_times (evs : list ev) : Prop :=
  one_input evs /\ forall m, In m (received evs) -> 0 <= mtime m <= 2 ^ 53.

Lemma last_two {A} (h : list A) : 2 <= Z.of_nat (length h) -> exists a b, lastn 2 h = [a; b].
Proof.
  intros H. assert (L : length (lastn 2 h) = 2%nat) by (rewrite lastn_length; lia).
  destruct (lastn 2 h) as [|a [|b [|c q]]]; try discriminate L. eauto.
Qed.

Lemma run_difference {NT : NumTime NO} id outs conns evs :
  small_times evs ->
  run (sop id outs conns (new_port "i1" 2) false (KDifference true)) evs =
  (Ok (answers difference evs),
   sop id outs conns (port_after "i1" 2 (received evs)) (pending evs) (KDifference true)).
Proof.
  intros HP.
  erewrite win_run_stateless with (P := small_times)
    (g := fun h => match lastn 2 h with [a; b] => emits (mkMsg (mtime b) (vsub (mval b) (mval a))) | _ => [] end);
    auto; try lia.
  - intros e x [H1 H2]. split; [now apply one_input_snoc in H1|].
    intros m Hm. apply H2. rewrite received_app. apply in_or_app. auto.
  - now intros e [H _].
  - intros e [_ Ht] h Hh Hl. change (eff 2) with 2 in Hl. subst h. set (h := received e) in *.
    unfold proc. cbn. unfold d_msg. cbn. rewrite port_after_data by lia. change (Z.to_nat (eff 2)) with 2%nat.
    destruct (last_two h Hl) as (a & b & W). rewrite W. cbn. unfold toT.
    assert (Hb : 0 <= mtime b <= 2 ^ 53).
    { apply Ht. apply (lastn_In 2). fold h. rewrite W. cbn; auto. }
    change (Pos.to_nat 1) with 1%nat. cbn. rewrite vtoT_vofZ by exact Hb. reflexivity.
Qed.

(** ** Count and CumulativeSum *)

Definition counts (evs : list ev) : opmsg :=
  match rev evs with
  | EExec :: before =>
      if pending (rev before)
      then emits (mkMsg (last_time (received evs)) (vofZ (wrap (Z.of_nat (length (processed evs))))))
      else []
  | _ => []
  end.

Definition sums (evs : list ev) : opmsg :=
  match rev evs with
  | EExec :: before =>
      if pending (rev before)
      then emits (mkMsg (last_time (received evs)) (vsum (values (processed evs))))
      else []
  | _ => []
  end.

Lemma received_exec evs : received (evs ++ [EExec]) = received evs.
Proof. rewrite received_app. apply app_nil_r. Qed.

Lemma one_window evs : pending evs = true -> ip_data (port_after "i1" 1 (received evs)) = [last (received evs) msg0].
Proof.
  intros P. rewrite port_after_data by lia. change (Z.to_nat (eff 1)) with 1%nat.
  apply pending_received in P. destruct (received evs) as [|m h] using rev_ind; [congruence|].
  now rewrite lastn_snoc, lastn_0, last_last.
Qed.

Lemma wrap_succ a : wrap (wrap a + 1) = wrap (a + 1).
Proof. unfold wrap. rewrite Zplus_mod_idemp_l. reflexivity. Qed.

Lemma pending_length evs : pending evs = true -> (Z.of_nat (length (received evs)) <? 1) = false.
Proof.
  intros P. apply pending_received in P. apply Z.ltb_ge. destruct (received evs); [congruence|cbn; lia].
Qed.

Lemma run_count id outs conns evs :
  one_input evs ->
  run (sop id outs conns (new_port "i1" 1) false (KCount 0)) evs =
  (Ok (map counts (prefixes evs)),
   sop id outs conns (port_after "i1" 1 (received evs)) (pending evs)
       (KCount (wrap (Z.of_nat (length (processed evs)))))).
Proof.
  intros Hone.
  apply (win_run id outs conns 1 one_input (fun evs => KCount (wrap (Z.of_nat (length (processed evs))))) counts); auto; try lia.
  - apply one_input_snoc.
  - intros. rewrite processed_snoc. unfold counts. rewrite rev_app_distr. auto.
  - intros. rewrite processed_snoc. unfold counts. rewrite rev_app_distr. auto.
  - intros e. rewrite processed_snoc. unfold counts. rewrite rev_app_distr. cbn [rev app].
    rewrite rev_involutive, processed_snoc, received_exec. change (eff 1) with 1.
    destruct (pending e) eqn:P; cbn [andb]; [|auto]. rewrite pending_length by auto. cbn [negb].
    intros _. rewrite app_length, Nat2Z.inj_add. cbn [length Z.of_nat Pos.of_succ_nat].
    unfold proc. cbn. unfold d_last. cbn. rewrite one_window by auto. cbn [last].
    rewrite wrap_succ. reflexivity.
Qed.

Lemma run_cumsum id outs conns evs :
  one_input evs ->
  run (sop id outs conns (new_port "i1" 1) false (KCumSum v0)) evs =
  (Ok (map sums (prefixes evs)),
   sop id outs conns (port_after "i1" 1 (received evs)) (pending evs)
       (KCumSum (vsum (values (processed evs))))).
Proof.
  intros Hone.
  apply (win_run id outs conns 1 one_input (fun evs => KCumSum (vsum (values (processed evs)))) sums); auto; try lia.
  - apply one_input_snoc.
  - intros. rewrite processed_snoc. unfold sums. rewrite rev_app_distr. auto.
  - intros. rewrite processed_snoc. unfold sums. rewrite rev_app_distr. auto.
  - intros e. rewrite processed_snoc. unfold sums. rewrite rev_app_distr. cbn [rev app].
    rewrite rev_involutive, processed_snoc, received_exec. change (eff 1) with 1.
    destruct (pending e) eqn:P; cbn [andb]; [|auto]. rewrite pending_length by auto. cbn [negb].
    intros _. unfold values, vsum. rewrite map_app, fold_left_app. cbn [map fold_left].
    unfold proc. cbn. unfold d_last. cbn. rewrite one_window by auto. cbn [last]. reflexivity.
Qed.

End Basic.
