(** * RelativeStrengthIndex *)

From Coq Require Import String ZArith Bool List Lia Field.
From Verif Require Import Base.StrMap Base.Num Model.Core Model.Ops Model.Make Model.Run.
From Verif Require Import Spec.Streams Spec.Operators Spec.RSI Proofs.Lists Proofs.FieldFacts Proofs.Window Proofs.Basic.
Import ListNotations.
Open Scope string_scope.
Open Scope list_scope.
Open Scope Z_scope.
Open Scope rtbot_scope.

Section RSI.
Context {NO : NumOps} {NF : NumField NO}.
Add Field vfield : v_field_theory.

Lemma changes_length xs : length (changes xs) = pred (length xs).
Proof. induction xs as [|a [|b r] IH]; cbn [changes length] in *; auto. now rewrite IH. Qed.

Lemma changes_snoc xs a b : changes (xs ++ [a; b]) = changes (xs ++ [a]) ++ [vsub b a].
Proof.
  induction xs as [|x xs IH]; [reflexivity|].
  destruct xs as [|y xs]; [reflexivity|]. cbn [app changes] in *. now rewrite IH.
Qed.

Lemma rsi_sums_cons a b r g l :
  rsi_sums (a :: b :: r) g l =
  let diff := vsub (mval b) (mval a) in
  if vlt v0 diff then rsi_sums (b :: r) (vadd g diff) l
  else if vlt diff v0 then rsi_sums (b :: r) g (vsub l diff)
  else rsi_sums (b :: r) g l.
Proof. reflexivity. Qed.

Lemma rsi_sums_spec q g l :
  rsi_sums q g l =
  (vadd g (vsum (map gain (changes (values q)))), vadd l (vsum (map loss (changes (values q))))).
Proof.
  revert g l. induction q as [|a q IH]; intros g l.
  - cbn. f_equal; ring.
  - destruct q as [|b r].
    + cbn. f_equal; ring.
    + rewrite rsi_sums_cons. unfold values in *. cbn [map changes] in *. cbv zeta.
      unfold vsum in *. rewrite !vsum_cons.
      unfold gain at 1, loss at 1.
      destruct (vlt v0 (vsub (mval b) (mval a))) eqn:G.
      * rewrite (v_lt_asym _ _ G), IH. f_equal; ring.
      * destruct (vlt (vsub (mval b) (mval a)) v0) eqn:L; rewrite IH; f_equal; ring.
Qed.

Definition avg_state (n : Z) (k0 : kind) (ws : list (list V)) : kind :=
  match ws with
  | [] => k0
  | _ => let g := wilder_windows n gain ws in let l := wilder_windows n loss ws in KRSI g l g l true
  end.

Lemma seen_windows_snoc n evs e :
  seen_windows n (evs ++ [e]) =
  seen_windows n evs ++
  (if reacts (n + 1) (evs ++ [e]) then [values (lastn (Z.to_nat (n + 1)) (received (evs ++ [e])))] else []).
Proof.
  unfold seen_windows. rewrite prefixes_snoc, filter_app, map_app. cbn [filter].
  destruct (reacts (n + 1) (evs ++ [e])); reflexivity.
Qed.

Lemma reacts_snoc n evs e :
  reacts n (evs ++ [e]) =
  match e with EExec => pending evs && (n <=? Z.of_nat (length (received evs))) | _ => false end.
Proof.
  unfold reacts. rewrite rev_app_distr. cbn [rev app].
  destruct e; auto. rewrite rev_involutive, received_app. cbn. now rewrite app_nil_r.
Qed.

Lemma wilder_windows_snoc n part ws w :
  ws <> [] ->
  wilder_windows n part (ws ++ [w]) = smooth n (wilder_windows n part ws) (part (last (changes w) v0)).
Proof.
  destruct ws as [|w0 ws]; [congruence|]. intros _. cbn [wilder_windows app].
  now rewrite map_app, fold_left_app.
Qed.

Lemma last_two (w : list msg) : (2 <= length w)%nat -> exists r a b, w = r ++ [a; b].
Proof.
  intros H. destruct w as [|x w] using rev_ind; [cbn in H; lia|].
  destruct w as [|y w] using rev_ind; [cbn in H; lia|].
  exists w, y, x. now rewrite <- app_assoc.
Qed.

Lemma values_app a b : values (a ++ b) = values a ++ values b.
Proof. apply map_app. Qed.

(** one reacting execution, [w] being the window *)
Lemma averages_step n w ws pg pl :
  1 <= n < two64 - 1 -> Z.of_nat (length w) = n + 1 ->
  (ws <> [] -> pg = wilder_windows n gain ws /\ pl = wilder_windows n loss ws) ->
  rsi_averages w pg pl (match ws with [] => false | _ => true end) =
  Ok (wilder_windows n gain (ws ++ [values w]), wilder_windows n loss (ws ++ [values w])).
Proof.
  intros Hn Hw Hp. unfold rsi_averages. rewrite Hw.
  assert (W1 : wrap (n + 1 - 1) = n) by (unfold wrap, two64 in *; rewrite Z.mod_small; lia).
  assert (W2 : wrap (n + 1 - 2) = n - 1) by (unfold wrap, two64 in *; rewrite Z.mod_small; lia).
  rewrite W1, W2.
  destruct ws as [|w0 ws0] eqn:Ews.
  - cbn [negb]. rewrite rsi_sums_spec. cbn [wilder_windows app map fold_left].
    unfold mean. rewrite !map_length, changes_length. unfold values. rewrite map_length.
    replace (Z.of_nat (Nat.pred (length w))) with n by lia.
    repeat f_equal; ring.
  - cbn [negb]. rewrite <- Ews in *. assert (Hne : ws <> []) by congruence.
    destruct (Hp Hne) as [-> ->]. rewrite !wilder_windows_snoc by auto.
    destruct (last_two w) as (r & a & b & ->); [lia|]. rewrite app_length in Hw. cbn [length] in Hw.
    assert (Q1 : q_at (r ++ [a; b]) n = Ok b).
    { unfold q_at. destruct (r ++ [a; b]) as [|x l] eqn:Q; [destruct r; discriminate Q|].
      rewrite <- Q. rewrite app_length. cbn [length].
      destruct (n <? 0) eqn:X1; [lia|]. destruct (n <? Z.of_nat (length r + 2)) eqn:X2; [|apply Z.ltb_ge in X2; rewrite Hw in X2; lia].
      rewrite nth_error_app2 by lia. replace (Z.to_nat n - length r)%nat with 1%nat by lia. reflexivity. }
    assert (Q2 : q_at (r ++ [a; b]) (n - 1) = Ok a).
    { unfold q_at. destruct (r ++ [a; b]) as [|x l] eqn:Q; [destruct r; discriminate Q|].
      rewrite <- Q. rewrite app_length. cbn [length].
      destruct (n - 1 <? 0) eqn:X1; [lia|]. destruct (n - 1 <? Z.of_nat (length r + 2)) eqn:X2; [|apply Z.ltb_ge in X2; rewrite Hw in X2; lia].
      rewrite nth_error_app2 by lia. replace (Z.to_nat (n - 1) - length r)%nat with 0%nat by lia. reflexivity. }
    rewrite Q1, Q2. unfold rbind. cbv beta iota zeta.
    rewrite values_app. change (values [a; b]) with ([mval a; mval b]). rewrite changes_snoc.
    rewrite last_last. unfold smooth, gain, loss.
    destruct (vlt v0 (vsub (mval b) (mval a))) eqn:G; [now rewrite (v_lt_asym _ _ G)|].
    destruct (vlt (vsub (mval b) (mval a)) v0); reflexivity.
Qed.

(** what the operator emits after the history [evs] *)
Definition index_now (n : Z) (evs : list ev) : opmsg :=
  if reacts (n + 1) evs then
    emits (mkMsg (last_time (received evs))
             (strength (wilder_windows n gain (seen_windows n evs))
                       (wilder_windows n loss (seen_windows n evs))))
  else emits_nothing.

Lemma run_rsi id outs conns n g1 g2 g3 g4 evs :
  1 <= n < two64 - 1 -> one_input evs ->
  run (sop id outs conns (new_port "i1" (n + 1)) false (KRSI g1 g2 g3 g4 false)) evs =
  (Ok (map (index_now n) (prefixes evs)),
   sop id outs conns (port_after "i1" (n + 1) (received evs)) (pending evs)
       (avg_state n (KRSI g1 g2 g3 g4 false) (seen_windows n evs))).
Proof.
  intros Hn Hone.
  assert (Ef : eff (n + 1) = n + 1) by (unfold eff; destruct (n + 1 =? 0) eqn:X; [lia|reflexivity]).
  apply (win_run id outs conns (n + 1) one_input
           (fun evs => avg_state n (KRSI g1 g2 g3 g4 false) (seen_windows n evs)) (index_now n)); auto; try lia.
  - apply one_input_snoc.
  - intros e. unfold avg_state. destruct (seen_windows n e); reflexivity.
  - intros. rewrite seen_windows_snoc. unfold index_now. rewrite reacts_snoc. rewrite app_nil_r. auto.
  - intros. rewrite seen_windows_snoc. unfold index_now. rewrite reacts_snoc. rewrite app_nil_r. auto.
  - intros e. rewrite Ef.
    assert (RS : reacts (n + 1) (e ++ [EExec]) = pending e && negb (Z.of_nat (length (received e)) <? n + 1)).
    { rewrite reacts_snoc. f_equal. destruct (Z.of_nat (length (received e)) <? n + 1) eqn:X; cbn [negb]; lia. }
    unfold index_now. rewrite seen_windows_snoc, RS.
    destruct (pending e) eqn:Pe; cbn [andb]; [|rewrite app_nil_r; auto].
    destruct (Z.of_nat (length (received e)) <? n + 1) eqn:L; cbn [negb]; [rewrite app_nil_r; auto|].
    intros _. rewrite !received_exec.
    set (w := lastn (Z.to_nat (n + 1)) (received e)).
    assert (Hw : Z.of_nat (length w) = n + 1) by (unfold w; rewrite lastn_length; lia).
    unfold proc, process_data.
    assert (PD : ip_data (port_after "i1" (n + 1) (received e)) = w).
    { rewrite port_after_data, Ef by lia. reflexivity. }
    assert (LT : last w msg0 = last (received e) msg0) by (unfold w; apply lastn_last; lia).
    generalize dependent (port_after "i1" (n + 1) (received e)). intros p PD.
    pose proof (averages_step n w (seen_windows n e)) as AS.
    destruct (seen_windows n e) as [|w0 ws] eqn:SW.
    + specialize (AS g3 g4 Hn Hw ltac:(congruence)).
      unfold avg_state. cbn [app]. unfold single_port, d_last, port_data. cbn -[rsi_averages wilder_windows two64].
      rewrite PD. rewrite AS. unfold last_time. rewrite LT. reflexivity.
    + set (ws1 := w0 :: ws) in *.
      specialize (AS (wilder_windows n gain ws1) (wilder_windows n loss ws1) Hn Hw ltac:(auto)).
      unfold avg_state. unfold ws1 at 1. cbv beta iota zeta.
      unfold single_port, d_last, port_data. cbn -[rsi_averages wilder_windows two64 ws1].
      rewrite PD. change (match ws1 with [] => false | _ :: _ => true end) with true in AS. rewrite AS.
      unfold last_time. rewrite LT. unfold ws1. reflexivity.
Qed.

(** ** one execution per message *)

Lemma pending_feed p ms : pending (feed p ms) = false.
Proof.
  unfold pending. induction ms as [|m ms IH]; [reflexivity|]. exact IH.
Qed.

Lemma feed_snoc p ms m : feed p (ms ++ [m]) = (feed p ms ++ [EData p m]) ++ [EExec].
Proof. rewrite feed_app. rewrite <- app_assoc. reflexivity. Qed.

Lemma seen_feed n ms :
  1 <= n ->
  forall part, (Z.of_nat (length ms) < n + 1 -> seen_windows n (feed "i1" ms) = []) /\
  (n + 1 <= Z.of_nat (length ms) -> seen_windows n (feed "i1" ms) <> [] /\
     wilder_windows n part (seen_windows n (feed "i1" ms)) = wilder n (map part (changes (values ms)))).
Proof.
  intros Hn part. induction ms as [|m ms [IH1 IH2]] using rev_ind.
  - split; [reflexivity|cbn; lia].
  - rewrite feed_snoc, !seen_windows_snoc, !reacts_snoc, pending_snoc, !received_app, received_feed.
    cbn [received]. rewrite !app_nil_r. cbn [andb].
    rewrite app_length in *. cbn [length] in *.
    rewrite Nat2Z.inj_add in *. change (Z.of_nat 1) with 1 in *.
    destruct (n + 1 <=? Z.of_nat (length ms) + 1) eqn:L.
    2:{ split; [|lia]. intros. rewrite app_nil_r. apply IH1. lia. }
    split; [lia|]. intros _. split; [intros X; apply app_eq_nil in X; destruct X; discriminate|].
    destruct (Z.of_nat (length ms) <? n + 1) eqn:L2.
    + (* the first full window *)
      rewrite IH1 by lia. cbn [app wilder_windows map fold_left].
      rewrite lastn_all by (rewrite app_length; cbn; lia).
      unfold wilder. rewrite skipn_all2, firstn_all2; [reflexivity| |];
        rewrite map_length, changes_length; unfold values; rewrite map_length, app_length; cbn; lia.
    + destruct (IH2 ltac:(lia)) as [Ne E]. rewrite wilder_windows_snoc by auto. rewrite E.
      assert (Hm : exists r a, ms = r ++ [a]).
      { destruct ms as [|a r] using rev_ind; [cbn in L2; lia|]. eauto. }
      destruct Hm as (r & a & ->). rewrite <- app_assoc. cbn [app].
      assert (LC : last (changes (values (lastn (Z.to_nat (n + 1)) (r ++ [a; m])))) v0 = vsub (mval m) (mval a)).
      { replace (r ++ [a; m]) with ((r ++ [a]) ++ [m]) by now rewrite <- app_assoc.
        replace (Z.to_nat (n + 1)) with (S (S (Z.to_nat (n - 1)))) by lia.
        rewrite !lastn_snoc, <- app_assoc, values_app. cbn [app values map].
        change (values [a; m]) with [mval a; mval m]. rewrite changes_snoc. apply last_last. }
      rewrite LC, !values_app. change (values [a; m]) with [mval a; mval m].
      rewrite changes_snoc, map_app. change (values [a]) with [mval a]. cbn [map].
      unfold wilder.
      assert (LL : (Z.to_nat n <= length (map part (changes (values r ++ [mval a]))))%nat).
      { rewrite map_length, changes_length, app_length. unfold values. rewrite map_length.
        rewrite app_length, Nat2Z.inj_add in L2. cbn [length] in *. change (Z.of_nat 1) with 1 in *. lia. }
      rewrite skipn_app, firstn_app.
      replace (Z.to_nat n - length (map part (changes (values r ++ [mval a]))))%nat with 0%nat by lia.
      cbn [skipn firstn]. rewrite app_nil_r, fold_left_app. reflexivity.
Qed.

Lemma index_feed n ms p :
  1 <= n -> In p (prefixes (feed "i1" ms)) ->
  index_now n p = answer (relative_strength n) p.
Proof.
  intros Hn Hp. 
  assert (Sh : (exists l, p = feed "i1" l) \/ exists l m, p = feed "i1" l ++ [EData "i1" m]).
  { revert Hp. induction ms as [|m ms IH] using rev_ind; [intros []|].
    rewrite feed_snoc, !prefixes_snoc, !in_app_iff.
    intros [[H|[H|[]]]|[H|[]]]; auto.
    - right. eauto.
    - left. exists (ms ++ [m]). now rewrite feed_snoc. }
  destruct Sh as [[l ->]|(l & m & ->)].
  - destruct l as [|m l _] using rev_ind; [reflexivity|].
    unfold index_now. rewrite feed_snoc, answer_snoc, reacts_snoc, pending_snoc, !received_app, received_feed.
    cbn [received andb]. rewrite !app_nil_r. unfold relative_strength.
    rewrite app_length. cbn [length].
    rewrite Nat2Z.inj_add in *. change (Z.of_nat 1) with 1 in *.
    destruct (n + 1 <=? Z.of_nat (length l) + 1) eqn:L;
    destruct (Z.of_nat (length l) + 1 <? n + 1) eqn:L2; try lia; [|reflexivity].
    rewrite <- feed_snoc.
    assert (LL : n + 1 <= Z.of_nat (length (l ++ [m]))) by (rewrite app_length; cbn [length]; lia).
    rewrite (proj2 (proj2 (seen_feed n (l ++ [m]) Hn gain) LL)).
    rewrite (proj2 (proj2 (seen_feed n (l ++ [m]) Hn loss) LL)). reflexivity.
  - unfold index_now. now rewrite reacts_snoc, answer_snoc.
Qed.

(** ** the range *)

Lemma gain_nonneg d : vle v0 (gain d) = true.
Proof. unfold gain. destruct (vlt v0 d) eqn:G; [now apply v_lt_le|apply v_le_refl]. Qed.

Lemma loss_nonneg d : vle v0 (loss d) = true.
Proof.
  unfold loss. destruct (vlt d v0) eqn:G; [|apply v_le_refl].
  apply v_lt_le in G. apply v_le_sub_0 in G. replace (vneg d) with (vsub v0 d) by ring. exact G.
Qed.

Lemma vsum_nonneg xs : Forall (fun x => vle v0 x = true) xs -> vle v0 (vsum xs) = true.
Proof.
  unfold vsum. induction 1 as [|x xs Hx H IH]; [apply v_le_refl|]. rewrite vsum_cons.
  replace v0 with (vadd v0 v0) at 1 by ring. now apply v_le_add2.
Qed.

Lemma mean_nonneg xs : xs <> [] -> Forall (fun x => vle v0 x = true) xs -> vle v0 (mean xs) = true.
Proof.
  intros Hne H. unfold mean. apply v_div_nonneg; [now apply vsum_nonneg|]. apply v_ofZ_pos.
  destruct xs; [congruence|cbn; lia].
Qed.

Lemma smooth_nonneg n a x : 1 <= n -> vle v0 a = true -> vle v0 x = true -> vle v0 (smooth n a x) = true.
Proof.
  intros Hn Ha Hx. unfold smooth. apply v_div_nonneg; [|apply v_ofZ_pos; lia].
  replace v0 with (vadd v0 v0) at 1 by ring. apply v_le_add2; auto.
  apply v_mul_nonneg; auto. replace v0 with (vofZ 0) by apply v_ofZ_0. apply v_ofZ_le. lia.
Qed.

Lemma wilder_windows_nonneg n part ws :
  1 <= n -> (forall d, vle v0 (part d) = true) ->
  Forall (fun w => (2 <= length w)%nat) ws -> vle v0 (wilder_windows n part ws) = true.
Proof.
  intros Hn Hp Hw. destruct ws as [|w ws]; [apply v_le_refl|]. cbn [wilder_windows].
  inversion Hw as [|? ? H1 H2]; subst.
  assert (B : vle v0 (mean (map part (changes w))) = true).
  { apply mean_nonneg.
    - intros X. apply (f_equal (@length V)) in X. rewrite map_length, changes_length in X. cbn in X. lia.
    - rewrite Forall_forall. intros x Hx. apply in_map_iff in Hx as (d & <- & _). apply Hp. }
  clear Hw H1. revert B. generalize (mean (map part (changes w))). clear H2.
  induction ws as [|w1 ws IH]; intros a Ha; [exact Ha|]. cbn [map fold_left]. apply IH. now apply smooth_nonneg.
Qed.

Lemma seen_windows_long n evs : 1 <= n -> Forall (fun w => (2 <= length w)%nat) (seen_windows n evs).
Proof.
  intros Hn. unfold seen_windows. rewrite Forall_forall. intros w Hw.
  apply in_map_iff in Hw as (p & <- & Hp). apply filter_In in Hp as [_ Hr].
  unfold values. rewrite map_length, lastn_length. unfold reacts in Hr.
  destruct (rev p) as [|[]]; try discriminate Hr. apply andb_prop in Hr as [_ Hr]. lia.
Qed.

Lemma strength_range g l :
  vle v0 g = true -> vle v0 l = true ->
  vle v0 (strength g l) = true /\ vle (strength g l) (vofZ 100) = true.
Proof.
  intros Hg Hl. unfold strength.
  assert (H100 : vle v0 (vofZ 100) = true) by (apply v_lt_le, v_ofZ_pos; lia).
  destruct (vlt v0 l) eqn:L; [|split; [exact H100|apply v_le_refl]].
  assert (Hq : vle v0 (vdiv g l) = true) by now apply v_div_nonneg.
  assert (Hd : vlt v0 (vadd v1 (vdiv g l)) = true).
  { eapply v_lt_le_trans; [apply v_lt_0_1|]. replace v1 with (vadd v1 v0) at 1 by ring. apply v_le_add2; auto.
    apply v_le_refl. }
  set (s := vadd v1 (vdiv g l)) in *.
  assert (Ns : s <> v0). { intros X. rewrite X in Hd. revert Hd. now rewrite v_lt_irrefl. }
  assert (P : vle v0 (vdiv (vofZ 100) s) = true) by (apply v_div_nonneg; auto).
  split.
  - replace (vsub (vofZ 100) (vdiv (vofZ 100) s)) with (vdiv (vmul (vofZ 100) (vdiv g l)) s).
    + apply v_div_nonneg; auto. now apply v_mul_nonneg.
    + replace (vdiv g l) with (vsub s v1) by (unfold s; ring). field. exact Ns.
  - apply v_le_sub_0. replace (vsub (vofZ 100) (vsub (vofZ 100) (vdiv (vofZ 100) s))) with (vdiv (vofZ 100) s) by ring.
    exact P.
Qed.

End RSI.
