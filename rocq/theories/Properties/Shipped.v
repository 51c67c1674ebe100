(** * Two of the example programs that come with the repository, from the JSON definition to
    the answers (C86, C87) *)

From Coq Require Import String ZArith QArith Qcanon Bool List Lia Sorted.
From Verif Require Import Base.StrMap Base.Num Base.NumInt Base.NumQc Model.Core Model.Ops Model.Make Model.Run Model.Graph Model.Json.
From Verif Require Import Spec.Shape Spec.Preserving Spec.Streams Spec.Operators Spec.Multi Spec.Join Spec.Show Spec.Build Spec.Snapshot Spec.Definition Spec.Depth Spec.Bounds Spec.Pipeline Spec.Reliable Spec.Rarest Spec.Resample Proofs.Resample Spec.Filter Spec.Windows Spec.Shipped.
From Verif Require Import Proofs.Ports Proofs.Lists Proofs.InputP Proofs.JoinP Proofs.JoinKinds Proofs.JsonP Proofs.MakeP Proofs.Window Proofs.Deep Proofs.BoundsP Proofs.Conns Proofs.FieldFacts Proofs.Prompt Proofs.Wiring Proofs.WindowsP Proofs.Resample.
From Verif Require Import Spec.Log Spec.Synchronous Properties.Synchronous Properties.Rarest.
From Verif Require Properties.Single Properties.Resampling Properties.Reliable Properties.Graph Properties.Definition.
Import ListNotations.
Open Scope string_scope.
Open Scope list_scope.
Open Scope Z_scope.
Open Scope rtbot_scope.

(** ** Reading the program *)
Section Stages.
Context {NO : NumOps}.

Definition plain_ops (h : heap) : list (string * res op) := map (fun x => (fst x, Ok (unwired (snd x)))) h.

Lemma op_at h id r : swf h -> In (id, r) (plain_ops h) -> exists o cs, r = Ok o /\ sfind id h = Some (with_conns cs o).
Proof.
  intros W Hin. unfold plain_ops in Hin. apply in_map_iff in Hin as ([i o] & E & Hin). cbn in E. injection E as <- <-.
  exists (unwired o), (o_conns (op_base o)). split; [reflexivity|]. rewrite (In_sfind i o h W Hin). destruct o as [[] k]. reflexivity.
Qed.

(** an operator that answers what arrives at its only input by [f] of everything received *)
Lemma answers_stream rank n p batches rs p' id o cs a q f :
  wf_heap (p_ops p) -> named (p_ops p) -> ranked rank (p_ops p) -> one_feed (p_ops p) ->
  receive_all n p batches = (Ok rs, p') -> id <> p_entry p -> sfind id (p_ops p) = Some (with_conns cs o) ->
  is_pipeline o = false -> fed_by (p_ops p) id "i1" (a, q) ->
  skeys (o_data (op_base o)) = ["i1"] -> o_ctrl (op_base o) = [] ->
  (forall evs, one_input evs -> exists o', run o evs = (Ok (answers f evs), o')) ->
  stream rs id "o1" = on_port "o1" (answers f (feed "i1" (stream rs a q))).
Proof.
  intros W N Rk Of E Ne F Np Fb Kd Kc Ans.
  destruct (C72_single_source rank n p batches rs p' id (with_conns cs o) "i1" a q W N Rk Of E Ne F) as (outs & o' & R & Q); auto.
  - destruct o as [b k]. unfold is_data_input. cbn in *. apply shas_spec. rewrite Kd. now left.
  - intros port' src _ D. destruct o as [b k]. unfold is_data_input, is_control_input in D. cbn in *. rewrite Kc in D. cbn in D.
    rewrite orb_false_r in D. apply shas_spec in D. rewrite Kd in D. now destruct D as [<-|[]].
  - rewrite Q. apply run_conns_ok in R as (o1 & R). destruct (Ans (feed "i1" (stream rs a q)) (one_input_feed _)) as (o2 & R2).
    rewrite R2 in R. apply pair_equal_spec in R as [R _]. apply Ok_inj in R. now subst outs.
Qed.

Lemma keeps_up_sub (s s' : list msg) : incl (times s) (times s') -> keeps_up s s'.
Proof. intros H t Ht. left. now apply H. Qed.

Lemma has_time_In t (l : list msg) : has_time t l = true <-> In t (times l).
Proof.
  unfold has_time. rewrite existsb_exists. split.
  - intros (m & Hm & E). apply Z.eqb_eq in E as <-. now apply in_map.
  - intros H. apply in_map_iff in H as (m & <- & Hm). exists m. split; [exact Hm|apply Z.eqb_refl].
Qed.

Lemma shared_sub s : incl (times (s 1%nat)) (times (s 2%nat)) -> shared 2 s = times (s 1%nat).
Proof.
  intros H. unfold shared. cbn [seq forallb]. apply Properties.Definition.filter_keeps. intros t Ht.
  apply andb_true_iff. split; [now apply has_time_In|]. rewrite andb_true_r. apply has_time_In, H, Ht.
Qed.

Lemma sorted_eq (a b : list Z) : increasing a -> increasing b -> (forall t, In t a <-> In t b) -> a = b.
Proof.
  revert b. induction a as [|x a IH]; intros [|y b] Ia Ib H; auto.
  - destruct (proj2 (H y)); now left.
  - destruct (proj1 (H x)); now left.
  - apply StronglySorted_inv in Ia as [Ia Fa], Ib as [Ib Fb]. rewrite Forall_forall in Fa, Fb.
    assert (x = y).
    { destruct (proj1 (H x) (or_introl eq_refl)) as [->|Hx]; [reflexivity|]. destruct (proj2 (H y) (or_introl eq_refl)) as [->|Hy]; [reflexivity|].
      specialize (Fa _ Hy). specialize (Fb _ Hx). lia. }
    subst y. f_equal. apply IH; auto. intros t. split; intros Ht.
    + destruct (proj1 (H t) (or_intror Ht)) as [<-|X]; [|exact X]. specialize (Fa _ Ht). lia.
    + destruct (proj2 (H t) (or_intror Ht)) as [<-|X]; [|exact X]. specialize (Fb _ Ht). lia.
Qed.

Lemma increasing_filter f (l : list Z) : increasing l -> increasing (filter f l).
Proof.
  induction l as [|x l IH]; intros H; [constructor|]. apply StronglySorted_inv in H as [H F]. cbn. destruct (f x); auto.
  constructor; [now apply IH|]. rewrite Forall_forall in F |- *. intros y Hy. apply filter_In in Hy as [Hy _]. auto.
Qed.

Lemma shared_sub2 s : increasing (times (s 1%nat)) -> increasing (times (s 2%nat)) -> incl (times (s 2%nat)) (times (s 1%nat)) -> shared 2 s = times (s 2%nat).
Proof.
  intros I1 I2 H. apply sorted_eq; auto.
  - now apply increasing_filter.
  - intros t. unfold shared. cbn [seq forallb]. rewrite filter_In, !andb_true_iff, !has_time_In. split; [tauto|]. intros Ht. repeat split; auto.
Qed.

Lemma at_time_unique (l : list msg) m : increasing (times l) -> In m l -> at_time l (mtime m) = m.
Proof.
  intros I H. assert (Ht : In (mtime m) (times l)) by now apply in_map. destruct (at_time_spec l (mtime m) Ht) as [H2 E2].
  clear - I H H2 E2. revert H2 E2. generalize (at_time l (mtime m)). intros m'. revert I H. induction l as [|x l IH]; intros I H H2 E; [destruct H|].
  cbn in I. apply StronglySorted_inv in I as [I F]. rewrite Forall_forall in F.
  destruct H as [->|H], H2 as [->|H2]; auto.
  - apply (in_map mtime) in H2. specialize (F _ H2). lia.
  - apply (in_map mtime) in H. specialize (F _ H). lia.
Qed.

Lemma last_time_lastn k (w : list msg) : (1 <= k)%nat -> (k <= length w)%nat -> last_time (lastn k w) = last_time w.
Proof.
  intros H1 H2. unfold last_time, lastn. f_equal.
  assert (X : skipn (length w - k) w <> []). { intros X. apply (f_equal (@length _)) in X. rewrite skipn_length in X. cbn in X. lia. }
  transitivity (last (firstn (length w - k) w ++ skipn (length w - k) w) msg0); [|now rewrite firstn_skipn].
  revert X. generalize (firstn (length w - k) w) (skipn (length w - k) w). intros a c X. induction a as [|y a IH]; [reflexivity|].
  cbn. destruct (a ++ c) eqn:E; [|exact IH]. now apply app_eq_nil in E as [_ E].
Qed.
Lemma values_lastn k (w : list msg) : values (lastn k w) = lastn k (values w).
Proof. unfold values, lastn. rewrite map_length. symmetry. apply skipn_map. Qed.
Lemma In_skipn {A} k (l : list A) x : In x (skipn k l) -> In x l.
Proof. intros H. rewrite <- (firstn_skipn k l). apply in_or_app. auto. Qed.
Lemma increasing_map_filter {A} (f : A -> Z) g (l : list A) : increasing (map f l) -> increasing (map f (filter g l)).
Proof.
  induction l as [|x l IH]; intros H; [constructor|]. cbn in H. apply StronglySorted_inv in H as [H F]. cbn. destruct (g x); [|now apply IH].
  cbn. constructor; [now apply IH|]. rewrite Forall_forall in F |- *. intros y Hy. apply F.
  apply in_map_iff in Hy as (z & <- & Hz). apply filter_In in Hz as [Hz _]. now apply in_map.
Qed.

Lemma shown_nothing_else n history id port : forall p, p_filter p <> [] -> swf (p_filter p) ->
  (forall id ports, sfind id (p_filter p) = Some ports -> NoDup ports) -> listed (p_filter p) id port = false ->
  answered (fst (session n p history)) id port = [].
Proof.
  induction history as [|b bs IH]; intros p Ne W Nd L; [reflexivity|]. cbn [session].
  pose proof (receive_filter n p b) as Ef. destruct (receive n p b) as [r p1] eqn:Er. cbn [snd] in Ef.
  specialize (IH p1). rewrite Ef in IH. specialize (IH Ne W Nd L). destruct (session n p1 bs) as [ss p3]. cbn [fst] in *.
  unfold answered in *. cbn [flat_map]. rewrite IH, app_nil_r. unfold receive in Er.
  destruct (receive_debug n p b) as [[d| | | |] p1'] eqn:Ed; apply pair_equal_spec in Er as [Er _]; subst r; try reflexivity.
  destruct (Properties.Graph.C36_restricts_partial n p b d p1' Ne W Nd Ed) as (d' & Er & Q & _). unfold receive in Er. rewrite Ed in Er.
  apply pair_equal_spec in Er as [Er _]. apply Ok_inj in Er. rewrite Er, (entry_at_result d'), Q, L. reflexivity.
Qed.

End Stages.

(** ** C86: the peak detector *)
Section C86.
Context {NO : NumOps} {NF : NumField NO} {NI : NumInt NO} {JT : JsonText}.

Definition peaks_rank (id : string) : nat :=
  if String.eqb id "in1" then 6 else if String.eqb id "ma1" then 5 else if String.eqb id "ma2" then 5
  else if String.eqb id "minus" then 4 else if String.eqb id "peak" then 3 else if String.eqb id "join" then 2 else 1.

Definition peaks_feeds : list (string * string * (string * string)) :=
  [("ma1", "i1", ("in1", "o1")); ("ma2", "i1", ("in1", "o1")); ("join", "i2", ("in1", "o1")); ("out1", "i1", ("join", "o2"));
   ("minus", "i1", ("ma1", "o1")); ("minus", "i2", ("ma2", "o1")); ("peak", "i1", ("minus", "o1")); ("join", "i1", ("peak", "o1"))].

Lemma peaks_created g text : parse text = Ok peaks_definition -> exists p, new_prog g text = Ok p /\
  p_entry p = "in1" /\ p_filter p = [("out1", ["o1"])] /\
  plain_ops (p_ops p) =
   [("in1", mk_input "in1" 1); ("join", mk_join "join" 2); ("ma1", mk_movavg "ma1" 6); ("ma2", mk_movavg "ma2" 250);
    ("minus", mk_binary "minus" BMinus); ("out1", mk_output "out1" 1); ("peak", mk_peak "peak" 13)] /\
  feeds (p_ops p) = peaks_feeds /\
  map (fun s => wires (p_ops p) (fst s) (snd s)) (map snd peaks_feeds) =
    map (fun s => map fst (filter (fun f => String.eqb (fst (snd f)) (fst s) && String.eqb (snd (snd f)) (snd s)) peaks_feeds)) (map snd peaks_feeds) /\
  heap_size (p_ops p) = 7%nat /\ fold_right (fun x P => every reliable (snd x) /\ P) True (p_ops p) /\
  exists o, sfind "in1" (p_ops p) = Some o /\ skeys (o_data (op_base o)) = ["i1"].
Proof.
  intros P. eexists. unfold new_prog. rewrite P. split; [vm_compute; reflexivity|].
  repeat match goal with |- _ /\ _ => split end; try (vm_compute; reflexivity).
  - cbn. unfold reliable. cbn. repeat split.
  - eexists. split; reflexivity.
Qed.

Lemma fed_from {h : heap} {fs : list (string * string * (string * string))} :
  map (fun s => wires h (fst s) (snd s)) (map snd fs) =
    map (fun s => map fst (filter (fun f => String.eqb (fst (snd f)) (fst s) && String.eqb (snd (snd f)) (snd s)) fs)) (map snd fs) ->
  forall id port src, In (id, port, src) fs -> fed_by h id port src.
Proof.
  intros E id port src Hin. unfold fed_by.
  assert (Hs : In src (map snd fs)) by (apply in_map_iff; exists (id, port, src); auto).
  assert (X : forall l, map (fun s => wires h (fst s) (snd s)) l = map (fun s => map fst (filter (fun f => String.eqb (fst (snd f)) (fst s) && String.eqb (snd (snd f)) (snd s)) fs)) l ->
     In src l -> wires h (fst src) (snd src) = map fst (filter (fun f => String.eqb (fst (snd f)) (fst src) && String.eqb (snd (snd f)) (snd src)) fs)).
  { induction l as [|x l IH]; intros El Hl; [destruct Hl|]. cbn in El. injection El as E1 E2. destruct Hl as [->|Hl]; auto. }
  rewrite (X _ E Hs). apply in_map_iff. exists (id, port, src). split; [reflexivity|]. apply filter_In. split; [exact Hin|].
  cbn. now rewrite !String.eqb_refl.
Qed.

(** For every history of calls that address the only input "i1" of the program, and with any
    times and values: all calls succeed, and the answers show, for "out1" and nothing else, the
    received messages (those with times later than all before them) at the peaks of the
    detrended signal, each once and in order. *)
Theorem C86_peaks (g : string -> junk) (text : string) (n : nat) (history : list opmsg) :
  parse text = Ok peaks_definition -> (7 < n)%nat ->
  Forall (Forall (fun pm => fst pm = "i1")) history ->
  exists p, new_prog g text = Ok p /\
    Forall (fun r => exists out, r = Ok out) (fst (session n p history)) /\
    answered (fst (session n p history)) "out1" "o1" = peaks_of (records (sent_to "i1" history)) /\
    forall id port, (id, port) <> ("out1", "o1") -> answered (fst (session n p history)) id port = [].
Proof.
  intros P Hn Hi. destruct (peaks_created g text P) as (p & Hp & Ee & Ef & Eo & Es & Ew & Eh & Er & oe & Fe & Ke).
  exists p. split; [exact Hp|]. destruct (Properties.Definition.created_well_formed g text p Hp) as [W N].
  assert (Rk : ranked peaks_rank (p_ops p)) by (apply ranked_check; rewrite Es; reflexivity).
  assert (Of : one_feed (p_ops p)) by (apply one_feed_check; rewrite Es; reflexivity).
  assert (Fine : Forall (fun r => exists out, r = Ok out) (fst (session n p history))).
  { apply (Properties.Reliable.C56_no_failure g text).
    - exact Hp.
    - intros X. rewrite X in Fe. discriminate Fe.
    - apply every_fold in Er. intros path o' L. exact (every_L _ _ (lookup_every _ _ _ _ Er L)).
    - apply (Properties.Graph.ranked_acyclic peaks_rank); [exact Rk|]. intros id b js ops ins outs pm F.
      apply sfind_In in F. apply (in_map (fun x => (fst x, Ok (unwired (snd x))))) in F. fold (plain_ops (p_ops p)) in F. rewrite Eo in F.
      cbn [In] in F. repeat destruct F as [F|F]; try (vm_compute in F; discriminate F); destruct F.
    - lia.
    - eapply Forall_impl; [|exact Hi]. intros batch Hb port ms Hin. rewrite Ee. exists oe. split; [exact Fe|]. rewrite Ke. left.
      rewrite Forall_forall in Hb. symmetry. exact (Hb _ Hin). }
  split; [exact Fine|].
  assert (Nd : forall id ports, sfind id (p_filter p) = Some ports -> NoDup ports).
  { rewrite Ef. intros id ports F. cbn in F. destruct (String.eqb id "out1"); [|discriminate F]. injection F as <-. repeat constructor. intros []. }
  assert (Nf : p_filter p <> []) by (rewrite Ef; discriminate).
  assert (Sf : swf (p_filter p)) by (rewrite Ef; repeat constructor).
  split; [|intros id port Hne; apply shown_nothing_else; auto; rewrite Ef; unfold listed; cbn;
    destruct (String.eqb_spec id "out1") as [->|]; cbn; auto; destruct (String.eqb_spec port "o1") as [->|]; cbn; auto; congruence].
  destruct (session_receive_all n history p Fine) as (rs & R). set (p' := snd (session n p history)) in R.
  rewrite (answered_stream n history p rs p' Nf Sf Nd R) by (rewrite Ef; reflexivity).
  set (x := records (sent_to "i1" history)).
  pose proof (@op_at NO (p_ops p)) as At. rewrite Eo in At.
  pose proof (fed_from Ew) as Fd.
  assert (Sin : stream rs "in1" "o1" = x).
  { destruct (At "in1" (mk_input "in1" 1)) as (o & cs & Hm & F); [apply W|cbn; auto 10|]. rewrite <- Ee in F |- *.
    apply (C72_entry peaks_rank n p history rs p' "in1" 1 o cs W N Rk R Hm F) with (j := 1%nat); [|lia].
    unfold all_messages. apply Forall_flat_map. eapply Forall_impl; [|exact Hi]. intros b Hb. unfold batch_messages. apply Forall_flat_map.
    eapply Forall_impl; [|exact Hb]. intros pm Epm. apply Forall_forall. intros pm' Hin. apply in_map_iff in Hin as (m & <- & _). exists 1%nat. split; [lia|exact Epm]. }
  assert (Ix : increasing (times x)) by apply records_increasing.
  assert (S1 : stream rs "ma1" "o1" = map (over mean) (windows 6 x)).
  { destruct (At "ma1" (mk_movavg "ma1" 6)) as (o & cs & Hm & F); [apply W|cbn; auto 10|].
    rewrite (answers_stream peaks_rank n p history rs p' "ma1" o cs "in1" "o1" (moving_average 6)); auto; try (rewrite ?Ee; discriminate);
      try (unfold mk_movavg in Hm; rewrite mk_simple_sop in Hm; apply Ok_inj in Hm; subst o; reflexivity).
    - rewrite Sin. apply (over_windows 6 mean). lia.
    - apply Fd. cbn; auto 10.
    - intros evs Hev. apply (Properties.Single.C04_moving_average "ma1" 6); auto. lia. }
  assert (S2 : stream rs "ma2" "o1" = map (over mean) (windows 250 x)).
  { destruct (At "ma2" (mk_movavg "ma2" 250)) as (o & cs & Hm & F); [apply W|cbn; auto 10|].
    rewrite (answers_stream peaks_rank n p history rs p' "ma2" o cs "in1" "o1" (moving_average 250)); auto; try (rewrite ?Ee; discriminate);
      try (unfold mk_movavg in Hm; rewrite mk_simple_sop in Hm; apply Ok_inj in Hm; subst o; reflexivity).
    - rewrite Sin. apply (over_windows 250 mean). lia.
    - apply Fd. cbn; auto 10.
    - intros evs Hev. apply (Properties.Single.C04_moving_average "ma2" 250); auto. lia. }
  set (s1 := map (over mean) (windows 6 x)) in *. set (s2 := map (over mean) (windows 250 x)) in *.
  assert (End : forall w, In w (windows 250 x) -> In (over mean (lastn 6 w)) s1 /\ last_time (lastn 6 w) = last_time w).
  { intros w Hw. split; [|apply last_time_lastn; [lia|rewrite (windows_length 250 x w Hw); lia]].
    unfold s1. apply in_map. apply (in_map (lastn 6)) in Hw. rewrite windows_end in Hw by lia. now apply In_skipn in Hw. }
  assert (I1 : increasing (times s1)) by (unfold s1; rewrite times_over; apply over_increasing; [lia|exact Ix]).
  assert (I2 : increasing (times s2)) by (unfold s2; rewrite times_over; apply over_increasing; [lia|exact Ix]).
  assert (Sub : incl (times s2) (times s1)).
  { intros t Ht. unfold s2 in Ht. rewrite times_over in Ht. apply in_map_iff in Ht as (w & <- & Hw). destruct (End w Hw) as [X1 X2].
    apply (in_map mtime) in X1. cbn in X1. now rewrite X2 in X1. }
  assert (S3 : stream rs "minus" "o1" = detrended x).
  { destruct (At "minus" (mk_binary "minus" BMinus)) as (o & cs & Hm & F); [apply W|cbn; auto 10|].
    destruct (C72_two_input_lead peaks_rank n p history rs p' "minus" "minus" BMinus o cs (fun j => match j with 1%nat => s1 | _ => s2 end) 2) as (Q & _); auto.
    - rewrite Ee; discriminate.
    - intros j Hj. assert (j = 1 \/ j = 2)%nat as [->| ->] by lia; (split; [left|split; [assumption|now apply keeps_up_sub]]).
      + exists "ma1", "o1". split; [apply Fd; cbn; auto 10|now symmetry].
      + exists "ma2", "o1". split; [apply Fd; cbn; auto 10|now symmetry].
    - apply Forall_forall. intros m _. apply v_le_spec.
    - rewrite Q. rewrite shared_sub2 by assumption.
      rewrite (flat_map_map_in _ (fun t => mkMsg t (vsub (mval (at_time s1 t)) (mval (at_time s2 t))))) by reflexivity.
      unfold s2 at 2. rewrite times_over, map_map. unfold detrended. apply map_ext_in. intros w Hw. destruct (End w Hw) as [X1 X2].
      unfold over. f_equal. f_equal.
      + rewrite <- X2. change (last_time (lastn 6 w)) with (mtime (over mean (lastn 6 w))). rewrite at_time_unique by assumption. cbn. now rewrite values_lastn.
      + change (last_time w) with (mtime (over mean w)). rewrite at_time_unique; [reflexivity|assumption|]. unfold s2. now apply in_map. }
  set (d := detrended x) in *.
  assert (Td : times d = map last_time (windows 250 x)) by apply times_over.
  assert (Id : increasing (times d)) by (rewrite Td; apply over_increasing; [lia|exact Ix]).
  assert (S4 : stream rs "peak" "o1" = map middle (filter is_peak (windows 13 d))).
  { destruct (At "peak" (mk_peak "peak" 13)) as (o & cs & Hm & F); [apply W|cbn; auto 10|].
    rewrite (answers_stream peaks_rank n p history rs p' "peak" o cs "minus" "o1" (peak 13)); auto; try (rewrite ?Ee; discriminate);
      try (unfold mk_peak in Hm; rewrite mk_simple_sop in Hm; apply Ok_inj in Hm; subst o; reflexivity).
    - rewrite S3. apply (peak_windows 13). lia.
    - apply Fd. cbn; auto 10.
    - intros evs Hev. apply (Properties.Single.C09_peak_detector "peak" 13); auto. lia. }
  set (k := map middle (filter is_peak (windows 13 d))) in *.
  assert (Ik : increasing (times k)).
  { unfold k, times. rewrite map_map. apply (increasing_map_filter (fun w => mtime (middle w))). apply middle_increasing; [lia|exact Id]. }
  assert (Sk : incl (times k) (times x)).
  { intros t Ht. unfold k, times in Ht. rewrite map_map in Ht. apply in_map_iff in Ht as (w & <- & Hw). apply filter_In in Hw as [Hw _].
    apply middle_In in Hw; [|lia]. apply (in_map mtime) in Hw. fold (times d) in Hw. rewrite Td in Hw. apply in_map_iff in Hw as (v & Ev & Hv).
    cbv beta. rewrite <- Ev. apply (in_map mtime), (last_In 250 x v); [lia|exact Hv]. }
  assert (S5 : stream rs "join" (oport 2) = peaks_of x).
  { destruct (At "join" (mk_join "join" 2)) as (o & cs & Hm & F); [apply W|cbn; auto 10|].
    destruct (C72_join_lead peaks_rank n p history rs p' "join" "join" 2 o cs (fun j => match j with 1%nat => k | _ => x end) 1) as (Q & _); auto.
    - rewrite Ee; discriminate.
    - intros j Hj. assert (j = 1 \/ j = 2)%nat as [->| ->] by lia; (split; [left|split; [assumption|apply keeps_up_sub]]).
      + exists "peak", "o1". split; [apply Fd; cbn; auto 10|now symmetry].
      + intros t Ht. exact Ht.
      + exists "in1", "o1". split; [apply Fd; cbn; auto 10|now symmetry].
      + exact Sk.
    - rewrite Q by lia. rewrite shared_sub by exact Sk. unfold k, times. rewrite !map_map. reflexivity. }
  destruct (At "out1" (mk_output "out1" 1)) as (o & cs & Hm & F); [apply W|cbn; auto 10|].
  change "o1" with (oport 1). apply (C72_output peaks_rank n p history rs p' "out1" "out1" 1 o cs 1); auto.
  - rewrite Ee; discriminate.
  - left. exists "join", "o2". split; [apply Fd; cbn; auto 10|]. symmetry. exact S5.
Qed.

End C86.

(** ** C87: the Bollinger bands *)
Section C87.
Context {NO : NumOps} {NF : NumField NO} {JT : JsonText}.

Definition bands_rank (id : string) : nat :=
  if String.eqb id "754" then 7 else if String.eqb id "262" then 6 else if String.eqb id "510" then 5 else if String.eqb id "865" then 5
  else if String.eqb id "996" then 4 else if String.eqb id "495" then 3 else if String.eqb id "861" then 3 else 1.

Definition bands_feeds : list (string * string * (string * string)) :=
  [("865", "i1", ("262", "o1")); ("510", "i1", ("262", "o1")); ("37", "i1", ("495", "o1")); ("37", "i3", ("510", "o1"));
   ("495", "i1", ("510", "o1")); ("861", "i1", ("510", "o1")); ("262", "i1", ("754", "o1")); ("37", "i2", ("861", "o1"));
   ("996", "i1", ("865", "o1")); ("495", "i2", ("996", "o1")); ("861", "i2", ("996", "o1"))].

Lemma bands_created g text : parse text = Ok bands_definition -> exists p, new_prog g text = Ok p /\
  p_entry p = "754" /\ p_filter p = [("37", ["o2"; "o1"; "o3"])] /\
  plain_ops (p_ops p) =
   [("262", mk_hermite "262" 1); ("37", mk_output "37" 3); ("495", mk_binary "495" BMinus); ("510", mk_movavg "510" 14);
    ("754", mk_input "754" 1); ("861", mk_binary "861" BPlus); ("865", mk_stddev "865" 14); ("996", mk_scale "996" (vofZ 2))] /\
  feeds (p_ops p) = bands_feeds /\
  map (fun s => wires (p_ops p) (fst s) (snd s)) (map snd bands_feeds) =
    map (fun s => map fst (filter (fun f => String.eqb (fst (snd f)) (fst s) && String.eqb (snd (snd f)) (snd s)) bands_feeds)) (map snd bands_feeds).
Proof.
  intros P. eexists. unfold new_prog. rewrite P. split; [vm_compute; reflexivity|].
  repeat match goal with |- _ /\ _ => split end; try (vm_compute; reflexivity).
Qed.

(** The program is created; and for every history of calls that address its only input "i1" and
    were all answered, with times in the range of the resampler: [y] is what a HermiteResampler of
    interval 1 emits for the received messages (those with times later than all before them), one
    message for every time between the first and the last but one; the answers show the mean of each 14
    consecutive values of [y] on "o3", two standard deviations below it on "o1" and above it on "o2", and
    nothing else. *)
Theorem C87_bands (g : string -> junk) (text : string) : parse text = Ok bands_definition ->
  exists p o, new_prog g text = Ok p /\ mk_hermite "262" 1 = Ok o /\
  forall (n : nat) (history : list opmsg),
    Forall (Forall (fun pm => fst pm = "i1")) history ->
    Forall (fun r => exists out, r = Ok out) (fst (session n p history)) ->
    let x := records (sent_to "i1" history) in
    (2 <= length x)%nat -> 0 <= first_time x -> newest_time x + 1 < two64 -> gaps_below (2 ^ 31 - 3) x ->
    exists outs o', run o (feed "i1" x) = (Ok outs, o') /\
      let y := on_port "o1" outs in
      let shown := answered (fst (session n p history)) in
      times y = (if (length x <? 4)%nat then [] else grid (first_time x) 1 (newest_time (removelast x))) /\
      shown "37" "o1" = lower_band y /\ shown "37" "o2" = upper_band y /\ shown "37" "o3" = middle_band y /\
      forall id port, ~ (id = "37" /\ In port ["o1"; "o2"; "o3"]) -> shown id port = [].
Proof.
  intros P. destruct (bands_created g text P) as (p & Hp & Ee & Ef & Eo & Es & Ew).
  destruct (Properties.Definition.created_well_formed g text p Hp) as [W N].
  pose proof (@op_at NO (p_ops p)) as At. rewrite Eo in At. pose proof (fed_from Ew) as Fd.
  destruct (At "262" (mk_hermite "262" 1)) as (oh & cs & Hmk & F); [apply W|cbn; auto 10|].
  exists p, oh. split; [exact Hp|]. split; [exact Hmk|].
  intros n history Hi Fine x Lx H0 Hm Hg.
  assert (Rk : ranked bands_rank (p_ops p)) by (apply ranked_check; rewrite Es; reflexivity).
  assert (Of : one_feed (p_ops p)) by (apply one_feed_check; rewrite Es; reflexivity).
  assert (Nd : forall id ports, sfind id (p_filter p) = Some ports -> NoDup ports).
  { rewrite Ef. intros id ports Fi. cbn in Fi. destruct (String.eqb id "37"); [|discriminate Fi]. injection Fi as <-.
    repeat constructor; cbn; intuition discriminate. }
  assert (Nf : p_filter p <> []) by (rewrite Ef; discriminate).
  assert (Sf : swf (p_filter p)) by (rewrite Ef; repeat constructor).
  destruct (session_receive_all n history p Fine) as (rs & R). set (p' := snd (session n p history)) in R.
  assert (Sin : stream rs "754" "o1" = x).
  { destruct (At "754" (mk_input "754" 1)) as (o & cs1 & Hm1 & F1); [apply W|cbn; auto 10|]. rewrite <- Ee in F1 |- *.
    apply (C72_entry bands_rank n p history rs p' "754" 1 o cs1 W N Rk R Hm1 F1) with (j := 1%nat); [|lia].
    unfold all_messages. apply Forall_flat_map. eapply Forall_impl; [|exact Hi]. intros b Hb. unfold batch_messages. apply Forall_flat_map.
    eapply Forall_impl; [|exact Hb]. intros pm Epm. apply Forall_forall. intros pm' Hin. apply in_map_iff in Hin as (m & <- & _). exists 1%nat. split; [lia|exact Epm]. }
  assert (Ix : increasing (times x)) by apply records_increasing.
  destruct (C72_single_source bands_rank n p history rs p' "262" (with_conns cs oh) "i1" "754" "o1" W N Rk Of R) as (outs & o' & Ro & Qy); auto.
  { rewrite Ee; discriminate. }
  { unfold mk_hermite in Hmk. rewrite mk_simple_sop in Hmk. apply Ok_inj in Hmk. subst oh. reflexivity. }
  { apply Fd. cbn; auto 10. }
  { unfold mk_hermite in Hmk. rewrite mk_simple_sop in Hmk. apply Ok_inj in Hmk. subst oh. reflexivity. }
  { unfold mk_hermite in Hmk. rewrite mk_simple_sop in Hmk. apply Ok_inj in Hmk. subst oh. intros port' src _ D. unfold is_data_input, is_control_input, shas in D. cbn in D.
    destruct (String.eqb_spec port' "i1"); [auto|discriminate D]. }
  apply run_conns_ok in Ro as (o1 & Ro). rewrite Sin in Ro.
  assert (H1 : 1 <= mtime (nth 1 x msg0) - first_time x).
  { clear - Ix Lx. destruct x as [|a [|b x]]; cbn in Lx; try lia. cbn in Ix. apply StronglySorted_inv in Ix as [_ Fa]. inversion Fa as [|? ? Hab _]. cbn. lia. }
  destruct (Properties.Resampling.C16_hermite_grid_partial "262" 1 oh x outs o1 ltac:(lia) Hmk Ix H0 Hm) as [Ty Iy]; auto.
  exists outs, o1. split; [exact Ro|]. cbv zeta. split; [exact Ty|]. rewrite <- (Qy "o1") in *. clear Ty. set (y := stream rs "262" "o1") in *.
  assert (S1 : stream rs "510" "o1" = map (over mean) (windows 14 y)).
  { destruct (At "510" (mk_movavg "510" 14)) as (o & cs1 & Hm1 & F1); [apply W|cbn; auto 10|].
    rewrite (answers_stream bands_rank n p history rs p' "510" o cs1 "262" "o1" (moving_average 14)); auto; try (rewrite ?Ee; discriminate);
      try (unfold mk_movavg in Hm1; rewrite mk_simple_sop in Hm1; apply Ok_inj in Hm1; subst o; reflexivity).
    - apply (over_windows 14 mean). lia.
    - apply Fd. cbn; auto 10.
    - intros evs Hev. apply (Properties.Single.C04_moving_average "510" 14); auto. lia. }
  assert (S2 : stream rs "865" "o1" = map (over deviation) (windows 14 y)).
  { destruct (At "865" (mk_stddev "865" 14)) as (o & cs1 & Hm1 & F1); [apply W|cbn; auto 10|].
    rewrite (answers_stream bands_rank n p history rs p' "865" o cs1 "262" "o1" (standard_deviation 14)); auto; try (rewrite ?Ee; discriminate);
      try (unfold mk_stddev in Hm1; rewrite mk_simple_sop in Hm1; apply Ok_inj in Hm1; subst o; reflexivity).
    - apply (over_windows 14 deviation). lia.
    - apply Fd. cbn; auto 10.
    - intros evs Hev. apply (Properties.Single.C06_standard_deviation "865" 14); auto. unfold two64. lia. }
  assert (S3 : stream rs "996" "o1" = map (over (fun vs => vmul (deviation vs) (vofZ 2))) (windows 14 y)).
  { destruct (At "996" (mk_scale "996" (vofZ 2))) as (o & cs1 & Hm1 & F1); [apply W|cbn; auto 10|].
    rewrite (answers_stream bands_rank n p history rs p' "996" o cs1 "865" "o1" (mapping (apply_value (fun v => vmul v (vofZ 2))))); auto; try (rewrite ?Ee; discriminate);
      try (unfold mk_scale in Hm1; rewrite mk_simple_sop in Hm1; apply Ok_inj in Hm1; subst o; reflexivity).
    - rewrite S2. unfold apply_value. rewrite mapping_feed, map_map. reflexivity.
    - apply Fd. cbn; auto 15.
    - intros evs Hev. destruct (Properties.Single.C12_maps "996" (vofZ 2) evs Hev) as (_ & Sc & _). apply Sc. exact Hm1. }
  assert (Two : forall id f (h : V -> V -> V), id <> "754" -> In (id, mk_binary id f) (plain_ops (p_ops p)) ->
    In (id, "i1", ("510", "o1")) bands_feeds -> In (id, "i2", ("996", "o1")) bands_feeds -> (forall a b, two_input f a b = Some (h a b)) ->
    stream rs id "o1" = map (over (fun vs => h (mean vs) (vmul (deviation vs) (vofZ 2)))) (windows 14 y)).
  { intros id f h Hid Hin F1 F2 Hf. rewrite Eo in Hin. destruct (At id _ ltac:(apply W) Hin) as (o & cs1 & Hm1 & Fo).
    set (s := fun j : nat => match j with 1%nat => map (over mean) (windows 14 y) | _ => map (over (fun vs => vmul (deviation vs) (vofZ 2))) (windows 14 y) end).
    assert (Ts : forall j, times (s j) = map last_time (windows 14 y)) by (intros [|[|j]]; apply times_over).
    assert (Is : forall j, increasing (times (s j))) by (intros j; rewrite Ts; apply over_increasing; [lia|exact Iy]).
    destruct (C72_two_input_lead bands_rank n p history rs p' id id f o cs1 s 1) as (Q & _); auto.
    - now rewrite Ee.
    - intros j Hj. split; [left|split; [apply Is|apply keeps_up_sub; rewrite !Ts; intros t Ht; exact Ht]].
      assert (j = 1 \/ j = 2)%nat as [->| ->] by lia; cbn [s].
      + exists "510", "o1". split; [now apply Fd|now symmetry].
      + exists "996", "o1". split; [now apply Fd|now symmetry].
    - apply Forall_forall. intros m _. apply v_le_spec.
    - rewrite Q, shared_sub by (rewrite !Ts; intros t Ht; exact Ht). rewrite Ts.
      rewrite (flat_map_map_in _ (fun t => mkMsg t (h (mval (at_time (s 1%nat) t)) (mval (at_time (s 2%nat) t))))) by (intros t _; now rewrite Hf).
      rewrite map_map. apply map_ext_in. intros w Hw. unfold over. f_equal. f_equal.
      + change (last_time w) with (mtime (over mean w)). rewrite at_time_unique; [reflexivity|apply Is|]. cbn. now apply in_map.
      + change (last_time w) with (mtime (over (fun vs => vmul (deviation vs) (vofZ 2)) w)). rewrite at_time_unique; [reflexivity|apply Is|].
        cbn. now apply (in_map (over (fun vs => vmul (deviation vs) (vofZ 2)))). }
  assert (Out : forall j id s, (1 <= j <= 3)%nat -> In ("37", iport j, (id, "o1")) bands_feeds -> stream rs id "o1" = s ->
    answered (fst (session n p history)) "37" (oport j) = s).
  { intros j id s Hj Hin Hs. rewrite (answered_stream n history p rs p' Nf Sf Nd R).
    2: { rewrite Ef. assert (j = 1 \/ j = 2 \/ j = 3)%nat as [->|[->| ->]] by lia; reflexivity. }
    destruct (At "37" (mk_output "37" 3)) as (o & cs1 & Hm1 & F1); [apply W|cbn; auto 10|].
    apply (C72_output bands_rank n p history rs p' "37" "37" 3 o cs1 j); auto.
    - rewrite Ee; discriminate.
    - left. exists id, "o1". split; [now apply Fd|now symmetry]. }
  split; [|split; [|split]].
  - apply (Out 1%nat "495"); [lia|cbn; auto 15|]. apply (Two "495" BMinus vsub); [discriminate|rewrite Eo; cbn; auto 15|cbn; auto 15|cbn; auto 15|reflexivity].
  - apply (Out 2%nat "861"); [lia|cbn; auto 15|]. apply (Two "861" BPlus vadd); [discriminate|rewrite Eo; cbn; auto 15|cbn; auto 15|cbn; auto 15|reflexivity].
  - apply (Out 3%nat "510"); [lia|cbn; auto 15|exact S1].
  - intros id port Hne. apply shown_nothing_else; auto. rewrite Ef. unfold listed. cbn.
    destruct (String.eqb_spec id "37") as [->|]; cbn; auto.
    destruct (String.eqb_spec port "o2") as [->|]; [exfalso; apply Hne; cbn; auto|].
    destruct (String.eqb_spec port "o1") as [->|]; [exfalso; apply Hne; cbn; auto|].
    destruct (String.eqb_spec port "o3") as [->|]; [exfalso; apply Hne; cbn; auto|]. reflexivity.
Qed.

End C87.

Print Assumptions C86_peaks.
Print Assumptions C87_bands.

(** ** Both at work *)
Section Examples.
Import Properties.Definition.

(** 269 messages: all values are 1 but the 256th to the 258th, sent in three calls, the second of which
    repeats a message *)
Definition spike (t : Z) : msg (NO := QcOps) := im t (if t =? 256 then 4 else if t =? 257 then 9 else if t =? 258 then 3 else 1).
Definition spikes : list (@opmsg QcOps) :=
  [[("i1", map spike (map Z.of_nat (seq 1 100)))]; [("i1", [spike 100; spike 101])]; [("i1", map spike (map Z.of_nat (seq 102 168)))]].

Example C86_example_hypothesis : Forall (Forall (fun pm => fst pm = "i1")) spikes.
Proof. repeat constructor. Qed.

Example C86_example :
  match new_prog (JT := a_text peaks_definition JNull) j0 "text" with
  | Ok p => let rs := fst (session 8 p spikes) in
    (map (fun r => match r with Ok _ => true | _ => false end) rs, map show_msg (answered rs "out1" "o1"))
  | _ => ([], [])
  end = ([true; true; true], [(258, 3%Q); (259, 1%Q); (260, 1%Q); (261, 1%Q)]).
Proof. vm_compute. reflexivity. Qed.

(** messages at 2, 4, 6, ..., 18 and 19 *)
Definition steps : list (@opmsg QcOps) :=
  [[("i1", map (fun t => im t (t * t)) [2; 4; 6; 8; 10])]; [("i1", map (fun t => im t (t * t)) [12; 14; 16; 18; 19])]].

Example C87_example :
  let x := records (sent_to "i1" steps) in
  Forall (Forall (fun pm => fst pm = "i1")) steps /\ (2 <= length x)%nat /\ 0 <= first_time x /\ newest_time x + 1 < two64 /\ gaps_below (2 ^ 31 - 3) x /\
  match new_prog (JT := a_text bands_definition JNull) j0 "text" with
  | Ok p => let rs := fst (session 8 p steps) in
    (map (fun r => match r with Ok _ => true | _ => false end) rs, map show_msg (answered rs "37" "o3"))
  | _ => ([], [])
  end = ([true; true], [(16, (5969 # 56)%Q); (17, (28375 # 224)%Q); (18, (33303 # 224)%Q)]).
Proof.
  cbv zeta. assert (E : records (sent_to "i1" steps) = map (fun t => im t (t * t)) [2; 4; 6; 8; 10; 12; 14; 16; 18; 19]) by reflexivity.
  rewrite E. split; [repeat constructor|]. split; [cbn; lia|]. split; [cbn; lia|]. split; [reflexivity|]. split.
  - set (h := map _ _). assert (B : Forall (fun m => 2 <= mtime m <= 19) h) by (repeat constructor; cbn; lia).
    intros l1 a c l2 Eh. rewrite Forall_forall in B.
    assert (Ha : 2 <= mtime a <= 19) by (apply B; rewrite Eh; apply in_or_app; right; now left).
    assert (Hc : 2 <= mtime c <= 19) by (apply B; rewrite Eh; apply in_or_app; right; right; now left). lia.
  - vm_compute. reflexivity.
Qed.

End Examples.
