(** * The program of the peak detection notebook, from the JSON definition to the answers (C94) *)

From Coq Require Import String ZArith QArith Qcanon Bool List Lia Sorted.
From Verif Require Import Base.StrMap Base.Num Base.NumInt Base.NumQc Model.Core Model.Ops Model.Make Model.Run Model.Graph Model.Json.
From Verif Require Import Spec.Shape Spec.Preserving Spec.Streams Spec.Operators Spec.Multi Spec.Join Spec.Show Spec.Build Spec.Snapshot Spec.Definition Spec.Depth Spec.Bounds Spec.Pipeline Spec.Reliable Spec.Rarest Spec.Filter Spec.Windows Spec.Fibonacci Spec.Notebook.
From Verif Require Import Proofs.Ports Proofs.Lists Proofs.InputP Proofs.JoinP Proofs.JoinKinds Proofs.JsonP Proofs.MakeP Proofs.Window Proofs.Deep Proofs.BoundsP Proofs.Conns Proofs.FieldFacts Proofs.Prompt Proofs.Wiring Proofs.WindowsP.
From Verif Require Import Spec.Log Spec.Synchronous Properties.Synchronous Properties.Rarest Properties.Shipped Properties.Shipped2.
From Verif Require Properties.Single Properties.Definition.
Import ListNotations.
Open Scope string_scope.
Open Scope list_scope.
Open Scope Z_scope.
Open Scope rtbot_scope.

Section C94.
Context {NO : NumOps} {NF : NumField NO} {NI : NumInt NO} {JT : JsonText}.

(** The definition that the notebook makes is refused: it does not name its entry. *)
Theorem C94_notebook_refuted (g : string -> junk) (text : string) :
  parse text = Ok (notebook_definition 20 200 13) -> new_prog g text = Throw (RuntimeError "Entry operator was not specified").
Proof. intros P. unfold new_prog. rewrite P. vm_compute. reflexivity. Qed.

Definition notebook_rank (id : string) : nat :=
  if String.eqb id "in1" then 6 else if String.eqb id "ma1" then 5 else if String.eqb id "ma2" then 5
  else if String.eqb id "minus" then 4 else if String.eqb id "peak" then 3 else if String.eqb id "join" then 2 else 1.

Definition notebook_feeds : list (string * string * (string * string)) :=
  [("ma1", "i1", ("in1", "o1")); ("ma2", "i1", ("in1", "o1")); ("join", "i2", ("in1", "o1")); ("out1", "i1", ("join", "o2"));
   ("minus", "i1", ("ma1", "o1")); ("minus", "i2", ("ma2", "o1")); ("peak", "i1", ("minus", "o1")); ("join", "i1", ("peak", "o1"))].

Lemma created_by text g j e f xs h cs h' o : parse text = Ok j -> jvalue get_str "entryOperator" "" j = Ok e -> String.eqb e "" = false ->
  filter_of j = Ok f -> jat "operators" j = Ok xs -> read_ops (read_op g) (jitems xs) [] = Ok h -> jat "connections" j = Ok cs ->
  read_conns (jitems cs) h = Ok h' -> sfind e h' = Some o -> o_ctrl (op_base o) = [] -> new_prog g text = Ok (mkProgram text h' e f).
Proof.
  intros H1 H2 H3 H4 H5 H6 H7 H8 H9 H10. unfold new_prog. rewrite H1. cbn [rbind]. unfold init. rewrite H2. cbn [rbind]. rewrite H3, H4. cbn [rbind].
  rewrite H5. cbn [rbind]. rewrite H6. cbn [rbind]. rewrite H7. cbn [rbind]. rewrite H8. cbn [rbind]. now rewrite H9, H10.
Qed.

Definition size_ok (z : Z) : Prop := 0 <= z < two64.
Lemma read_average g id z : size_ok z -> read_op g (JObj [("id", JStr id); ("n", JInt z); ("type", JStr "MovingAverage")]) = mk_movavg id z.
Proof. intros H. transitivity (mk_movavg id (wrap z)); [reflexivity|]. rewrite wrap_id by exact H. reflexivity. Qed.
Lemma read_peak g id z : size_ok z -> read_op g (JObj [("id", JStr id); ("n", JInt z); ("type", JStr "PeakDetector")]) = mk_peak id z.
Proof. intros H. transitivity (mk_peak id (wrap z)); [reflexivity|]. rewrite wrap_id by exact H. reflexivity. Qed.

Lemma notebook_created a b c g text : size_ok (Z.of_nat a) -> size_ok (Z.of_nat b) -> size_ok (Z.of_nat c) ->
  parse text = Ok (with_entry "in1" (notebook_definition a b c)) -> exists p, new_prog g text = Ok p /\
  p_entry p = "in1" /\ p_filter p = [] /\
  plain_ops (p_ops p) =
   [("in1", mk_input "in1" 1); ("join", mk_join "join" 2); ("ma1", mk_movavg "ma1" (Z.of_nat a)); ("ma2", mk_movavg "ma2" (Z.of_nat b));
    ("minus", mk_binary "minus" BMinus); ("out1", mk_output "out1" 1); ("peak", mk_peak "peak" (Z.of_nat c))] /\
  feeds (p_ops p) = notebook_feeds /\
  map (fun s => wires (p_ops p) (fst s) (snd s)) (map snd notebook_feeds) =
    map (fun s => map fst (filter (fun f => String.eqb (fst (snd f)) (fst s) && String.eqb (snd (snd f)) (snd s)) notebook_feeds)) (map snd notebook_feeds) /\
  heap_size (p_ops p) = 7%nat /\ fold_right (fun x P => every reliable (snd x) /\ P) True (p_ops p) /\
  forallb (fun x => negb (is_pipeline (snd x))) (p_ops p) = true /\
  exists o, sfind "in1" (p_ops p) = Some o /\ skeys (o_data (op_base o)) = ["i1"].
Proof.
  unfold notebook_definition. generalize (Z.of_nat a) as za, (Z.of_nat b) as zb, (Z.of_nat c) as zc. intros za zb zc Sa Sb Sc P. eexists. split.
  { eapply created_by; [exact P|reflexivity|reflexivity|reflexivity|reflexivity| |reflexivity| | |].
    { cbn [jitems with_entry sset]. cbn [read_ops]. rewrite !read_average, read_peak by assumption. cbv -[V vofZ v0]. reflexivity. }
    { cbv -[V vofZ v0]. reflexivity. }
    { reflexivity. }
    { reflexivity. } }
  repeat match goal with |- _ /\ _ => split end; try (vm_compute; reflexivity).
  - cbn. unfold reliable. cbn. repeat split.
  - eexists. split; reflexivity.
Qed.

(** With the entry named, for any sizes of the windows with [a <= b]: for every history of calls
    that address the only input "i1" of the program, and with any times and values, all calls
    succeed, and "out1" shows the received messages (those with times later than all before them)
    at the peaks of the detrended signal, each once and in order. *)
Theorem C94_peaks (a b c : nat) (g : string -> junk) (text : string) (n : nat) (history : list opmsg) :
  (1 <= a <= b)%nat -> (1 <= c)%nat -> Z.of_nat b < 2 ^ 64 -> Z.of_nat c < 2 ^ 64 ->
  parse text = Ok (with_entry "in1" (notebook_definition a b c)) -> (7 < n)%nat ->
  Forall (Forall (fun pm => fst pm = "i1")) history ->
  exists p, new_prog g text = Ok p /\
    Forall (fun r => exists out, r = Ok out) (fst (session n p history)) /\
    answered (fst (session n p history)) "out1" "o1" = tops a b c (records (sent_to "i1" history)).
Proof.
  intros Hab Hc Zb Zc P Hn Hi. destruct (notebook_created a b c g text ltac:(unfold size_ok, two64; lia) ltac:(unfold size_ok, two64; lia) ltac:(unfold size_ok, two64; lia) P) as (p & Hp & Ee & Ef & Eo & Es & Ew & Eh & Er & Np & oe & Fe & Ke).
  exists p. split; [exact Hp|]. destruct (Properties.Definition.created_well_formed g text p Hp) as [W N].
  assert (Rk : ranked notebook_rank (p_ops p)) by (apply ranked_check; rewrite Es; reflexivity).
  assert (Of : one_feed (p_ops p)) by (apply one_feed_check; rewrite Es; reflexivity).
  assert (Fine : Forall (fun r => exists out, r = Ok out) (fst (session n p history))).
  { rewrite <- Ee in Fe. eapply all_answered; eauto. lia. }
  split; [exact Fine|]. destruct (session_receive_all n history p Fine) as (rs & R). set (p' := snd (session n p history)) in R.
  rewrite !(answered_all n history _ _ p rs p' Ef R).
  set (x := records (sent_to "i1" history)).
  pose proof (@op_at NO (p_ops p)) as At. rewrite Eo in At.
  pose proof (fed_from Ew) as Fd.
  assert (Sin : stream rs "in1" "o1" = x).
  { destruct (At "in1" (mk_input "in1" 1)) as (o & cs & Hm & F); [apply W|cbn; auto 10|]. rewrite <- Ee in F |- *.
    apply (C72_entry notebook_rank n p history rs p' "in1" 1 o cs W N Rk R Hm F) with (j := 1%nat); [|lia].
    now apply one_port. }
  assert (Ix : increasing (times x)) by apply records_increasing.
  assert (S1 : stream rs "ma1" "o1" = map (over mean) (windows a x)).
  { destruct (At "ma1" (mk_movavg "ma1" (Z.of_nat a))) as (o & cs & Hm & F); [apply W|cbn; auto 10|].
    rewrite (answers_stream notebook_rank n p history rs p' "ma1" o cs "in1" "o1" (moving_average (Z.of_nat a))); auto; try (rewrite ?Ee; discriminate);
      try (unfold mk_movavg in Hm; rewrite mk_simple_sop in Hm; apply Ok_inj in Hm; subst o; reflexivity).
    - rewrite Sin. apply (over_windows a mean). lia.
    - apply Fd. cbn; auto 10.
    - intros evs Hev. apply (Properties.Single.C04_moving_average "ma1" (Z.of_nat a)); auto. lia. }
  assert (S2 : stream rs "ma2" "o1" = map (over mean) (windows b x)).
  { destruct (At "ma2" (mk_movavg "ma2" (Z.of_nat b))) as (o & cs & Hm & F); [apply W|cbn; auto 10|].
    rewrite (answers_stream notebook_rank n p history rs p' "ma2" o cs "in1" "o1" (moving_average (Z.of_nat b))); auto; try (rewrite ?Ee; discriminate);
      try (unfold mk_movavg in Hm; rewrite mk_simple_sop in Hm; apply Ok_inj in Hm; subst o; reflexivity).
    - rewrite Sin. apply (over_windows b mean). lia.
    - apply Fd. cbn; auto 10.
    - intros evs Hev. apply (Properties.Single.C04_moving_average "ma2" (Z.of_nat b)); auto. lia. }
  set (s1 := map (over mean) (windows a x)) in *. set (s2 := map (over mean) (windows b x)) in *.
  assert (End : forall w, In w (windows b x) -> In (over mean (lastn a w)) s1 /\ last_time (lastn a w) = last_time w).
  { intros w Hw. split; [|apply last_time_lastn; [lia|rewrite (windows_length b x w Hw); lia]].
    unfold s1. apply in_map. apply (in_map (lastn a)) in Hw. rewrite windows_end in Hw by lia. now apply In_skipn in Hw. }
  assert (I1 : increasing (times s1)) by (unfold s1; rewrite times_over; apply over_increasing; [lia|exact Ix]).
  assert (I2 : increasing (times s2)) by (unfold s2; rewrite times_over; apply over_increasing; [lia|exact Ix]).
  assert (Sub : incl (times s2) (times s1)).
  { intros t Ht. unfold s2 in Ht. rewrite times_over in Ht. apply in_map_iff in Ht as (w & <- & Hw). destruct (End w Hw) as [X1 X2].
    apply (in_map mtime) in X1. cbn in X1. now rewrite X2 in X1. }
  assert (S3 : stream rs "minus" "o1" = trendless a b x).
  { destruct (At "minus" (mk_binary "minus" BMinus)) as (o & cs & Hm & F); [apply W|cbn; auto 10|].
    destruct (C72_two_input_lead notebook_rank n p history rs p' "minus" "minus" BMinus o cs (fun j => match j with 1%nat => s1 | _ => s2 end) 2) as (Q & _); auto.
    - rewrite Ee; discriminate.
    - intros j Hj. assert (j = 1 \/ j = 2)%nat as [->| ->] by lia; (split; [left|split; [assumption|now apply keeps_up_sub]]).
      + exists "ma1", "o1". split; [apply Fd; cbn; auto 10|now symmetry].
      + exists "ma2", "o1". split; [apply Fd; cbn; auto 10|now symmetry].
    - apply Forall_forall. intros m _. apply v_le_spec.
    - rewrite Q. rewrite shared_sub2 by assumption.
      rewrite (flat_map_map_in _ (fun t => mkMsg t (vsub (mval (at_time s1 t)) (mval (at_time s2 t))))) by reflexivity.
      unfold s2 at 2. rewrite times_over, map_map. unfold trendless. apply map_ext_in. intros w Hw. destruct (End w Hw) as [X1 X2].
      unfold over. f_equal. f_equal.
      + rewrite <- X2. change (last_time (lastn a w)) with (mtime (over mean (lastn a w))). rewrite at_time_unique by assumption. cbn. now rewrite values_lastn.
      + change (last_time w) with (mtime (over mean w)). rewrite at_time_unique; [reflexivity|assumption|]. unfold s2. now apply in_map. }
  set (d := trendless a b x) in *.
  assert (Td : times d = map last_time (windows b x)) by apply times_over.
  assert (Id : increasing (times d)) by (rewrite Td; apply over_increasing; [lia|exact Ix]).
  assert (S4 : stream rs "peak" "o1" = map middle (filter is_peak (windows c d))).
  { destruct (At "peak" (mk_peak "peak" (Z.of_nat c))) as (o & cs & Hm & F); [apply W|cbn; auto 10|].
    rewrite (answers_stream notebook_rank n p history rs p' "peak" o cs "minus" "o1" (peak (Z.of_nat c))); auto; try (rewrite ?Ee; discriminate);
      try (unfold mk_peak in Hm; rewrite mk_simple_sop in Hm; apply Ok_inj in Hm; subst o; reflexivity).
    - rewrite S3. apply (peak_windows c). lia.
    - apply Fd. cbn; auto 10.
    - intros evs Hev. apply (Properties.Single.C09_peak_detector "peak" (Z.of_nat c)); auto. lia. }
  set (k := map middle (filter is_peak (windows c d))) in *.
  assert (Ik : increasing (times k)).
  { unfold k, times. rewrite map_map. apply (increasing_map_filter (fun w => mtime (middle w))). apply middle_increasing; [lia|exact Id]. }
  assert (Sk : incl (times k) (times x)).
  { intros t Ht. unfold k, times in Ht. rewrite map_map in Ht. apply in_map_iff in Ht as (w & <- & Hw). apply filter_In in Hw as [Hw _].
    apply middle_In in Hw; [|lia]. apply (in_map mtime) in Hw. fold (times d) in Hw. rewrite Td in Hw. apply in_map_iff in Hw as (v & Ev & Hv).
    cbv beta. rewrite <- Ev. apply (in_map mtime), (last_In b x v); [lia|exact Hv]. }
  assert (S5 : stream rs "join" (oport 2) = tops a b c x).
  { destruct (At "join" (mk_join "join" 2)) as (o & cs & Hm & F); [apply W|cbn; auto 10|].
    destruct (C72_join_lead notebook_rank n p history rs p' "join" "join" 2 o cs (fun j => match j with 1%nat => k | _ => x end) 1) as (Q & _); auto.
    - rewrite Ee; discriminate.
    - intros j Hj. assert (j = 1 \/ j = 2)%nat as [->| ->] by lia; (split; [left|split; [assumption|apply keeps_up_sub]]).
      + exists "peak", "o1". split; [apply Fd; cbn; auto 10|now symmetry].
      + intros t Ht. exact Ht.
      + exists "in1", "o1". split; [apply Fd; cbn; auto 10|now symmetry].
      + exact Sk.
    - rewrite Q by lia. rewrite shared_sub by exact Sk. unfold k, times. rewrite !map_map. reflexivity. }
  destruct (At "out1" (mk_output "out1" 1)) as (o & cs & Hm & F); [apply W|cbn; auto 10|].
  change "o1" with (oport 1). apply (C72_output notebook_rank n p history rs p' "out1" "out1" 1 o cs 1); auto.
  - rewrite Ee; discriminate.
  - left. exists "join", "o2". split; [apply Fd; cbn; auto 10|]. symmetry. exact S5.
Qed.


End C94.
Print Assumptions C94_notebook_refuted.
Print Assumptions C94_peaks.

Import Properties.Definition.
(** a wave of 220 values in two calls, with one message that is not later than those before *)
Definition wave : list (@opmsg QcOps) :=
  [[("i1", map (fun i => im (Z.of_nat i) (Z.of_nat (i * i mod 17))) (seq 1 210))]; [("i1", im 5 99 :: map (fun i => im (Z.of_nat i) (Z.of_nat (i * i mod 17))) (seq 211 15))]].

(** Not vacuous: the sizes of the notebook, and small ones. *)
Example C94_example_hypothesis : Forall (Forall (fun pm => fst pm = "i1")) wave.
Proof. repeat constructor. Qed.
Definition found (a b c : nat) : list bool * list (Z * Q) :=
  match new_prog (JT := a_text (with_entry "in1" (notebook_definition a b c)) JNull) j0 "text" with
  | Ok p => let rs := fst (session 8 p wave) in
    (map (fun r => match r with Ok _ => true | _ => false end) rs, map show_msg (answered rs "out1" "o1"))
  | _ => ([], [])
  end.
Example C94_example : found 20 200 13 = ([true; true], [(213, 13%Q)]) /\ length (snd (found 2 5 9)) = 25%nat.
Proof. vm_compute. auto. Qed.
