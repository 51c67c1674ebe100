(** * Two more of the example programs, from the JSON definition to the answers (C89) *)

From Coq Require Import String ZArith QArith Qcanon Bool List Lia Sorted.
From Verif Require Import Base.StrMap Base.Num Base.NumInt Base.NumQc Model.Core Model.Ops Model.Make Model.Run Model.Graph Model.Json.
From Verif Require Import Spec.Shape Spec.Preserving Spec.Streams Spec.Operators Spec.Multi Spec.Join Spec.Show Spec.Build Spec.Snapshot Spec.Definition Spec.Depth Spec.Bounds Spec.Pipeline Spec.Reliable Spec.Rarest Spec.Filter Spec.Windows Spec.Shipped Spec.Shipped2.
From Verif Require Import Proofs.Ports Proofs.Lists Proofs.InputP Proofs.JoinP Proofs.JoinKinds Proofs.JsonP Proofs.MakeP Proofs.Window Proofs.Deep Proofs.BoundsP Proofs.Conns Proofs.FieldFacts Proofs.Prompt Proofs.Wiring Proofs.WindowsP.
From Verif Require Import Spec.Log Spec.Synchronous Properties.Synchronous Properties.Rarest Properties.Shipped.
From Verif Require Properties.Single Properties.Reliable Properties.Graph Properties.Definition.
Import ListNotations.
Open Scope string_scope.
Open Scope list_scope.
Open Scope Z_scope.
Open Scope rtbot_scope.

Section C89.
Context {NO : NumOps} {NI : NumInt NO} {JT : JsonText}.

(** without a filter the answers show everything *)
Lemma answered_all n batches id port : forall p rs p', p_filter p = [] -> receive_all n p batches = (Ok rs, p') ->
  answered (fst (session n p batches)) id port = stream rs id port.
Proof.
  induction batches as [|b bs IH]; intros p rs p' Ef R; [injection R as <- _; reflexivity|]. cbn [receive_all] in R. cbn [session].
  pose proof (receive_filter n p b) as Ef1. unfold receive in *. destruct (receive_debug n p b) as [[d| | | |] p1] eqn:Ed; cbn [bind sbind] in R; try discriminate R.
  rewrite Ef in *. cbn [snd] in Ef1. destruct (receive_all n p1 bs) as [[rs1| | | |] p2] eqn:R1; cbn in R; try discriminate R. injection R as <- _.
  specialize (IH p1 rs1 p2 Ef1 R1). destruct (session n p1 bs) as [ss p3]. cbn [fst] in *. unfold answered, stream in *. cbn [flat_map]. now rewrite IH.
Qed.

(** a program of reliable operators, as in C56 *)
Lemma all_answered g text rank n p history oe : new_prog g text = Ok p -> ranked rank (p_ops p) -> (heap_size (p_ops p) < n)%nat ->
  fold_right (fun x P => every reliable (snd x) /\ P) True (p_ops p) ->
  forallb (fun x => negb (is_pipeline (snd x))) (p_ops p) = true ->
  sfind (p_entry p) (p_ops p) = Some oe -> skeys (o_data (op_base oe)) = ["i1"] ->
  Forall (Forall (fun pm => fst pm = "i1")) history ->
  Forall (fun r => exists out, r = Ok out) (fst (session n p history)).
Proof.
  intros Hp Rk Hn Er Np Fe Ke Hi. apply (Properties.Reliable.C56_no_failure g text).
  - exact Hp.
  - intros X. rewrite X in Fe. discriminate Fe.
  - apply every_fold in Er. intros path o' L. exact (every_L _ _ (lookup_every _ _ _ _ Er L)).
  - apply (Properties.Graph.ranked_acyclic rank); [exact Rk|]. intros id b js ops ins outs pm F.
    apply sfind_In in F. rewrite forallb_forall in Np. apply Np in F. discriminate F.
  - lia.
  - eapply Forall_impl; [|exact Hi]. intros batch Hb port ms Hin. exists oe. split; [exact Fe|]. rewrite Ke. left.
    rewrite Forall_forall in Hb. symmetry. exact (Hb _ Hin).
Qed.

Lemma one_port history : Forall (Forall (fun pm : string * portmsg => fst pm = "i1")) history ->
  Forall (fun pm => exists j, (1 <= j <= 1)%nat /\ fst pm = iport j) (all_messages history).
Proof.
  intros Hi. unfold all_messages. apply Forall_flat_map. eapply Forall_impl; [|exact Hi]. intros b Hb. unfold batch_messages. apply Forall_flat_map.
  eapply Forall_impl; [|exact Hb]. intros pm Epm. apply Forall_forall. intros pm' Hin. apply in_map_iff in Hin as (m & <- & _). exists 1%nat. split; [lia|exact Epm].
Qed.

(** ** program-test-2 *)

Definition maxima_rank (id : string) : nat :=
  if String.eqb id "in1" then 3 else if String.eqb id "peak" then 2 else 1.
Definition maxima_feeds : list (string * string * (string * string)) :=
  [("peak", "i1", ("in1", "o1")); ("join", "i2", ("in1", "o1")); ("join", "i1", ("peak", "o1"))].

Lemma maxima_created g text : parse text = Ok maxima_definition -> exists p, new_prog g text = Ok p /\
  p_entry p = "in1" /\ p_filter p = [] /\
  plain_ops (p_ops p) = [("in1", mk_input "in1" 1); ("join", mk_join "join" 2); ("peak", mk_peak "peak" 3)] /\
  feeds (p_ops p) = maxima_feeds /\
  map (fun s => wires (p_ops p) (fst s) (snd s)) (map snd maxima_feeds) =
    map (fun s => map fst (filter (fun f => String.eqb (fst (snd f)) (fst s) && String.eqb (snd (snd f)) (snd s)) maxima_feeds)) (map snd maxima_feeds) /\
  heap_size (p_ops p) = 3%nat /\ fold_right (fun x P => every reliable (snd x) /\ P) True (p_ops p) /\
  forallb (fun x => negb (is_pipeline (snd x))) (p_ops p) = true /\
  exists o, sfind "in1" (p_ops p) = Some o /\ skeys (o_data (op_base o)) = ["i1"].
Proof.
  intros P. eexists. unfold new_prog. rewrite P. split; [vm_compute; reflexivity|].
  repeat match goal with |- _ /\ _ => split end; try (vm_compute; reflexivity).
  - cbn. unfold reliable. cbn. repeat split.
  - eexists. split; reflexivity.
Qed.

(** For every history of calls that address the only input "i1", with any times and values: all
    calls are answered, and the join shows on both outputs every received message (those with times
    later than all before them) which is the middle one of three consecutive
    ones and not below the other two. *)
Theorem C89_maxima (g : string -> junk) (text : string) (n : nat) (history : list opmsg) :
  parse text = Ok maxima_definition -> (3 < n)%nat ->
  Forall (Forall (fun pm => fst pm = "i1")) history ->
  exists p, new_prog g text = Ok p /\
    Forall (fun r => exists out, r = Ok out) (fst (session n p history)) /\
    let x := records (sent_to "i1" history) in
    answered (fst (session n p history)) "join" "o1" = maxima_of x /\
    answered (fst (session n p history)) "join" "o2" = maxima_of x.
Proof.
  intros P Hn Hi. destruct (maxima_created g text P) as (p & Hp & Ee & Ef & Eo & Es & Ew & Eh & Er & Np & oe & Fe & Ke).
  exists p. split; [exact Hp|]. destruct (Properties.Definition.created_well_formed g text p Hp) as [W N].
  assert (Rk : ranked maxima_rank (p_ops p)) by (apply ranked_check; rewrite Es; reflexivity).
  assert (Of : one_feed (p_ops p)) by (apply one_feed_check; rewrite Es; reflexivity).
  assert (Fine : Forall (fun r => exists out, r = Ok out) (fst (session n p history))).
  { rewrite <- Ee in Fe. eapply all_answered; eauto. lia. }
  split; [exact Fine|]. destruct (session_receive_all n history p Fine) as (rs & R). set (p' := snd (session n p history)) in R.
  cbv zeta. rewrite !(answered_all n history _ _ p rs p' Ef R). set (x := records (sent_to "i1" history)).
  pose proof (@op_at NO (p_ops p)) as At. rewrite Eo in At. pose proof (fed_from Ew) as Fd.
  assert (Sin : stream rs "in1" "o1" = x).
  { destruct (At "in1" (mk_input "in1" 1)) as (o & cs & Hm & F); [apply W|cbn; auto 10|]. rewrite <- Ee in F |- *.
    apply (C72_entry maxima_rank n p history rs p' "in1" 1 o cs W N Rk R Hm F) with (j := 1%nat); [|lia]. now apply one_port. }
  assert (Ix : increasing (times x)) by apply records_increasing.
  assert (S4 : stream rs "peak" "o1" = maxima_of x).
  { destruct (At "peak" (mk_peak "peak" 3)) as (o & cs & Hm & F); [apply W|cbn; auto 10|].
    rewrite (answers_stream maxima_rank n p history rs p' "peak" o cs "in1" "o1" (peak 3)); auto; try (rewrite ?Ee; discriminate);
      try (unfold mk_peak in Hm; rewrite mk_simple_sop in Hm; apply Ok_inj in Hm; subst o; reflexivity).
    - rewrite Sin. apply (peak_windows 3). lia.
    - apply Fd. cbn; auto 10.
    - intros evs Hev. apply (Properties.Single.C09_peak_detector "peak" 3); auto. lia. }
  set (k := maxima_of x) in *.
  assert (Ik : increasing (times k)).
  { unfold k, maxima_of, times. rewrite map_map. apply (increasing_map_filter (fun w => mtime (middle w))). apply middle_increasing; [lia|exact Ix]. }
  assert (Ink : incl k x).
  { intros m Hm. unfold k, maxima_of in Hm. apply in_map_iff in Hm as (w & <- & Hw). apply filter_In in Hw as [Hw _].
    apply (middle_In 3); [lia|exact Hw]. }
  assert (Sk : incl (times k) (times x)).
  { intros t Ht. apply in_map_iff in Ht as (m & <- & Hm). apply in_map. now apply Ink. }
  destruct (At "join" (mk_join "join" 2)) as (o & cs & Hm & F); [apply W|cbn; auto 10|].
  destruct (C72_join_lead maxima_rank n p history rs p' "join" "join" 2 o cs (fun j => match j with 1%nat => k | _ => x end) 1) as (Q & _); auto.
  { rewrite Ee; discriminate. }
  { intros j Hj. assert (j = 1 \/ j = 2)%nat as [->| ->] by lia; (split; [left|split; [assumption|apply keeps_up_sub]]).
    + exists "peak", "o1". split; [apply Fd; cbn; auto 10|now symmetry].
    + intros t Ht. exact Ht.
    + exists "in1", "o1". split; [apply Fd; cbn; auto 10|now symmetry].
    + exact Sk. }
  split.
  - change "o1" with (oport 1). rewrite Q by lia. rewrite shared_sub by exact Sk. unfold times. rewrite map_map. transitivity (map (fun m => m) k); [|apply map_id].
    apply map_ext_in. intros m Hin. now apply at_time_unique.
  - change "o2" with (oport 2). rewrite Q by lia. rewrite shared_sub by exact Sk. unfold times. rewrite map_map. transitivity (map (fun m => m) k); [|apply map_id].
    apply map_ext_in. intros m Hin. apply at_time_unique; auto.
Qed.

(** ** program-test-3 *)

Definition scales_rank (id : string) : nat :=
  if String.eqb id "in1" then 5 else if String.eqb id "id1" then 4 else if String.eqb id "join" then 3
  else if String.eqb id "out1" then 1 else 2.
Definition scales_feeds : list (string * string * (string * string)) :=
  [("join", "i1", ("id1", "o1")); ("join", "i2", ("id1", "o1")); ("id1", "i1", ("in1", "o1")); ("sc1", "i1", ("join", "o1"));
   ("sc2", "i1", ("join", "o2")); ("out1", "i1", ("sc1", "o1")); ("out1", "i2", ("sc2", "o1"))].

Lemma scales_created g text : parse text = Ok scales_definition -> exists p, new_prog g text = Ok p /\
  p_entry p = "in1" /\ p_filter p = [] /\
  plain_ops (p_ops p) = [("id1", mk_identity "id1"); ("in1", mk_input "in1" 1); ("join", mk_join "join" 2); ("out1", mk_output "out1" 2);
    ("sc1", mk_scale "sc1" (vofZ 2)); ("sc2", mk_scale "sc2" (vofZ 3))] /\
  feeds (p_ops p) = scales_feeds /\
  map (fun s => wires (p_ops p) (fst s) (snd s)) (map snd scales_feeds) =
    map (fun s => map fst (filter (fun f => String.eqb (fst (snd f)) (fst s) && String.eqb (snd (snd f)) (snd s)) scales_feeds)) (map snd scales_feeds) /\
  heap_size (p_ops p) = 6%nat /\ fold_right (fun x P => every reliable (snd x) /\ P) True (p_ops p) /\
  forallb (fun x => negb (is_pipeline (snd x))) (p_ops p) = true /\
  exists o, sfind "in1" (p_ops p) = Some o /\ skeys (o_data (op_base o)) = ["i1"].
Proof.
  intros P. eexists. unfold new_prog. rewrite P. split; [vm_compute; reflexivity|].
  repeat match goal with |- _ /\ _ => split end; try (vm_compute; reflexivity).
  - cbn. unfold reliable. cbn. repeat split.
  - eexists. split; reflexivity.
Qed.

(** For every history of calls that address the only input "i1": all calls are answered, and the
    output shows the received messages with their values doubled on "o1" and tripled on "o2". *)
Theorem C89_scales (g : string -> junk) (text : string) (n : nat) (history : list opmsg) :
  parse text = Ok scales_definition -> (6 < n)%nat ->
  Forall (Forall (fun pm => fst pm = "i1")) history ->
  exists p, new_prog g text = Ok p /\
    Forall (fun r => exists out, r = Ok out) (fst (session n p history)) /\
    let x := records (sent_to "i1" history) in
    let shown := answered (fst (session n p history)) in
    shown "sc1" "o1" = scaled 2 x /\ shown "sc2" "o1" = scaled 3 x /\
    shown "out1" "o1" = scaled 2 x /\ shown "out1" "o2" = scaled 3 x.
Proof.
  intros P Hn Hi. destruct (scales_created g text P) as (p & Hp & Ee & Ef & Eo & Es & Ew & Eh & Er & Np & oe & Fe & Ke).
  exists p. split; [exact Hp|]. destruct (Properties.Definition.created_well_formed g text p Hp) as [W N].
  assert (Rk : ranked scales_rank (p_ops p)) by (apply ranked_check; rewrite Es; reflexivity).
  assert (Of : one_feed (p_ops p)) by (apply one_feed_check; rewrite Es; reflexivity).
  assert (Fine : Forall (fun r => exists out, r = Ok out) (fst (session n p history))).
  { rewrite <- Ee in Fe. eapply all_answered; eauto. lia. }
  split; [exact Fine|]. destruct (session_receive_all n history p Fine) as (rs & R). set (p' := snd (session n p history)) in R.
  cbv zeta. rewrite !(answered_all n history _ _ p rs p' Ef R). set (x := records (sent_to "i1" history)).
  pose proof (@op_at NO (p_ops p)) as At. rewrite Eo in At. pose proof (fed_from Ew) as Fd.
  assert (Sin : stream rs "in1" "o1" = x).
  { destruct (At "in1" (mk_input "in1" 1)) as (o & cs & Hm & F); [apply W|cbn; auto 10|]. rewrite <- Ee in F |- *.
    apply (C72_entry scales_rank n p history rs p' "in1" 1 o cs W N Rk R Hm F) with (j := 1%nat); [|lia]. now apply one_port. }
  assert (Ix : increasing (times x)) by apply records_increasing.
  assert (S1 : stream rs "id1" "o1" = x).
  { destruct (At "id1" (mk_identity "id1")) as (o & cs & Hm & F); [apply W|cbn; auto 10|].
    rewrite (answers_stream scales_rank n p history rs p' "id1" o cs "in1" "o1" (mapping emits)); auto; try (rewrite ?Ee; discriminate);
      try (unfold mk_identity in Hm; rewrite mk_simple_sop in Hm; apply Ok_inj in Hm; subst o; reflexivity).
    - rewrite Sin. etransitivity; [apply (mapping_feed (fun m => m))|apply map_id].
    - apply Fd. cbn; auto 10.
    - intros evs Hev. destruct (Properties.Single.C12_maps "id1" v0 evs Hev) as (_ & _ & _ & _ & Idt). apply Idt. exact Hm. }
  assert (Sj : forall j, (1 <= j <= 2)%nat -> stream rs "join" (oport j) = x).
  { destruct (At "join" (mk_join "join" 2)) as (o & cs & Hm & F); [apply W|cbn; auto 10|].
    destruct (C72_join_lead scales_rank n p history rs p' "join" "join" 2 o cs (fun j => x) 1) as (Q & _); auto.
    { rewrite Ee; discriminate. }
    { intros j Hj. assert (j = 1 \/ j = 2)%nat as [->| ->] by lia; (split; [left|split; [assumption|apply keeps_up_sub; intros t Ht; exact Ht]]).
      + exists "id1", "o1". split; [apply Fd; cbn; auto 10|now symmetry].
      + exists "id1", "o1". split; [apply Fd; cbn; auto 10|now symmetry]. }
    intros j Hj. rewrite Q by lia. rewrite shared_sub by (intros t Ht; exact Ht). unfold times. rewrite map_map.
    transitivity (map (fun m => m) x); [|apply map_id]. apply map_ext_in. intros m Hin. now apply at_time_unique. }
  assert (Sc : forall id c j, id <> "in1" -> (1 <= j <= 2)%nat -> In (id, mk_scale id (vofZ c)) (plain_ops (p_ops p)) -> In (id, "i1", ("join", oport j)) scales_feeds ->
    stream rs id "o1" = scaled c x).
  { intros id c j Hid Hj Hin Hf. rewrite Eo in Hin. destruct (At id _ ltac:(apply W) Hin) as (o & cs & Hm & F).
    rewrite (answers_stream scales_rank n p history rs p' id o cs "join" (oport j) (mapping (apply_value (fun v => vmul v (vofZ c))))); auto;
      try (unfold mk_scale in Hm; rewrite mk_simple_sop in Hm; apply Ok_inj in Hm; subst o; reflexivity).
    - rewrite Sj by exact Hj. apply mapping_feed.
    - now rewrite Ee.
    - intros evs Hev. destruct (Properties.Single.C12_maps id (vofZ c) evs Hev) as (_ & S2 & _). apply S2. exact Hm. }
  assert (S2 : stream rs "sc1" "o1" = scaled 2 x) by (apply (Sc "sc1" 2 1%nat); [discriminate|lia|rewrite Eo; cbn; auto 10|cbn; auto 10]).
  assert (S3 : stream rs "sc2" "o1" = scaled 3 x) by (apply (Sc "sc2" 3 2%nat); [discriminate|lia|rewrite Eo; cbn; auto 10|cbn; auto 10]).
  split; [exact S2|]. split; [exact S3|].
  destruct (At "out1" (mk_output "out1" 2)) as (o & cs & Hm & F); [apply W|cbn; auto 10|].
  split.
  - change "o1" with (oport 1). apply (C72_output scales_rank n p history rs p' "out1" "out1" 2 o cs 1); auto.
    + rewrite Ee; discriminate.
    + left. exists "sc1", "o1". split; [apply Fd; cbn; auto 10|]. now symmetry.
  - change "o2" with (oport 2). apply (C72_output scales_rank n p history rs p' "out1" "out1" 2 o cs 2); auto.
    + rewrite Ee; discriminate.
    + left. exists "sc2", "o1". split; [apply Fd; cbn; auto 10|]. now symmetry.
Qed.

End C89.
Print Assumptions C89_maxima.
Print Assumptions C89_scales.

Import Properties.Definition.
(** Not vacuous: messages in four calls, one of them not later than those before. *)
Definition bumps : list (@opmsg QcOps) :=
  [[("i1", [im 1 5; im 2 9; im 3 4])]; [("i1", [im 3 80; im 4 6])]; [("i1", [im 7 6; im 8 2])]; [("i1", [im 9 3; im 10 1])]].

Example C89_example_hypothesis : Forall (Forall (fun pm => fst pm = "i1")) bumps.
Proof. repeat constructor. Qed.

Example C89_example_maxima :
  map show_msg (maxima_of (records (sent_to "i1" bumps))) = [(2, 9%Q); (4, 6%Q); (7, 6%Q); (9, 3%Q)] /\
  match new_prog (JT := a_text maxima_definition JNull) j0 "text" with
  | Ok p => let rs := fst (session 8 p bumps) in
    (map (fun r => match r with Ok _ => true | _ => false end) rs, map show_msg (answered rs "join" "o2"))
  | _ => ([], [])
  end = ([true; true; true; true], [(2, 9%Q); (4, 6%Q); (7, 6%Q); (9, 3%Q)]).
Proof. split; vm_compute; reflexivity. Qed.

Example C89_example_scales :
  match new_prog (JT := a_text scales_definition JNull) j0 "text" with
  | Ok p => let rs := fst (session 8 p bumps) in
    (map (fun r => match r with Ok _ => true | _ => false end) rs, map show_msg (answered rs "out1" "o2"))
  | _ => ([], [])
  end = ([true; true; true; true], [(1, 15%Q); (2, 27%Q); (3, 12%Q); (4, 18%Q); (7, 18%Q); (8, 6%Q); (9, 9%Q); (10, 3%Q)]).
Proof. vm_compute. reflexivity. Qed.
