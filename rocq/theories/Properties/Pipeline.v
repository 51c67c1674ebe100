(** * C48: a Pipeline behaves like its inner program, and hides it *)

From Coq Require Import String Ascii ZArith QArith Qcanon Bool List Lia.
From Verif Require Import Base.StrMap Base.Num Base.NumQc Model.Core Model.Ops Model.Make Model.Run Model.Graph Model.Json.
From Verif Require Import Spec.Shape Spec.Show Spec.Build Spec.Preserving Spec.Log Spec.Snapshot Spec.Definition Spec.Pipeline.
From Verif Require Import Proofs.Ports Proofs.MakeP Proofs.ShapeP Proofs.LogRun Proofs.Restored Proofs.LogProg Proofs.Increasing Proofs.JsonP Proofs.PipelineP Proofs.OneByOne.
From Verif Require Import Properties.Graph Properties.Definition.
Import ListNotations.
Open Scope string_scope.
Open Scope list_scope.
Open Scope rtbot_scope.

Section C48.
Context {NO : NumOps} {JT : JsonText}.

Lemma read_ops_origin f l : forall h h', read_ops f l h = Ok h' ->
  forall id o, sfind id h' = Some o -> sfind id h = Some o \/ exists j, In j l /\ f j = Ok o.
Proof.
  induction l as [|x l IH]; intros h h' H id o F; cbn [read_ops] in H; [injection H as <-; auto|].
  apply rbind_ok in H as (idj & _ & H). apply rbind_ok in H as (o1 & E & H). apply rbind_ok in H as (i & _ & H).
  apply (IH _ _ H) in F as [F|(j & I & Ej)]; [|right; exists j; split; [now right|auto]].
  rewrite sfind_semplace in F. destruct (sfind id h); [auto|]. destruct (String.eqb id i); [|discriminate F].
  injection F as <-. right. exists x. split; [now left|auto].
Qed.

Lemma read_op_pipeline g j o : read_op g j = Ok o -> is_pipeline o = true ->
  exists id prog, jat "prog" j = Ok prog /\ mk_pipeline (read_op g) id (dump prog) prog = Ok o.
Proof.
  intros H P. destruct (read_op_cases _ _ _ H) as (ty & _ & [(_ & id & prog & _ & E & M)|(_ & E)]); [eauto|].
  apply from_json_created in E. destruct (new_kept (with_conns [] o)) as (_ & _ & X); [exists o, []; auto|].
  destruct o as [b k]. unfold is_pipeline in *. cbn in *. congruence.
Qed.

(** the Pipelines of a created program *)
Lemma created_pipeline g text p id o : new_prog g text = Ok p -> sfind id (p_ops p) = Some o -> is_pipeline o = true ->
  exists b js h ins outs pm, o = Op b (KPipeline js h ins outs pm) /\ pipeline_spec h b ins outs pm.
Proof.
  intros H F P. unfold new_prog in H. apply rbind_ok in H as (j & _ & H).
  destruct (init_cases _ _ _ _ H) as (entry & filter & h0 & h' & cs & oe & _ & _ & _ & E & Ec & R & _ & [[_ ->]|[_ ->]]);
    cbn [p_ops] in F; [|discriminate F].
  destruct (read_conns_ok _ _ _ R) as (cs' & rs & _ & _ & Rw). specialize (Rw id). rewrite F in Rw.
  destruct (sfind id h0) as [o0|] eqn:F0; [|contradiction]. destruct Rw as [S _].
  unfold operators_of in E. apply rbind_ok in E as (xs & _ & E).
  apply (read_ops_origin _ _ _ _ E) in F0 as [F0|(x & _ & F0)]; [discriminate F0|].
  assert (P0 : is_pipeline o0 = true).
  { destruct (same_ports_fields _ _ S) as (_ & _ & _ & _ & K). unfold is_pipeline in *. now rewrite <- K. }
  destruct (read_op_pipeline _ _ _ F0 P0) as (i & prog & _ & M).
  destruct (mk_pipeline_spec _ _ _ _ _ M) as (h & b & ins & outs & pm & -> & SP & _).
  destruct o as [b' k']. destruct (same_ports_fields _ _ S) as (S1 & S2 & S3 & S4 & S5). cbn [op_base op_kind] in *. subst k'.
  exists b', (dump prog), h, ins, outs, pm. split; [reflexivity|].
  assert (T : o_toproc b' = o_toproc b).
  { unfold same_ports, unwired in S. apply (f_equal (fun o => o_toproc (op_base o))) in S. exact S. }
  assert (C : o_ctrl b' = o_ctrl b).
  { unfold same_ports, unwired in S. apply (f_equal (fun o => o_ctrl (op_base o))) in S. exact S. }
  destruct SP. constructor; auto; [now rewrite T|now rewrite C|intros name; now rewrite S2|intros name; now rewrite S1].
Qed.

(** ** C48: the inner operators are those of the program with the same definition *)
Theorem C48_inner (g : string -> junk) (j prog : json) (o : op) (text : string) (p : program) :
  read_op g j = Ok o -> is_pipeline o = true -> jat "prog" j = Ok prog ->
  init g text prog = Ok p -> p_ops p <> [] -> inner_of o = p_ops p.
Proof.
  intros H P E I NE. destruct (read_op_pipeline _ _ _ H P) as (id & prog' & E' & M). rewrite E in E'. injection E' as <-.
  destruct (mk_pipeline_spec _ _ _ _ _ M) as (h & b & ins & outs & pm & -> & _ & h0 & cs & E1 & E2 & E3). cbn.
  destruct (init_cases _ _ _ _ I) as (entry & filter & h1 & h' & cs' & oe & _ & _ & _ & F1 & F2 & F3 & _ & [[_ ->]|[_ ->]]);
    cbn [p_ops] in *; [|congruence].
  rewrite E1 in F1. injection F1 as <-. rewrite E2 in F2. injection F2 as <-. rewrite E3 in F3. now injection F3.
Qed.

(** ** C48: the ports of a Pipeline are the inner ports that are not connected inside, numbered
    in the order of the texts "id:port" *)
Theorem C48_ports (g : string -> junk) (text : string) (p : program) (id : string) (o : op) :
  new_prog g text = Ok p -> sfind id (p_ops p) = Some o -> is_pipeline o = true ->
  (forall i oi, sfind i (inner_of o) = Some oi -> has_colon i = false) ->
  (forall name, In name (skeys (o_data (op_base o))) <-> exists i port, input_is (inner_of o) name i port) /\
  (forall name, In name (o_outs (op_base o)) <-> exists i port, output_is (inner_of o) name i port) /\
  (forall i port, free_input (inner_of o) i port -> exists name, input_is (inner_of o) name i port) /\
  (forall i port, free_output (inner_of o) i port -> exists name, output_is (inner_of o) name i port).
Proof.
  intros H F P PL. destruct (created_pipeline _ _ _ _ _ H F P) as (b & js & h & ins & outs & pm & -> & PS).
  cbn [inner_of op_kind op_base] in *. unfold input_is, output_is.
  pose proof (fun n i q => numbered_at (free_input h) iport (skeys ins) n i q (ps_ins_sorted _ _ _ _ _ PS) (ps_ins _ _ _ _ _ PS PL)) as NI.
  pose proof (fun n i q => numbered_at (free_output h) oport (skeys outs) n i q (ps_outs_sorted _ _ _ _ _ PS) (ps_outs _ _ _ _ _ PS PL)) as NO'.
  assert (XI : forall i q, free_input h i q -> exists k, nth_error (skeys ins) k = Some (i ++ ":" ++ q)%string).
  { intros i q Fr. apply In_nth_error. apply (ps_ins _ _ _ _ _ PS PL). eauto. }
  assert (XO : forall i q, free_output h i q -> exists k, nth_error (skeys outs) k = Some (i ++ ":" ++ q)%string).
  { intros i q Fr. apply In_nth_error. apply (ps_outs _ _ _ _ _ PS PL). eauto. }
  split; [|split; [|split]].
  - intros name. rewrite (ps_data_names _ _ _ _ _ PS). split.
    + intros (k & L & ->). destruct (nth_error (skeys ins) k) as [key|] eqn:E; [|apply nth_error_None in E; lia].
      pose proof (nth_error_In _ _ E) as I. apply (ps_ins _ _ _ _ _ PS PL) in I as (i & q & -> & Fr).
      exists i, q. apply NI. eauto.
    + intros (i & q & X). apply NI in X as (k & E & _ & ->). exists k. split; [|auto]. apply nth_error_Some. congruence.
  - intros name. rewrite (ps_out_names _ _ _ _ _ PS). split.
    + intros (k & L & ->). destruct (nth_error (skeys outs) k) as [key|] eqn:E; [|apply nth_error_None in E; lia].
      pose proof (nth_error_In _ _ E) as I. apply (ps_outs _ _ _ _ _ PS PL) in I as (i & q & -> & Fr).
      exists i, q. apply NO'. eauto.
    + intros (i & q & X). apply NO' in X as (k & E & _ & ->). exists k. split; [|auto]. apply nth_error_Some. congruence.
  - intros i q Fr. destruct (XI _ _ Fr) as [k E]. exists (iport (S k)). apply NI. eauto.
  - intros i q Fr. destruct (XO _ _ Fr) as [k E]. exists (oport (S k)). apply NO'. eauto.
Qed.

(** ** C48, behaviour: message after message (received, then executed), the Pipeline computes
    what the inner operators, as a program of their own, report for their free outputs when
    given the same messages; and if the inner program fails the Pipeline fails in the same way.
    Missing: several messages received before one execution, and ids that contain a colon
    (refuted below) *)
Theorem C48_behaves_partial (g : string -> junk) (text : string) (p : program) (id : string) (o : op)
    (n : nat) (messages : list (string * msg)) (inner_messages : list (string * string * msg)) :
  new_prog g text = Ok p -> sfind id (p_ops p) = Some o -> is_pipeline o = true ->
  (forall i oi, sfind i (inner_of o) = Some oi -> has_colon i = false) ->
  Forall2 (fun x y => input_is (inner_of o) (fst x) (fst (fst y)) (snd (fst y)) /\ snd x = snd y) messages inner_messages ->
  match program_calls n (inner_of o) inner_messages with
  | (Ok rs, h') => exists oms o', pipe_calls n o messages = (Ok oms, o') /\ inner_of o' = h' /\
                     Forall2 (shows (inner_of o)) rs oms
  | (failure, _) => same_failure failure (fst (pipe_calls n o messages))
  end.
Proof.
  intros H F P PL M. destruct (created_pipeline _ _ _ _ _ H F P) as (b & js & h & ins & outs & pm & -> & PS).
  cbn [inner_of op_kind op_base] in *.
  pose proof (pipe_calls_ok h b ins outs pm js PS PL n _ _ M h eq_refl) as X. unfold piped in X.
  destruct (program_calls n h inner_messages) as [[rs| | | |] h']; auto.
  destruct X as (oms & E & S). exists oms, (Op b (KPipeline js h' ins outs pm)). auto.
Qed.

(** ** C48, in a program: in any program, with any batch, an operator (a Pipeline too) computes
    in each call what it computes when called by itself like this *)
Theorem C28_pipelines (n : nat) (p : program) (batch : opmsg) (r : progmsg) (p' : program) :
  wf_heap (p_ops p) -> named (p_ops p) -> receive_debug n p batch = (Ok r, p') ->
  exists l : list entry,
    lsend_all n (p_entry p) (batch_messages batch) (p_ops p) = (Ok l, p_ops p') /\
    replays_all (p_ops p) l (p_ops p') /\
    forall id port, result_at r id port = emitted id port l.
Proof.
  intros W N E. destruct (C28_result _ _ _ _ _ W N E) as (l & L & _ & _ & _ & R & _). exists l. split; [exact L|].
  split; [eapply lsend_all_replays_all; eauto|exact R].
Qed.

(** so a Pipeline that gets its messages one by one behaves like its inner program *)
Theorem C48_program_partial (g : string -> junk) (text : string) (p : program) (id : string) (o : op)
    (n : nat) (batch : opmsg) (r : progmsg) (p' : program) :
  new_prog g text = Ok p -> sfind id (p_ops p) = Some o -> is_pipeline o = true ->
  (forall i oi, sfind i (inner_of o) = Some oi -> has_colon i = false) ->
  receive_debug n p batch = (Ok r, p') ->
  exists l : list entry,
    lsend_all n (p_entry p) (batch_messages batch) (p_ops p) = (Ok l, p_ops p') /\
    (forall port, result_at r id port = emitted id port l) /\
    forall messages inner_messages,
      calls id l = one_by_one messages ->
      Forall2 (fun x y => input_is (inner_of o) (fst x) (fst (fst y)) (snd (fst y)) /\ snd x = snd y) messages inner_messages ->
      exists n' rs h' oms,
        program_calls n' (inner_of o) inner_messages = (Ok rs, h') /\
        returned id l = flat_map (fun om => [[]; om]) oms /\ Forall2 (shows (inner_of o)) rs oms.
Proof.
  intros H F P PL E. destruct (created_well_formed _ _ _ H) as [W N].
  destruct (C28_pipelines _ _ _ _ _ W N E) as (l & L & RP & R). exists l. split; [exact L|]. split; [intros; apply R|].
  intros ms ims C M. destruct (RP id o F) as (o' & _ & n0 & X). specialize (X n0 (Nat.le_refl _)). rewrite C in X.
  apply one_by_one_calls in X as (oms & Eo & Pc).
  pose proof (C48_behaves_partial g text p id o n0 ms ims H F P PL M) as B. rewrite Pc in B.
  destruct (program_calls n0 (inner_of o) ims) as [[rs| | | |] h'] eqn:Q; cbn in B; try contradiction.
  destruct B as (oms' & o'' & [= <- _] & _ & S). exists n0, rs, h', oms. auto.
Qed.

(** ** C48, whole histories without a failure: if outputs that go to the Pipeline go to nothing
    else, it gets its messages one by one, and what it emits over the history is what the
    inner program reports over the history of these messages *)
Theorem C48_history_partial (g : string -> junk) (text : string) (p : program) (id : string) (o : op)
    (rank : string -> nat) (n : nat) (batches : list opmsg) (results : list progmsg) (p' : program) :
  new_prog g text = Ok p -> sfind id (p_ops p) = Some o -> is_pipeline o = true ->
  (forall i oi, sfind i (inner_of o) = Some oi -> has_colon i = false) ->
  fed_directly (p_ops p) id -> p_entry p <> id -> ranked rank (p_ops p) ->
  receive_all n p batches = (Ok results, p') ->
  exists l messages inner_messages n' inner_results h',
    lsend_all n (p_entry p) (flat_map batch_messages batches) (p_ops p) = (Ok l, p_ops p') /\
    calls id l = one_by_one messages /\
    Forall2 (fun x y => input_is (inner_of o) (fst x) (fst (fst y)) (snd (fst y)) /\ snd x = snd y) messages inner_messages /\
    program_calls n' (inner_of o) inner_messages = (Ok inner_results, h') /\
    forall name i port, output_is (inner_of o) name i port ->
      flat_map (fun r => result_at r id name) results = flat_map (fun r => result_at r i port) inner_results.
Proof.
  intros H F P PL FD NE RK E. destruct (created_well_formed _ _ _ H) as [W N].
  destruct (receive_all_log _ _ _ _ _ W N E) as (l & L & R).
  destruct (created_pipeline _ _ _ _ _ H F P) as (b & js & h & ins & outs & pm & -> & PS).
  assert (O : obo (erase_heap (p_ops p)) id (calls id l)).
  { eapply send_all_obo; [..|exact L].
    - intros src port q I. rewrite wires_erase in *. unfold wires in *. destruct (sfind src (p_ops p)) as [os|] eqn:Fs; [|destruct I].
      exact (FD src os port q Fs I).
    - intros oe q Fe. rewrite sfind_erase, F in Fe. assert (X : forall a b : op, Some a = Some b -> a = b) by congruence. apply X in Fe. subst oe. rewrite erase_is_ctrl.
      unfold is_control_input. cbn [op_base]. rewrite (ps_ctrl _ _ _ _ _ PS). reflexivity.
    - auto.
    - repeat split; auto; apply W. }
  destruct O as (ms & C & Fd).
  assert (M : exists ims, Forall2 (fun x y => input_is h (fst x) (fst (fst y)) (snd (fst y)) /\ snd x = snd y) ms ims).
  { clear C. induction Fd as [|[q m] ms (oe & Fe & D) _ IH]; [exists []; constructor|]. destruct IH as [ims IH].
    rewrite sfind_erase, F in Fe. assert (Y : forall a b : op, Some a = Some b -> a = b) by congruence. apply Y in Fe. subst oe. rewrite erase_is_data in D. cbn [fst] in D.
    destruct (C48_ports g text p id _ H F P PL) as (X & _). unfold is_data_input in D. unfold shas in D. destruct (sfind q (o_data (op_base (Op b (KPipeline js h ins outs pm))))) as [w|] eqn:D0; [|discriminate D]. clear D. rename D0 into D.
    apply sfind_In_key, X in D as (i & port & D). exists ((i, port, m) :: ims). constructor; auto. }
  destruct M as [ims M]. pose proof (lsend_all_replays_all _ _ _ _ _ _ W N L) as RP.
  destruct (RP id _ F) as (o' & _ & n0 & X). specialize (X n0 (Nat.le_refl _)). rewrite C in X.
  apply one_by_one_calls in X as (oms & Eo & Pc).
  pose proof (C48_behaves_partial g text p id _ n0 ms ims H F P PL M) as B. rewrite Pc in B.
  cbn [inner_of op_kind] in *.
  destruct (program_calls n0 h ims) as [[rs| | | |] h'] eqn:Q; cbn in B; try contradiction.
  destruct B as (oms' & o'' & [= <- _] & _ & S). exists l, ms, ims, n0, rs, h'. do 4 (split; [auto|]).
  intros name i port Ou. rewrite R, (lsend_all_balanced rank _ _ _ _ _ _ W N RK L), Eo. clear - S Ou.
  induction S as [|r om rs oms [S _] _ IH]; [reflexivity|]. cbn [flat_map app on_port]. unfold on_port in IH. rewrite <- IH.
  change (match sfind name [] with Some ms => ms | None => @nil msg end) with (@nil msg). cbn [app]. f_equal.
  rewrite <- (S _ _ _ Ou). unfold portmsg. now destruct (sfind name om).
Qed.

(** ** C48, hiding: results only mention operators of the definition itself, not those inside
    its Pipelines *)
Lemma created_closed g text p : new_prog g text = Ok p -> closed (p_ops p).
Proof.
  intros H. unfold new_prog in H. apply rbind_ok in H as (j & _ & H).
  destruct (init_cases _ _ _ _ H) as (entry & filter & h0 & h' & cs & oe & _ & _ & _ & E & Ec & R & _ & [[_ ->]|[_ ->]]);
    cbn [p_ops].
  - destruct (read_conns_ok _ _ _ R) as (cs' & rs & _ & F & Rw). destruct (operators_good _ _ _ E) as [_ Z].
    now destruct (wired_new _ _ _ _ Z F Rw) as (_ & C & _).
  - intros a b (port & q & []).
Qed.

Theorem C48_hidden (g : string -> junk) (text : string) (j : json) (p0 : program) (ops : heap)
    (n n' : nat) (history : list opmsg) (batch : opmsg) (r : progmsg) (p' : program) (id : string) (om : opmsg) :
  parse text = Ok j -> operators_of g j = Ok ops -> new_prog g text = Ok p0 ->
  receive_debug n' (snd (session n p0 history)) batch = (Ok r, p') ->
  sfind id r = Some om -> exists o, sfind id ops = Some o.
Proof.
  intros P O H E F. destruct (created_well_formed _ _ _ H) as [W0 N0].
  destruct (session_shape n history p0 W0 N0) as (W & N & Er & _). set (p := snd (session n p0 history)) in *.
  assert (C : closed (p_ops p)) by (eapply closed_same; [exact Er|]; eapply created_closed; eauto).
  destruct (result_ids _ _ _ _ _ W N C E _ _ (sfind_In _ _ _ F)) as [o Fo].
  destruct (erase_heap_find _ _ _ _ Er Fo) as (o0 & F0 & _).
  assert (NE : p_ops p0 <> []) by (intros X; rewrite X in F0; discriminate F0).
  destruct (C41_creation _ _ _ _ P H NE) as (ops' & conns & ports & E1 & _ & _ & K & _).
  rewrite O in E1. injection E1 as <-. apply sfind_In_key in F0. rewrite K in F0. now apply In_skeys_sfind.
Qed.
End C48.

(** ** C48 refuted for ids that contain a colon: a Pipeline around such an operator is accepted,
    but refuses every message, while the inner operators by themselves answer each *)
Section C48_colon.
Context {NO : NumOps} {JT : JsonText}.

Definition colon_inner : json := jobj [
  ("operators", JArr [definition "Input" "a:x" []]); ("connections", JArr []); ("entryOperator", JStr "a:x")].
Definition colon_definition : json := jobj [
  ("entryOperator", JStr "p");
  ("operators", JArr [jobj [("type", JStr "Pipeline"); ("id", JStr "p"); ("prog", colon_inner)]]);
  ("connections", JArr [])].

Theorem C48_colon_refuted (g : string -> junk) (text inner_text : string) :
  parse text = Ok colon_definition -> parse inner_text = Ok colon_inner ->
  exists p q, new_prog g text = Ok p /\ new_prog g inner_text = Ok q /\
    forall (n : nat) (m : msg),
      (exists x, fst (receive_debug (S (S n)) p [("i1", [m])]) = Throw x) /\
      fst (receive_debug (S (S n)) q [("i1", [m])]) = Ok [("a:x", [("o1", [m])])].
Proof.
  intros P Q. unfold new_prog. rewrite P, Q. eexists _, _. split; [reflexivity|]. split; [reflexivity|].
  intros n m. split; [eexists; reflexivity|reflexivity].
Qed.

(** ** C48 refuted when a Pipeline gets two messages before it is executed: here both from
    [in] directly and through [x].  The Pipeline receives the message and then the shifted
    message, and only answers the second; the inner program answers both *)
Definition pending_inner : json := jobj [
  ("operators", JArr [definition "Input" "a" []]); ("connections", JArr []); ("entryOperator", JStr "a")].
Definition pending_definition : json := jobj [
  ("entryOperator", JStr "in");
  ("operators", JArr [definition "Input" "in" []; definition "TimeShift" "x" [("dt", JInt 1)];
                      jobj [("type", JStr "Pipeline"); ("id", JStr "p"); ("prog", pending_inner)]]);
  ("connections", JArr [jobj [("from", JStr "in"); ("to", JStr "x")]; jobj [("from", JStr "in"); ("to", JStr "p")];
                        jobj [("from", JStr "x"); ("to", JStr "p")]])].

Theorem C48_pending_refuted (g : string -> junk) (text inner_text : string) :
  parse text = Ok pending_definition -> parse inner_text = Ok pending_inner ->
  exists p q, new_prog g text = Ok p /\ new_prog g inner_text = Ok q /\
    forall (n : nat) (v : V), let m := mkMsg 1 v in let later := mkMsg 2 v in
      exists l,
        fst (lsend_all (8 + n) "in" [("i1", m)] (p_ops p)) = Ok l /\
        calls "p" l = [EData "i1" m; EData "i1" later; EExec; EExec] /\
        emitted "p" "o1" l = [later] /\
        match fst (session (8 + n) q [[("i1", [m])]; [("i1", [later])]]) with
        | [Ok r1; Ok r2] => result_at r1 "a" "o1" ++ result_at r2 "a" "o1" = [m; later]
        | _ => False
        end.
Proof.
  intros P Q. unfold new_prog. rewrite P, Q. eexists _, _. split; [reflexivity|]. split; [reflexivity|].
  intros n v.
  eexists. split; [reflexivity|]. split; [reflexivity|]. split; reflexivity.
Qed.
End C48_colon.

Print Assumptions C48_inner.
Print Assumptions C48_ports.
Print Assumptions C48_behaves_partial.
Print Assumptions C28_pipelines.
Print Assumptions C48_program_partial.
Print Assumptions C48_history_partial.
Print Assumptions C48_hidden.
Print Assumptions C48_colon_refuted.
Print Assumptions C48_pending_refuted.

(** ** Examples: in -> Pipeline around (a -> moving average b) *)
Definition piped_ma : @json QcOps := obj [
  ("entryOperator", JStr "in");
  ("operators", JArr [definition "Input" "in" []; a_pipe]);
  ("connections", JArr [a_conn "in" "p"])].
Definition piped_program : res (@program QcOps) := new_prog (JT := a_text piped_ma inner_ma) j0 "text".
Definition piped_op : option (@op QcOps) :=
  match piped_program with Ok p => sfind "p" (p_ops p) | _ => None end.
Definition ma_batch : @opmsg QcOps := [("i1", [im 1 3; im 2 6; im 3 9; im 4 12])].
Definition show_ev (e : @ev QcOps) : option (string * (Z * Q)) :=
  match e with EData port m => Some (port, show_msg m) | _ => None end.

(** the Pipeline reports its own port; inner operators do not appear *)
Example C48_result_example :
  match piped_program with
  | Ok p => match fst (receive_debug 50 p ma_batch) with Ok r => map (fun x => (fst x, show_om (snd x))) r | _ => [] end
  | _ => []
  end = [("in", [("o1", [(1, 3%Q); (2, 6%Q); (3, 9%Q); (4, 12%Q)])]); ("p", [("o1", [(3, 6%Q); (4, 9%Q)])])].
Proof. vm_compute. reflexivity. Qed.

(** it gets its messages one by one *)
Example C48_calls_example :
  match piped_program with
  | Ok p => match fst (lsend_all 50 "in" (batch_messages ma_batch) (p_ops p)) with
            | Ok l => (map show_ev (calls "p" l), map show_om (returned "p" l))
            | _ => ([], [])
            end
  | _ => ([], [])
  end = (map show_ev (one_by_one (map (pair "i1") [im 1 3; im 2 6; im 3 9; im 4 12])),
         flat_map (fun om => [[]; om]) [[]; []; [("o1", [(3, 6%Q)])]; [("o1", [(4, 9%Q)])]]).
Proof. vm_compute. reflexivity. Qed.

(** what the inner operators report by themselves *)
Example C48_inner_example :
  match piped_op with
  | Some o => match fst (program_calls 50 (inner_of o) (map (pair ("a", "i1")) [im 1 3; im 2 6; im 3 9; im 4 12])) with
              | Ok rs => map (fun r => map show_msg (result_at r "b" "o1")) rs
              | _ => []
              end
  | None => []
  end = [[]; []; [(3, 6%Q)]; [(4, 9%Q)]].
Proof. vm_compute. reflexivity. Qed.

Lemma one_key (free : string -> string -> Prop) mk id port : free id port ->
  (forall i p, free i p -> i = id /\ p = port) -> numbered free mk (mk 1%nat) id port.
Proof.
  intros F U. exists [(id ++ ":" ++ port)%string], 0%nat. split; [repeat constructor|]. split; [|auto].
  intros key. split.
  - intros [<-|[]]. eauto.
  - intros (i & p & -> & Fr). destruct (U _ _ Fr) as [-> ->]. now left.
Qed.

(** its input "i1" is "i1" of [a], its output "o1" is "o1" of [b] *)
Example C48_ports_example :
  match piped_op with
  | Some o => is_pipeline o = true /\ (forall i oi, sfind i (inner_of o) = Some oi -> has_colon i = false) /\
              input_is (inner_of o) "i1" "a" "i1" /\ output_is (inner_of o) "o1" "b" "o1"
  | None => False
  end.
Proof.
  assert (X : exists o oa ob, piped_op = Some o /\ inner_of o = [("a", oa); ("b", ob)] /\ skeys (o_data (op_base oa)) = ["i1"] /\ skeys (o_data (op_base ob)) = ["i1"] /\
    o_outs (op_base oa) = ["o1"] /\ o_outs (op_base ob) = ["o1"] /\ o_conns (op_base oa) = [("o1", [("b", "i1")])] /\ o_conns (op_base ob) = [] /\ is_pipeline o = true).
  { eexists _, _, _. split; [reflexivity|]. split; [reflexivity|]. repeat split; reflexivity. }
  destruct X as (o & oa & ob & -> & -> & Da & Db & Oa & Ob & Ca & Cb & P). split; [exact P|].
  assert (Ta : forall p, targets oa p = if String.eqb p "o1" then [("b", "i1")] else []).
  { intros p. unfold targets. rewrite Ca. cbn [sfind]. now destruct (String.eqb p "o1"). }
  assert (Tb : forall p, targets ob p = []) by (intros p; unfold targets; now rewrite Cb).
  assert (C : forall i oi, sfind i [("a", oa); ("b", ob)] = Some oi -> (i = "a" /\ oi = oa) \/ (i = "b" /\ oi = ob)).
  { intros i oi. cbn [sfind]. destruct (String.eqb_spec i "a"); [intros [= <-]; auto|]. destruct (String.eqb_spec i "b"); [intros [= <-]; auto|discriminate]. }
  split; [intros i oi F; destruct (C _ _ F) as [[-> _]|[-> _]]; reflexivity|]. split.
  - apply one_key.
    + split; [exists oa; rewrite Da; split; [reflexivity|now left]|]. intros src o' p F I.
      destruct (C _ _ F) as [[-> ->]|[-> ->]]; [rewrite Ta in I|rewrite Tb in I; contradiction].
      destruct (String.eqb p "o1"); [destruct I as [I|[]]; discriminate I|contradiction].
    + intros i p ((o' & F & I) & U). destruct (C _ _ F) as [[-> ->]|[-> ->]].
      * rewrite Da in I. destruct I as [<-|[]]. auto.
      * rewrite Db in I. destruct I as [<-|[]]. exfalso. apply (U "a" oa "o1" eq_refl). rewrite Ta. now left.
  - apply one_key.
    + exists ob. rewrite Ob. repeat split; auto. now left.
    + intros i p (o' & F & I & T). destruct (C _ _ F) as [[-> ->]|[-> ->]].
      * rewrite Oa in I. destruct I as [<-|[]]. rewrite Ta in T. discriminate T.
      * rewrite Ob in I. destruct I as [<-|[]]. auto.
Qed.

(** the hypotheses of [C48_history_partial] *)
Example C48_history_example :
  match piped_program with
  | Ok p => fed_directly (p_ops p) "p" /\ p_entry p <> "p" /\ ranked (fun id => if String.eqb id "in" then 1 else 0)%nat (p_ops p)
  | _ => False
  end.
Proof.
  assert (X : exists p oi op, piped_program = Ok p /\ p_ops p = [("in", oi); ("p", op)] /\ p_entry p = "in" /\
    o_conns (op_base oi) = [("o1", [("p", "i1")])] /\ o_conns (op_base op) = []).
  { eexists _, _, _. split; [reflexivity|]. repeat split; reflexivity. }
  destruct X as (p & oi & op & -> & E & Ee & Ci & Cp). rewrite E, Ee.
  assert (Ti : forall q, targets oi q = if String.eqb q "o1" then [("p", "i1")] else []).
  { intros q. unfold targets. rewrite Ci. cbn [sfind]. now destruct (String.eqb q "o1"). }
  assert (Tp : forall q, targets op q = []) by (intros q; unfold targets; now rewrite Cp).
  assert (C : forall i o, sfind i [("in", oi); ("p", op)] = Some o -> (i = "in" /\ o = oi) \/ (i = "p" /\ o = op)).
  { intros i o. cbn [sfind]. destruct (String.eqb_spec i "in"); [intros [= <-]; auto|]. destruct (String.eqb_spec i "p"); [intros [= <-]; auto|discriminate]. }
  split; [|split; [discriminate|]].
  - intros src o port q F I. destruct (C _ _ F) as [[-> ->]|[-> ->]]; [|rewrite Tp in I; destruct I].
    rewrite Ti in *. destruct (String.eqb port "o1"); [|destruct I]. destruct I as [[= <-]|[]]. reflexivity.
  - intros a b (port & q & I). unfold wires in I. destruct (sfind a [("in", oi); ("p", op)]) as [o|] eqn:F; [|destruct I].
    destruct (C _ _ F) as [[-> ->]|[-> ->]].
    + change (In (b, q) (targets oi port)) in I. rewrite Ti in I. destruct (String.eqb port "o1"); [|destruct I].
      destruct I as [[= <- <-]|[]]. auto.
    + change (In (b, q) (targets op port)) in I. rewrite Tp in I. destruct I.
Qed.
