(** * C74-C78: running programs with the JavaScript module *)

From Coq Require Import String Ascii ZArith QArith Bool List Lia Sorted PeanoNat.
From Verif Require Import Base.StrMap Base.Num Base.NumQc Model.Core Model.Make Model.Graph Model.Codec Model.Json Model.Factory Model.Schema Model.Wrapper Model.Javascript.
From Verif Require Import Spec.Shape Spec.Show Spec.Build Spec.Manager Spec.Definition Spec.Schema Spec.Wrapper Spec.Javascript Spec.Log.
From Verif Require Import Proofs.Ports Proofs.ShapeP Proofs.FactoryP Proofs.JsonP Proofs.SchemaP Proofs.SchemaNew Proofs.Emitted Proofs.WrapperP Proofs.WrapperRun.
From Verif Require Import Proofs.Refuse Proofs.JavascriptP Proofs.Overlap Proofs.Jammed.
From Verif Require Import Properties.Definition Properties.Manager Properties.Schema Properties.Wrapper.
Import ListNotations.
Open Scope string_scope.
Open Scope list_scope.
Open Scope Z_scope.
Open Scope rtbot_scope.

Section Javascript.
Context {NO : NumOps} {SL : SchemaLib} {JT : JsonText} {NC : NumCodec NO} {JR : JsRuntime}.

(** ** C74: [run] of RtBotRun adds to the outputs what the program, alone and new, answers to the
    rows, in order and under "operator:port"; nothing of the run is left.  (For times below 2^32
    and rows with a value for every entry port.) *)
Theorem C74_run_partial (n : nat) (id : string) (g : string -> junk) (text : string) (rows : list row) (t : js_table) (m : manager)
    (p p' : program) (ports : list string) (outs : list progmsg) :
  faithful -> reachable_manager m -> sfind id (f_programs m) = None -> sfind id (f_buffer m) = None ->
  validate text = Ok true -> new_prog g text = Ok p -> entry_ports p = Ok (RPorts ports) ->
  Forall (row_full ports) rows ->
  fed n ports rows p = (Ok outs, p') ->
  exists t', js_run n id g text rows t m = (Ok tt, (t', m)) /\
    forall op port, no_colon port = true ->
      odefault [] (sfind (op ++ ":" ++ port)%string t') =
      odefault [] (sfind (op ++ ":" ++ port)%string t) ++ map js_show (of_port op port outs).
Proof.
  intros R W N B V E P F X.
  destruct (js_run_ok n id g text rows t m p ports outs p' R (reachable_wf m W) N B V E P F X) as (t' & Et & K).
  exists t'. split; [exact Et|]. intros op port C. etransitivity; [apply (K (table_key op port))|].
  assert (Z := fed_ports n ports rows p outs p' (proj1 (new_prog_good _ _ _ E)) (new_outs _ _ _ E) X).
  change (op ++ ":" ++ port)%string with (table_key op port). f_equal. f_equal. apply under_port; [exact C|].
  intros out op' om port' ms I1 I2 I3. rewrite Forall_forall in Z. exact (Z out I1 op' om port' ms I2 I3).
Qed.

(** Times from 2^32 on (which the milliseconds of today's dates exceed) never reach the outputs:
    the count of one message has another time, or there is an exception. *)
Theorem C74_times_refuted (n : nat) (g : string -> junk) (text : string) (time : Z) (v : V) (t' : js_table) (m' : manager) :
  narrow -> parse text = Ok counter -> 2 ^ 32 <= time ->
  js_run (S n) "a" g text [(time, [v])] [] no_programs = (Ok tt, (t', m')) ->
  exists u, t' = [("c:o1", [js_show (mkMsg u (vofZ 1))])] /\ u <> time.
Proof.
  intros N P T. unfold js_run, js_create, create_checked, create_text, validate, new_prog. rewrite P.
  replace (valid program_schema counter) with true by reflexivity. cbn [rbind].
  let x := eval vm_compute in (init g text counter) in replace (init g text counter) with x by (vm_compute; reflexivity).
  cbn. unfold js_process. cbn. unfold js_add. cbn [fst snd].
  destruct (js_ulong time) as [u| | | |] eqn:U; try discriminate. apply N in U.
  destruct (js_double (Some v)) as [w| | | |]; try discriminate. intros E. exists u. split; [|lia].
  destruct n; cbn in E; injection E as <- <-; reflexivity.
Qed.

(** A row that lacks a value is processed as well, with whatever C++ gets for [undefined]. *)
Theorem C74_missing_refuted (n : nat) (g : string -> junk) (text : string) (w : V) :
  faithful -> js_double None = Ok w -> parse text = Ok counter ->
  exists m', js_run (S n) "a" g text [(1, [])] [] no_programs = (Ok tt, ([("c:o1", [js_show (mkMsg 1 (vofZ 1))])], m')).
Proof.
  intros [F _] D P. unfold js_run, js_create, create_checked, create_text, validate, new_prog. rewrite P.
  replace (valid program_schema counter) with true by reflexivity. cbn [rbind].
  let x := eval vm_compute in (init g text counter) in replace (init g text counter) with x by (vm_compute; reflexivity).
  cbn. unfold js_process. cbn. unfold js_add. cbn [fst snd]. rewrite F by lia. rewrite D.
  eexists. destruct n; reflexivity.
Qed.

(** ** C75: a run that is repeated does not give the same outputs: every list is there twice *)
Theorem C75_again_refuted (n : nat) (id : string) (g : string -> junk) (text : string) (rows : list row) (m : manager)
    (p p' : program) (ports : list string) (outs : list progmsg) :
  faithful -> reachable_manager m -> sfind id (f_programs m) = None -> sfind id (f_buffer m) = None ->
  validate text = Ok true -> new_prog g text = Ok p -> entry_ports p = Ok (RPorts ports) ->
  Forall (row_full ports) rows ->
  fed n ports rows p = (Ok outs, p') ->
  exists t1 t2, js_run n id g text rows [] m = (Ok tt, (t1, m)) /\ js_run n id g text rows t1 m = (Ok tt, (t2, m)) /\
    forall k, odefault [] (sfind k t2) = odefault [] (sfind k t1) ++ odefault [] (sfind k t1).
Proof.
  intros R W N B V E P F X.
  destruct (js_run_ok n id g text rows [] m p ports outs p' R (reachable_wf m W) N B V E P F X) as (t1 & E1 & K1).
  destruct (js_run_ok n id g text rows t1 m p ports outs p' R (reachable_wf m W) N B V E P F X) as (t2 & E2 & K2).
  exists t1, t2. split; [exact E1|]. split; [exact E2|]. intros k. rewrite K2. f_equal. symmetry. exact (K1 k).
Qed.

(** With a new object (no outputs yet) a run that succeeded can be repeated with the same result. *)
Theorem C75_new_object_partial (n : nat) (id : string) (g : string -> junk) (text : string) (rows : list row) (m : manager)
    (p p' : program) (ports : list string) (outs : list progmsg) :
  faithful -> reachable_manager m -> sfind id (f_programs m) = None -> sfind id (f_buffer m) = None ->
  validate text = Ok true -> new_prog g text = Ok p -> entry_ports p = Ok (RPorts ports) ->
  Forall (row_full ports) rows ->
  fed n ports rows p = (Ok outs, p') ->
  js_run n id g text rows [] (snd (snd (js_run n id g text rows [] m))) = js_run n id g text rows [] m.
Proof.
  intros R W N B V E P F X.
  destruct (js_run_ok n id g text rows [] m p ports outs p' R (reachable_wf m W) N B V E P F X) as (t1 & E1 & K1).
  rewrite E1. exact E1.
Qed.

Lemma process_keeps d n id ms m : shas id (f_programs m) = true -> shas id (f_programs (snd (js_process d n id ms m))) = true.
Proof.
  intros S. unfold js_process.
  assert (X : shas id (f_programs (snd (js_prepare id ms m))) = true).
  { apply (js_prepare_ind id (fun m => shas id (f_programs m) = true)); [|exact S]. intros m0 port x H. now rewrite add_programs. }
  destruct (js_prepare id ms m) as [[u| | | |] m1]; cbn [bind sbind snd] in *; auto.
  assert (Y : shas id (f_programs (snd (process_buffer d n id m1))) = true).
  { unfold process_buffer. rewrite X. destruct (sfind id (f_buffer m1)) as [[|y b]|]; auto.
    unfold process_map. destruct (sfind id (f_programs m1)) as [p|]; auto. destruct (receive_as d n p (y :: b)) as [[r| | | |] p1];
      cbn [rbind bind sbind snd set_programs set_buffer f_programs]; unfold shas; now rewrite sfind_sset_same. }
  destruct (process_buffer d n id m1) as [[r| | | |] m2]; cbn [bind sbind snd] in *; auto. destruct r; auto.
Qed.

(** A run that does not succeed leaves its program. *)
Theorem C75_left (n : nat) (id : string) (g : string -> junk) (text : string) (rows : list row) (t t' : js_table) (m m' : manager)
    (p : program) (ports : list string) (r : res unit) :
  validate text = Ok true -> new_prog g text = Ok p -> sfind id (f_programs m) = None -> entry_ports p = Ok (RPorts ports) ->
  js_run n id g text rows t m = (r, (t', m')) -> r <> Ok tt ->
  shas id (f_programs m') = true.
Proof.
  intros V E N P R F. rewrite (js_run_start n id g text rows t m p ports N V E P) in R.
  assert (K : forall rows t m, shas id (f_programs m) = true -> shas id (f_programs (snd (snd (js_rows n id ports rows t m)))) = true).
  { clear. induction rows as [|[time vs] rows IH]; intros t m S; cbn [js_rows]; [exact S|].
    pose proof (process_keeps true n id (js_row ports time vs) m S) as X.
    destruct (js_process true n id (js_row ports time vs) m) as [[out| | | |] m1]; cbn [snd] in *; auto. }
  specialize (K rows t (with_p id p m)). unfold shas in K at 1. rewrite with_p_find in K. specialize (K eq_refl).
  destruct (js_rows n id ports rows t (with_p id p m)) as [[u| | | |] [t1 m1]]; cbn [bind sbind fst snd] in *; try (now injection R as <- <- <-).
Qed.

(** ** C76: messages sent one after the other, each when the one before has been answered *)
Theorem C76_messages_partial (n : nat) (id : string) (g : string -> junk) (text : string) (m : manager) (p p' : program)
    (ports : list string) (cs : list said) (outs : list progmsg) :
  faithful -> reachable_manager m -> sfind id (f_programs m) = None -> sfind id (f_buffer m) = None ->
  validate text = Ok true -> new_prog g text = Ok p -> entry_ports p = Ok (RPorts ports) ->
  Forall (fun c => fits32 (snd (fst (fst c))) /\ port_of (hd_error ports) c <> Some "") cs ->
  alone n (hd_error ports) cs p = Ok (outs, p') ->
  exists m', js_acts n id (JsStart g text :: map message_of cs) (None, m) =
      (Done (Ok tt) :: map (fun out => Answer (Ok out)) outs, (hd_error ports, m')) /\
    sfind id (f_programs m') = Some p' /\ snd (js_stop id m') = m.
Proof.
  intros R W N B V E P F A. pose proof (reachable_wf m W) as Wm.
  assert (X : js_start id g text m = (Ok (hd_error ports), with_p id p m)).
  { unfold js_start, js_create, create_checked. rewrite V. unfold create_text. rewrite E. cbn [bind sbind].
    assert (X : set_programs m (semplace id p (f_programs m)) = with_p id p m) by (unfold semplace, shas; now rewrite N).
    rewrite X. cbn [String.eqb bind sbind]. unfold js_ports, with_program. rewrite with_p_find, P. reflexivity. }
  exists (with_p id p' m). cbn [js_acts js_act]. rewrite X.
  rewrite (messages_ok n id (hd_error ports) cs p m outs p' R Wm B F A). split; [reflexivity|]. split; [apply with_p_find|].
  unfold js_stop. pose proof (deleted id p' m Wm N) as D. rewrite <- D at 2. reflexivity.
Qed.

(** One message for an input that is not there makes every later call fail: it stays in the
    buffer, and neither [stop] nor [start] removes it. *)
Theorem C76_wrong_port_refuted (n : nat) (id : string) (g : string -> junk) (text : string) (m : manager) (p : program)
    (bad : string) (debug : bool) (time u : Z) (v w : V) (dp : option string) (later : list js_action) :
  reachable_manager m -> sfind id (f_programs m) = None ->
  validate text = Ok true -> new_prog g text = Ok p -> lacks bad p -> bad <> "" ->
  js_ulong time = Ok u -> js_double (Some v) = Ok w ->
  Forall (starts_lack bad) later ->
  Forall fails (fst (js_acts (S n) id (JsStart g text :: JsMessage debug time v (Some bad) :: later) (dp, m))).
Proof.
  intros W N V E L Nb Eu Ew F. pose proof (reachable_wf m W) as Wm. cbn [js_acts js_act].
  pose proof (js_start_wf id (S n) g text m Wm) as W1.
  assert (X : snd (js_start id g text m) = with_p id p m).
  { unfold js_start, js_create, create_checked. rewrite V. unfold create_text. rewrite E. cbn [bind sbind].
    assert (X : set_programs m (semplace id p (f_programs m)) = with_p id p m) by (unfold semplace, shas; now rewrite N).
    rewrite X. cbn [String.eqb bind sbind]. unfold js_ports, with_program. rewrite with_p_find.
    destruct (entry_ports p) as [[]| | | |]; reflexivity. }
  rewrite X in W1. destruct (js_start id g text m) as [r m1]. cbn [snd] in X. subst m1.
  assert (C : all_closed id bad (with_p id p m)).
  { intros q Fq. rewrite with_p_find in Fq. injection Fq as <-. eapply new_closed; eauto. }
  assert (S : shas id (f_programs (with_p id p m)) = true) by (unfold shas; now rewrite with_p_find).
  assert (G : forall d, Forall fails (fst (js_acts (Datatypes.S n) id (JsMessage debug time v (Some bad) :: later) (d, with_p id p m)))).
  { intros d. cbn [js_acts js_act]. pose proof (js_message_wf id (Datatypes.S n) debug d time v (Some bad) (with_p id p m) W1) as W2.
    destruct (first_bad n id bad debug time v u w d (with_p id p m) Nb W1 S C Eu Ew) as (Y1 & Y2 & Y3).
    destruct (js_process_message debug (Datatypes.S n) id d time v (Some bad) (with_p id p m)) as [y m2]. cbn [fst snd] in *.
    pose proof (acts_bad n id bad later Nb d m2 F W2 Y2 Y3) as Z.
    destruct (js_acts (Datatypes.S n) id later (d, m2)) as [xs s]. cbn [fst] in *. constructor; auto. }
  cbn [js_acts] in G. destruct r as [d| | | |]; specialize (G d) || specialize (G dp);
    destruct (js_act (Datatypes.S n) id _ _) as [y s1]; destruct (js_acts (Datatypes.S n) id later s1) as [xs s2]; cbn [fst] in *; constructor; cbn; auto.
Qed.

(** ** C77: calls that overlap.  Whatever the interleaving of calls on one input and their
    progress, in debug mode or (if the output section lists no port twice) not in debug mode: once all calls are answered, the answers were given in the order of the calls, all
    are good, and together they have exactly the outputs to all messages in order. *)
Theorem C77_schedule_partial (debug : bool) (n : nat) (id : string) (g : string -> junk) (text : string) (port : string) (m m' : manager) (p p' : program)
    (r : progmsg) (es : list (option (nat * list msg))) (l : list (nat * res reply)) :
  faithful -> reachable_manager m -> sfind id (f_programs m) = None -> sfind id (f_buffer m) = None ->
  validate text = Ok true -> new_prog g text = Ok p ->
  Forall (fun x => fits32 (mtime x)) (called es) ->
  debug = true \/ listed_once p ->
  receive_as debug n p [(port, called es)] = (Ok r, p') ->
  js_events n (map (event_of debug id port) es) [] (snd (js_start id g text m)) = (l, ([], m')) ->
  map fst l = numbers es /\
  Forall (fun x => exists out, snd x = Ok (RResult out)) l /\
  (forall op prt, answered op prt l = result_at r op prt) /\
  sfind id (f_programs m') = Some p'.
Proof.
  intros R W N B V E F K X Y. pose proof (reachable_wf m W) as Wm.
  assert (Z : snd (js_start id g text m) = with_p id p m).
  { unfold js_start, js_create, create_checked. rewrite V. unfold create_text. rewrite E. cbn [bind sbind].
    assert (Z : set_programs m (semplace id p (f_programs m)) = with_p id p m) by (unfold semplace, shas; now rewrite N).
    rewrite Z. cbn [String.eqb bind sbind]. unfold js_ports, with_program. rewrite with_p_find.
    destruct (entry_ports p) as [[]| | | |]; reflexivity. }
  destruct (receive_debug n p [(port, called es)]) as [[r0| | | |] p0] eqn:Ed;
    try (exfalso; unfold receive_as, receive in X; rewrite Ed in X; destruct debug; discriminate X).
  destruct (receive_kept debug _ _ _ _ _ K Ed) as (out & Eo & A). rewrite X in Eo. injection Eo as <- <-.
  rewrite Z in Y. change (@nil js_task) with (map (task_of debug id port) []) in Y at 1.
  destruct (overlap debug id port n es [] (with_p id p m) p [] r0 p' l [] m' R K) as (H1 & H2 & H3 & H4 & H5); auto.
  - now apply with_p_wf.
  - apply with_p_find.
  - exact (new_prog_good _ _ _ E).
  - change (f_buffer (with_p id p m)) with (f_buffer m). rewrite B. reflexivity.
  - repeat split; auto. intros op prt. now rewrite A.
Qed.

(** The answers need not be those to the calls' own messages: of calls made at once the first
    gets everything, the others nothing. *)
Theorem C77_own_answer_refuted (n : nat) (id : string) (m : manager) (p p' : program) (k : nat) (debug : bool)
    (l0 : list (string * list msg)) (cs : list (nat * bool * list (string * list msg))) (batch : opmsg) (out : progmsg) :
  let calls := (k, debug, l0) :: cs in
  let messages := flat_map (fun c => each (snd c)) calls in
  let call (c : nat * bool * list (string * list msg)) := JsCall (fst (fst c)) (snd (fst c)) id (to_js (snd c)) in
  faithful -> reachable_manager m -> sfind id (f_programs m) = Some p -> sfind id (f_buffer m) = None ->
  Forall (fun x => fits32 (mtime (snd x))) messages -> messages <> [] -> is_batch_of messages batch ->
  receive_as debug n p batch = (Ok out, p') ->
  fst (js_events n (map call calls ++ repeat JsTick (length calls + length calls)) [] m) =
  (k, Ok (RResult out)) :: map (fun c => (fst (fst c), Ok (RResult []))) cs.
Proof.
  intros calls messages call R W P B F Nm Hb E. pose proof (reachable_wf m W) as Wm.
  assert (S : shas id (f_programs m) = true) by (unfold shas; now rewrite P).
  change call with (call_at id). rewrite calls_queue. cbn [app]. rewrite repeat_app.
  assert (Fc : Forall (fun c => fine (snd c)) calls).
  { rewrite Forall_forall. intros c I. unfold fine. rewrite Forall_forall. intros [q qs] I2. cbn [snd]. rewrite Forall_forall. intros x I3.
    rewrite Forall_forall in F. apply (F (q, x)). unfold messages. apply in_flat_map. exists c. split; [exact I|].
    unfold each. apply in_flat_map. exists (q, qs). split; [exact I2|]. cbn [fst snd]. now apply in_map. }
  destruct (all_prepare id n calls (repeat JsTick (length calls)) [] m [] R Fc Wm S) as (m1 & X & W1 & P1 & B1); [rewrite B; reflexivity|].
  rewrite app_nil_r in X. rewrite X. cbn [app]. clear X. cbn [app] in B1. fold messages in B1.
  destruct (sfind id (f_buffer m1)) as [b|] eqn:Fb; cbn [holds] in B1; [|congruence].
  assert (b = batch) by (eapply batch_unique; eauto). subst b.
  assert (S1 : shas id (f_programs m1) = true) by now rewrite P1.
  destruct (process_held n debug id m1 _ _ W1 S1 Fb B1 Nm) as (Q1 & Q2 & Q3).
  assert (Q : process_map debug n id batch m1 = (Ok (RResult out), set_programs m1 (sset id p' (f_programs m1)))).
  { unfold process_map. rewrite P1, P, E. reflexivity. }
  rewrite Q in Q1, Q2, Q3. unfold calls. change (length ((k, debug, l0) :: cs)) with (Datatypes.S (length cs)).
  cbn [repeat map js_events]. unfold finish_at at 1. cbn [fst snd] in *.
  destruct (process_buffer debug n id m1) as [z m2]. cbn [fst snd] in *. subst z.
  rewrite (finish_nothing id n cs m2); [reflexivity| |].
  - unfold shas. rewrite Q2. cbn [set_programs f_programs]. now rewrite sfind_sset_same.
  - now rewrite Q3.
Qed.

End Javascript.

(** ** C78: the reports of progress *)
Lemma progress_from s : (1 <= s)%nat -> forall rows i c, (c < s)%nat ->
  js_progress_from s i c rows = map (fun k => i + (k * s - 1 - c))%nat (seq 1 ((rows + c) / s)).
Proof.
  intros Hs. induction rows as [|rows IH]; intros i c Hc; cbn [js_progress_from].
  - rewrite Nat.div_small by lia. reflexivity.
  - destruct (Nat.eqb_spec (S c) s) as [E|E].
    + rewrite IH by lia. replace (S rows + c)%nat with (1 * s + (rows + 0))%nat by lia. rewrite Nat.div_add_l by lia.
      replace (1 + (rows + 0) / s)%nat with (S ((rows + 0) / s)) by lia. cbn [seq map]. f_equal; [lia|].
      rewrite <- (seq_shift _ 1), map_map. apply map_ext_in. intros k I. apply in_seq in I. nia.
    + rewrite IH by lia. replace (S rows + c)%nat with (rows + S c)%nat by lia. apply map_ext_in. intros k I. apply in_seq in I.
      assert (k * s >= s)%nat by nia. lia.
Qed.

(** With s the twentieth part of the number of rows (rounded down, at least one), a report is made
    after every s-th row, with the fraction of the rows before that row; there are 20 to 39 of
    them. *)
Theorem C78_reports_partial (rows s : nat) : (20 <= rows)%nat -> s = (rows / 20)%nat ->
  js_progress rows = map (fun k => k * s - 1)%nat (seq 1 (rows / s)) /\
  (20 <= length (js_progress rows) <= 39)%nat /\
  StronglySorted lt (js_progress rows).
Proof.
  intros H Hs. assert (S1 : (1 <= s)%nat) by (subst s; apply Nat.div_le_lower_bound; lia).
  assert (E : js_progress rows = map (fun k => k * s - 1)%nat (seq 1 (rows / s))).
  { unfold js_progress. rewrite <- Hs, progress_from by lia. rewrite Nat.add_0_r. apply map_ext. intros k. lia. }
  split; [exact E|]. rewrite E. split.
  - rewrite map_length, seq_length. pose proof (Nat.div_mod rows 20 ltac:(lia)) as D. rewrite <- Hs in D.
    pose proof (Nat.mod_upper_bound rows 20 ltac:(lia)) as M. split.
    + apply Nat.div_le_lower_bound; lia.
    + apply Nat.lt_succ_r. apply Nat.div_lt_upper_bound; lia.
  - assert (G : forall len b, (1 <= b)%nat -> StronglySorted lt (map (fun k => k * s - 1)%nat (seq b len))).
    { induction len as [|len IH]; intros b Hb; [constructor|].
      cbn [seq map]. constructor; [apply IH; lia|]. rewrite Forall_forall. intros x I. apply in_map_iff in I as (k & <- & I). apply in_seq in I.
      assert (b * s + s <= k * s)%nat by nia. assert (s <= b * s)%nat by nia. lia. }
    now apply G.
Qed.

(** No report says that everything is done; for fewer than twenty rows there is no report. *)
Theorem C78_done_refuted (rows : nat) :
  (forall i, In i (js_progress rows) -> i < rows)%nat /\ ((rows < 20)%nat -> js_progress rows = []).
Proof.
  assert (A : forall s rows i c x, In x (js_progress_from s i c rows) -> (x < i + rows)%nat).
  { clear. intros s. induction rows as [|rows IH]; intros i c x I; cbn [js_progress_from] in I; [destruct I|].
    destruct (Nat.eqb (S c) s); [destruct I as [<-|I]; [lia|]|]; apply IH in I; lia. }
  split; [intros i I; apply A in I; lia|]. intros H. unfold js_progress. rewrite Nat.div_small by exact H.
  assert (B : forall rows i c, js_progress_from 0 i c rows = []).
  { clear. induction rows as [|rows IH]; intros i c; cbn [js_progress_from Nat.eqb]; auto. }
  apply B.
Qed.

(** ** Examples: hypotheses met *)
Section Examples.
Definition a_js : @JsRuntime QcOps :=
  {| js_ulong := fun t => Ok (t mod 2 ^ 32); js_double := fun v => Ok (odefault (qc_ofZ 0) v); js_finite := fun _ => true |}.
Example a_js_faithful : let JR := a_js in faithful /\ narrow.
Proof.
  split; [split|].
  - intros t H. cbn [js_ulong a_js]. now rewrite Z.mod_small.
  - reflexivity.
  - intros t u E. cbn [js_ulong a_js] in E. injection E as <-. apply Z.mod_pos_bound. lia.
Qed.
Definition show_js (x : @js_message QcOps) : Z * option Q := (fst x, match snd x with Some v => Some (snd (show_msg (mkMsg 0 v))) | None => None end).
Definition show_table (t : @js_table QcOps) := map (fun x => (fst x, map show_js (snd x))) t.

Example C74_example : let JT := a_text macd JNull in let SL := a_lib in let JR := a_js in
  match js_run 50 "a" j0 "text" two_rows [] no_programs with
  | (Ok tt, (t, m)) => show_table t =
      [("in:o1", [(1, Some (10 # 1)); (2, Some (20 # 1))]); ("ma1:o1", [(1, Some (10 # 1)); (2, Some (20 # 1))]); ("ma2:o1", [(2, Some (15 # 1))]);
       ("minus:o1", [(2, Some (5 # 1))]); ("out:o1", [(2, Some (5 # 1))])]
  | _ => False
  end.
Proof. vm_compute. reflexivity. Qed.
Example C74_example_rows : Forall (row_full ["i1"]) two_rows.
Proof. repeat constructor; discriminate. Qed.

Definition show_answer (x : @js_outcome QcOps) : option (list (string * list (string * list (Z * Q)))) :=
  match x with Answer (Ok out) => Some (show_pm out) | _ => None end.

(** messages one after the other; then one for an input that is not there, [stop], [start] and one
    for the input that is there *)
Example C76_example : let JT := a_text macd JNull in let SL := a_lib in let JR := a_js in
  map show_answer (fst (js_acts 50 "a" [JsStart j0 "text"; JsMessage false 1 (qc_ofZ 10) None; JsMessage false 2 (qc_ofZ 20) (Some "i1");
    JsMessage false 3 (qc_ofZ 0) (Some "i7"); JsMessage false 4 (qc_ofZ 0) None; JsStop; JsStart j0 "text"; JsMessage false 5 (qc_ofZ 0) None]
    (None, no_programs))) =
  [None; Some []; Some [("out", [("o1", [(2, 5 # 1)])])]; None; None; None; None; None].
Proof. vm_compute. reflexivity. Qed.
Example C76_example_lacks : let JT := a_text macd JNull in
  match new_prog j0 "text" with Ok p => match sfind (p_entry p) (p_ops p) with Some o => shas "i7" (o_data (op_base o)) | None => true end = false | _ => False end.
Proof. vm_compute. reflexivity. Qed.

Definition show_reply (x : nat * res (@reply QcOps)) : nat * list (string * list (string * list (Z * Q))) :=
  (fst x, match snd x with Ok (RResult out) => show_pm out | _ => [("error", [])] end).
Definition at_time (t : Z) : @msg QcOps := mkMsg t (qc_ofZ (10 * t)).

(** three calls at once; the same calls, the second made when the first has been answered *)
Example C77_example : let JT := a_text macd JNull in let SL := a_lib in let JR := a_js in
  let m1 := snd (js_start "a" j0 "text" no_programs) in
  let calls (es : list (option (nat * list (@msg QcOps)))) := map show_reply (fst (js_events 50 (map (event_of true "a" "i1") es) [] m1)) in
  map (fun x => (fst x, length (snd x))) (calls [Some (1, [at_time 1]); Some (2, [at_time 2]); Some (3, [at_time 3]); None; None; None; None; None; None]%nat) =
    [(1, 5); (2, 0); (3, 0)]%nat /\
  map (fun x => (fst x, length (snd x))) (calls [Some (1, [at_time 1]); None; None; Some (2, [at_time 2]); Some (3, [at_time 3]); None; None; None; None]%nat) =
    [(1, 2); (2, 5); (3, 0)]%nat.
Proof. vm_compute. repeat split; reflexivity. Qed.

(** not in debug mode: the same schedules, and the output section lists no port twice *)
Example C77_example_plain : let JT := a_text macd JNull in let SL := a_lib in let JR := a_js in
  let m1 := snd (js_start "a" j0 "text" no_programs) in
  let calls (es : list (option (nat * list (@msg QcOps)))) := map show_reply (fst (js_events 50 (map (event_of false "a" "i1") es) [] m1)) in
  calls [Some (1, [at_time 1]); None; None; Some (2, [at_time 2]); Some (3, [at_time 3]); None; None; None; None]%nat =
    [(1%nat, []); (2%nat, [("out", [("o1", [(2, 5 # 1); (3, 5 # 1)])])]); (3%nat, [])] /\
  match new_prog j0 "text" with Ok p => p_filter p = [("out", ["o1"])] | _ => False end.
Proof. vm_compute. repeat split; reflexivity. Qed.

Example C78_example : js_progress 45 = [1; 3; 5; 7; 9; 11; 13; 15; 17; 19; 21; 23; 25; 27; 29; 31; 33; 35; 37; 39; 41; 43]%nat.
Proof. reflexivity. Qed.
End Examples.

Print Assumptions C74_run_partial.
Print Assumptions C74_times_refuted.
Print Assumptions C74_missing_refuted.
Print Assumptions C75_again_refuted.
Print Assumptions C75_new_object_partial.
Print Assumptions C75_left.
Print Assumptions C76_messages_partial.
Print Assumptions C76_wrong_port_refuted.
Print Assumptions C77_schedule_partial.
Print Assumptions C77_own_answer_refuted.
Print Assumptions C78_reports_partial.
Print Assumptions C78_done_refuted.
