(** * Processing ends on programs without cycles *)

From Coq Require Import String ZArith Bool List Lia.
From Verif Require Import Base.StrMap Base.Num Model.Core Model.Ops Model.Graph Model.Run.
From Verif Require Import Spec.Streams Spec.Shape Spec.Log Spec.Depth Proofs.Lists Proofs.ShapeP Proofs.LogRun.
Import ListNotations.
Open Scope string_scope.
Open Scope list_scope.
Open Scope Z_scope.
Open Scope rtbot_scope.

Section DepthP.
Context {NO : NumOps}.

(** ** the local part of a call ends *)

Definition tame {A} (r : res A) : Prop := r <> OutOfFuel /\ r <> Diverges.

Lemma tame_ok {A} (a : A) : tame (Ok a). Proof. split; discriminate. Qed.
Lemma tame_throw {A} e : tame (@Throw A e). Proof. split; discriminate. Qed.
Lemma tame_ub {A} : tame (@UB A). Proof. split; discriminate. Qed.
Lemma tame_bind {A B} (x : res A) (f : A -> res B) : tame x -> (forall a, tame (f a)) -> tame (rbind x f).
Proof. intros [H1 H2] H. destruct x; cbn; auto; try congruence; try apply tame_throw; apply tame_ub. Qed.
Lemma tame_no_port {A} : tame (@no_port A). Proof. split; discriminate. Qed.
Hint Resolve tame_ok tame_throw tame_ub tame_bind tame_no_port : tame.

Ltac tame_cases :=
  repeat match goal with
  | |- tame (fst (if ?c then _ else _)) => destruct c
  | |- tame (fst (match ?c with _ => _ end)) => destruct c
  | |- tame (if ?c then _ else _) => destruct c
  | |- tame (match ?c with _ => _ end) => destruct c
  | |- tame (fst (_, _)) => cbn [fst]
  end; auto with tame.

Lemma tame_q_at q i : tame (q_at q i). Proof. unfold q_at. tame_cases. Qed.
Lemma tame_d_msg b p i : tame (d_msg b p i). Proof. unfold d_msg. tame_cases. apply tame_q_at. Qed.
Lemma tame_d_last b p : tame (d_last b p). Proof. unfold d_last. tame_cases. Qed.
Lemma tame_d_first b p : tame (d_first b p). Proof. unfold d_first. tame_cases. Qed.
Lemma tame_d_sum b p : tame (d_sum b p). Proof. unfold d_sum. tame_cases. Qed.
Lemma tame_d_max b p : tame (d_max b p). Proof. unfold d_max. tame_cases. Qed.
Lemma tame_d_size b p : tame (d_size b p). Proof. unfold d_size. tame_cases. Qed.
Lemma tame_single b : tame (single_port b). Proof. unfold single_port. tame_cases. Qed.
Lemma tame_toT x : tame (toT x). Proof. unfold toT. tame_cases. Qed.
Lemma tame_fir q : forall coeff acc, tame (fir_loop q coeff acc).
Proof. induction q as [|m q IH]; intros; cbn; [auto with tame|]. destruct coeff; auto with tame. Qed.
Lemma tame_peak q : tame (peak_value q).
Proof. unfold peak_value. apply tame_bind; [apply tame_q_at|]. intros a. tame_cases. Qed.
Lemma tame_pt l i : tame (pt l i). Proof. unfold pt. tame_cases. Qed.
Hint Resolve tame_q_at tame_d_msg tame_d_last tame_d_first tame_d_sum tame_d_max tame_d_size tame_single tame_toT tame_fir tame_peak tame_pt : tame.
Lemma tame_tangent l i : tame (tangent l i).
Proof. unfold tangent. destruct i; [|destruct (Nat.eqb _ _)]; repeat (apply tame_bind; auto with tame; intros). Qed.
Hint Resolve tame_tangent : tame.
Lemma tame_linseg l i x : tame (linear_segment l i x).
Proof. unfold linear_segment. repeat (apply tame_bind; auto with tame; intros). Qed.
Lemma tame_hermseg l i x : tame (hermite_segment l i x).
Proof. unfold hermite_segment. repeat (apply tame_bind; auto with tame; intros). Qed.
Hint Resolve tame_linseg tame_hermseg : tame.
Lemma tame_function l ty x : tame (function_value l ty x).
Proof. unfold function_value. destruct l as [|p [|q l]]; auto with tame. destruct ty; tame_cases. Qed.
Hint Resolve tame_function : tame.

Lemma tame_input tp : forall b pm ls out, tame (fst (input_loop tp b pm ls out)).
Proof.
  induction tp as [|p tp IH]; intros b pm ls out; cbn [input_loop]; [apply tame_ok|].
  destruct (d_msg b p 0) as [m| | | |]; cbn [fst]; auto with tame.
  match goal with |- context [if ?c then _ else _] => destruct c end; [|now apply IH].
  destruct (sfind p pm); cbn; auto with tame.
Qed.
Lemma tame_output tp : forall b pm out, tame (fst (output_loop tp b pm out)).
Proof.
  induction tp as [|p tp IH]; intros b pm out; cbn [output_loop]; [apply tame_ok|].
  destruct (d_last b p) as [m| | | |]; cbn [fst]; auto with tame.
  destruct (sfind p pm); cbn; auto with tame.
Qed.

Definition is_cr (k : kind) : bool := match k with KConstResampler _ _ _ _ => true | _ => false end.

(** [quiet c r]: not out of fuel; and not stuck in a loop when [c] *)
Definition quiet {A} (c : bool) (r : res A) : Prop := r <> OutOfFuel /\ (c = true -> r <> Diverges).
Lemma tame_quiet {A} c (r : res A) : tame r -> quiet c r.
Proof. intros [H1 H2]. split; auto. Qed.

Lemma quiet_process c b k : (c = true -> is_cr k = false) -> quiet c (fst (process_data b k)).
Proof.
  intros H.
  destruct k; cbn [process_data]; unfold keep, map_last; cbn [fst];
  try (apply tame_quiet; first [apply tame_input | apply tame_output]);
  try (apply tame_quiet; repeat (apply tame_bind; auto with tame; intros); auto with tame; fail);
  match goal with |- context [match ?x with _ => _ end] => destruct x as [a| | | |] eqn:?E end;
  repeat match goal with x : _ * _ |- _ => destruct x end;
  try (apply tame_quiet; cbn [fst]; split; discriminate).
  split; [discriminate|]. intros Hc. specialize (H Hc). discriminate H.
Qed.

Lemma quiet_exec_base c b k : (c = true -> is_cr k = false) -> quiet c (fst (exec_base b k)).
Proof.
  intros H. unfold exec_base. destruct (ready_ports b (o_toproc b)) as [tp| | | |]; try (apply tame_quiet; split; discriminate).
  destruct tp; try (apply tame_quiet; split; discriminate).
  pose proof (quiet_process c (set_toproc b (s :: tp)) k H) as Q.
  destruct (process_data (set_toproc b (s :: tp)) k) as [[out| | | |] [b' k']]; cbn [fst] in *; auto.
Qed.

Lemma tame_join b k : tame (fst (join_exec b k)).
Proof. unfold join_exec. cbv zeta. tame_cases. Qed.
Lemma tame_demux b k cm : tame (fst (demux_join b k cm)).
Proof. unfold demux_join. cbv zeta. tame_cases. Qed.
Lemma tame_var b v i : tame (fst (var_query b v i)).
Proof. unfold var_query. cbv zeta. tame_cases. Qed.
Lemma tame_ar b c : tame (fst (ar_exec b c)).
Proof. unfold ar_exec. cbv zeta. tame_cases. Qed.

Lemma quiet_exec_data c o : (c = true -> is_cr (op_kind o) = false) -> quiet c (fst (exec_data_local o)).
Proof.
  destruct o as [b k]. cbn [op_kind]. intros H. unfold exec_data_local.
  destruct k;
  match goal with |- quiet c (fst (let (r, s) := ?x in _)) =>
    assert (X : quiet c (fst x)); [|destruct x as [? [? ?]]; exact X]
  end;
  first [ apply tame_quiet, tame_join | apply tame_quiet, tame_demux | apply tame_quiet, tame_var
        | apply tame_quiet, tame_ar | apply quiet_exec_base; auto ].
Qed.
Lemma tame_exec_ctrl o : tame (fst (exec_ctrl_local o)).
Proof.
  destruct o as [b k]. unfold exec_ctrl_local.
  destruct k; try (cbn; apply tame_ok);
  match goal with |- tame (fst (let (r, s) := ?x in _)) =>
    assert (X : tame (fst x)); [|destruct x as [? [? ?]]; exact X]
  | _ => idtac
  end;
  first [ apply tame_demux | apply tame_var | apply tame_ok].
Qed.

Lemma tame_recv_data_local o m port : tame (fst (recv_data_local o m port)).
Proof.
  destruct o as [b k]. unfold recv_data_local.
  assert (H1 : tame (fst (recv_data_base b m port))) by (unfold recv_data_base; cbv zeta; tame_cases).
  assert (H2 : tame (fst (recv_data_join b m port))) by (unfold recv_data_join; cbv zeta; tame_cases).
  assert (H3 : tame (fst (recv_data_demux b m port))) by (unfold recv_data_demux; cbv zeta; tame_cases).
  assert (H4 : tame (fst (recv_data_ar b m port))) by (unfold recv_data_ar; cbv zeta; tame_cases).
  destruct k;
  match goal with |- tame (fst (let (r, s) := ?x in _)) =>
    assert (X : tame (fst x)) by assumption; destruct x as [? ?]; exact X end.
Qed.
Lemma tame_recv_ctrl_local o m port : tame (fst (recv_ctrl_local o m port)).
Proof.
  destruct o as [b k]. unfold recv_ctrl_local.
  assert (H1 : tame (fst (recv_ctrl_base b m port))) by (unfold recv_ctrl_base; cbv zeta; tame_cases).
  assert (H2 : tame (fst (recv_ctrl_demux b m port))) by (unfold recv_ctrl_demux; cbv zeta; tame_cases).
  destruct k;
  match goal with |- tame (fst (let (r, s) := ?x in _)) =>
    assert (X : tame (fst x)) by assumption; destruct x as [? ?]; exact X end.
Qed.

(** ** [fits c h level]: the levels are right, and no ConstantResampler when [c] *)

Inductive fits (c : bool) : heap -> (string -> nat) -> Prop :=
| Fits h level :
    (forall a b, wired h a b -> (level b < level a)%nat) ->
    (c = true -> forall id o, sfind id h = Some o -> is_cr (op_kind o) = false) ->
    (forall id b js ops ins outs pm, sfind id h = Some (Op b (KPipeline js ops ins outs pm)) ->
       exists level', fits c ops level' /\ forall i, (level' i < level id)%nat) ->
    fits c h level.

Lemma fits_wired c h level : fits c h level -> forall a b, wired h a b -> (level b < level a)%nat.
Proof. destruct 1; auto. Qed.
Lemma fits_cr c h level : fits c h level -> c = true -> forall id o, sfind id h = Some o -> is_cr (op_kind o) = false.
Proof. destruct 1; auto. Qed.
Lemma fits_inner c h level : fits c h level -> forall id b js ops ins outs pm, sfind id h = Some (Op b (KPipeline js ops ins outs pm)) ->
  exists level', fits c ops level' /\ forall i, (level' i < level id)%nat.
Proof. destruct 1; eauto. Qed.

Lemma erase_is_cr o : is_cr (op_kind (erase o)) = is_cr (op_kind o).
Proof. destruct o as [b []]; reflexivity. Qed.

Lemma erase_pipeline_inv o b js ops ins outs pm :
  erase o = erase (Op b (KPipeline js ops ins outs pm)) ->
  exists b' ops', o = Op b' (KPipeline js ops' ins outs pm) /\ erase_heap ops' = erase_heap ops.
Proof.
  destruct o as [b' k]. rewrite erase_pipeline. destruct k; try (cbn [erase]; discriminate).
  rewrite erase_pipeline. intros E. injection E as E1 E2 E3 E4 E5. subst. eauto.
Qed.

Lemma sfind_same h h' id o : erase_heap h' = erase_heap h -> sfind id h' = Some o ->
  exists o0, sfind id h = Some o0 /\ erase o = erase o0.
Proof. intros E Ho. destruct (erase_find h' h id o (eq_sym E) Ho) as (o1 & H1 & H2). eauto. Qed.

Lemma fits_same c h level : fits c h level -> forall h', erase_heap h' = erase_heap h -> fits c h' level.
Proof.
  revert h level. fix IH 3. intros h level F h' E. destruct F as [h level F1 F2 F3]. constructor.
  - intros a b Hw. apply F1. eapply wired_same; eauto.
  - intros Hc id o Ho. destruct (sfind_same h h' id o E Ho) as (o0 & H0 & E0).
    rewrite <- erase_is_cr, E0, erase_is_cr. eauto.
  - intros id b js ops ins outs pm Ho. destruct (sfind_same h h' id _ E Ho) as (o0 & H0 & E0).
    destruct (erase_pipeline_inv _ _ _ _ _ _ _ (eq_sym E0)) as (b' & ops' & -> & Eo).
    destruct (F3 _ _ _ _ _ _ _ H0) as (level' & G1 & G2). exists level'. split.
    + exact (IH ops' level' G1 ops (eq_sym Eo)).
    + exact G2.
Qed.

Lemma recv_data_quiet c n : forall h level id o m port, fits c h level -> sfind id h = Some o -> (level id < n)%nat ->
  quiet c (fst (recv_data n o m port)).
Proof.
  induction n as [|n IH]; intros h level id o m port F Ho Hn; [lia|].
  destruct (is_pipeline o) eqn:P.
  2:{ rewrite recv_data_simple by auto. apply tame_quiet, tame_recv_data_local. }
  destruct o as [b k]. destruct k; try discriminate P. cbn [recv_data op_kind op_base].
  destruct (fits_inner _ _ _ F _ _ _ _ _ _ _ Ho) as (level' & G1 & G2).
  match goal with |- context [match ?x with Some _ => _ | None => _ end] => destruct x as [key|] end;
    [|apply tame_quiet, tame_throw].
  destruct (sfind key inputs) as [inner|]; [|apply tame_quiet, tame_throw].
  destruct (sfind inner all_op) as [oi|] eqn:Hi; [|apply tame_quiet, tame_ub].
  pose proof (IH all_op level' inner oi m (snd (split2 key)) G1 Hi) as Q.
  specialize (G2 inner). specialize (Q ltac:(lia)).
  destruct (recv_data n oi m (snd (split2 key))) as [[u| | | |] oi']; cbn [fst] in *; auto.
  apply tame_quiet, tame_ok.
Qed.

Section Emit.
Variable c : bool.
Variable n : nat.
Hypothesis IH : forall ctl id h level, wf_heap h -> fits c h level -> (level id < n)%nat ->
  quiet c (fst (exec n ctl id h)).

Lemma quiet_bind {S A B} (x : sres S A) (k : A -> S -> sres S B) :
  quiet c (fst x) -> (forall a s, x = (Ok a, s) -> quiet c (fst (k a s))) -> quiet c (fst (bind x k)).
Proof.
  intros [Q1 Q2] H. destruct x as [[a| | | |] s]; cbn [bind sbind fst] in *; auto; try (apply tame_quiet; split; discriminate).
  - split; [discriminate|intros Hc; now contradiction (Q2 Hc)].
  - now contradiction Q1.
Qed.

Lemma quiet_deliver1 m d h level : fits c h level ->
  (forall o, sfind (fst d) h = Some o -> (level (fst d) < n)%nat) -> quiet c (fst (deliver1 n m d h)).
Proof.
  intros F L. destruct d as [dst port]. unfold deliver1. cbn [fst] in L. destruct (sfind dst h) as [o|] eqn:Ho; [|apply tame_quiet, tame_ub].
  destruct (is_data_input o port).
  - pose proof (recv_data_quiet c n h level dst o m port F Ho (L _ eq_refl)) as Q.
    destruct (recv_data n o m port); exact Q.
  - destruct (is_control_input o port); [|apply tame_quiet, tame_ok].
    pose proof (tame_recv_ctrl_local o m port) as Q. destruct (recv_ctrl_local o m port). now apply tame_quiet.
Qed.

Lemma quiet_deliver m cs : forall h level, wf_heap h -> fits c h level ->
  (forall d, In d cs -> (level (fst d) < n)%nat) -> quiet c (fst (deliver n m cs h)).
Proof.
  induction cs as [|d cs IHc]; intros h level W F L; cbn [deliver]; [apply tame_quiet, tame_ok|].
  apply quiet_bind.
  - eapply quiet_deliver1; eauto. intros. apply L. now left.
  - intros u h1 E. pose proof (deliver1_keeps n m d h W) as K. rewrite E in K. unfold keeps in K. cbn [snd] in K.
    apply (IHc h1 level). eapply wf_heap_same; eauto. eapply fits_same; eauto. intros. apply L. now right.
Qed.

Lemma quiet_execute1 d h level : wf_heap h -> fits c h level ->
  (level (fst d) < n)%nat -> quiet c (fst (execute1 (exec n) d h)).
Proof.
  intros W F L. destruct d as [dst port]. unfold execute1. cbn [fst] in L. destruct (sfind dst h) as [o|] eqn:Ho; [|apply tame_quiet, tame_ub].
  destruct (is_data_input o port); [eapply IH; eauto|].
  destruct (is_control_input o port); [eapply IH; eauto|apply tame_quiet, tame_ok].
Qed.

Lemma quiet_execute_all cs : forall out h level, wf_heap h -> fits c h level ->
  (forall d, In d cs -> (level (fst d) < n)%nat) -> quiet c (fst (execute_all (exec n) cs out h)).
Proof.
  induction cs as [|d cs IHc]; intros out h level W F L; cbn [execute_all]; [apply tame_quiet, tame_ok|].
  apply quiet_bind.
  - eapply quiet_execute1; eauto. apply L. now left.
  - intros u h1 E. pose proof (execute1_keeps (exec n) (exec_keeps n) d h W) as K. rewrite E in K. unfold keeps in K. cbn [snd] in K.
    apply (IHc _ h1 level). eapply wf_heap_same; eauto. eapply fits_same; eauto. intros. apply L. now right.
Qed.

Lemma quiet_emit_msg b port m h level : wf_heap h -> fits c h level ->
  (forall d, In d (odefault [] (sfind port (o_conns b))) -> (level (fst d) < n)%nat) -> quiet c (fst (emit_msg (exec n) n b port m h)).
Proof.
  intros W F L. unfold emit_msg. destruct (sfind port (o_conns b)) as [cs|]; [|apply tame_quiet, tame_ok].
  cbn [odefault] in L. apply quiet_bind; [eapply quiet_deliver; eauto|].
  intros u h1 E. pose proof (deliver_keeps n m cs h W) as K. rewrite E in K. unfold keeps in K. cbn [snd] in K.
  eapply (quiet_execute_all cs _ h1 level); auto. eapply wf_heap_same; eauto. eapply fits_same; eauto.
Qed.

Lemma quiet_emit_port b port ms : forall out h level, wf_heap h -> fits c h level ->
  (forall d, In d (odefault [] (sfind port (o_conns b))) -> (level (fst d) < n)%nat) -> quiet c (fst (emit_port (exec n) n b port ms out h)).
Proof.
  induction ms as [|m ms IHm]; intros out h level W F L; cbn [emit_port]; [apply tame_quiet, tame_ok|].
  apply quiet_bind; [eapply quiet_emit_msg; eauto|].
  intros u h1 E. pose proof (emit_msg_keeps (exec n) n (exec_keeps n) b port m h W) as K. rewrite E in K. unfold keeps in K. cbn [snd] in K.
  eapply (IHm _ h1 level); auto. eapply wf_heap_same; eauto. eapply fits_same; eauto.
Qed.

Lemma quiet_emit_op b oms : forall out h level, wf_heap h -> fits c h level ->
  (forall port d, In d (odefault [] (sfind port (o_conns b))) -> (level (fst d) < n)%nat) -> quiet c (fst (emit_op (exec n) n b oms out h)).
Proof.
  induction oms as [|[port ms] oms IHm]; intros out h level W F L; cbn [emit_op]; [apply tame_quiet, tame_ok|].
  destruct (sset_mem port (o_outs b)); [|apply tame_quiet, tame_throw].
  apply quiet_bind; [eapply quiet_emit_port; eauto|].
  intros u h1 E. pose proof (emit_port_keeps (exec n) n (exec_keeps n) b port ms [] h W) as K. rewrite E in K. unfold keeps in K. cbn [snd] in K.
  eapply (IHm _ h1 level); auto. eapply wf_heap_same; eauto. eapply fits_same; eauto.
Qed.

Lemma quiet_pipe_run keys : forall ins out ops level, wf_heap ops -> fits c ops level ->
  (forall i, (level i < n)%nat) -> quiet c (fst (pipe_run (exec n) keys ins out ops)).
Proof.
  induction keys as [|key keys IHk]; intros ins out ops level W F L; cbn [pipe_run]; [apply tame_quiet, tame_ok|].
  destruct (sfind key ins) as [inner|]; [|apply tame_quiet, tame_throw].
  apply quiet_bind; [eapply IH; eauto|].
  intros u h1 E. pose proof (exec_keeps n false inner ops W) as K. rewrite E in K. unfold keeps in K. cbn [snd] in K.
  eapply (IHk _ _ h1 level); auto. eapply wf_heap_same; eauto. eapply fits_same; eauto.
Qed.

Lemma tame_pipe_ports id om : forall outs pm acc, tame (pipe_ports id om outs pm acc).
Proof.
  induction om as [|[port ms] om IHo]; intros; cbn [pipe_ports]; [apply tame_ok|].
  destruct (shas _ outs); [|apply IHo]. destruct (sfind _ pm); [apply IHo|apply tame_throw].
Qed.
Lemma tame_pipe_outputs r : forall outs pm acc, tame (pipe_outputs r outs pm acc).
Proof.
  induction r as [|[id om] r IHr]; intros; cbn [pipe_outputs]; [apply tame_ok|].
  apply tame_bind; [apply tame_pipe_ports|auto].
Qed.

Lemma quiet_exec_local ctl id o h level : wf_heap h -> fits c h level -> sfind id h = Some o -> (level id <= n)%nat ->
  quiet c (fst (exec_local (exec n) ctl o)).
Proof.
  intros W F Ho L. unfold exec_local. destruct ctl; [apply tame_quiet, tame_exec_ctrl|].
  destruct (is_pipeline o) eqn:P.
  - destruct o as [b k]. destruct k; try discriminate P. cbn [op_kind op_base]. unfold pipe_exec.
    destruct (fits_inner _ _ _ F _ _ _ _ _ _ _ Ho) as (level' & G1 & G2).
    assert (Wi : wf_heap all_op).
    { pose proof (proj2 W _ _ Ho) as Wo. apply wf_pipeline in Wo. apply Wo. }
    pose proof (quiet_pipe_run (o_toproc b) inputs [] all_op level' Wi G1) as Q.
    specialize (Q ltac:(intros i; specialize (G2 i); lia)).
    destruct (pipe_run (exec n) (o_toproc b) inputs [] all_op) as [[r| | | |] ops']; cbn [fst] in *; auto;
    try (apply tame_quiet, tame_pipe_outputs); try (apply tame_quiet; split; discriminate);
    destruct Q as [Q1 Q2]; split; intros; try discriminate; try (now contradiction Q1); now apply Q2 in H.
  - assert (Q : quiet c (fst (exec_data_local o))).
    { apply quiet_exec_data. intros Hc. eapply fits_cr; eauto. }
    destruct o as [b k]. destruct k; try discriminate P; exact Q.
Qed.
End Emit.

Lemma wf_pipeline_inner h id b js ops ins outs pm : wf_heap h ->
  sfind id h = Some (Op b (KPipeline js ops ins outs pm)) -> wf_heap ops.
Proof. intros W Ho. pose proof (proj2 W _ _ Ho) as Wo. apply wf_pipeline in Wo. apply Wo. Qed.

Theorem exec_quiet c n : forall ctl id h level, wf_heap h -> fits c h level -> (level id < n)%nat ->
  quiet c (fst (exec n ctl id h)).
Proof.
  induction n as [|n IH]; intros ctl id h level W F L; [lia|]. cbn [exec].
  destruct (sfind id h) as [o|] eqn:Ho; [|apply tame_quiet, tame_ub].
  pose proof (quiet_exec_local c n IH ctl id o h level W F Ho ltac:(lia)) as Q.
  destruct (exec_local (exec n) ctl o) as [[out| | | |] o'] eqn:X; cbn [fst] in *; auto;
    try (apply tame_quiet; split; discriminate);
    try (destruct Q as [Q1 Q2]; split; intros; try discriminate; try (now contradiction Q1); now apply Q2 in H).
  assert (Eo : erase o' = erase o) by (eapply exec_local_keeps; [eapply (proj2 W); eauto|eauto]).
  assert (K : erase_heap (sset id o' h) = erase_heap h) by (eapply erase_heap_sset; eauto).
  eapply quiet_emit_op with (level := level); auto.
  - eapply wf_heap_same; eauto.
  - eapply fits_same; eauto.
  - intros port d Hd.
    assert (wired h id (fst d)).
    { exists port, (snd d). rewrite (wires_here h id o) by auto. rewrite <- erase_conns, <- Eo, erase_conns. now destruct d. }
    apply (fits_wired _ _ _ F) in H. lia.
Qed.

(** ** one message, then a batch *)

Lemma send1_quiet c n ep port m h level : wf_heap h -> fits c h level -> (level ep < n)%nat ->
  quiet c (fst (send1 n ep port m h)).
Proof.
  intros W F L. unfold send1. destruct (sfind ep h) as [o|] eqn:Ho; [|apply tame_quiet, tame_throw].
  pose proof (recv_data_quiet c n h level ep o m port F Ho L) as Q.
  pose proof (recv_data_erase n o m port (proj2 W _ _ Ho)) as E.
  destruct (recv_data n o m port) as [[u| | | |] o']; cbn [fst] in *; auto;
    try (apply tame_quiet; split; discriminate);
    try (destruct Q as [Q1 Q2]; split; intros; try discriminate; try (now contradiction Q1); now apply Q2 in H).
  assert (K : erase_heap (sset ep o' h) = erase_heap h) by (eapply erase_heap_sset; eauto).
  apply (exec_quiet c n false ep _ level); auto. eapply wf_heap_same; eauto. eapply fits_same; eauto.
Qed.

Lemma send_port_quiet c n ep port ms : forall out h level, wf_heap h -> fits c h level -> (level ep < n)%nat ->
  quiet c (fst (send_port n ep port ms out h)).
Proof.
  induction ms as [|m ms IH]; intros out h level W F L; cbn [send_port]; [apply tame_quiet, tame_ok|].
  apply quiet_bind; [eapply send1_quiet; eauto|].
  intros u h1 E. pose proof (send1_keeps n ep port m h W) as K. rewrite E in K. unfold keeps in K. cbn [snd] in K.
  apply (IH _ h1 level); auto. eapply wf_heap_same; eauto. eapply fits_same; eauto.
Qed.

Lemma send_batch_quiet c n ep batch : forall out h level, wf_heap h -> fits c h level -> (level ep < n)%nat ->
  quiet c (fst (send_batch n ep batch out h)).
Proof.
  induction batch as [|[port ms] batch IH]; intros out h level W F L; cbn [send_batch]; [apply tame_quiet, tame_ok|].
  apply quiet_bind; [eapply send_port_quiet; eauto|].
  intros u h1 E. pose proof (send_port_keeps n ep port ms out h W) as K. rewrite E in K. unfold keeps in K. cbn [snd] in K.
  apply (IH _ h1 level); auto. eapply wf_heap_same; eauto. eapply fits_same; eauto.
Qed.

(** ** levels from the absence of cycles *)

Section Levels.
Variable h : heap.
Variable weight : string -> nat.
Hypothesis weight_pos : forall a, (1 <= weight a)%nat.
Hypothesis nocycle : forall a, ~ path h a a.

Lemma path_trans a b c : path h a b -> path h b c -> path h a c.
Proof. induction 1; intros; eapply path_more; eauto. Qed.

(** reachability is decidable as far as refutations are concerned *)
Lemma nn_decide (P : string -> Prop) (l : list string) :
  ~ ~ (exists f : string -> bool, forall a, In a l -> (f a = true <-> P a)).
Proof.
  induction l as [|x l IH]; intros H; [apply H; exists (fun _ => false); intros a []|].
  apply IH. intros (f & Hf).
  assert (X : ~ ~ (P x \/ ~ P x)) by tauto. apply X. intros D. apply H.
  destruct (in_dec string_dec x l) as [Hi|Hi].
  - exists f. intros a [<-|Ha]; auto.
  - assert (Y : exists d : bool, d = true <-> P x).
    { destruct D as [D|D]; [exists true|exists false]; split; intros; auto; try discriminate; contradiction. }
    destruct Y as (d & Hd).
    exists (fun a => if String.eqb a x then d else f a).
    intros a Ha. destruct (String.eqb_spec a x) as [->|Ne]; auto.
    destruct Ha as [->|Ha]; [contradiction|auto].
Qed.

Lemma nn_decide2 (R : string -> string -> Prop) (l : list string) (l' : list string) :
  ~ ~ (exists f : string -> string -> bool, forall a b, In a l' -> In b l -> (f a b = true <-> R a b)).
Proof.
  induction l' as [|x l' IH]; intros H; [apply H; exists (fun _ _ => false); intros a b []|].
  apply IH. intros (f & Hf). apply (nn_decide (R x) l). intros (g & Hg). apply H.
  exists (fun a b => if String.eqb a x then g b else f a b). intros a b Ha Hb.
  destruct (String.eqb_spec a x) as [->|Ne]; auto. destruct Ha as [->|Ha]; [contradiction|auto].
Qed.

Fixpoint total (w : string -> nat) (f : string -> bool) (l : list string) : nat :=
  match l with [] => 0 | x :: r => ((if f x then w x else 0) + total w f r)%nat end.

Lemma total_le w f g l : (forall x, In x l -> f x = true -> g x = true) -> (total w f l <= total w g l)%nat.
Proof.
  induction l as [|x r IH]; intros H; cbn; [lia|].
  assert (total w f r <= total w g r)%nat by (apply IH; intros; apply H; auto; now right).
  specialize (H x (or_introl eq_refl)). destruct (f x); [rewrite H by auto; lia|]. destruct (g x); lia.
Qed.

Lemma total_add w f g l y : (forall x, In x l -> f x = true -> g x = true) -> In y l -> f y = false -> g y = true ->
  (w y + total w f l <= total w g l)%nat.
Proof.
  induction l as [|x r IH]; intros H Hy Fy Gy; [destruct Hy|]. cbn.
  assert (T : (total w f r <= total w g r)%nat) by (apply total_le; intros; apply H; auto; now right).
  destruct Hy as [->|Hy].
  - rewrite Fy, Gy. lia.
  - assert ((w y + total w f r <= total w g r)%nat) by (apply IH; auto; intros; apply H; auto; now right).
    specialize (H x (or_introl eq_refl)). destruct (f x); [rewrite H by auto; lia|]. destruct (g x); lia.
Qed.

(** the operators that take part in connections *)
Lemma levels_exist (l : list string) : NoDup l -> (forall a b, wired h a b -> In a l) ->
  ~ ~ (exists level : string -> nat,
        (forall a b, wired h a b -> (level b < level a)%nat) /\
        (forall a, In a l -> (weight a <= level a)%nat) /\
        (forall a, (level a <= total weight (fun _ => true) l)%nat)).
Proof.
  intros ND Hl H. apply (nn_decide2 (path h) l l). intros (f & Hf). apply H.
  exists (fun a => if in_dec string_dec a l then weight a + total weight (f a) l else 0)%nat.
  split; [|split].
  - intros a b W. assert (Ha : In a l) by eauto. destruct (in_dec string_dec a l) as [_|]; [|contradiction].
    destruct (in_dec string_dec b l) as [Hb|]; [|specialize (weight_pos a); lia].
    assert (X : (weight b + total weight (f b) l <= total weight (f a) l)%nat).
    { apply total_add; auto.
      - intros x Hx Fx. apply Hf in Fx; auto. apply Hf; auto. eapply path_more; eauto.
      - destruct (f b b) eqn:E; auto. apply Hf in E; auto. exfalso. eapply nocycle; eauto.
      - apply Hf; auto. now apply path_one. }
    specialize (weight_pos a). lia.
  - intros a Ha. destruct (in_dec string_dec a l); [lia|contradiction].
  - intros a. destruct (in_dec string_dec a l) as [Ha|]; [|lia].
    apply total_add; auto. destruct (f a a) eqn:E; auto. apply Hf in E; auto. exfalso. eapply nocycle; eauto.
Qed.
End Levels.

Lemma nn_exists_choice {A} (l : list A) (P : A -> Prop) : (forall a, In a l -> ~ ~ P a) -> ~ ~ (forall a, In a l -> P a).
Proof.
  induction l as [|x l IH]; intros H N; [apply N; intros a []|].
  apply (H x (or_introl eq_refl)). intros Px. apply IH; [intros; apply H; now right|].
  intros Q. apply N. intros a [<-|Ha]; auto.
Qed.

Definition weight_in (h : heap) (id : string) : nat := match sfind id h with Some o => op_size o | None => 1 end.

Lemma op_size_pos o : (1 <= op_size o)%nat.
Proof. destruct o as [b []]; cbn; lia. Qed.

Lemma total_weights (h : heap) : swf h -> total (weight_in h) (fun _ => true) (skeys h) = heap_size h.
Proof.
  assert (G : forall l, swf l -> (forall k o, In (k, o) l -> sfind k h = Some o) ->
     total (weight_in h) (fun _ => true) (skeys l) = heap_size l).
  { induction l as [|[k o] l IH]; intros W Hl; [reflexivity|].
    change (skeys ((k, o) :: l)) with (k :: skeys l). change (heap_size ((k, o) :: l)) with (op_size o + heap_size l)%nat.
    cbn [total]. rewrite IH; [|now apply swf_cons_inv in W|intros; apply Hl; now right].
    unfold weight_in at 1. now rewrite (Hl k o (or_introl eq_refl)). }
  intros W. apply G; auto. intros. now apply In_sfind.
Qed.

Lemma wired_key h a b : wired h a b -> In a (skeys h).
Proof.
  intros (p & q & H). unfold wires in H. destruct (sfind a h) eqn:E; [|destruct H]. now apply sfind_In_key in E.
Qed.

Definition calm (c : bool) (h : heap) : Prop := c = true -> no_constant_resampler h.

Lemma acyclic_fits_aux c k : forall h, (heap_size h <= k)%nat -> wf_heap h -> acyclic h -> calm c h ->
  ~ ~ (exists level, fits c h level /\ forall a, (level a <= heap_size h)%nat).
Proof.
  induction k as [|k IH]; intros h Hk W A C H.
  - destruct h as [|[i o] h].
    + apply H. exists (fun _ => 0%nat). split; [|cbn; lia]. constructor; try discriminate.
      intros a b (p & q & X). destruct X.
    + cbn in Hk. pose proof (op_size_pos o). lia.
  - destruct A as [h NC AI].
    assert (I : ~ ~ (forall x, In x h -> forall b js ops ins outs pm, snd x = Op b (KPipeline js ops ins outs pm) ->
              exists level, fits c ops level /\ forall a, (level a <= heap_size ops)%nat)).
    { apply nn_exists_choice. intros [id o] Hx Hn.
      destruct o as [b kd]. destruct kd; try (apply Hn; intros; discriminate).
      assert (Hi : sfind id h = Some (Op b (KPipeline p_json all_op inputs outputs p_portsMap))) by (apply In_sfind; [apply W|auto]).
      apply (IH all_op).
      - pose proof (op_size_inner _ _ _ Hi) as S1. cbn in S1. change (fold_right (fun x n => (op_size (snd x) + n)%nat) 0%nat h) with (heap_size h) in S1.
        unfold heap_size. lia.
      - eapply wf_pipeline_inner; eauto.
      - eauto.
      - intros Hc. specialize (C Hc). destruct C as [h' C1 C2]. eauto.
      - intros X. apply Hn. intros b' js ops ins outs pm E. cbn [snd] in E. injection E as <- <- <- <- <- <-. exact X. }
    apply I. clear I. intros I.
    apply (levels_exist h (weight_in h)) with (l := skeys h); auto.
    + intros a. unfold weight_in. destruct (sfind a h); [apply op_size_pos|lia].
    + apply swf_NoDup, W.
    + intros. eapply wired_key; eauto.
    + intros (level & L1 & L2 & L3). apply H. exists level. rewrite total_weights in L3 by apply W. split; auto.
      constructor; auto.
      * intros Hc id o Ho. specialize (C Hc). destruct C as [h' C1 C2]. destruct o as [b kd].
        destruct kd; try reflexivity. exfalso. eapply C1; eauto.
      * intros id b js ops ins outs pm Ho. destruct (I (id, _) (sfind_In _ _ _ Ho) _ _ _ _ _ _ eq_refl) as (level' & F & B).
        exists level'. split; auto. intros i. specialize (B i). specialize (L2 id (sfind_In_key _ _ _ Ho)).
        unfold weight_in in L2. rewrite Ho in L2. cbn [op_size] in L2. unfold heap_size in B. lia.
Qed.

Lemma acyclic_fits c h : wf_heap h -> acyclic h -> calm c h ->
  ~ ~ (exists level, fits c h level /\ forall a, (level a <= heap_size h)%nat).
Proof. intros. eapply acyclic_fits_aux; eauto. Qed.

End DepthP.
