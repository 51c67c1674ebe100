(** * Executing an operator never changes its definition *)

From Coq Require Import String ZArith Bool List Lia.
From Verif Require Import Base.StrMap Base.Num Model.Core Model.Ops Model.Graph Spec.Shape Spec.Log Spec.Depth.
Import ListNotations.
Open Scope string_scope.
Open Scope list_scope.
Open Scope Z_scope.
Open Scope rtbot_scope.

Section Shape.
Context {NO : NumOps}.

Lemma smapv_sset_same {A B} (f : A -> B) k v w (m : smap A) :
  swf m -> sfind k m = Some w -> f v = f w -> smapv f (sset k v m) = smapv f m.
Proof.
  intros Hm Hk E. induction m as [|[k' v'] m IH]; [discriminate Hk|].
  cbn [sset sfind] in *. destruct (String.eqb_spec k k') as [->|N].
  - injection Hk as ->. cbn. now rewrite E.
  - assert (Lt : sltb k' k = true).
    { destruct (swf_cons_inv _ _ _ Hm) as [_ F]. rewrite Forall_forall in F.
      apply F. eapply sfind_In_key; eauto. }
    destruct (sltb k k') eqn:L; [rewrite (sltb_asym _ _ Lt) in L; discriminate L|].
    cbn. f_equal. apply IH; auto. destruct (swf_cons_inv _ _ _ Hm) as [H _]. exact H.
Qed.

Lemma erase_op b k : erase (Op b k) = Op (erase_base b) (erase_kind k).
Proof. destruct k; reflexivity. Qed.

Lemma smapv_map {A B} (f : A -> B) (m : smap A) : map (fun x => (fst x, f (snd x))) m = smapv f m.
Proof. unfold smapv. apply map_ext. now intros [? ?]. Qed.

Lemma erase_pipeline b js ops ins outs pm :
  erase (Op b (KPipeline js ops ins outs pm)) =
  Op (erase_base b) (KPipeline js (erase_heap ops) ins outs pm).
Proof. unfold erase_heap. rewrite <- smapv_map. reflexivity. Qed.

Lemma erase_toproc b t : erase_base (set_toproc b t) = erase_base b.
Proof. reflexivity. Qed.

Lemma erase_set_data b d : smapv erase_port d = smapv erase_port (o_data b) ->
  erase_base (set_data b d) = erase_base b.
Proof. intros E. unfold erase_base, set_data. cbn [o_id o_data o_ctrl o_outs o_conns]. now rewrite E. Qed.

Lemma erase_set_ctrl b d : smapv erase_port d = smapv erase_port (o_ctrl b) ->
  erase_base (set_ctrl b d) = erase_base b.
Proof. intros E. unfold erase_base, set_ctrl. cbn [o_id o_data o_ctrl o_outs o_conns]. now rewrite E. Qed.

(** ** well-formedness is a matter of the definition *)

Lemma swf_keys {A B} (m : smap A) (m' : smap B) : skeys m = skeys m' -> swf m -> swf m'.
Proof. unfold swf. now intros ->. Qed.

Lemma smapv_keys {A B} (f : A -> B) (m m' : smap A) : smapv f m = smapv f m' -> skeys m = skeys m'.
Proof. intros E. rewrite <- (skeys_smapv f m), E. apply skeys_smapv. Qed.

Lemma wf_inner (ops : list (string * op)) :
  fold_right (fun x P => wf_op (snd x) /\ P) True ops <-> Forall (fun x => wf_op (snd x)) ops.
Proof.
  induction ops as [|x ops IH]; cbn; split; auto.
  - intros [H1 H2]. constructor; [auto|now apply IH].
  - intros H. inversion H; subst. split; [auto|now apply IH].
Qed.

Lemma wf_pipeline b js ops ins outs pm :
  wf_op (Op b (KPipeline js ops ins outs pm)) <->
  swf (o_data b) /\ swf (o_ctrl b) /\ wf_heap ops.
Proof.
  cbn [wf_op]. rewrite wf_inner. unfold wf_heap. split.
  - intros (A & B & C & D). repeat split; auto. intros id o Ho. rewrite Forall_forall in D.
    apply (D (id, o)). now apply sfind_In.
  - intros (A & B & C & D). repeat split; auto. rewrite Forall_forall. intros [id o] Ho.
    apply (D id). now apply In_sfind.
Qed.

Lemma op_size_inner id o (ops : list (string * op)) :
  sfind id ops = Some o -> (op_size o <= fold_right (fun x n => op_size (snd x) + n)%nat 0%nat ops)%nat.
Proof.
  intros H. apply sfind_In in H. induction ops as [|x ops IH]; [destruct H|].
  cbn. destruct H as [->|H]; [cbn; lia|]. specialize (IH H). lia.
Qed.

Lemma wf_erase_aux n : forall o, (op_size o <= n)%nat -> wf_op (erase o) <-> wf_op o.
Proof.
  induction n as [|n IH]; intros o Hn; [destruct o as [b []]; cbn in Hn; lia|].
  assert (B : forall b, (swf (o_data (erase_base b)) <-> swf (o_data b)) /\
                        (swf (o_ctrl (erase_base b)) <-> swf (o_ctrl b))).
  { intros b. cbn. unfold swf. rewrite !skeys_smapv. split; split; auto. }
  destruct o as [b k]. destruct (B b) as [B1 B2].
  destruct k; try (cbn [erase wf_op]; rewrite B1, B2; tauto).
  rewrite erase_pipeline, !wf_pipeline, B1, B2. 
  assert (W : wf_heap (erase_heap all_op) <-> wf_heap all_op).
  { unfold wf_heap, erase_heap. unfold swf. rewrite skeys_smapv. split; intros [H1 H2]; split; auto; intros id o Ho.
    - apply (IH o).
      + cbn [op_size] in Hn. pose proof (op_size_inner _ _ _ Ho). lia.
      + apply (H2 id). rewrite sfind_smapv, Ho. reflexivity.
    - rewrite sfind_smapv in Ho. destruct (sfind id all_op) as [o1|] eqn:E; [|discriminate Ho].
      injection Ho as <-. apply IH.
      + cbn [op_size] in Hn. pose proof (op_size_inner _ _ _ E). lia.
      + eauto. }
  rewrite W. tauto.
Qed.

Lemma wf_erase o : wf_op (erase o) <-> wf_op o.
Proof. apply (wf_erase_aux (op_size o)). lia. Qed.

Lemma wf_same o o' : erase o' = erase o -> wf_op o -> wf_op o'.
Proof. intros E H. apply wf_erase. rewrite E. now apply wf_erase. Qed.

Lemma erase_find h h' id o :
  erase_heap h' = erase_heap h -> sfind id h = Some o ->
  exists o', sfind id h' = Some o' /\ erase o' = erase o.
Proof.
  intros E Ho. assert (S : sfind id (erase_heap h') = Some (erase o)).
  { rewrite E. unfold erase_heap. now rewrite sfind_smapv, Ho. }
  unfold erase_heap in S. rewrite sfind_smapv in S. destruct (sfind id h') as [o'|]; [|discriminate S].
  injection S as S. eauto.
Qed.

Lemma wf_heap_same h h' : erase_heap h' = erase_heap h -> wf_heap h -> wf_heap h'.
Proof.
  intros E [H1 H2]. split.
  - eapply swf_keys; [|exact H1]. apply (smapv_keys erase). auto.
  - intros id o Ho. destruct (erase_find h' h id o (eq_sym E) Ho) as (o' & Ho' & Eo).
    eapply wf_same; [symmetry; exact Eo|]. eauto.
Qed.

Lemma erase_heap_sset h id o o' :
  wf_heap h -> sfind id h = Some o -> erase o' = erase o -> erase_heap (sset id o' h) = erase_heap h.
Proof. intros [H _] Ho E. unfold erase_heap. now apply smapv_sset_same with o. Qed.

Lemma wf_heap_sset h id o o' :
  wf_heap h -> sfind id h = Some o -> erase o' = erase o -> wf_heap (sset id o' h).
Proof. intros H Ho E. eapply wf_heap_same; [eapply erase_heap_sset; eauto|auto]. Qed.

Lemma wf_local b k : wf_op (Op b k) -> swf (o_data b) /\ swf (o_ctrl b).
Proof. cbn. tauto. Qed.

(** ** ports *)

Lemma erase_push p m : erase_port (ip_push p m) = erase_port p.
Proof. reflexivity. Qed.

Lemma erase_pop p p' : ip_pop p = Some p' -> erase_port p' = erase_port p.
Proof. unfold ip_pop. destruct (ip_data p); [discriminate|]. now intros [= <-]. Qed.

Lemma erase_trim t p : erase_port (port_trim t p) = erase_port p.
Proof. unfold port_trim. destruct (drop_older _ _ _). reflexivity. Qed.

Lemma erase_receive p m p' : port_receive p m = Ok p' -> erase_port p' = erase_port p.
Proof.
  unfold port_receive. destruct (ip_max p =? ip_size p).
  - destruct (ip_pop p) eqn:E; [|discriminate]. intros [= <-]. rewrite erase_push. now apply erase_pop.
  - destruct (ip_max p <? ip_size p); [discriminate|]. now intros [= <-].
Qed.

Lemma erase_pop_all ports : smapv erase_port (pop_all ports) = smapv erase_port ports.
Proof.
  unfold smapv, pop_all. rewrite map_map. apply map_ext. intros [name p]. cbn. f_equal.
  destruct (ip_pop p) eqn:E; [now apply erase_pop|reflexivity].
Qed.

Lemma erase_join_trim best t ports : smapv erase_port (join_trim best t ports) = smapv erase_port ports.
Proof.
  unfold smapv, join_trim. rewrite map_map. apply map_ext. intros [name p]. cbn. f_equal.
  destruct (String.eqb name best); [reflexivity|apply erase_trim].
Qed.

Lemma erase_demux_scan t ctrls : smapv erase_port (snd (demux_scan t ctrls)) = smapv erase_port ctrls.
Proof.
  induction ctrls as [|[name p] r IH]; [reflexivity|]. cbn [demux_scan].
  destruct (ip_data (port_trim t p)) as [|m q].
  - destruct (demux_scan t r) as [x r']. cbn in *. now rewrite IH, erase_trim.
  - destruct ((mtime m =? t) && (veq (mval m) v1 || veq (mval m) v0)).
    + destruct (demux_scan t r) as [x r']. cbn in *. now rewrite IH, erase_trim.
    + cbn. now rewrite erase_trim.
Qed.

(** ** receiving *)

Lemma erase_sset_data b port p p' :
  swf (o_data b) -> sfind port (o_data b) = Some p -> erase_port p' = erase_port p ->
  erase_base (set_data b (sset port p' (o_data b))) = erase_base b.
Proof. intros. apply erase_set_data. eapply smapv_sset_same; eauto. Qed.

Lemma erase_sset_ctrl b port p p' :
  swf (o_ctrl b) -> sfind port (o_ctrl b) = Some p -> erase_port p' = erase_port p ->
  erase_base (set_ctrl b (sset port p' (o_ctrl b))) = erase_base b.
Proof. intros. apply erase_set_ctrl. eapply smapv_sset_same; eauto. Qed.

Lemma recv_data_base_erase b m port : swf (o_data b) -> erase_base (snd (recv_data_base b m port)) = erase_base b.
Proof.
  intros H. unfold recv_data_base. destruct (sfind _ (o_data b)) as [p|] eqn:E; [|reflexivity].
  destruct (port_receive p m) eqn:R; try reflexivity. cbn [snd]. rewrite erase_toproc.
  eapply erase_sset_data; eauto using erase_receive.
Qed.

Lemma recv_ctrl_base_erase b m port : swf (o_ctrl b) -> erase_base (snd (recv_ctrl_base b m port)) = erase_base b.
Proof.
  intros H. unfold recv_ctrl_base. destruct (sfind _ (o_ctrl b)) as [p|] eqn:E; [|reflexivity].
  destruct (port_receive p m) eqn:R; try reflexivity. cbn [snd].
  eapply erase_sset_ctrl; eauto using erase_receive.
Qed.

Lemma recv_data_join_erase b m port : swf (o_data b) -> erase_base (snd (recv_data_join b m port)) = erase_base b.
Proof.
  intros H. unfold recv_data_join. destruct (String.eqb port ""); [reflexivity|].
  destruct (sfind port (o_data b)) as [p|] eqn:E; [|reflexivity].
  eapply erase_sset_data; eauto.
Qed.

Lemma recv_data_demux_erase b m port : swf (o_data b) -> erase_base (snd (recv_data_demux b m port)) = erase_base b.
Proof.
  intros H. unfold recv_data_demux. destruct (sfind _ (o_data b)) as [p|] eqn:E; [|reflexivity].
  eapply erase_sset_data; eauto.
Qed.

Lemma recv_data_ar_erase b m port : swf (o_data b) -> erase_base (snd (recv_data_ar b m port)) = erase_base b.
Proof.
  intros H. unfold recv_data_ar. destruct (sfind _ (o_data b)) as [p|] eqn:E; [|reflexivity].
  cbv zeta. destruct (deque_max <=? _); [reflexivity|]. eapply erase_sset_data; eauto.
Qed.

Lemma recv_ctrl_demux_erase b m port : swf (o_ctrl b) -> erase_base (snd (recv_ctrl_demux b m port)) = erase_base b.
Proof.
  intros H. unfold recv_ctrl_demux. destruct (sfind _ (o_ctrl b)) as [p|] eqn:E; [|reflexivity].
  eapply erase_sset_ctrl; eauto.
Qed.

Lemma recv_data_local_erase o m port : wf_op o -> erase (snd (recv_data_local o m port)) = erase o.
Proof.
  intros H. destruct o as [b k]. apply wf_local in H as [H _]. unfold recv_data_local.
  match goal with |- erase (snd (let '(r, b') := ?x in _)) = _ =>
    assert (S : erase_base (snd x) = erase_base b); [|destruct x as [r b']] end.
  { destruct k; auto using recv_data_base_erase, recv_data_join_erase, recv_data_demux_erase, recv_data_ar_erase. }
  cbn [snd] in *. rewrite !erase_op. now rewrite S.
Qed.

Lemma recv_ctrl_local_erase o m port : wf_op o -> erase (snd (recv_ctrl_local o m port)) = erase o.
Proof.
  intros H. destruct o as [b k]. apply wf_local in H as [_ H]. unfold recv_ctrl_local.
  match goal with |- erase (snd (let '(r, b') := ?x in _)) = _ =>
    assert (S : erase_base (snd x) = erase_base b); [|destruct x as [r b']] end.
  { destruct k; auto using recv_ctrl_base_erase, recv_ctrl_demux_erase. }
  cbn [snd] in *. rewrite !erase_op. now rewrite S.
Qed.

(** ** executing *)

Definition same_def (b : base) (k : kind) (s : base * kind) : Prop :=
  erase_base (fst s) = erase_base b /\ erase_kind (snd s) = erase_kind k.

Lemma input_loop_erase tp b pm ls out ls0 : same_def b (KInput pm ls0) (snd (input_loop tp b pm ls out)).
Proof.
  revert ls out. induction tp as [|port tp IH]; intros ls out; cbn [input_loop].
  - split; reflexivity.
  - destruct (d_msg b port 0); try (split; reflexivity).
    destruct (match sfind port ls with Some l => mtime l <? mtime a | None => true end); auto.
    destruct (sfind port pm); [apply IH|split; reflexivity].
Qed.

Lemma output_loop_erase tp b pm out : same_def b (KOutput pm) (snd (output_loop tp b pm out)).
Proof.
  revert out. induction tp as [|port tp IH]; intros out; cbn [output_loop].
  - split; reflexivity.
  - destruct (d_last b port); try (split; reflexivity).
    destruct (sfind port pm); [apply IH|split; reflexivity].
Qed.

Lemma process_data_erase b k : same_def b k (snd (process_data b k)).
Proof.
  destruct k; cbn [process_data]; try (split; reflexivity).
  - apply input_loop_erase.
  - apply output_loop_erase.
  - destruct (rbind _ _) as [m| | | |]; split; reflexivity.
  - destruct (rbind _ _) as [m| | | |]; split; reflexivity.
  - destruct (rbind _ _) as [[e [[? ?] ?]]| | | |]; split; reflexivity.
  - destruct (rbind _ _) as [[e ?]| | | |]; split; reflexivity.
  - destruct (rbind _ _) as [[[e ?] ?]| | | |]; split; reflexivity.
  - destruct (rbind _ _) as [[m [? ?]]| | | |]; split; reflexivity.
Qed.

Lemma exec_base_erase b k : same_def b k (snd (exec_base b k)).
Proof.
  unfold exec_base. destruct (ready_ports b (o_toproc b)) as [[|p tp]| | | |]; try (split; reflexivity).
  destruct (process_data_erase (set_toproc b (p :: tp)) k) as [E1 E2].
  destruct (process_data _ k) as [r [b' k']]. cbn [fst snd] in *. rewrite erase_toproc in E1.
  destruct r; split; auto.
Qed.

Lemma join_exec_erase b k : same_def b k (snd (join_exec b k)).
Proof.
  unfold join_exec. destruct (o_data b) as [|[name0 p0] rest] eqn:D; [split; reflexivity|].
  destruct (ip_data p0); [split; reflexivity|].
  destruct (join_latest _ _ _) as [[best t]|]; [|split; reflexivity].
  rewrite <- D. cbv zeta. cbn [o_data set_data].
  assert (E1 : erase_base (set_data b (join_trim best t (o_data b))) = erase_base b)
    by (apply erase_set_data, erase_join_trim).
  destruct (join_ready _ _); [|split; auto].
  destruct (join_process _ _); cbn [snd]; split; auto; cbn [fst].
  rewrite erase_set_data; [exact E1|]. cbn. apply erase_pop_all.
Qed.

Lemma demux_join_erase b k cm : same_def b k (snd (demux_join b k cm)).
Proof.
  unfold demux_join. destruct (o_data b) as [|[port p] [|]] eqn:D; try (split; reflexivity).
  destruct (ip_data p); [split; reflexivity|].
  pose proof (erase_demux_scan (mtime m) (o_ctrl b)) as S.
  destruct (demux_scan (mtime m) (o_ctrl b)) as [x ctrls]. cbn [snd] in S.
  assert (E1 : erase_base (set_ctrl b ctrls) = erase_base b) by now apply erase_set_ctrl.
  destruct x; try (split; auto; fail).
  cbv zeta. destruct (a =? _); [|split; auto].
  destruct (demux_out _ _ _ _); cbn [snd]; split; auto; cbn [fst].
  rewrite erase_set_ctrl; [|cbn; apply erase_pop_all].
  rewrite erase_set_data; [exact E1|]. cbn. apply erase_pop_all.
Qed.

Lemma var_query_erase b v i : same_def b (KVariable v i) (snd (var_query b v i)).
Proof.
  unfold var_query.
  destruct (o_data b) as [|[dport dp] [|]] eqn:D; try (split; reflexivity).
  destruct (o_ctrl b) as [|[cport cp] [|]] eqn:C; try (split; reflexivity).
  destruct (ip_data dp) as [|d0 dr]; [split; reflexivity|].
  destruct (ip_data cp) as [|c0 crest]; [split; reflexivity|].
  assert (E1 : forall q, erase_base (set_ctrl b [(cport, set_q cp q)]) = erase_base b).
  { intros. apply erase_set_ctrl. rewrite C. reflexivity. }
  assert (E2 : forall q, erase_base (set_data b [(dport, set_q dp q)]) = erase_base b).
  { intros. apply erase_set_data. rewrite D. reflexivity. }
  cbv zeta. destruct (_ && _); [split; cbn [snd fst]; auto|].
  destruct (mtime d0 <=? mtime c0); [|split; reflexivity].
  destruct (mtime c0 =? mtime d0); [split; cbn [snd fst]; auto|].
  destruct (var_loop _ _) as [[v1|] q']; split; cbn [snd fst]; auto.
  rewrite erase_set_data; [apply E1|]. cbn. now rewrite D.
Qed.

Lemma ar_exec_erase b c : same_def b (KAutoReg c) (snd (ar_exec b c)).
Proof.
  unfold ar_exec. destruct (o_data b) as [|[port p] [|]] eqn:D; try (split; reflexivity).
  destruct (ar_loop _ _ _ _ _); try (split; reflexivity).
  destruct (ip_data p) as [|? [|]]; try (split; reflexivity).
  split; [|reflexivity]. cbn [snd fst]. apply erase_set_data. rewrite D. reflexivity.
Qed.

Lemma exec_data_local_erase o : erase (snd (exec_data_local o)) = erase o.
Proof.
  destruct o as [b k]. unfold exec_data_local.
  match goal with |- erase (snd (let (r, s) := ?x in _)) = _ =>
    assert (S : same_def b k (snd x)); [|destruct x as [r [b' k']]] end.
  { destruct k; auto using exec_base_erase, join_exec_erase, demux_join_erase, var_query_erase, ar_exec_erase. }
  destruct S as [S1 S2]. cbn [fst snd] in *. rewrite !erase_op. now rewrite S1, S2.
Qed.

Lemma exec_ctrl_local_erase o : erase (snd (exec_ctrl_local o)) = erase o.
Proof.
  destruct o as [b k]. unfold exec_ctrl_local.
  match goal with |- erase (snd (let (r, s) := ?x in _)) = _ =>
    assert (S : same_def b k (snd x)); [|destruct x as [r [b' k']]] end.
  { destruct k; auto using demux_join_erase, var_query_erase; split; reflexivity. }
  destruct S as [S1 S2]. cbn [fst snd] in *. rewrite !erase_op. now rewrite S1, S2.
Qed.

(** ** over a graph *)

Lemma erase_pipe b js ops ops' ins outs pm b' :
  erase_base b' = erase_base b -> erase_heap ops' = erase_heap ops ->
  erase (Op b' (KPipeline js ops' ins outs pm)) = erase (Op b (KPipeline js ops ins outs pm)).
Proof. intros E1 E2. now rewrite !erase_pipeline, E1, E2. Qed.

Lemma recv_data_erase n : forall o m port, wf_op o -> erase (snd (recv_data n o m port)) = erase o.
Proof.
  induction n as [|n IH]; intros [b k] m port H;
    (destruct k; [..|]; try (apply recv_data_local_erase; exact H)).
  - reflexivity.
  - cbn [recv_data op_kind op_base].
    match goal with |- context [match ?x with Some key => _ | None => (Throw OutOfRange, _) end] =>
      destruct x as [key|]; [|reflexivity] end.
    destruct (sfind key inputs) as [inner|]; [|reflexivity].
    destruct (sfind inner all_op) as [oi|] eqn:E; [|reflexivity].
    apply wf_pipeline in H as (H1 & H2 & H3).
    assert (W : wf_op oi) by (eapply (proj2 H3); eauto).
    specialize (IH oi m (snd (split2 key)) W).
    destruct (recv_data n oi m (snd (split2 key))) as [r oi']. cbn [snd] in IH.
    assert (X : erase_heap (sset inner oi' all_op) = erase_heap all_op) by (eapply erase_heap_sset; eauto).
    destruct r; cbn [snd]; apply erase_pipe; auto.
Qed.

(** a computation over a heap that keeps the definitions *)
Definition keeps (h : heap) {A} (x : sres heap A) : Prop := erase_heap (snd x) = erase_heap h.

Lemma keeps_bind {A B} h (x : sres heap A) (k : A -> heap -> sres heap B) :
  keeps h x -> (forall a h1, erase_heap h1 = erase_heap h -> keeps h1 (k a h1)) ->
  keeps h (bind x k).
Proof.
  unfold keeps. destruct x as [[a| | | |] h1]; cbn; intros E K; auto.
  specialize (K a h1 E). now rewrite K.
Qed.

Lemma deliver1_keeps n m c h : wf_heap h -> keeps h (deliver1 n m c h).
Proof.
  intros H. destruct c as [dst port]. unfold deliver1, keeps.
  destruct (sfind dst h) as [o|] eqn:E; [|reflexivity].
  assert (W : wf_op o) by (eapply (proj2 H); eauto).
  destruct (is_data_input o port).
  - pose proof (recv_data_erase n o m port W) as R. destruct (recv_data n o m port) as [r o'].
    cbn [snd] in *. eapply erase_heap_sset; eauto.
  - destruct (is_control_input o port); [|reflexivity].
    pose proof (recv_ctrl_local_erase o m port W) as R. destruct (recv_ctrl_local o m port) as [r o'].
    cbn [snd] in *. eapply erase_heap_sset; eauto.
Qed.

Lemma deliver_keeps n m cs : forall h, wf_heap h -> keeps h (deliver n m cs h).
Proof.
  induction cs as [|c cs IH]; intros h H; [reflexivity|]. cbn [deliver].
  apply keeps_bind; [now apply deliver1_keeps|]. intros _ h1 E. apply IH. eapply wf_heap_same; eauto.
Qed.

Section Emit.
Variable rec : bool -> string -> heap -> sres heap progmsg.
Variable n : nat.
Hypothesis rec_keeps : forall ctl id h, wf_heap h -> keeps h (rec ctl id h).

Lemma execute1_keeps c h : wf_heap h -> keeps h (execute1 rec c h).
Proof.
  intros H. destruct c as [dst port]. unfold execute1.
  destruct (sfind dst h) as [o|]; [|reflexivity].
  destruct (is_data_input o port); auto. destruct (is_control_input o port); auto. reflexivity.
Qed.

Lemma execute_all_keeps cs : forall out h, wf_heap h -> keeps h (execute_all rec cs out h).
Proof.
  induction cs as [|c cs IH]; intros out h H; [reflexivity|]. cbn [execute_all].
  apply keeps_bind; [now apply execute1_keeps|]. intros x h1 E. apply IH. eapply wf_heap_same; eauto.
Qed.

Lemma emit_msg_keeps b port m h : wf_heap h -> keeps h (emit_msg rec n b port m h).
Proof.
  intros H. unfold emit_msg. destruct (sfind port (o_conns b)); [|reflexivity].
  apply keeps_bind; [now apply deliver_keeps|]. intros x h1 E. apply execute_all_keeps. eapply wf_heap_same; eauto.
Qed.

Lemma emit_port_keeps b port ms : forall out h, wf_heap h -> keeps h (emit_port rec n b port ms out h).
Proof.
  induction ms as [|m ms IH]; intros out h H; [reflexivity|]. cbn [emit_port].
  apply keeps_bind; [now apply emit_msg_keeps|]. intros x h1 E. apply IH. eapply wf_heap_same; eauto.
Qed.

Lemma emit_op_keeps b oms : forall out h, wf_heap h -> keeps h (emit_op rec n b oms out h).
Proof.
  induction oms as [|[port ms] oms IH]; intros out h H; [reflexivity|]. cbn [emit_op].
  destruct (sset_mem port (o_outs b)); [|reflexivity].
  apply keeps_bind; [now apply emit_port_keeps|]. intros x h1 E. apply IH. eapply wf_heap_same; eauto.
Qed.

Lemma pipe_run_keeps ins keys : forall out h, wf_heap h -> keeps h (pipe_run rec keys ins out h).
Proof.
  induction keys as [|key keys IH]; intros out h H; [reflexivity|]. cbn [pipe_run].
  destruct (sfind key ins); [|reflexivity].
  apply keeps_bind; [now apply rec_keeps|]. intros x h1 E. apply IH. eapply wf_heap_same; eauto.
Qed.

Lemma exec_local_erase ctl o : wf_op o -> erase (snd (exec_local rec ctl o)) = erase o.
Proof.
  intros H. unfold exec_local. destruct ctl; [apply exec_ctrl_local_erase|].
  destruct o as [b k]; destruct k; try apply exec_data_local_erase.
  cbn [op_kind op_base]. unfold pipe_exec. apply wf_pipeline in H as (H1 & H2 & H3).
  pose proof (pipe_run_keeps inputs (o_toproc b) [] all_op H3) as K. unfold keeps in K.
  destruct (pipe_run rec (o_toproc b) inputs [] all_op) as [r ops']. cbn [snd] in K.
  destruct r; cbn [snd]; apply erase_pipe; auto.
Qed.
End Emit.

Lemma exec_keeps n : forall ctl id h, wf_heap h -> keeps h (exec n ctl id h).
Proof.
  induction n as [|n IH]; intros ctl id h H; [reflexivity|]. cbn [exec].
  destruct (sfind id h) as [o|] eqn:E; [|reflexivity].
  assert (W : wf_op o) by (eapply (proj2 H); eauto).
  pose proof (exec_local_erase (exec n) IH ctl o W) as X.
  destruct (exec_local (exec n) ctl o) as [r o']. cbn [snd] in X.
  assert (Y : erase_heap (sset id o' h) = erase_heap h) by (eapply erase_heap_sset; eauto).
  destruct r; auto.
  unfold keeps. rewrite <- Y. apply emit_op_keeps; auto. eapply wf_heap_same; eauto.
Qed.

Lemma send1_keeps n entry port m h : wf_heap h -> keeps h (send1 n entry port m h).
Proof.
  intros H. unfold send1. destruct (sfind entry h) as [o|] eqn:E; [|reflexivity].
  assert (W : wf_op o) by (eapply (proj2 H); eauto).
  pose proof (recv_data_erase n o m port W) as X. destruct (recv_data n o m port) as [r o']. cbn [snd] in X.
  assert (Y : erase_heap (sset entry o' h) = erase_heap h) by (eapply erase_heap_sset; eauto).
  destruct r; auto. unfold keeps. rewrite <- Y. apply exec_keeps. eapply wf_heap_same; eauto.
Qed.

Lemma send_port_keeps n entry port ms : forall out h, wf_heap h -> keeps h (send_port n entry port ms out h).
Proof.
  induction ms as [|m ms IH]; intros out h H; [reflexivity|]. cbn [send_port].
  apply keeps_bind; [now apply send1_keeps|]. intros x h1 E. apply IH. eapply wf_heap_same; eauto.
Qed.

Lemma send_batch_keeps n entry batch : forall out h, wf_heap h -> keeps h (send_batch n entry batch out h).
Proof.
  induction batch as [|[port ms] batch IH]; intros out h H; [reflexivity|]. cbn [send_batch].
  apply keeps_bind; [now apply send_port_keeps|]. intros x h1 E. apply IH. eapply wf_heap_same; eauto.
Qed.

End Shape.
