(** * Programs of such operators: a message never fails *)

From Coq Require Import String Ascii ZArith Bool List Lia.
From Verif Require Import Base.StrMap Base.Num Model.Core Model.Ops Model.Make Model.Graph.
From Verif Require Import Spec.Shape Spec.Log Spec.Bounds Spec.Pipeline Spec.Reliable.
From Verif Require Import Proofs.Ports Proofs.MakeP Proofs.ShapeP Proofs.LogRun Proofs.Deep Proofs.JsonP Proofs.BoundsP Proofs.PipelineP Proofs.ReliableP.
Import ListNotations.
Open Scope string_scope.
Open Scope list_scope.
Open Scope Z_scope.

Section Run.
Context {NO : NumOps}.

(** ** Pipelines *)

Record pfit (b : base) (ops : heap) (ins outs pm : smap string) : Prop := {
  pf_ctrl : o_ctrl b = [];
  pf_wf : wf_heap ops;
  pf_closed : closed ops;
  pf_data : forall name, In name (skeys (o_data b)) -> name <> "" /\
    exists key i oi, sfind name pm = Some key /\ sfind key ins = Some i /\ sfind i ops = Some oi /\
      In (snd (split2 key)) (skeys (o_data (op_base oi)));
  pf_ins : forall key i, sfind key ins = Some i -> exists oi, sfind i ops = Some oi;
  pf_outs : forall key, In key (skeys outs) -> exists name, sfind key pm = Some name /\ In name (o_outs b);
  pf_toproc : forall key, In key (o_toproc b) -> In key (skeys ins)
}.

Definition node (o : op) : Prop :=
  wf_op o /\
  match op_kind o with
  | KPipeline js ops ins outs pm => pfit (op_base o) ops ins outs pm
  | k => local (op_base o) k
  end.

Definition simple (k : kind) : Prop := match k with KPipeline _ _ _ _ _ => False | _ => True end.
Lemma node_simple b k : simple k -> node (Op b k) <-> wf_op (Op b k) /\ local b k.
Proof. destruct k; intros S; try destruct S; reflexivity. Qed.
Lemma simple_cases k : simple k \/ exists js ops ins outs pm, k = KPipeline js ops ins outs pm.
Proof. destruct k; cbn; auto. right. eauto 6. Qed.

Lemma same_data o o' : erase o' = erase o -> skeys (o_data (op_base o')) = skeys (o_data (op_base o)).
Proof.
  destruct o as [b k], o' as [b' k']. rewrite !erase_op. intros E. apply (f_equal op_base) in E. cbn [op_base] in *.
  apply (f_equal o_data) in E. now apply smapv_keys in E.
Qed.
Lemma same_ctrl o o' : erase o' = erase o -> o_ctrl (op_base o) = [] -> o_ctrl (op_base o') = [].
Proof.
  destruct o as [b k], o' as [b' k']. rewrite !erase_op. intros E H. apply (f_equal op_base) in E. cbn [op_base] in *.
  apply (f_equal o_ctrl) in E. cbn in E. rewrite H in E. destruct (o_ctrl b'); [reflexivity|discriminate E].
Qed.
Lemma same_outs o o' : erase o' = erase o -> o_outs (op_base o') = o_outs (op_base o) /\ o_conns (op_base o') = o_conns (op_base o).
Proof.
  destruct o as [b k], o' as [b' k']. rewrite !erase_op. intros E. apply (f_equal op_base) in E. cbn [op_base] in *.
  split; [exact (f_equal o_outs E)|exact (f_equal o_conns E)].
Qed.

Lemma pfit_same b ops ops' ins outs pm tp : erase_heap ops' = erase_heap ops ->
  (forall key, In key tp -> In key (skeys ins)) -> pfit b ops ins outs pm -> pfit (set_toproc b tp) ops' ins outs pm.
Proof.
  intros E T [C W Cl D I O _]. constructor; cbn [set_toproc o_ctrl o_data o_outs o_toproc]; auto.
  - eapply wf_heap_same; eauto.
  - eapply closed_same; eauto.
  - intros name Hn. destruct (D name Hn) as (N & key & i & oi & F1 & F2 & F3 & P). split; [auto|].
    destruct (erase_find ops ops' i oi E F3) as (oi' & F3' & Eo). exists key, i, oi'. rewrite (same_data _ _ Eo). auto.
  - intros key i F. destruct (I key i F) as [oi Fo]. destruct (erase_find ops ops' i oi E Fo) as (oi' & F' & _). eauto.
Qed.
Lemma node_ctrl o : node o -> o_ctrl (op_base o) = [].
Proof.
  destruct o as [b k]. intros [_ H]. cbn [op_base op_kind] in *. destruct (simple_cases k) as [S|(js & ops & ins & outs & pm & ->)].
  - assert (L : local b k) by (destruct k; try exact H; destruct S). apply L.
  - apply H.
Qed.

(** ** Operators *)

Definition fineo {A} (x : sres op A) : Prop := fst x = OutOfFuel \/ ((exists r, fst x = Ok r) /\ every node (snd x)).

Lemma recv_fine n : forall o m port, every node o -> In port (skeys (o_data (op_base o))) -> fineo (recv_data n o m port).
Proof.
  induction n as [|n IH]; intros [b k] m port H I; destruct (simple_cases k) as [S|(js & ops & ins & outs & pm & ->)].
  1,3: assert (X : forall n, recv_data n (Op b k) m port = recv_data_local (Op b k) m port) by (intros [|?]; destruct k; try destruct S; reflexivity);
    rewrite X; right; apply every_L in H; pose proof H as [W _]; apply node_simple in H as [_ L]; [|exact S];
    destruct (recv_local_ok b k m port W L I) as [R L'];
    pose proof (recv_data_local_erase (Op b k) m port W) as E; pose proof (recv_local_kind (Op b k) m port) as K; rewrite R;
    (split; [eauto|]); destruct (snd (recv_data_local (Op b k) m port)) as [b' k']; cbn [op_base op_kind] in *; subst k';
    (apply simple_every; [destruct k; try destruct S; reflexivity|]); (apply node_simple; [exact S|]); (split; [eapply wf_same; eauto|exact L']).
  - now left.
  - pose proof H as Hw. apply every_L in Hw as [W _]. apply every_pipe in H as [[_ H] A]. cbn [op_kind op_base] in *.
    destruct (pf_data _ _ _ _ _ H port I) as (N & key & i & oi & F1 & F2 & F3 & P).
    cbn [recv_data op_kind op_base].
    assert (K : match ins with [(k0, _)] => if String.eqb port "" then Some k0 else sfind port pm | _ => sfind port pm end = Some key).
    { destruct (String.eqb_spec port ""); [contradiction|]. destruct ins as [|[? ?] [|? ?]]; exact F1. }
    rewrite K, F2, F3. pose proof (IH oi m (snd (split2 key)) (all_find _ _ _ _ A F3) P) as X.
    assert (Wi : wf_op oi) by (apply (proj2 (pf_wf _ _ _ _ _ H) i); exact F3).
    pose proof (recv_data_erase n oi m (snd (split2 key)) Wi) as E.
    destruct (recv_data n oi m (snd (split2 key))) as [r oi']. destruct X as [X|[[r' X] Y]]; cbn [fst snd] in *; subst r; [now left|].
    right. split; [eexists; reflexivity|]. cbn [snd].
    assert (Eh : erase_heap (sset i oi' ops) = erase_heap ops) by (eapply erase_heap_sset; eauto; apply H).
    apply every_pipe. split; [|now apply all_sset]. split.
    + eapply wf_same; [|exact W]. now apply erase_pipe.
    + cbn [op_kind op_base]. eapply pfit_same; [exact Eh| |exact H]. intros key' Hk. apply sset_add_In in Hk as [->|Hk]; [|now apply H].
      eapply sfind_In_key; eauto.
Qed.

(** ** Heaps *)

Definition good (h : heap) : Prop := wf_heap h /\ closed h /\ all_every node h.
Definition fine {A} (h : heap) (x : sres heap A) : Prop :=
  fst x = OutOfFuel \/ ((exists r, fst x = Ok r) /\ good (snd x) /\ erase_heap (snd x) = erase_heap h).

Lemma fine_ok {A} h (a : A) : good h -> fine h (Ok a, h).
Proof. intros G. right. split; [eexists; reflexivity|]. split; [exact G|reflexivity]. Qed.
Lemma fine_bind {A B} h (x : sres heap A) (k : A -> heap -> sres heap B) :
  fine h x -> (forall a h1, good h1 -> erase_heap h1 = erase_heap h -> fine h1 (k a h1)) -> fine h (bind x k).
Proof.
  intros [X|[[r X] [G E]]] K; destruct x as [y h1]; cbn [fst snd] in *; subst y; [now left|].
  cbn [bind]. destruct (K r h1 G E) as [Y|[R [G' E']]]; [now left|]. right. split; [exact R|]. split; [exact G'|etransitivity; [exact E'|exact E]].
Qed.

Lemma good_sset h id o o' : good h -> sfind id h = Some o -> erase o' = erase o -> every node o' ->
  good (sset id o' h) /\ erase_heap (sset id o' h) = erase_heap h.
Proof.
  intros (W & C & A) F E N. assert (X : erase_heap (sset id o' h) = erase_heap h) by (eapply erase_heap_sset; eauto).
  split; [|exact X]. split; [eapply wf_heap_same; eauto|]. split; [eapply closed_same; eauto|now apply all_sset].
Qed.
Lemma there h h' id : erase_heap h' = erase_heap h -> (exists o, sfind id h = Some o) -> exists o, sfind id h' = Some o.
Proof. intros E [o F]. destruct (erase_find h h' id o E F) as (o' & F' & _). eauto. Qed.

Definition to_there (h : heap) (cs : list (string * string)) : Prop := forall c, In c cs -> exists o, sfind (fst c) h = Some o.
Lemma to_same h h' cs : erase_heap h' = erase_heap h -> to_there h cs -> to_there h' cs.
Proof. intros E T c I. eapply there; eauto. Qed.

Lemma deliver1_fine n m c h : good h -> (exists o, sfind (fst c) h = Some o) -> fine h (deliver1 n m c h).
Proof.
  intros G [o F]. destruct c as [dst port]. cbn [fst] in F. unfold deliver1. rewrite F. pose proof G as (W & C & A).
  pose proof (all_find _ _ _ _ A F) as N. assert (Wo : wf_op o) by (eapply (proj2 W); eauto).
  destruct (is_data_input o port) eqn:D.
  - apply shas_spec in D. pose proof (recv_fine n o m port N D) as X. pose proof (recv_data_erase n o m port Wo) as E.
    destruct (recv_data n o m port) as [r o']. destruct X as [X|[[r' X] Y]]; cbn [fst snd] in *; subst r; [now left|].
    right. split; [eexists; reflexivity|]. cbn [snd]. eapply good_sset; eauto.
  - unfold is_control_input. rewrite (node_ctrl o (every_L _ _ N)). now apply fine_ok.
Qed.
Lemma deliver_fine n m cs : forall h, good h -> to_there h cs -> fine h (deliver n m cs h).
Proof.
  induction cs as [|c cs IH]; intros h G T; cbn [deliver]; [now apply fine_ok|].
  apply fine_bind; [apply deliver1_fine; [auto|apply T; now left]|]. intros _ h1 G1 E. apply IH; [auto|].
  eapply to_same; [exact E|]. intros c' I. apply T. now right.
Qed.

Lemma pipe_ports_in outs pm names id om : (forall key, In key (skeys outs) -> exists name, sfind key pm = Some name /\ In name names) ->
  forall acc, ports_in acc names -> exists acc', pipe_ports id om outs pm acc = Ok acc' /\ ports_in acc' names.
Proof.
  intros H. induction om as [|[port ms] om IH]; intros acc P; cbn [pipe_ports]; [eauto|].
  destruct (shas (id ++ ":" ++ port)%string outs) eqn:S; [|auto]. apply shas_spec in S. destruct (H _ S) as (name & -> & I).
  apply IH. now apply ports_in_semplace.
Qed.
Lemma pipe_outputs_in outs pm names r : (forall key, In key (skeys outs) -> exists name, sfind key pm = Some name /\ In name names) ->
  forall acc, ports_in acc names -> exists acc', pipe_outputs r outs pm acc = Ok acc' /\ ports_in acc' names.
Proof.
  intros H. induction r as [|[id om] r IH]; intros acc P; cbn [pipe_outputs]; [eauto|].
  destruct (pipe_ports_in outs pm names id om H acc P) as (acc1 & -> & P1). cbn [rbind]. auto.
Qed.

Section Emit.
Variable rec : bool -> string -> heap -> sres heap progmsg.
Hypothesis rec_fine : forall id h, good h -> (exists o, sfind id h = Some o) -> fine h (rec false id h).
Variable n : nat.

Lemma execute1_fine c h : good h -> (exists o, sfind (fst c) h = Some o) -> fine h (execute1 rec c h).
Proof.
  intros G [o F]. destruct c as [dst port]. cbn [fst] in F. unfold execute1. rewrite F. pose proof G as (W & C & A).
  pose proof (all_find _ _ _ _ A F) as N. destruct (is_data_input o port); [apply rec_fine; eauto|].
  unfold is_control_input. rewrite (node_ctrl o (every_L _ _ N)). now apply fine_ok.
Qed.
Lemma execute_all_fine cs : forall out h, good h -> to_there h cs -> fine h (execute_all rec cs out h).
Proof.
  induction cs as [|c cs IH]; intros out h G T; cbn [execute_all]; [now apply fine_ok|].
  apply fine_bind; [apply execute1_fine; [auto|apply T; now left]|]. intros x h1 G1 E. apply IH; [auto|].
  eapply to_same; [exact E|]. intros c' I. apply T. now right.
Qed.

Definition linked (b : base) (h : heap) : Prop := forall port cs, sfind port (o_conns b) = Some cs -> to_there h cs.
Lemma linked_same b h h' : erase_heap h' = erase_heap h -> linked b h -> linked b h'.
Proof. intros E L port cs F. eapply to_same; eauto. Qed.

Lemma emit_msg_fine b port m h : good h -> linked b h -> fine h (emit_msg rec n b port m h).
Proof.
  intros G L. unfold emit_msg. destruct (sfind port (o_conns b)) as [cs|] eqn:F; [|now apply fine_ok].
  apply fine_bind; [apply deliver_fine; eauto|]. intros _ h1 G1 E. apply execute_all_fine; [auto|]. eapply to_same; eauto.
Qed.
Lemma emit_port_fine b port ms : forall out h, good h -> linked b h -> fine h (emit_port rec n b port ms out h).
Proof.
  induction ms as [|m ms IH]; intros out h G L; cbn [emit_port]; [now apply fine_ok|].
  apply fine_bind; [now apply emit_msg_fine|]. intros x h1 G1 E. apply IH; [auto|]. eapply linked_same; eauto.
Qed.
Lemma emit_op_fine b oms : ports_in oms (o_outs b) -> forall out h, good h -> linked b h -> fine h (emit_op rec n b oms out h).
Proof.
  induction oms as [|[port ms] oms IH]; intros P out h G L; cbn [emit_op]; [now apply fine_ok|].
  assert (M : sset_mem port (o_outs b) = true) by (apply sset_mem_In; apply (P port ms); now left). rewrite M.
  apply fine_bind; [now apply emit_port_fine|]. intros x h1 G1 E. apply IH; [|auto|eapply linked_same; eauto].
  intros p ms' I. apply (P p ms'). now right.
Qed.

Lemma pipe_run_fine ins keys : (forall key, In key keys -> In key (skeys ins)) -> forall out h,
  good h -> (forall key i, sfind key ins = Some i -> exists o, sfind i h = Some o) -> fine h (pipe_run rec keys ins out h).
Proof.
  induction keys as [|key keys IH]; intros K out h G T; cbn [pipe_run]; [now apply fine_ok|].
  assert (I : In key (skeys ins)) by (apply K; now left). apply In_skeys_sfind in I as [i F]. rewrite F.
  apply fine_bind; [apply rec_fine; eauto|]. intros x h1 G1 E. apply IH; [intros; apply K; now right|auto|].
  intros key' i' F'. eapply there; eauto.
Qed.

Lemma exec_local_fine o : every node o ->
  fst (exec_local rec false o) = OutOfFuel \/
  exists out o', exec_local rec false o = (Ok out, o') /\ every node o' /\ ports_in out (o_outs (op_base o')) /\ erase o' = erase o.
Proof.
  intros H. pose proof H as H'. apply every_L in H' as [W N]. destruct o as [b k]. destruct (simple_cases k) as [S|(js & ops & ins & outs & pm & ->)].
  - assert (X : exec_local rec false (Op b k) = exec_data_local (Op b k)) by (destruct k; try destruct S; reflexivity).
    assert (L : local b k) by (destruct k; try exact N; destruct S).
    rewrite X. destruct (exec_local_ok b k L) as (out & R & P & L'). pose proof (exec_data_local_erase (Op b k)) as E.
    destruct (exec_data_local (Op b k)) as [r [b' k']]. cbn [fst snd op_base op_kind] in *. subst r.
    right. eexists _, _. split; [reflexivity|]. split; [|split; [|exact E]].
    + assert (S' : simple k').
      { apply erase_is_pipeline in E. destruct k'; try exact I. destruct k; try discriminate E. destruct S. }
      apply simple_every; [destruct k'; try destruct S'; reflexivity|]. apply node_simple; [exact S'|]. split; [eapply wf_same; eauto|exact L'].
    + apply same_outs in E as [E _]. cbn [op_base] in *. now rewrite E.
  - apply every_pipe in H as [_ A]. cbn [op_kind op_base] in N. cbn [exec_local op_kind op_base]. unfold pipe_exec.
    assert (G : good ops) by (split; [apply N|split; [apply N|exact A]]).
    destruct (pipe_run_fine ins (o_toproc b) (pf_toproc _ _ _ _ _ N) [] ops G (pf_ins _ _ _ _ _ N)) as [X|[[r X] [G' E]]];
      destruct (pipe_run rec (o_toproc b) ins [] ops) as [y ops']; cbn [fst snd] in *; subst y; [now left|]. right.
    destruct (pipe_outputs_in outs pm (o_outs b) r (pf_outs _ _ _ _ _ N) [] (ports_in_nil _)) as (out & Eo & Po).
    rewrite Eo. eexists _, _. split; [reflexivity|].
    assert (Er : erase (Op (set_toproc b []) (KPipeline js ops' ins outs pm)) = erase (Op b (KPipeline js ops ins outs pm))) by now apply erase_pipe.
    split; [|split; [|exact Er]].
    + apply every_pipe. split; [|apply G']. split; [eapply wf_same; eauto|]. cbn [op_kind op_base]. eapply pfit_same; [exact E|intros ? []|exact N].
    + exact Po.
Qed.
End Emit.

Lemma exec_fine n : forall id h, good h -> (exists o, sfind id h = Some o) -> fine h (exec n false id h).
Proof.
  induction n as [|n IH]; intros id h G [o F]; cbn [exec]; [now left|]. rewrite F. pose proof G as (W & C & A).
  destruct (exec_local_fine (exec n) IH o (all_find _ _ _ _ A F)) as [X|(out & o' & -> & N & P & E)].
  - destruct (exec_local (exec n) false o) as [r o']. cbn [fst] in X. subst r. now left.
  - destruct (good_sset h id o o' G F E N) as [G' E'].
    destruct (emit_op_fine (exec n) IH n (op_base o') out P [] (sset id o' h) G') as [X|[R [G2 E2]]].
    + intros port cs Fc [dst tp] I. cbn [fst]. apply (there h); [exact E'|]. apply (C id). exists port, tp.
      unfold wires. rewrite F. apply same_outs in E as [_ E]. rewrite <- E, Fc. exact I.
    + now left.
    + right. split; [exact R|]. split; [exact G2|congruence].
Qed.

Definition entered (h : heap) (entry : string) (port : string) : Prop :=
  exists o, sfind entry h = Some o /\ In port (skeys (o_data (op_base o))).
Lemma entered_same h h' entry port : erase_heap h' = erase_heap h -> entered h entry port -> entered h' entry port.
Proof.
  intros E (o & F & I). destruct (erase_find h h' entry o E F) as (o' & F' & Eo). exists o'. split; [auto|].
  now rewrite (same_data _ _ Eo).
Qed.

Lemma send1_fine n entry port m h : good h -> entered h entry port -> fine h (send1 n entry port m h).
Proof.
  intros G (o & F & I). unfold send1. rewrite F. pose proof G as (W & C & A). pose proof (all_find _ _ _ _ A F) as N.
  assert (Wo : wf_op o) by (eapply (proj2 W); eauto).
  pose proof (recv_fine n o m port N I) as X. pose proof (recv_data_erase n o m port Wo) as E.
  destruct (recv_data n o m port) as [r o']. destruct X as [X|[[r' X] Y]]; cbn [fst snd] in *; subst r; [now left|].
  destruct (good_sset h entry o o' G F E Y) as [G' E'].
  destruct (exec_fine n entry (sset entry o' h) G') as [X|[R [G2 E2]]].
  - apply (there h); eauto.
  - now left.
  - right. split; [exact R|]. split; [exact G2|congruence].
Qed.
Lemma send_port_fine n entry port ms : forall out h, good h -> entered h entry port -> fine h (send_port n entry port ms out h).
Proof.
  induction ms as [|m ms IH]; intros out h G T; cbn [send_port]; [now apply fine_ok|].
  apply fine_bind; [now apply send1_fine|]. intros x h1 G1 E. apply IH; [auto|]. eapply entered_same; eauto.
Qed.
Lemma send_batch_fine n entry batch : forall out h, good h -> (forall port ms, In (port, ms) batch -> entered h entry port) ->
  fine h (send_batch n entry batch out h).
Proof.
  induction batch as [|[port ms] batch IH]; intros out h G T; cbn [send_batch]; [now apply fine_ok|].
  apply fine_bind; [apply send_port_fine; [auto|apply (T port ms); now left]|]. intros x h1 G1 E. apply IH; [auto|].
  intros port' ms' I. eapply entered_same; [exact E|]. apply (T port' ms'). now right.
Qed.

Lemma receive_fine n p batch : good (p_ops p) -> (exists o, sfind (p_entry p) (p_ops p) = Some o) -> addressed p batch ->
  let x := receive n p batch in
  fst x = OutOfFuel \/ ((exists r, fst x = Ok r) /\ good (p_ops (snd x)) /\ erase_heap (p_ops (snd x)) = erase_heap (p_ops p) /\
    p_entry (snd x) = p_entry p).
Proof.
  intros G [o F] T. unfold receive, receive_debug. unfold shas. rewrite F.
  destruct (send_batch_fine n (p_entry p) batch [] (p_ops p) G T) as [X|[[r X] [G' E]]];
    destruct (send_batch n (p_entry p) batch [] (p_ops p)) as [y h]; cbn [fst snd] in *; subst y; [now left|].
  right. split; [eexists; reflexivity|]. cbn [snd set_ops p_ops p_entry]. auto.
Qed.

End Run.
