(** * Results only name declared outputs *)

From Coq Require Import String Ascii ZArith Bool List.
From Verif Require Import Base.StrMap Base.Num Model.Core Model.Ops Model.Graph Spec.Shape Proofs.ShapeP Proofs.LogRun Proofs.Restored Proofs.Deep.
Import ListNotations.
Open Scope string_scope.
Open Scope list_scope.
Open Scope rtbot_scope.

Section Emitted.
Context {NO : NumOps}.
Variable Q : string -> Prop.

(** every port of a result satisfies [Q] *)
Definition ports_in (x : progmsg) : Prop :=
  forall id om port ms, In (id, om) x -> In (port, ms) om -> Q port.
Definition op_in (om : opmsg) : Prop := forall port ms, In (port, ms) om -> Q port.

(** every output of an operator satisfies [Q] *)
Definition outs_in (h : heap) : Prop :=
  forall id o port, sfind id h = Some o -> sset_mem port (o_outs (op_base o)) = true -> Q port.

Lemma merge_op_in x : forall out, op_in out -> op_in x -> op_in (merge_op out x).
Proof.
  induction x as [|[port ms] x IH]; intros out Ho Hx; cbn [merge_op]; [exact Ho|]. apply IH.
  - intros q ns H. apply In_sset in H as [E|H]; [injection E as -> ->; apply (Hx port ms); now left|eauto].
  - intros q ns H. apply (Hx q ns). now right.
Qed.

Lemma ports_in_op x id om : ports_in x -> sfind id x = Some om -> op_in om.
Proof. intros H E port ms I. apply sfind_In in E. eauto. Qed.

Lemma merge_in x : forall out, ports_in out -> ports_in x -> ports_in (merge_pm out x).
Proof.
  induction x as [|[id om] x IH]; intros out Ho Hx; cbn [merge_pm]; [exact Ho|]. apply IH.
  - intros i om' port ms H I. apply In_sset in H as [E|H]; [|eauto]. injection E as -> ->.
    revert port ms I. apply merge_op_in.
    + destruct (sfind id out) as [y|] eqn:F; cbn [odefault]; [exact (ports_in_op _ _ _ Ho F)|intros ? ? []].
    + intros port ms I. apply (Hx id om port ms); auto. now left.
  - intros i om' port ms H I. apply (Hx i om' port ms); auto. now right.
Qed.

Lemma nil_in : ports_in [].
Proof. intros ? ? ? ? []. Qed.

Lemma outs_same h h' : erase_heap h' = erase_heap h -> outs_in h -> outs_in h'.
Proof.
  intros E H id o port F M. destruct (erase_heap_find _ _ _ _ E F) as (o2 & F2 & X).
  apply (H id o2 port F2). rewrite <- (erase_outs o2), X, erase_outs. exact M.
Qed.

Definition good (x : sres heap progmsg) : Prop := forall r h, x = (Ok r, h) -> ports_in r.

Section Emit.
Variable rec : bool -> string -> heap -> sres heap progmsg.
Variable n : nat.
Hypothesis rec_keeps : forall ctl id h, wf_heap h -> keeps h (rec ctl id h).
Hypothesis rec_good : forall ctl id h, wf_heap h -> outs_in h -> good (rec ctl id h).

Lemma good_bind {A} h (x : sres heap A) (k : A -> heap -> sres heap progmsg) : wf_heap h -> outs_in h -> keeps h x ->
  (forall a h1, x = (Ok a, h1) -> wf_heap h1 -> outs_in h1 -> good (k a h1)) -> good (bind x k).
Proof.
  intros W O K C r h' E. destruct x as [[a| | | |] h1]; cbn [bind sbind] in E; try discriminate E.
  unfold keeps in K. cbn [snd] in K. eapply C; eauto. eapply wf_heap_same; eauto. eapply outs_same; eauto.
Qed.

Lemma execute1_good c h : wf_heap h -> outs_in h -> good (execute1 rec c h).
Proof.
  intros W O. destruct c as [dst port]. unfold execute1.
  destruct (sfind dst h) as [o|]; [|discriminate].
  destruct (is_data_input o port); auto. destruct (is_control_input o port); auto.
  intros r h' [= <- <-]. apply nil_in.
Qed.

Lemma execute_all_good cs : forall out h, ports_in out -> wf_heap h -> outs_in h -> good (execute_all rec cs out h).
Proof.
  induction cs as [|c cs IH]; intros out h P W O; cbn [execute_all]; [intros r h' [= <- <-]; exact P|].
  eapply good_bind; eauto; [now apply execute1_keeps|]. intros x h1 E W1 O1. apply IH; auto.
  apply merge_in; auto. eapply (execute1_good c h W O); eauto.
Qed.

Lemma emit_msg_good b port m h : Q port -> wf_heap h -> outs_in h -> good (emit_msg rec n b port m h).
Proof.
  intros H W O. unfold emit_msg.
  assert (P : ports_in [(o_id b, [(port, [m])])]).
  { intros i om q ms [E|[]] I. injection E as <- <-. destruct I as [E|[]]. injection E as <- <-. exact H. }
  destruct (sfind port (o_conns b)); [|intros r h' [= <- <-]; exact P].
  eapply good_bind; eauto; [now apply deliver_keeps|]. intros x h1 E W1 O1. now apply execute_all_good.
Qed.

Lemma emit_port_good b port ms : Q port -> forall out h, ports_in out -> wf_heap h -> outs_in h ->
  good (emit_port rec n b port ms out h).
Proof.
  intros H. induction ms as [|m ms IH]; intros out h P W O; cbn [emit_port]; [intros r h' [= <- <-]; exact P|].
  eapply good_bind; eauto; [now apply emit_msg_keeps|]. intros x h1 E W1 O1. apply IH; auto.
  apply merge_in; auto. eapply (emit_msg_good b port m h H W O); eauto.
Qed.

Lemma emit_op_good b oms : (forall port, sset_mem port (o_outs b) = true -> Q port) ->
  forall out h, ports_in out -> wf_heap h -> outs_in h -> good (emit_op rec n b oms out h).
Proof.
  intros B. induction oms as [|[port ms] oms IH]; intros out h P W O; cbn [emit_op]; [intros r h' [= <- <-]; exact P|].
  destruct (sset_mem port (o_outs b)) eqn:M; [|discriminate].
  eapply good_bind; eauto; [now apply emit_port_keeps|]. intros x h1 E W1 O1. apply IH; auto.
  apply merge_in; auto. eapply (emit_port_good b port ms (B _ M) [] h nil_in W O); eauto.
Qed.
End Emit.

Lemma exec_good n : forall ctl id h, wf_heap h -> outs_in h -> good (exec n ctl id h).
Proof.
  induction n as [|n IH]; intros ctl id h W O; [discriminate|]. cbn [exec].
  destruct (sfind id h) as [o|] eqn:E; [|discriminate].
  assert (Wo : wf_op o) by (eapply (proj2 W); eauto).
  pose proof (exec_local_erase (exec n) (exec_keeps n) ctl o Wo) as X.
  destruct (exec_local (exec n) ctl o) as [r o']. cbn [snd] in X.
  assert (Y : erase_heap (sset id o' h) = erase_heap h) by (eapply erase_heap_sset; eauto).
  destruct r; try discriminate.
  apply emit_op_good; auto; [apply exec_keeps| |apply nil_in|eapply wf_heap_same; eauto|eapply outs_same; eauto].
  intros port M. apply (O id o port E). rewrite <- (erase_outs o), <- X, erase_outs. exact M.
Qed.

Lemma send1_good n entry port m h : wf_heap h -> outs_in h -> good (send1 n entry port m h).
Proof.
  intros W O. unfold send1. destruct (sfind entry h) as [o|] eqn:E; [|discriminate].
  assert (Wo : wf_op o) by (eapply (proj2 W); eauto).
  pose proof (recv_data_erase n o m port Wo) as X. destruct (recv_data n o m port) as [r o']. cbn [snd] in X.
  assert (Y : erase_heap (sset entry o' h) = erase_heap h) by (eapply erase_heap_sset; eauto).
  destruct r; try discriminate. apply exec_good; [eapply wf_heap_same; eauto|eapply outs_same; eauto].
Qed.

Lemma send_port_good n entry port ms : forall out h, ports_in out -> wf_heap h -> outs_in h ->
  good (send_port n entry port ms out h).
Proof.
  induction ms as [|m ms IH]; intros out h P W O; cbn [send_port]; [intros r h' [= <- <-]; exact P|].
  eapply good_bind; eauto; [now apply send1_keeps|]. intros x h1 E W1 O1. apply IH; auto.
  apply merge_in; auto. eapply (send1_good n entry port m h W O); eauto.
Qed.

Lemma send_batch_good n entry batch : forall out h, ports_in out -> wf_heap h -> outs_in h ->
  good (send_batch n entry batch out h).
Proof.
  induction batch as [|[port ms] batch IH]; intros out h P W O; cbn [send_batch]; [intros r h' [= <- <-]; exact P|].
  eapply good_bind; eauto; [now apply send_port_keeps|]. intros x h1 E W1 O1. apply IH; auto.
  eapply (send_port_good n entry port ms out h P W O); eauto.
Qed.

Lemma receive_debug_good n p batch r p' : wf_heap (p_ops p) -> outs_in (p_ops p) ->
  receive_debug n p batch = (Ok r, p') -> ports_in r /\ wf_heap (p_ops p') /\ outs_in (p_ops p').
Proof.
  intros W O E. unfold receive_debug in E. destruct (shas (p_entry p) (p_ops p)); [|discriminate E].
  pose proof (send_batch_good n (p_entry p) batch [] (p_ops p) nil_in W O) as G.
  pose proof (send_batch_keeps n (p_entry p) batch [] (p_ops p) W) as K.
  destruct (send_batch n (p_entry p) batch [] (p_ops p)) as [x h]. injection E as -> <-.
  unfold keeps in K. cbn [snd] in K. split; [eapply G; eauto|]. cbn [set_ops p_ops].
  split; [eapply wf_heap_same; eauto|eapply outs_same; eauto].
Qed.
End Emitted.
