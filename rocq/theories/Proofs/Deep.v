(** * Invariants of all operators of a program, those inside Pipelines included *)

From Coq Require Import String ZArith Bool List Lia.
From Verif Require Import Base.StrMap Base.Num Model.Core Model.Ops Model.Graph.
From Verif Require Import Spec.Shape Spec.Snapshot Proofs.ShapeP.
Import ListNotations.
Open Scope string_scope.
Open Scope list_scope.

Section Deep.
Context {NO : NumOps}.

Variable L : op -> Prop.

Fixpoint every (o : op) : Prop :=
  match o with
  | Op b k => L (Op b k) /\
      match k with
      | KPipeline _ ops _ _ _ => fold_right (fun x P => every (snd x) /\ P) True ops
      | _ => True
      end
  end.

Definition all_every (h : heap) : Prop := forall id o, In (id, o) h -> every o.

Lemma every_fold h : fold_right (fun x P => every (snd x) /\ P) True h <-> all_every h.
Proof.
  unfold all_every. induction h as [|[id o] h IH]; cbn; [split; auto; intros ? ? ? []|].
  rewrite IH. split.
  - intros [H1 H2] id' o' [[= <- <-]|X]; eauto.
  - intros H. split; [apply (H id); auto|]. intros id' o' X. apply (H id'). auto.
Qed.

Lemma every_pipe b js ops ins outs pm :
  every (Op b (KPipeline js ops ins outs pm)) <-> L (Op b (KPipeline js ops ins outs pm)) /\ all_every ops.
Proof. cbn [every]. now rewrite every_fold. Qed.

Lemma every_L o : every o -> L o.
Proof. destruct o as [b k]. intros [H _]. exact H. Qed.

Lemma In_sset {A} k (v : A) m x : In x (sset k v m) -> x = (k, v) \/ In x m.
Proof.
  induction m as [|[k' v'] m IH]; cbn; [intuition|].
  destruct (String.eqb k k') eqn:E; [apply String.eqb_eq in E; subst|destruct (sltb k k')]; cbn; intuition.
Qed.
Lemma all_sset h id o : all_every h -> every o -> all_every (sset id o h).
Proof. intros H E i x X. apply In_sset in X as [[= -> ->]|X]; eauto. Qed.
Lemma all_find h id o : all_every h -> sfind id h = Some o -> every o.
Proof. intros H E. eapply H, sfind_In, E. Qed.

(** a Pipeline of which only the inner operators and the set of ports to process differ *)
Hypothesis L_recv : forall o m port, is_pipeline o = false -> L o -> L (snd (recv_data_local o m port)).
Hypothesis L_ctrl : forall o m port, L o -> L (snd (recv_ctrl_local o m port)).
Hypothesis L_exec : forall o, is_pipeline o = false -> L o -> L (snd (exec_data_local o)).
Hypothesis L_execc : forall o, L o -> L (snd (exec_ctrl_local o)).
Hypothesis L_pipe : forall b js ops ops' ins outs pm tp,
  L (Op b (KPipeline js ops ins outs pm)) -> L (Op (set_toproc b tp) (KPipeline js ops' ins outs pm)).

Lemma L_pipe' b js ops ops' ins outs pm :
  L (Op b (KPipeline js ops ins outs pm)) -> L (Op b (KPipeline js ops' ins outs pm)).
Proof. intros H. replace b with (set_toproc b (o_toproc b)) by (destruct b; reflexivity). eauto. Qed.

Lemma simple_every o : is_pipeline o = false -> every o <-> L o.
Proof. destruct o as [b k]. destruct k; cbn; intuition discriminate. Qed.

Lemma recv_local_kind o m port : op_kind (snd (recv_data_local o m port)) = op_kind o.
Proof. destruct o as [b k]. unfold recv_data_local. destruct (match k with KJoin _ => _ | _ => _ end). reflexivity. Qed.
Lemma ctrl_local_kind o m port : op_kind (snd (recv_ctrl_local o m port)) = op_kind o.
Proof. destruct o as [b k]. unfold recv_ctrl_local. destruct (match k with KJoin _ => _ | _ => _ end). reflexivity. Qed.

Lemma every_recv n : forall o m port, every o -> every (snd (recv_data n o m port)).
Proof.
  induction n as [|n IH]; intros o m port H; (destruct (is_pipeline o) eqn:P; [destruct o as [b k]; destruct k; try discriminate P|]);
  try match goal with P : is_pipeline ?o = false |- _ =>
    assert (X : forall n, recv_data n o m port = recv_data_local o m port) by (intros [|?]; destruct o as [b k]; destruct k; try discriminate P; reflexivity);
    rewrite X; apply simple_every; [unfold is_pipeline in *; now rewrite recv_local_kind|]; apply L_recv; auto; now apply every_L end.
  - exact H.
  - cbn [recv_data op_kind op_base].
    match goal with |- context [match ?x with Some key => _ | None => (Throw OutOfRange, _) end] =>
      destruct x as [key|]; [|exact H] end.
    destruct (sfind key inputs) as [inner|]; [|exact H].
    destruct (sfind inner all_op) as [oi|] eqn:E; [|exact H].
    apply every_pipe in H as [H1 H2]. specialize (IH oi m (snd (split2 key)) (all_find _ _ _ H2 E)).
    destruct (recv_data n oi m (snd (split2 key))) as [r oi'].
    destruct r; apply every_pipe; (split; [first [eapply L_pipe'; exact H1|eapply L_pipe; exact H1]|]); now apply all_sset.
Qed.

Lemma every_ctrl o m port : every o -> every (snd (recv_ctrl_local o m port)).
Proof.
  intros H. pose proof (L_ctrl o m port (every_L o H)) as X. pose proof (ctrl_local_kind o m port) as K.
  destruct o as [b k], (snd (recv_ctrl_local (Op b k) m port)) as [b' k']. cbn in K. subst k'.
  destruct H as [_ H]. split; auto.
Qed.

Lemma every_bind {A B} (x : sres heap A) (k : A -> heap -> sres heap B) :
  all_every (snd x) -> (forall a h, all_every h -> all_every (snd (k a h))) -> all_every (snd (bind x k)).
Proof. destruct x as [[a|e| | |] h]; cbn; auto. Qed.

Section Exec.
Variable rec : bool -> string -> heap -> sres heap progmsg.
Hypothesis rec_every : forall ctl id h, all_every h -> all_every (snd (rec ctl id h)).

Lemma every_pipe_run keys ins : forall out h, all_every h -> all_every (snd (pipe_run rec keys ins out h)).
Proof.
  induction keys as [|k keys IH]; intros out h H; cbn [pipe_run]; [exact H|].
  destruct (sfind k ins); [|exact H]. apply every_bind; auto.
Qed.

Lemma erase_is_pipeline a b : erase a = erase b -> is_pipeline a = is_pipeline b.
Proof.
  destruct a as [b1 k1], b as [b2 k2]. intros E. apply (f_equal op_kind) in E. unfold is_pipeline.
  destruct k1, k2; try discriminate E; reflexivity.
Qed.

Lemma every_exec_local ctl o : every o -> every (snd (exec_local rec ctl o)).
Proof.
  intros H. destruct (is_pipeline o) eqn:P.
  - destruct o as [b k]; destruct k; try discriminate P. destruct ctl; [exact H|].
    cbn [exec_local op_kind op_base]. unfold pipe_exec. apply every_pipe in H as [H1 H2].
    pose proof (every_pipe_run (o_toproc b) inputs [] all_op H2) as X. destruct (pipe_run _ _ _ _ _) as [r ops'].
    destruct r; apply every_pipe; (split; [first [eapply L_pipe'; exact H1|eapply L_pipe; exact H1]|auto]).
  - apply every_L in H. destruct ctl; cbn [exec_local].
    + apply simple_every; [|auto]. rewrite <- P. apply erase_is_pipeline, exec_ctrl_local_erase.
    + replace (match op_kind o with KPipeline js ops ins outs pm => pipe_exec rec (op_base o) js ops ins outs pm | _ => exec_data_local o end)
        with (exec_data_local o) by (destruct o as [b k]; destruct k; reflexivity || discriminate P).
      apply simple_every; [|auto]. rewrite <- P. apply erase_is_pipeline, exec_data_local_erase.
Qed.

Variable n : nat.

Lemma every_deliver m cs : forall h, all_every h -> all_every (snd (deliver n m cs h)).
Proof.
  induction cs as [|[dst port] cs IH]; intros h H; cbn [deliver]; [exact H|]. apply every_bind; [|auto].
  unfold deliver1. destruct (sfind dst h) as [o|] eqn:E; [|exact H]. pose proof (all_find _ _ _ H E) as Ho.
  destruct (is_data_input o port).
  - pose proof (every_recv n o m port Ho) as X. destruct (recv_data n o m port). now apply all_sset.
  - destruct (is_control_input o port); [|exact H].
    pose proof (every_ctrl o m port Ho) as X. destruct (recv_ctrl_local o m port). now apply all_sset.
Qed.

Lemma every_execute_all cs : forall out h, all_every h -> all_every (snd (execute_all rec cs out h)).
Proof.
  induction cs as [|[dst port] cs IH]; intros out h H; cbn [execute_all]; [exact H|]. apply every_bind; [|auto].
  unfold execute1. destruct (sfind dst h) as [o|]; [|exact H].
  destruct (is_data_input o port); [auto|]. destruct (is_control_input o port); [auto|exact H].
Qed.

Lemma every_emit_port b port ms : forall out h, all_every h -> all_every (snd (emit_port rec n b port ms out h)).
Proof.
  induction ms as [|m ms IH]; intros out h H; cbn [emit_port]; [exact H|]. apply every_bind; [|auto].
  unfold emit_msg. destruct (sfind port (o_conns b)); [|exact H].
  apply every_bind; [now apply every_deliver|]. intros; now apply every_execute_all.
Qed.

Lemma every_emit_op b oms : forall out h, all_every h -> all_every (snd (emit_op rec n b oms out h)).
Proof.
  induction oms as [|[port ms] oms IH]; intros out h H; cbn [emit_op]; [exact H|].
  destruct (sset_mem port (o_outs b)); [|exact H]. apply every_bind; [now apply every_emit_port|auto].
Qed.
End Exec.

Lemma every_exec n : forall ctl id h, all_every h -> all_every (snd (exec n ctl id h)).
Proof.
  induction n as [|n IH]; intros ctl id h H; cbn [exec]; [exact H|].
  destruct (sfind id h) as [o|] eqn:E; [|exact H].
  pose proof (every_exec_local (exec n) IH ctl o (all_find _ _ _ H E)) as X.
  destruct (exec_local (exec n) ctl o) as [r o']. cbn [snd] in X. pose proof (all_sset h id o' H X).
  destruct r; auto. now apply every_emit_op.
Qed.

Lemma every_send1 n entry port m h : all_every h -> all_every (snd (send1 n entry port m h)).
Proof.
  intros H. unfold send1. destruct (sfind entry h) as [o|] eqn:E; [|exact H].
  pose proof (every_recv n o m port (all_find _ _ _ H E)) as X. destruct (recv_data n o m port) as [r o']. cbn [snd] in X.
  pose proof (all_sset h entry o' H X). destruct r; auto. now apply every_exec.
Qed.

Lemma every_send_batch n entry batch : forall out h, all_every h -> all_every (snd (send_batch n entry batch out h)).
Proof.
  induction batch as [|[port ms] batch IH]; intros out h H; cbn [send_batch]; [exact H|].
  apply every_bind; [|auto]. revert out h H. induction ms as [|m ms IHm]; intros out h H; cbn [send_port]; [exact H|].
  apply every_bind; [now apply every_send1|auto].
Qed.

Lemma every_receive n p batch : all_every (p_ops p) -> all_every (p_ops (snd (receive n p batch))).
Proof.
  intros H. unfold receive, receive_debug. destruct (shas (p_entry p) (p_ops p)); [|exact H].
  pose proof (every_send_batch n (p_entry p) batch [] _ H) as X. destruct (send_batch _ _ _ _ _) as [r h].
  destruct r; exact X.
Qed.

Lemma every_session n history : forall p, all_every (p_ops p) -> all_every (p_ops (snd (session n p history))).
Proof.
  induction history as [|b bs IH]; intros p H; cbn [session]; [exact H|].
  pose proof (every_receive n p b H) as X. destruct (receive n p b) as [r p1]. specialize (IH p1 X).
  destruct (session n p1 bs). exact IH.
Qed.
End Deep.
