(** * Operators that cannot be reached are left alone, even when processing fails *)

From Coq Require Import String ZArith Bool List Lia.
From Verif Require Import Base.StrMap Base.Num Model.Core Model.Ops Model.Graph Model.Run.
From Verif Require Import Spec.Streams Spec.Shape Spec.Log Proofs.ShapeP Proofs.LogRun.
Import ListNotations.
Open Scope string_scope.
Open Scope list_scope.
Open Scope Z_scope.
Open Scope rtbot_scope.

Section Untouched.
Context {NO : NumOps}.
Variable P : string -> Prop.

Definition off {A} (h : heap) (x : sres heap A) : Prop := forall id, ~ P id -> sfind id (snd x) = sfind id h.

Lemma off_bind {A B} h (x : sres heap A) (k : A -> heap -> sres heap B) :
  wf_heap h -> keeps h x -> off h x -> (forall a h1, wf_heap h1 -> erase_heap h1 = erase_heap h -> off h1 (k a h1)) ->
  off h (bind x k).
Proof.
  intros W. unfold off, keeps. destruct x as [[a| | | |] h1]; cbn [bind sbind snd]; intros K O H; auto.
  intros id Hi. rewrite (H a h1); auto. eapply wf_heap_same; eauto.
Qed.

Lemma off_sset {A} h id o (r : res A) : P id -> off h (r, sset id o h).
Proof.
  intros Hp i Hi. cbn. rewrite sfind_sset. destruct (String.eqb_spec i id) as [->|]; [contradiction|reflexivity].
Qed.

Definition closed (h : heap) : Prop := forall a b, P a -> wired h a b -> P b.

Lemma closed_same h h' : closed h -> erase_heap h' = erase_heap h -> closed h'.
Proof. intros C E a b Ha Hw. eapply C; eauto. eapply wired_same; eauto. Qed.

Lemma deliver1_off n m c h : P (fst c) -> off h (deliver1 n m c h).
Proof.
  intros Hp. destruct c as [dst port]. unfold deliver1. destruct (sfind dst h) as [o|]; [|intros ? _; reflexivity].
  destruct (is_data_input o port); [destruct (recv_data n o m port); now apply off_sset|].
  destruct (is_control_input o port); [destruct (recv_ctrl_local o m port); now apply off_sset|intros ? _; reflexivity].
Qed.

Lemma deliver_off n m cs : (forall c, In c cs -> P (fst c)) -> forall h, wf_heap h -> off h (deliver n m cs h).
Proof.
  intros Hc. induction cs as [|c cs IH]; intros h W; [intros ? _; reflexivity|]. cbn [deliver].
  apply off_bind; auto; [now apply deliver1_keeps|apply deliver1_off, Hc; now left|].
  intros _ h1 W1 E. apply IH; auto. intros; apply Hc; now right.
Qed.

Section Emit.
Variable rec : bool -> string -> heap -> sres heap progmsg.
Variable n : nat.
Hypothesis rec_keeps : forall ctl id h, wf_heap h -> keeps h (rec ctl id h).
Hypothesis rec_off : forall ctl id h, wf_heap h -> closed h -> P id -> off h (rec ctl id h).

Lemma execute1_off c h : wf_heap h -> closed h -> P (fst c) -> off h (execute1 rec c h).
Proof.
  intros W C Hp. destruct c as [dst port]. unfold execute1. cbn [fst] in Hp.
  destruct (sfind dst h) as [o|]; [|intros ? _; reflexivity].
  destruct (is_data_input o port); auto. destruct (is_control_input o port); auto. intros ? _; reflexivity.
Qed.

Lemma execute_all_off cs : (forall c, In c cs -> P (fst c)) -> forall out h, wf_heap h -> closed h -> off h (execute_all rec cs out h).
Proof.
  intros Hc. induction cs as [|c cs IH]; intros out h W C; [intros ? _; reflexivity|]. cbn [execute_all].
  apply off_bind; auto; [now apply execute1_keeps|apply execute1_off; auto; apply Hc; now left|].
  intros x h1 W1 E. apply IH; auto. intros; apply Hc; now right. eapply closed_same; eauto.
Qed.

Lemma emit_msg_off b port m h : wf_heap h -> closed h ->
  (forall c, In c (odefault [] (sfind port (o_conns b))) -> P (fst c)) -> off h (emit_msg rec n b port m h).
Proof.
  intros W C Hc. unfold emit_msg. destruct (sfind port (o_conns b)); [|intros ? _; reflexivity]. cbn [odefault] in Hc.
  apply off_bind; auto; [now apply deliver_keeps|now apply deliver_off|].
  intros x h1 W1 E. apply execute_all_off; auto. eapply closed_same; eauto.
Qed.

Lemma emit_port_off b port ms : (forall c, In c (odefault [] (sfind port (o_conns b))) -> P (fst c)) ->
  forall out h, wf_heap h -> closed h -> off h (emit_port rec n b port ms out h).
Proof.
  intros Hc. induction ms as [|m ms IH]; intros out h W C; [intros ? _; reflexivity|]. cbn [emit_port].
  apply off_bind; auto; [now apply emit_msg_keeps|now apply emit_msg_off|].
  intros x h1 W1 E. apply IH; auto. eapply closed_same; eauto.
Qed.

Lemma emit_op_off b oms : (forall port c, In c (odefault [] (sfind port (o_conns b))) -> P (fst c)) ->
  forall out h, wf_heap h -> closed h -> off h (emit_op rec n b oms out h).
Proof.
  intros Hc. induction oms as [|[port ms] oms IH]; intros out h W C; [intros ? _; reflexivity|]. cbn [emit_op].
  destruct (sset_mem port (o_outs b)); [|intros ? _; reflexivity].
  apply off_bind; auto; [now apply emit_port_keeps|apply emit_port_off; auto; apply Hc|].
  intros x h1 W1 E. apply IH; auto. eapply closed_same; eauto.
Qed.
End Emit.

Lemma exec_off n : forall ctl id h, wf_heap h -> closed h -> P id -> off h (exec n ctl id h).
Proof.
  induction n as [|n IH]; intros ctl id h W C Hp; [intros ? _; reflexivity|]. cbn [exec].
  destruct (sfind id h) as [o|] eqn:Ho; [|intros ? _; reflexivity].
  pose proof (exec_local_erase (exec n) (exec_keeps n) ctl o (proj2 W _ _ Ho)) as X.
  destruct (exec_local (exec n) ctl o) as [r o']. cbn [snd] in X.
  destruct r; try (now apply off_sset).
  assert (K : erase_heap (sset id o' h) = erase_heap h) by (eapply erase_heap_sset; eauto).
  assert (O : off (sset id o' h) (emit_op (exec n) n (op_base o') a [] (sset id o' h))).
  { apply emit_op_off; auto.
    - apply exec_keeps.
    - intros port c Hc. apply (C id); auto. exists port, (snd c).
      rewrite (wires_here h id o) by auto. rewrite <- erase_conns, <- X, erase_conns. now destruct c.
    - eapply wf_heap_same; eauto.
    - eapply closed_same; eauto. }
  intros i Hi. rewrite O by auto. apply (off_sset (A:=unit) h id o' (Ok tt)); auto.
Qed.

Lemma send1_off n ep port m h : wf_heap h -> closed h -> P ep -> off h (send1 n ep port m h).
Proof.
  intros W C Hp. unfold send1. destruct (sfind ep h) as [o|] eqn:Ho; [|intros ? _; reflexivity].
  pose proof (recv_data_erase n o m port (proj2 W _ _ Ho)) as X.
  destruct (recv_data n o m port) as [r o']. cbn [snd] in X.
  destruct r; try (now apply off_sset).
  assert (K : erase_heap (sset ep o' h) = erase_heap h) by (eapply erase_heap_sset; eauto).
  intros i Hi. rewrite exec_off; auto; [|eapply wf_heap_same; eauto|eapply closed_same; eauto].
  apply (off_sset (A:=unit) h ep o' (Ok tt)); auto.
Qed.

Lemma send_port_off n ep port ms : P ep -> forall out h, wf_heap h -> closed h -> off h (send_port n ep port ms out h).
Proof.
  intros Hp. induction ms as [|m ms IH]; intros out h W C; [intros ? _; reflexivity|]. cbn [send_port].
  apply off_bind; auto; [now apply send1_keeps|now apply send1_off|].
  intros x h1 W1 E. apply IH; auto. eapply closed_same; eauto.
Qed.

Lemma send_batch_off n ep batch : P ep -> forall out h, wf_heap h -> closed h -> off h (send_batch n ep batch out h).
Proof.
  intros Hp. induction batch as [|[port ms] batch IH]; intros out h W C; [intros ? _; reflexivity|]. cbn [send_batch].
  apply off_bind; auto; [now apply send_port_keeps|now apply send_port_off|].
  intros x h1 W1 E. apply IH; auto. eapply closed_same; eauto.
Qed.

End Untouched.
