(** * More fuel does not change a result *)

From Coq Require Import String ZArith Bool List Lia.
From Verif Require Import Base.StrMap Base.Num Model.Core Model.Ops Model.Graph Model.Run.
From Verif Require Import Spec.Shape Spec.Log Proofs.ShapeP Proofs.LogRun.
Import ListNotations.
Open Scope string_scope.
Open Scope list_scope.
Open Scope Z_scope.
Open Scope rtbot_scope.

Section Fuel.
Context {NO : NumOps}.

(** [y] agrees with [x] unless [x] ran out of fuel *)
Definition extends {S A} (x y : sres S A) : Prop := fst x <> OutOfFuel -> y = x.

Lemma extends_refl {S A} (x : sres S A) : extends x x.
Proof. intros _. reflexivity. Qed.

Lemma extends_bind {S A B} (x y : sres S A) (k k' : A -> S -> sres S B) :
  extends x y -> (forall a s, extends (k a s) (k' a s)) -> extends (bind x k) (bind y k').
Proof.
  intros E K H. destruct x as [[a|e| | |] s]; cbn [bind sbind fst] in *;
    try (rewrite E by (cbn; discriminate); cbn; auto; apply K; exact H).
  now contradiction H.
Qed.

Lemma recv_data_extends n : forall o m port, extends (recv_data n o m port) (recv_data (S n) o m port).
Proof.
  induction n as [|n IH]; intros o m port.
  - destruct (is_pipeline o) eqn:P; [|rewrite !recv_data_simple by auto; apply extends_refl].
    destruct o as [b k]. destruct k; try discriminate P. intros H. now contradiction H.
  - destruct (is_pipeline o) eqn:P; [|rewrite !recv_data_simple by auto; apply extends_refl].
    destruct o as [b k]. destruct k; try discriminate P.
    remember (S n) as n1 eqn:En. cbn [recv_data]. rewrite En at 1. cbn [recv_data].
    cbn [op_kind op_base].
    match goal with |- extends (match ?x with Some _ => _ | None => _ end) _ => destruct x as [key|] end; [|apply extends_refl].
    destruct (sfind key inputs) as [inner|]; [|apply extends_refl].
    destruct (sfind inner all_op) as [oi|]; [|apply extends_refl].
    specialize (IH oi m (snd (split2 key))). unfold extends in IH.
    intros H. rewrite IH; [reflexivity|].
    intros C. destruct (recv_data n oi m (snd (split2 key))) as [r oi']. cbn in C. subst r. now contradiction H.
Qed.

Lemma deliver1_extends n m c h : extends (deliver1 n m c h) (deliver1 (S n) m c h).
Proof.
  destruct c as [dst port]. unfold deliver1. destruct (sfind dst h) as [o|]; [|apply extends_refl].
  destruct (is_data_input o port); [|apply extends_refl].
  pose proof (recv_data_extends n o m port) as E. intros H. rewrite E; [reflexivity|].
  intros C. destruct (recv_data n o m port) as [r o']. now apply H.
Qed.

Lemma deliver_extends n m cs : forall h, extends (deliver n m cs h) (deliver (S n) m cs h).
Proof.
  induction cs as [|c cs IH]; intros h; [apply extends_refl|]. cbn [deliver].
  apply extends_bind; [apply deliver1_extends|]. intros; apply IH.
Qed.

Section Emit.
Variable rec rec' : bool -> string -> heap -> sres heap progmsg.
Variable n : nat.
Hypothesis R : forall ctl id h, extends (rec ctl id h) (rec' ctl id h).

Lemma execute1_extends c h : extends (execute1 rec c h) (execute1 rec' c h).
Proof.
  destruct c as [dst port]. unfold execute1. destruct (sfind dst h) as [o|]; [|apply extends_refl].
  destruct (is_data_input o port); auto. destruct (is_control_input o port); auto. apply extends_refl.
Qed.
Lemma execute_all_extends cs : forall out h, extends (execute_all rec cs out h) (execute_all rec' cs out h).
Proof.
  induction cs as [|c cs IH]; intros out h; [apply extends_refl|]. cbn [execute_all].
  apply extends_bind; [apply execute1_extends|]. intros; apply IH.
Qed.
Lemma emit_msg_extends b port m h : extends (emit_msg rec n b port m h) (emit_msg rec' (S n) b port m h).
Proof.
  unfold emit_msg. destruct (sfind port (o_conns b)); [|apply extends_refl].
  apply extends_bind; [apply deliver_extends|]. intros; apply execute_all_extends.
Qed.
Lemma emit_port_extends b port ms : forall out h, extends (emit_port rec n b port ms out h) (emit_port rec' (S n) b port ms out h).
Proof.
  induction ms as [|m ms IH]; intros out h; [apply extends_refl|]. cbn [emit_port].
  apply extends_bind; [apply emit_msg_extends|]. intros; apply IH.
Qed.
Lemma emit_op_extends b oms : forall out h, extends (emit_op rec n b oms out h) (emit_op rec' (S n) b oms out h).
Proof.
  induction oms as [|[port ms] oms IH]; intros out h; [apply extends_refl|]. cbn [emit_op].
  destruct (sset_mem port (o_outs b)); [|apply extends_refl].
  apply extends_bind; [apply emit_port_extends|]. intros; apply IH.
Qed.
Lemma pipe_run_extends ins keys : forall out h, extends (pipe_run rec keys ins out h) (pipe_run rec' keys ins out h).
Proof.
  induction keys as [|key keys IH]; intros out h; [apply extends_refl|]. cbn [pipe_run].
  destruct (sfind key ins); [|apply extends_refl].
  apply extends_bind; [apply R|]. intros; apply IH.
Qed.
Lemma exec_local_extends ctl o : extends (exec_local rec ctl o) (exec_local rec' ctl o).
Proof.
  unfold exec_local. destruct ctl; [apply extends_refl|].
  destruct o as [b k]; destruct k; try apply extends_refl.
  cbn [op_kind op_base]. unfold pipe_exec. pose proof (pipe_run_extends inputs (o_toproc b) [] all_op) as E.
  intros H. rewrite E; [reflexivity|]. intros C.
  destruct (pipe_run rec (o_toproc b) inputs [] all_op) as [r ops]. cbn in C. subst r. now apply H.
Qed.
End Emit.

Lemma exec_extends n : forall ctl id h, extends (exec n ctl id h) (exec (S n) ctl id h).
Proof.
  induction n as [|n IH]; intros ctl id h; [intros H; now contradiction H|].
  remember (S n) as n1 eqn:En. cbn [exec]. rewrite En at 1. cbn [exec].
  destruct (sfind id h) as [o|]; [|apply extends_refl].
  pose proof (exec_local_extends (exec n) (exec n1) ltac:(subst n1; exact IH) ctl o) as E. unfold extends in E.
  intros H. rewrite E.
  - destruct (exec_local (exec n) ctl o) as [[out| | | |] o']; auto.
    cbn [fst] in H. subst n1. apply emit_op_extends; auto.
  - intros C. destruct (exec_local (exec n) ctl o) as [[out| | | |] o']; try discriminate C. now apply H.
Qed.

Lemma send1_extends n ep port m h : extends (send1 n ep port m h) (send1 (S n) ep port m h).
Proof.
  unfold send1. destruct (sfind ep h) as [o|]; [|apply extends_refl].
  pose proof (recv_data_extends n o m port) as E. unfold extends in E. intros H. rewrite E.
  - destruct (recv_data n o m port) as [[u| | | |] o']; auto. apply exec_extends. exact H.
  - intros C. destruct (recv_data n o m port) as [[u| | | |] o']; try discriminate C. now apply H.
Qed.
Lemma send_port_extends n ep port ms : forall out h, extends (send_port n ep port ms out h) (send_port (S n) ep port ms out h).
Proof.
  induction ms as [|m ms IH]; intros out h; [apply extends_refl|]. cbn [send_port].
  apply extends_bind; [apply send1_extends|]. intros; apply IH.
Qed.
Lemma send_batch_extends n ep batch : forall out h, extends (send_batch n ep batch out h) (send_batch (S n) ep batch out h).
Proof.
  induction batch as [|[port ms] batch IH]; intros out h; [apply extends_refl|]. cbn [send_batch].
  apply extends_bind; [apply send_port_extends|]. intros; apply IH.
Qed.
Lemma receive_debug_extends n p batch : extends (receive_debug n p batch) (receive_debug (S n) p batch).
Proof.
  unfold receive_debug. destruct (shas (p_entry p) (p_ops p)); [|apply extends_refl].
  pose proof (send_batch_extends n (p_entry p) batch [] (p_ops p)) as E. intros H. rewrite E; [reflexivity|].
  intros C. destruct (send_batch n (p_entry p) batch [] (p_ops p)) as [r h]. now apply H.
Qed.
Lemma receive_debug_fuel n k p batch : fst (receive_debug n p batch) <> OutOfFuel ->
  receive_debug (k + n) p batch = receive_debug n p batch.
Proof.
  intros H. induction k as [|k IH]; [reflexivity|]. cbn [Nat.add]. rewrite <- IH. apply receive_debug_extends. now rewrite IH.
Qed.

End Fuel.
