(** * Messages for inputs that an operator does not have *)

From Coq Require Import String ZArith Bool List Lia.
From Verif Require Import Base.StrMap Base.Num Model.Core Model.Ops Model.Make Model.Graph Model.Codec Model.Json.
From Verif Require Import Spec.Shape Spec.Pipeline Spec.Log.
From Verif Require Import Proofs.Ports Proofs.MakeP Proofs.ShapeP Proofs.LogRun Proofs.JsonP Proofs.Deep Proofs.PortNames Proofs.PipelineP Proofs.Restored.
Import ListNotations.
Open Scope string_scope.
Open Scope list_scope.
Open Scope rtbot_scope.

Section Refuse.
Context {NO : NumOps}.

(** a Pipeline has no names for inner inputs except those of its inputs *)
Definition shuts (o : op) : Prop :=
  match op_kind o with
  | KPipeline _ _ ins _ pm => forall port key, sfind port pm = Some key -> shas key ins = true -> sfind port (o_data (op_base o)) <> None
  | _ => True
  end.

Lemma pipe_outs_values keys : forall c b pm name v, sfind name (snd (pipe_outs c keys b pm)) = Some v ->
  sfind name pm = Some v \/ exists j, v = oport j.
Proof.
  induction keys as [|k keys IH]; intros c b pm name v H; cbn [pipe_outs] in H; [auto|].
  apply IH in H as [H|H]; [|auto]. rewrite sfind_semplace in H. destruct (sfind name pm); [auto|].
  destruct (String.eqb name k); [|discriminate H]. injection H as <-. eauto.
Qed.

Lemma pipe_outs_data keys : forall c b pm, o_data (fst (pipe_outs c keys b pm)) = o_data b.
Proof. induction keys as [|k keys IH]; intros c b pm; cbn [pipe_outs]; [reflexivity|]. now rewrite IH. Qed.

Lemma colon_in a b : has_colon (a ++ ":" ++ b)%string = true.
Proof. induction a as [|c a IH]; [reflexivity|]. cbn [append]. change (has_colon (String c (a ++ ":" ++ b)) = true). cbn [has_colon]. now rewrite IH, orb_true_r. Qed.

Lemma no_colon_oport j : has_colon (oport j) = false.
Proof. unfold oport, string_of_nat. cbn. now rewrite uint_colon. Qed.

Lemma mk_pipeline_shuts f id text prog o : mk_pipeline f id text prog = Ok o -> shuts o.
Proof.
  unfold mk_pipeline. intros H. apply rbind_ok in H as (xs & _ & H). apply rbind_ok in H as (h0 & _ & H).
  apply rbind_ok in H as (cs & _ & H). apply rbind_ok in H as ([[h ui] uo] & _ & H). apply rbind_ok in H as (y & E & H).
  destruct (pipe_inputs_ok _ _ _ _ _ E) as (D & _ & Sn & _); [reflexivity|].
  pose proof (pipe_outs_values (skeys (free_outputs uo h)) 1 (fst y) (snd y)) as Vl.
  pose proof (pipe_outs_data (skeys (free_outputs uo h)) 1 (fst y) (snd y)) as Da.
  destruct (pipe_outs 1 (skeys (free_outputs uo h)) (fst y) (snd y)) as [b pm]. cbn [fst snd] in *. apply Ok_inj in H. subst o.
  unfold shuts. cbn [op_kind op_base]. intros port key F S. destruct (Vl port key F) as [F'|[j ->]].
  - destruct (Sn port key F') as [X|(k & Nk & ->)]; [discriminate X|]. rewrite Da.
    assert (I : In (iport (1 + k)) (skeys (o_data (fst y)))).
    { apply D. right. exists k. split; [|reflexivity]. apply nth_error_Some. congruence. }
    apply In_skeys_sfind in I as [v I]. congruence.
  - exfalso. unfold shas in S. destruct (sfind (oport j) (free_inputs ui h)) as [i|] eqn:X; [|discriminate S].
    apply (fold_free_sound ui (fun o => skeys (o_data (op_base o))) h [] (oport j) i) in X as [X|(o & p & _ & _ & X & _)]; [discriminate X|].
    pose proof (no_colon_oport j) as Y. rewrite X, colon_in in Y. discriminate Y.
Qed.

Context {JT : JsonText}.

Lemma new_shuts g text p : new_prog g text = Ok p -> forall id o, sfind id (p_ops p) = Some o -> shuts o.
Proof.
  intros E id o Ho. assert (X : all_every shuts (p_ops p)).
  { revert E. apply new_prog_every.
    - intros o1 C. apply created_simple in C. destruct o1 as [b k]. unfold shuts. cbn [op_kind]. destruct k; try exact I. discriminate C.
    - apply mk_pipeline_shuts.
    - intros b k cs H. exact H. }
  exact (every_L _ _ (all_find _ _ _ _ X Ho)).
Qed.

Lemma data_none o o' port : erase o' = erase o -> sfind port (o_data (op_base o)) = None -> sfind port (o_data (op_base o')) = None.
Proof.
  intros E N. destruct o as [b k], o' as [b' k']. apply (f_equal op_base) in E. rewrite !erase_op in E. apply (f_equal o_data) in E.
  cbn in E, N |- *. pose proof (f_equal (sfind port) E) as X. rewrite !sfind_smapv, N in X.
  destruct (sfind port (o_data b')); [discriminate X|reflexivity].
Qed.

Lemma shuts_pipeline o : (forall js ops ins outs pm, op_kind o = KPipeline js ops ins outs pm ->
  forall port key, sfind port pm = Some key -> shas key ins = true -> sfind port (o_data (op_base o)) <> None) <-> shuts o.
Proof.
  unfold shuts. destruct o as [b k]. cbn [op_kind op_base]. split.
  - intros H. destruct k; try exact I. eapply H. reflexivity.
  - intros H js ops ins outs pm ->. exact H.
Qed.

Lemma shuts_same o o' : erase o' = erase o -> shuts o -> shuts o'.
Proof.
  intros E H. apply shuts_pipeline. intros js ops ins outs pm K'.
  assert (X : exists ops, op_kind o = KPipeline js ops ins outs pm).
  { destruct o as [b0 k0], o' as [b1 k1]. cbn in K'. subst k1. apply (f_equal op_kind) in E. rewrite !erase_op in E. cbn in E.
    destruct k0; try discriminate E. injection E as -> _ -> -> ->. eexists. reflexivity. }
  destruct X as (ops1 & K). intros port key F S N. apply (proj2 (shuts_pipeline o) H _ _ _ _ _ K port key F S).
  eapply data_none; [symmetry; exact E|exact N].
Qed.

(** a message for another input is refused, and the operator is as before *)
Lemma refuse n o m port : shuts o -> port <> "" -> sfind port (o_data (op_base o)) = None ->
  exists x, recv_data (S n) o m port = (Throw x, o).
Proof.
  intros H Np Fp. assert (Np' : String.eqb port "" = false) by now apply String.eqb_neq.
  destruct (is_pipeline o) eqn:Po.
  - pose proof (proj2 (shuts_pipeline o) H) as H'. clear H. rename H' into H.
    assert (K : exists js ops ins outs pm, op_kind o = KPipeline js ops ins outs pm).
    { unfold is_pipeline in Po. destruct (op_kind o); try discriminate Po. repeat eexists. }
    destruct K as (js & ops & ins & outs & pm & K). specialize (H _ _ _ _ _ K). destruct o as [b k]. cbn [op_kind] in K. subst k.
    cbn [recv_data op_kind op_base] in *. rewrite Np'.
    set (key := match ins with [(_, _)] => _ | _ => _ end).
    assert (Kk : key = sfind port pm) by (unfold key; destruct ins as [|[k v] [|? ?]]; reflexivity).
    rewrite Kk. destruct (sfind port pm) as [v|] eqn:F; [|eauto].
    specialize (H port v F). unfold shas in H. destruct (sfind v ins); [|eauto]. exfalso. now apply H.
  - destruct o as [b k].
    assert (X : recv_data (S n) (Op b k) m port = recv_data_local (Op b k) m port) by (destruct k; try discriminate Po; reflexivity).
    rewrite X. unfold recv_data_local, recv_data_base, recv_data_join, recv_data_demux, recv_data_ar, resolve. rewrite Np'. cbn [op_base] in Fp. cbv zeta.
    rewrite Fp. destruct k; try discriminate Po; eexists; reflexivity.
Qed.

(** ** A batch with such a message is never processed to its end *)
Definition closed_to (port : string) (entry : string) (h : heap) : Prop :=
  forall o, sfind entry h = Some o -> shuts o /\ sfind port (o_data (op_base o)) = None.

Lemma closed_same port entry h h' : erase_heap h' = erase_heap h -> closed_to port entry h -> closed_to port entry h'.
Proof.
  intros E C o' F'. destruct (erase_heap_find _ _ _ _ E F') as (o & F & Eo). destruct (C o F) as [S N].
  symmetry in Eo. split; [eapply shuts_same|eapply data_none]; eauto.
Qed.

Lemma send_batch_refused n entry port m ms batch : port <> "" -> In (port, m :: ms) batch -> forall out h, wf_heap h -> closed_to port entry h ->
  forall r, fst (send_batch (S n) entry batch out h) <> Ok r.
Proof.
  intros Np. induction batch as [|[q qs] batch IH]; intros I out h W C r; [destruct I|]. cbn [send_batch].
  destruct I as [I|I].
  - injection I as -> ->. cbn [send_port]. unfold send1. destruct (sfind entry h) as [o|] eqn:F; [|discriminate].
    destruct (C o F) as [S N]. destruct (refuse n o m port S Np N) as [x X]. rewrite X. discriminate.
  - pose proof (send_port_keeps (S n) entry q qs out h W) as K. destruct (send_port (S n) entry q qs out h) as [[out1| | | |] h1]; try discriminate.
    unfold keeps in K. cbn [snd bind sbind] in *. apply IH; [exact I|eapply wf_heap_same; eauto|eapply closed_same; eauto].
Qed.

Lemma receive_refused d n p port m ms batch : port <> "" -> In (port, m :: ms) batch -> wf_heap (p_ops p) -> closed_to port (p_entry p) (p_ops p) ->
  forall r, fst ((if d : bool then receive_debug else receive) (S n) p batch) <> Ok r.
Proof.
  intros Np I W C. assert (X : forall r, fst (receive_debug (S n) p batch) <> Ok r).
  { intros r. unfold receive_debug. destruct (shas (p_entry p) (p_ops p)); [|discriminate].
    pose proof (send_batch_refused n (p_entry p) port m ms batch Np I [] (p_ops p) W C r) as Y.
    destruct (send_batch (S n) (p_entry p) batch [] (p_ops p)) as [x h]. exact Y. }
  destruct d; [exact X|]. intros r. unfold receive. destruct (receive_debug (S n) p batch) as [[r0| | | |] p1]; try discriminate.
  exfalso. exact (X r0 eq_refl).
Qed.

End Refuse.
