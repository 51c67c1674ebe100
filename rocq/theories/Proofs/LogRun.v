(** * What the log of an execution says about every operator *)

From Coq Require Import String ZArith Bool List Lia.
From Verif Require Import Base.StrMap Base.Num Model.Core Model.Ops Model.Graph Model.Run.
From Verif Require Import Spec.Streams Spec.Shape Spec.Log Proofs.Lists Proofs.ShapeP Proofs.Merge Proofs.LogP.
Import ListNotations.
Open Scope string_scope.
Open Scope list_scope.
Open Scope Z_scope.
Open Scope rtbot_scope.

Section LogRun.
Context {NO : NumOps}.

Lemma bind_ok {S A B} (x : sres S A) (k : A -> S -> sres S B) b s' :
  bind x k = (Ok b, s') -> exists a s, x = (Ok a, s) /\ k a s = (Ok b, s').
Proof. destruct x as [[a| | | |] s]; cbn; try discriminate. eauto. Qed.

(** ** facts about definitions *)

Lemma erase_conns o : o_conns (op_base (erase o)) = o_conns (op_base o).
Proof. destruct o as [b k]. now rewrite erase_op. Qed.
Lemma erase_id o : o_id (op_base (erase o)) = o_id (op_base o).
Proof. destruct o as [b k]. now rewrite erase_op. Qed.
Lemma erase_outs o : o_outs (op_base (erase o)) = o_outs (op_base o).
Proof. destruct o as [b k]. now rewrite erase_op. Qed.
Lemma erase_is_data o p : is_data_input (erase o) p = is_data_input o p.
Proof.
  destruct o as [b k]. rewrite erase_op. unfold is_data_input, shas. cbn [op_base erase_base o_data].
  rewrite sfind_smapv. destruct (sfind p (o_data b)); reflexivity.
Qed.
Lemma erase_is_ctrl o p : is_control_input (erase o) p = is_control_input o p.
Proof.
  destruct o as [b k]. rewrite erase_op. unfold is_control_input, shas. cbn [op_base erase_base o_ctrl].
  rewrite sfind_smapv. destruct (sfind p (o_ctrl b)); reflexivity.
Qed.
Lemma erase_is_pipeline o : is_pipeline (erase o) = is_pipeline o.
Proof. destruct o as [b []]; reflexivity. Qed.

Lemma sfind_erase h id : sfind id (erase_heap h) = option_map erase (sfind id h).
Proof. apply sfind_smapv. Qed.

Lemma wires_erase h id port : wires (erase_heap h) id port = wires h id port.
Proof. unfold wires. rewrite sfind_erase. destruct (sfind id h); cbn; [now rewrite erase_conns|reflexivity]. Qed.
Lemma has_input_erase h c : has_input (erase_heap h) c = has_input h c.
Proof.
  unfold has_input. rewrite sfind_erase. destruct (sfind (fst c) h); cbn; [|reflexivity].
  now rewrite erase_is_data, erase_is_ctrl.
Qed.
Lemma wires_same h h' id port : erase_heap h' = erase_heap h -> wires h' id port = wires h id port.
Proof. intros E. now rewrite <- (wires_erase h'), E, wires_erase. Qed.
Lemma has_input_same h h' c : erase_heap h' = erase_heap h -> has_input h' c = has_input h c.
Proof. intros E. now rewrite <- (has_input_erase h'), E, has_input_erase. Qed.
Lemma named_same h h' : erase_heap h' = erase_heap h -> named h -> named h'.
Proof.
  intros E N id o Ho. destruct (erase_find h' h id o (eq_sym E) Ho) as (o1 & H1 & E1).
  rewrite <- erase_id, <- E1, erase_id. eauto.
Qed.

(** ** the definitions are kept along a log *)

Lemma ldeliver1_keeps n m c h l h' : wf_heap h -> ldeliver1 n m c h = (Ok l, h') -> erase_heap h' = erase_heap h.
Proof.
  intros H E. pose proof (deliver1_keeps n m c h H) as K. destruct (ldeliver1_spec n m c h) as [D _].
  rewrite D, E in K. exact K.
Qed.
Lemma ldeliver_keeps n m cs h l h' : wf_heap h -> ldeliver n m cs h = (Ok l, h') -> erase_heap h' = erase_heap h.
Proof.
  intros H E. pose proof (deliver_keeps n m cs h H) as K. destruct (ldeliver_spec n m cs h) as [D _].
  rewrite D, E in K. exact K.
Qed.
Lemma lexec_keeps n ctl id h l h' : wf_heap h -> lexec n ctl id h = (Ok l, h') -> erase_heap h' = erase_heap h.
Proof.
  intros H E. pose proof (exec_keeps n ctl id h H) as K. rewrite lexec_spec, E in K. exact K.
Qed.
Lemma exec_local_keeps n ctl o out o' : wf_op o -> exec_local (exec n) ctl o = (Ok out, o') -> erase o' = erase o.
Proof.
  intros W E. pose proof (exec_local_erase (exec n) (exec_keeps n) ctl o W) as K. now rewrite E in K.
Qed.

(** ** a general induction principle over logs.

    [D] is the definition of the graph, [P] a set of operators closed under connections,
    [Q h l h'] the property of interest. *)

Section Principle.
Variable D : heap.
Variable P : string -> Prop.
Variable Q : heap -> list entry -> heap -> Prop.
Definition ok (h : heap) : Prop := erase_heap h = D /\ wf_heap h /\ named h.

Hypothesis P_closed : forall a b, P a -> wired D a b -> P b.
Hypothesis Q_nil : forall h, Q h [] h.
Hypothesis Q_app : forall h l1 h1 l2 h2, Q h l1 h1 -> Q h1 l2 h2 -> Q h (l1 ++ l2) h2.
Hypothesis Q_emit : forall n id port m h l h', ok h -> P id ->
  ldeliver n m (wires h id port) h = (Ok l, h') -> Q h (LEmit id port m :: l) h'.
Hypothesis Q_exec : forall n ctl id o h out o', ok h -> P id -> sfind id h = Some o ->
  exec_local (exec n) ctl o = (Ok out, o') ->
  Q h [LCall id (if ctl then EExecC else EExec) out] (sset id o' h).

Lemma ok_same h h' : ok h -> erase_heap h' = erase_heap h -> ok h'.
Proof.
  intros (H1 & H2 & H3) E. repeat split.
  - now rewrite E.
  - now apply (wf_heap_same h h' E).
  - eapply wf_heap_same; eauto.
  - eapply named_same; eauto.
Qed.

Section Emit.
Variable n : nat.
Hypothesis IH : forall ctl id h l h', ok h -> P id -> lexec n ctl id h = (Ok l, h') -> Q h l h'.

Lemma lexecute1_keeps c h l h' : wf_heap h -> lexecute1 (lexec n) c h = (Ok l, h') -> erase_heap h' = erase_heap h.
Proof.
  intros H E. destruct c as [dst port]. unfold lexecute1 in E. destruct (sfind dst h); [|discriminate E].
  destruct (is_data_input o port); [eapply lexec_keeps; eauto|].
  destruct (is_control_input o port); [eapply lexec_keeps; eauto|]. now injection E as _ <-.
Qed.

Lemma lexecute_all_keeps cs : forall h l h', wf_heap h -> lexecute_all (lexec n) cs h = (Ok l, h') -> erase_heap h' = erase_heap h.
Proof.
  induction cs as [|c cs IHc]; intros h l h' H E; cbn [lexecute_all] in E; [now injection E as _ <-|].
  apply bind_ok in E as (l1 & h1 & E1 & E). apply bind_ok in E as (l2 & h2 & E2 & E). injection E as _ <-.
  apply lexecute1_keeps in E1; auto. rewrite <- E1. eapply IHc; eauto. eapply wf_heap_same; eauto.
Qed.

Lemma lemit_msg_keeps b port m h l h' : wf_heap h -> lemit_msg (lexec n) n b port m h = (Ok l, h') -> erase_heap h' = erase_heap h.
Proof.
  intros H E. unfold lemit_msg in E. destruct (sfind port (o_conns b)); [|now injection E as _ <-].
  apply bind_ok in E as (l1 & h1 & E1 & E). apply bind_ok in E as (l2 & h2 & E2 & E). injection E as _ <-.
  apply ldeliver_keeps in E1; auto. rewrite <- E1. eapply lexecute_all_keeps; eauto. eapply wf_heap_same; eauto.
Qed.

Lemma lemit_port_keeps b port ms : forall h l h', wf_heap h -> lemit_port (lexec n) n b port ms h = (Ok l, h') -> erase_heap h' = erase_heap h.
Proof.
  induction ms as [|m ms IHm]; intros h l h' H E; cbn [lemit_port] in E; [now injection E as _ <-|].
  apply bind_ok in E as (l1 & h1 & E1 & E). apply bind_ok in E as (l2 & h2 & E2 & E). injection E as _ <-.
  apply lemit_msg_keeps in E1; auto. rewrite <- E1. eapply IHm; eauto. eapply wf_heap_same; eauto.
Qed.

Lemma lemit_op_keeps b oms : forall h l h', wf_heap h -> lemit_op (lexec n) n b oms h = (Ok l, h') -> erase_heap h' = erase_heap h.
Proof.
  induction oms as [|[port ms] oms IHm]; intros h l h' H E; cbn [lemit_op] in E; [now injection E as _ <-|].
  destruct (sset_mem port (o_outs b)); [|discriminate E].
  apply bind_ok in E as (l1 & h1 & E1 & E). apply bind_ok in E as (l2 & h2 & E2 & E). injection E as _ <-.
  apply lemit_port_keeps in E1; auto. rewrite <- E1. eapply IHm; eauto. eapply wf_heap_same; eauto.
Qed.

Lemma P_wires h id port c : ok h -> P id -> In c (wires h id port) -> P (fst c).
Proof.
  intros (E & _) Hp Hc. apply (P_closed id); auto. exists port, (snd c).
  rewrite <- E, wires_erase. now destruct c.
Qed.

Lemma Q_execute_all cs : forall h l h', ok h -> (forall c, In c cs -> P (fst c)) ->
  lexecute_all (lexec n) cs h = (Ok l, h') -> Q h l h'.
Proof.
  induction cs as [|c cs IHc]; intros h l h' H Pc E; cbn [lexecute_all] in E; [injection E as <- <-; apply Q_nil|].
  apply bind_ok in E as (l1 & h1 & E1 & E). apply bind_ok in E as (l2 & h2 & E2 & E). injection E as <- <-.
  assert (K : erase_heap h1 = erase_heap h) by (eapply lexecute1_keeps; [apply H|eauto]).
  apply Q_app with h1.
  - assert (Pd : P (fst c)) by (apply Pc; now left).
    destruct c as [dst port]. unfold lexecute1 in E1. destruct (sfind dst h); [|discriminate E1].
    destruct (is_data_input o port); [eapply IH; eauto|].
    destruct (is_control_input o port); [eapply IH; eauto|]. injection E1 as <- <-. apply Q_nil.
  - eapply IHc; eauto. { eapply ok_same; eauto. } intros c' Hc'. apply Pc. now right.
Qed.

Lemma Q_emit_msg b id port m h l h' :
  ok h -> P id -> o_id b = id -> sfind port (o_conns b) = sfind port (o_conns b) ->
  odefault [] (sfind port (o_conns b)) = wires h id port ->
  lemit_msg (lexec n) n b port m h = (Ok l, h') -> Q h l h'.
Proof.
  intros H Hp <- _ W E. unfold lemit_msg in E.
  destruct (sfind port (o_conns b)) as [cs|].
  - cbn [odefault] in W.
    apply bind_ok in E as (l1 & h1 & E1 & E). apply bind_ok in E as (l2 & h2 & E2 & E). injection E as <- <-.
    change (LEmit (o_id b) port m :: l1 ++ l2) with ((LEmit (o_id b) port m :: l1) ++ l2).
    assert (K : erase_heap h1 = erase_heap h) by (eapply ldeliver_keeps; [apply H|eauto]).
    apply Q_app with h1.
    + eapply Q_emit; eauto. rewrite <- W. exact E1.
    + eapply Q_execute_all; [eapply ok_same; eauto| |exact E2].
      intros c Hc. eapply P_wires; eauto. rewrite <- W. exact Hc.
  - injection E as <- <-. cbn [odefault] in W. eapply (Q_emit 0); eauto. rewrite <- W. reflexivity.
Qed.

Lemma Q_emit_port b id port ms : forall h l h',
  ok h -> P id -> o_id b = id -> odefault [] (sfind port (o_conns b)) = wires h id port ->
  lemit_port (lexec n) n b port ms h = (Ok l, h') -> Q h l h'.
Proof.
  induction ms as [|m ms IHm]; intros h l h' H Hp Hb W E; cbn [lemit_port] in E; [injection E as <- <-; apply Q_nil|].
  apply bind_ok in E as (l1 & h1 & E1 & E). apply bind_ok in E as (l2 & h2 & E2 & E). injection E as <- <-.
  assert (K : erase_heap h1 = erase_heap h) by (eapply lemit_msg_keeps; [apply H|eauto]).
  apply Q_app with h1; [eapply Q_emit_msg; eauto|].
  eapply IHm; eauto. { eapply ok_same; eauto. } rewrite (wires_same h h1); auto.
Qed.

Lemma Q_emit_op b id oms : forall h l h',
  ok h -> P id -> o_id b = id -> (forall port, odefault [] (sfind port (o_conns b)) = wires h id port) ->
  lemit_op (lexec n) n b oms h = (Ok l, h') -> Q h l h'.
Proof.
  induction oms as [|[port ms] oms IHm]; intros h l h' H Hp Hb W E; cbn [lemit_op] in E; [injection E as <- <-; apply Q_nil|].
  destruct (sset_mem port (o_outs b)); [|discriminate E].
  apply bind_ok in E as (l1 & h1 & E1 & E). apply bind_ok in E as (l2 & h2 & E2 & E). injection E as <- <-.
  assert (K : erase_heap h1 = erase_heap h) by (eapply lemit_port_keeps; [apply H|eauto]).
  apply Q_app with h1; [eapply Q_emit_port; eauto|].
  eapply IHm; eauto. { eapply ok_same; eauto. } intros p. rewrite (wires_same h h1); auto.
Qed.
End Emit.

Lemma wires_here h id o port : sfind id h = Some o -> wires h id port = odefault [] (sfind port (o_conns (op_base o))).
Proof. unfold wires. now intros ->. Qed.

Lemma ok_exec n ctl h id o out o' :
  ok h -> sfind id h = Some o -> exec_local (exec n) ctl o = (Ok out, o') ->
  ok (sset id o' h) /\ erase o' = erase o /\ o_id (op_base o') = id /\
  (forall port, odefault [] (sfind port (o_conns (op_base o'))) = wires (sset id o' h) id port).
Proof.
  intros H Ho X. destruct H as (HD & HW & HN).
  assert (E : erase o' = erase o) by (eapply exec_local_keeps; [eapply (proj2 HW); eauto|eauto]).
  assert (K : erase_heap (sset id o' h) = erase_heap h) by (eapply erase_heap_sset; eauto).
  repeat split; auto.
  - now rewrite K.
  - now apply (wf_heap_same h _ K).
  - eapply wf_heap_same; eauto.
  - eapply named_same; eauto.
  - rewrite <- erase_id, E, erase_id. eauto.
  - intros port. rewrite (wires_here _ _ o'); [reflexivity|]. apply sfind_sset_same.
Qed.

Theorem log_principle n : forall ctl id h l h', ok h -> P id -> lexec n ctl id h = (Ok l, h') -> Q h l h'.
Proof.
  induction n as [|n IH]; intros ctl id h l h' H Hp E; [discriminate E|]. cbn [lexec] in E.
  destruct (sfind id h) as [o|] eqn:Ho; [|discriminate E].
  destruct (exec_local (exec n) ctl o) as [[out| | | |] o'] eqn:X; try discriminate E.
  apply bind_ok in E as (l1 & h1 & E1 & E). injection E as <- <-.
  destruct (ok_exec _ _ _ _ _ _ _ H Ho X) as (H' & _ & Hi & Hw).
  change (LCall id (if ctl then EExecC else EExec) out :: l1) with ([LCall id (if ctl then EExecC else EExec) out] ++ l1).
  apply Q_app with (sset id o' h); [eapply Q_exec; eauto|].
  eapply Q_emit_op; eauto.
Qed.
End Principle.

(** ** B: every operator runs by itself *)

Lemma calls_app id l1 l2 : calls id (l1 ++ l2) = calls id l1 ++ calls id l2.
Proof. apply flat_map_app. Qed.
Lemma returned_app id l1 l2 : returned id (l1 ++ l2) = returned id l1 ++ returned id l2.
Proof. apply flat_map_app. Qed.
Lemma deliveries_app l1 l2 : deliveries (l1 ++ l2) = deliveries l1 ++ deliveries l2.
Proof. apply flat_map_app. Qed.

Lemma replays_nil h : replays h [] h.
Proof. split; auto. intros id o Ho Hp. exists o. auto. Qed.

Lemma replays_app h l1 h1 l2 h2 : replays h l1 h1 -> replays h1 l2 h2 -> replays h (l1 ++ l2) h2.
Proof.
  intros [A1 A2] [B1 B2]. split.
  - intros id Hc. rewrite calls_app in Hc. apply app_eq_nil in Hc as [C1 C2]. rewrite B1, A1; auto.
  - intros id o Ho Hp. destruct (A2 id o Ho Hp) as (o1 & H1 & P1 & R1).
    destruct (B2 id o1 H1 P1) as (o2 & H2 & P2 & R2). exists o2. repeat split; auto.
    rewrite calls_app, returned_app, run_app, R1. cbn [bind sbind]. rewrite R2. reflexivity.
Qed.

(** one call on operator [id] *)
Lemma replays_call h id o o' e out :
  sfind id h = Some o -> (is_pipeline o = false -> step o e = (Ok out, o') /\ is_pipeline o' = false) ->
  replays h [LCall id e out] (sset id o' h).
Proof.
  intros Ho S. split.
  - intros i Hc. cbn in Hc. rewrite sfind_sset. destruct (String.eqb_spec i id); [discriminate Hc|reflexivity].
  - intros i oi Hi Pi. cbn [calls returned flat_map]. rewrite sfind_sset.
    destruct (String.eqb_spec i id) as [->|N].
    + rewrite Ho in Hi. injection Hi as <-. destruct (S Pi) as [S1 S2]. exists o'. repeat split; auto.
      cbn [app run]. rewrite S1. reflexivity.
    + exists oi. auto.
Qed.

Lemma recv_data_simple n o m port : is_pipeline o = false -> recv_data n o m port = recv_data_local o m port.
Proof. destruct n; destruct o as [b []]; cbn; auto; discriminate. Qed.

Lemma not_pipeline_same o o' : erase o' = erase o -> is_pipeline o = false -> is_pipeline o' = false.
Proof. intros E H. now rewrite <- erase_is_pipeline, E, erase_is_pipeline. Qed.

Lemma replays_recv n h id o m port u o' :
  wf_heap h -> sfind id h = Some o -> recv_data n o m port = (Ok u, o') ->
  replays h [LCall id (EData port m) []] (sset id o' h).
Proof.
  intros W Ho E. eapply replays_call; eauto. intros Hp.
  assert (Eo : erase o' = erase o).
  { pose proof (recv_data_erase n o m port (proj2 W _ _ Ho)) as X. now rewrite E in X. }
  rewrite recv_data_simple in E by auto. cbn [step]. rewrite E. split; [reflexivity|].
  eapply not_pipeline_same; eauto.
Qed.

Lemma replays_ctrl h id o m port u o' :
  wf_heap h -> sfind id h = Some o -> recv_ctrl_local o m port = (Ok u, o') ->
  replays h [LCall id (ECtrl port m) []] (sset id o' h).
Proof.
  intros W Ho E. eapply replays_call; eauto. intros Hp.
  assert (Eo : erase o' = erase o).
  { pose proof (recv_ctrl_local_erase o m port (proj2 W _ _ Ho)) as X. now rewrite E in X. }
  cbn [step]. rewrite E. split; [reflexivity|]. eapply not_pipeline_same; eauto.
Qed.

Lemma replays_deliver1 n m c h l h' : wf_heap h -> ldeliver1 n m c h = (Ok l, h') -> replays h l h'.
Proof.
  intros W E. destruct c as [dst port]. unfold ldeliver1 in E. destruct (sfind dst h) as [o|] eqn:Ho; [|discriminate E].
  destruct (is_data_input o port).
  - destruct (recv_data n o m port) as [[u| | | |] o'] eqn:R; try discriminate E. injection E as <- <-.
    eapply replays_recv; eauto.
  - destruct (is_control_input o port).
    + destruct (recv_ctrl_local o m port) as [[u| | | |] o'] eqn:R; try discriminate E. injection E as <- <-.
      eapply replays_ctrl; eauto.
    + injection E as <- <-. apply replays_nil.
Qed.

Lemma replays_deliver n m cs : forall h l h', wf_heap h -> ldeliver n m cs h = (Ok l, h') -> replays h l h'.
Proof.
  induction cs as [|c cs IH]; intros h l h' W E; cbn [ldeliver] in E; [injection E as <- <-; apply replays_nil|].
  apply bind_ok in E as (l1 & h1 & E1 & E). apply bind_ok in E as (l2 & h2 & E2 & E). injection E as <- <-.
  apply replays_app with h1; [eapply replays_deliver1; eauto|]. eapply IH; [|eauto].
  eapply wf_heap_same; [|exact W]. eapply ldeliver1_keeps; eauto.
Qed.

Lemma replays_emit id port m h l h' : replays h l h' -> replays h (LEmit id port m :: l) h'.
Proof. intros [A B]. split; auto. Qed.

Lemma replays_exec n ctl id o h out o' :
  wf_heap h -> sfind id h = Some o -> exec_local (exec n) ctl o = (Ok out, o') ->
  replays h [LCall id (if ctl then EExecC else EExec) out] (sset id o' h).
Proof.
  intros W Ho E. eapply replays_call; eauto. intros Hp.
  assert (Eo : erase o' = erase o) by (eapply exec_local_keeps; [eapply (proj2 W); eauto|eauto]).
  split; [|eapply not_pipeline_same; eauto].
  unfold exec_local in E. destruct ctl; [exact E|].
  destruct o as [b []]; cbn in *; auto; discriminate.
Qed.

Lemma log_replays n ctl id h l h' : wf_heap h -> named h -> lexec n ctl id h = (Ok l, h') -> replays h l h'.
Proof.
  intros W N E.
  eapply (log_principle (erase_heap h) (fun _ => True) replays) with (n := n); eauto.
  - apply replays_nil.
  - apply replays_app.
  - intros. apply replays_emit. eapply replays_deliver; eauto. apply H.
  - intros. eapply replays_exec; eauto. apply H.
  - repeat split; auto; apply W.
Qed.

(** ** D: deliveries are exactly the emissions sent along the connections *)

Lemma ldeliver_deliveries n m cs : forall h l h', wf_heap h -> ldeliver n m cs h = (Ok l, h') ->
  deliveries l = map (fun c => (c, m)) (filter (has_input h) cs) /\ (forall ep h0, routed h0 ep l = []).
Proof.
  induction cs as [|c cs IH]; intros h l h' W E; cbn [ldeliver] in E; [injection E as <- <-; split; reflexivity|].
  apply bind_ok in E as (l1 & h1 & E1 & E). apply bind_ok in E as (l2 & h2 & E2 & E). injection E as <- <-.
  assert (K : erase_heap h1 = erase_heap h) by (eapply ldeliver1_keeps; eauto).
  destruct (IH h1 l2 h2 ltac:(eapply wf_heap_same; eauto) E2) as [D2 R2].
  assert (D1 : deliveries l1 = (if has_input h c then [(c, m)] else []) /\ forall ep h0, routed h0 ep l1 = []).
  { destruct c as [dst port]. unfold has_input. cbn [fst snd]. unfold ldeliver1 in E1.
    destruct (sfind dst h) as [o|]; [|discriminate E1].
    destruct (is_data_input o port).
    - destruct (recv_data n o m port) as [[u| | | |] o'] eqn:R; try discriminate E1. injection E1 as <- <-. split; reflexivity.
    - destruct (is_control_input o port).
      + destruct (recv_ctrl_local o m port) as [[u| | | |] o'] eqn:R; try discriminate E1. injection E1 as <- <-. split; reflexivity.
      + injection E1 as <- <-. split; reflexivity. }
  destruct D1 as [D1 R1]. split.
  - rewrite deliveries_app, D1, D2. cbn [filter].
    rewrite (filter_ext (has_input h1) (has_input h)) by (intros; now apply has_input_same).
    destruct (has_input h c); reflexivity.
  - intros ep h0. unfold routed. rewrite flat_map_app. fold (routed h0 ep l1) (routed h0 ep l2). now rewrite R1, R2.
Qed.

Lemma routed_app h ep l1 l2 : routed h ep (l1 ++ l2) = routed h ep l1 ++ routed h ep l2.
Proof. apply flat_map_app. Qed.

Lemma routed_same h h' ep l : erase_heap h' = erase_heap h -> routed h' ep l = routed h ep l.
Proof.
  intros E. unfold routed. induction l as [|x l IH]; [reflexivity|]. cbn [flat_map]. rewrite IH. f_equal.
  destruct x as [p m|id e out|id p m]; auto. rewrite (wires_same h h' id p E).
  f_equal. apply filter_ext. intros c. now apply has_input_same.
Qed.

Lemma log_routed n ctl id h l h' ep : wf_heap h -> named h -> lexec n ctl id h = (Ok l, h') ->
  deliveries l = routed h ep l.
Proof.
  intros W N E.
  pose proof (log_principle (erase_heap h) (fun _ => True) (fun h1 l _ => deliveries l = routed h ep l)) as X.
  eapply X; clear X; eauto.
  - intros h0 l1 h1 l2 h2 E1 E2. now rewrite deliveries_app, routed_app, E1, E2.
  - intros k i port m h0 l0 h1 (HD & HW & HN) _ Ed.
    destruct (ldeliver_deliveries _ _ _ _ _ _ HW Ed) as [A B].
    cbn [deliveries routed flat_map]. fold (deliveries l0) (routed h ep l0). rewrite A, B, app_nil_r. cbn [app].
    rewrite (wires_same h h0) by auto. f_equal. apply filter_ext. intros c. now apply has_input_same.
  - intros k c i o h0 out o' _ _ _ _. destruct c; reflexivity.
  - repeat split; auto; apply W.
Qed.

(** ** reachability *)

Lemma wired_erase h a b : wired (erase_heap h) a b <-> wired h a b.
Proof. unfold wired. split; intros (p & q & H); exists p, q; rewrite ?wires_erase in *; auto. Qed.

Lemma wired_same h h' a b : erase_heap h' = erase_heap h -> wired h' a b -> wired h a b.
Proof. intros E H. apply wired_erase. rewrite <- E. now apply wired_erase. Qed.

Lemma reachable_same h h' a b : erase_heap h' = erase_heap h -> reachable h' a b -> reachable h a b.
Proof. intros E. induction 1 as [|b c _ IH W]; [constructor|]. econstructor; eauto. eapply wired_same; eauto. Qed.

Definition mentions (P : string -> Prop) (l : list entry) : Prop :=
  Forall (fun x => match x with LSend _ _ => True | LCall id _ _ => P id | LEmit id _ _ => P id end) l.

Lemma ldeliver_mentions n m cs (P : string -> Prop) : forall h l h', (forall c, In c cs -> P (fst c)) ->
  ldeliver n m cs h = (Ok l, h') -> mentions P l.
Proof.
  induction cs as [|c cs IH]; intros h l h' Hc E; cbn [ldeliver] in E; [injection E as <- <-; constructor|].
  apply bind_ok in E as (l1 & h1 & E1 & E). apply bind_ok in E as (l2 & h2 & E2 & E). injection E as <- <-.
  apply Forall_app. split; [|eapply IH; eauto; intros; apply Hc; now right].
  assert (Pc : P (fst c)) by (apply Hc; now left).
  destruct c as [dst port]. unfold ldeliver1 in E1. destruct (sfind dst h) as [o|]; [|discriminate E1].
  destruct (is_data_input o port).
  - destruct (recv_data n o m port) as [[u| | | |] o'] eqn:R; try discriminate E1. injection E1 as <- <-. now repeat constructor.
  - destruct (is_control_input o port).
    + destruct (recv_ctrl_local o m port) as [[u| | | |] o'] eqn:R; try discriminate E1. injection E1 as <- <-. now repeat constructor.
    + injection E1 as <- <-. constructor.
Qed.

Lemma log_mentions (P : string -> Prop) n ctl id h l h' : wf_heap h -> named h ->
  (forall a b, P a -> wired h a b -> P b) -> P id ->
  lexec n ctl id h = (Ok l, h') -> mentions P l.
Proof.
  intros W N C Hp E.
  assert (C' : forall a b, P a -> wired (erase_heap h) a b -> P b).
  { intros a b Ha Hw. apply (C a); auto. now apply wired_erase. }
  pose proof (log_principle (erase_heap h) P (fun _ l _ => mentions P l)) as X.
  eapply X; clear X; eauto.
  - constructor.
  - intros. apply Forall_app. auto.
  - intros k i port m h0 l0 h1 H Hi Ed. constructor; [exact Hi|].
    eapply ldeliver_mentions; [|exact Ed]. intros c Hc. apply (C' i); auto. exists port, (snd c).
    destruct H as (<- & _). rewrite wires_erase. now destruct c.
  - intros k c i o h0 out o' _ Hi _ _. constructor; [exact Hi|constructor].
  - repeat split; auto; apply W.
Qed.

Lemma mentions_calls P l id : mentions P l -> ~ P id -> calls id l = [] /\ (forall port, emitted id port l = []).
Proof.
  intros H N. induction H as [|x l Hx H [IH1 IH2]]; [split; reflexivity|].
  destruct x as [p m|i e out|i p m]; cbn; auto.
  - destruct (String.eqb_spec id i) as [->|]; [contradiction|auto].
  - destruct (String.eqb_spec id i) as [->|]; [contradiction|]. split; auto.
Qed.

End LogRun.
