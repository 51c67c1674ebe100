(** * When an operator is executed after each message that it receives *)

From Coq Require Import String ZArith Bool List Lia.
From Verif Require Import Base.StrMap Base.Num Model.Core Model.Ops Model.Run Model.Graph.
From Verif Require Import Spec.Shape Spec.Log Spec.Definition Spec.Pipeline.
From Verif Require Import Proofs.ShapeP Proofs.LogP Proofs.LogRun Proofs.LogProg.
Import ListNotations.
Open Scope string_scope.
Open Scope list_scope.
Open Scope rtbot_scope.

Section OneByOne.
Context {NO : NumOps}.
Variable D : heap.
Variable x : string.
Hypothesis direct : forall src port q, In (x, q) (wires D src port) -> wires D src port = [(x, q)].
Hypothesis no_control : forall o q, sfind x D = Some o -> is_control_input o q = false.

Definition data_of_x (q : string) : Prop := exists o, sfind x D = Some o /\ is_data_input o q = true.
Definition obo (l : list ev) : Prop := exists ms, l = one_by_one ms /\ Forall (fun y => data_of_x (fst y)) ms.

Lemma obo_nil : obo [].
Proof. exists []. split; [reflexivity|constructor]. Qed.
Lemma obo_app a b : obo a -> obo b -> obo (a ++ b).
Proof.
  intros (m1 & -> & F1) (m2 & -> & F2). exists (m1 ++ m2). split; [|apply Forall_app; auto].
  unfold one_by_one. now rewrite flat_map_app.
Qed.

Lemma here h o : ok D h -> sfind x h = Some o -> sfind x D = Some (erase o).
Proof. intros (E & _) F. rewrite <- E, sfind_erase, F. reflexivity. Qed.

Lemma deliver_calls n m cs : forall h l h', ~ In x (map fst cs) -> ldeliver n m cs h = (Ok l, h') -> calls x l = [].
Proof.
  induction cs as [|[dst port] cs IH]; intros h l h' NI E; cbn [ldeliver] in E; [injection E as <- <-; reflexivity|].
  apply bind_ok in E as (l1 & h1 & E1 & E). apply bind_ok in E as (l2 & h2 & E2 & E). injection E as <- <-.
  cbn [map fst In] in NI. rewrite calls_app. rewrite (IH _ _ _ (fun X => NI (or_intror X)) E2), app_nil_r.
  assert (X : String.eqb x dst = false) by (apply String.eqb_neq; intros ->; auto).
  unfold ldeliver1 in E1. destruct (sfind dst h) as [o|]; [|discriminate E1].
  destruct (is_data_input o port); [|destruct (is_control_input o port)].
  - apply bind_ok in E1 as (u & h3 & _ & E1). injection E1 as <- <-. cbn [calls flat_map]. now rewrite X.
  - apply bind_ok in E1 as (u & h3 & _ & E1). injection E1 as <- <-. cbn [calls flat_map]. now rewrite X.
  - now injection E1 as <- <-.
Qed.

(** executing [id]: if this is [x] itself the execution comes first *)
Definition exec_ok (n : nat) : Prop := forall ctl id h l h', ok D h -> (id = x -> ctl = false) ->
  lexec n ctl id h = (Ok l, h') ->
  exists l', calls x l = (if String.eqb x id then [EExec] else []) ++ l' /\ obo l'.

Section Step.
Variable n : nat.
Hypothesis IH : exec_ok n.

Lemma execute_all_obo cs : forall h l h', ok D h -> ~ In x (map fst cs) -> lexecute_all (lexec n) cs h = (Ok l, h') -> obo (calls x l).
Proof.
  induction cs as [|[dst port] cs IHc]; intros h l h' H NI E; cbn [lexecute_all] in E; [injection E as <- <-; apply obo_nil|].
  apply bind_ok in E as (l1 & h1 & E1 & E). apply bind_ok in E as (l2 & h2 & E2 & E). injection E as <- <-.
  cbn [map fst In] in NI. rewrite calls_app. apply obo_app.
  - assert (X : String.eqb x dst = false) by (apply String.eqb_neq; intros ->; auto).
    assert (G : forall ctl, lexec n ctl dst h = (Ok l1, h1) -> obo (calls x l1)).
    { intros ctl Ex. destruct (IH _ _ _ _ _ H (fun Y => False_ind _ (NI (or_introl Y))) Ex) as (l' & -> & O). now rewrite X. }
    unfold lexecute1 in E1. destruct (sfind dst h) as [o|]; [|discriminate E1].
    destruct (is_data_input o port); [eauto|]. destruct (is_control_input o port); [eauto|]. injection E1 as <- <-. apply obo_nil.
  - eapply IHc; [|exact (fun Y => NI (or_intror Y))|exact E2].
    eapply ok_same; [exact H|]. eapply lexecute1_keeps; [apply H|exact E1].
Qed.

Lemma emit_msg_obo b id port m h l h' : ok D h -> odefault [] (sfind port (o_conns b)) = wires h id port ->
  lemit_msg (lexec n) n b port m h = (Ok l, h') -> obo (calls x l).
Proof.
  intros H W E. unfold lemit_msg in E. destruct (sfind port (o_conns b)) as [cs|]; [|injection E as <- <-; apply obo_nil].
  apply bind_ok in E as (l1 & h1 & E1 & E). apply bind_ok in E as (l2 & h2 & E2 & E). injection E as <- <-.
  cbn [odefault] in W. change (calls x (LEmit (o_id b) port m :: l1 ++ l2)) with (calls x (l1 ++ l2)). rewrite calls_app.
  assert (H1 : ok D h1) by (eapply ok_same; [exact H|]; eapply ldeliver_keeps; [apply H|exact E1]).
  destruct (in_dec string_dec x (map fst cs)) as [I|NI].
  - apply in_map_iff in I as ([x' q] & Ex & I). cbn [fst] in Ex. subst x'. rewrite W in I.
    assert (I' : In (x, q) (wires D id port)) by (destruct H as (E & _); now rewrite <- E, wires_erase).
    apply direct in I'. destruct H as (E & HW & HN). rewrite <- E, wires_erase, <- W in I'. rewrite I' in *. clear W.
    assert (H : ok D h) by (repeat split; auto; apply HW).
    cbn [ldeliver] in E1. apply bind_ok in E1 as (l3 & h3 & E1 & E3). injection E3 as <- <-. rewrite app_nil_r.
    cbn [lexecute_all] in E2. apply bind_ok in E2 as (l4 & h4 & E2 & E4). injection E4 as <- <-. rewrite app_nil_r.
    unfold ldeliver1 in E1. destruct (sfind x h) as [o|] eqn:F; [|discriminate E1].
    pose proof (here _ _ H F) as FD.
    pose proof (no_control _ q FD) as NC. rewrite erase_is_ctrl in NC. rewrite NC in E1.
    unfold lexecute1 in E2. destruct (sfind x h3) as [o3|] eqn:F3; [|discriminate E2].
    pose proof (here _ _ H1 F3) as FD3. pose proof (no_control _ q FD3) as NC3. rewrite erase_is_ctrl in NC3. rewrite NC3 in E2.
    assert (ED : is_data_input o3 q = is_data_input o q).
    { rewrite <- (erase_is_data o), <- (erase_is_data o3). congruence. }
    rewrite ED in E2. destruct (is_data_input o q) eqn:DI.
    + apply bind_ok in E1 as (u & h5 & _ & E1). injection E1 as <- <-.
      destruct (IH _ _ _ _ _ H1 (fun _ => eq_refl) E2) as (l' & -> & ms & -> & F'). rewrite String.eqb_refl.
      exists ((q, m) :: ms). cbn [calls flat_map]. rewrite String.eqb_refl. split; [reflexivity|].
      constructor; [|exact F']. exists (erase o). split; [exact FD|]. now rewrite erase_is_data.
    + injection E1 as <- <-. injection E2 as <- <-. apply obo_nil.
  - rewrite (deliver_calls _ _ _ _ _ _ NI E1). eapply execute_all_obo; eauto.
Qed.

Lemma emit_port_obo b id port ms : forall h l h', ok D h -> odefault [] (sfind port (o_conns b)) = wires h id port ->
  lemit_port (lexec n) n b port ms h = (Ok l, h') -> obo (calls x l).
Proof.
  induction ms as [|m ms IHm]; intros h l h' H W E; cbn [lemit_port] in E; [injection E as <- <-; apply obo_nil|].
  apply bind_ok in E as (l1 & h1 & E1 & E). apply bind_ok in E as (l2 & h2 & E2 & E). injection E as <- <-.
  assert (K : erase_heap h1 = erase_heap h) by (eapply lemit_msg_keeps; [apply H|eauto]).
  rewrite calls_app. apply obo_app; [eapply emit_msg_obo; eauto|].
  eapply IHm; [eapply ok_same; eauto| |exact E2]. rewrite (wires_same h h1); auto.
Qed.

Lemma emit_op_obo b id oms : forall h l h', ok D h -> (forall port, odefault [] (sfind port (o_conns b)) = wires h id port) ->
  lemit_op (lexec n) n b oms h = (Ok l, h') -> obo (calls x l).
Proof.
  induction oms as [|[port ms] oms IHm]; intros h l h' H W E; cbn [lemit_op] in E; [injection E as <- <-; apply obo_nil|].
  destruct (sset_mem port (o_outs b)); [|discriminate E].
  apply bind_ok in E as (l1 & h1 & E1 & E). apply bind_ok in E as (l2 & h2 & E2 & E). injection E as <- <-.
  assert (K : erase_heap h1 = erase_heap h) by (eapply lemit_port_keeps; [apply H|eauto]).
  rewrite calls_app. apply obo_app; [eapply emit_port_obo; eauto|].
  eapply IHm; [eapply ok_same; eauto| |exact E2]. intros p. rewrite (wires_same h h1); auto.
Qed.
End Step.

Lemma exec_obo n : exec_ok n.
Proof.
  induction n as [|n IH]; intros ctl id h l h' H Hc E; [discriminate E|]. cbn [lexec] in E.
  destruct (sfind id h) as [o|] eqn:Ho; [|discriminate E].
  destruct (exec_local (exec n) ctl o) as [[out| | | |] o'] eqn:X; try discriminate E.
  apply bind_ok in E as (l1 & h1 & E1 & E). injection E as <- <-.
  destruct (ok_exec _ _ _ _ _ _ _ _ H Ho X) as (H' & _ & Hi & Hw).
  exists (calls x l1). split; [|eapply emit_op_obo; eauto].
  cbn [calls flat_map]. destruct (String.eqb_spec x id) as [->|]; [|reflexivity].
  now rewrite (Hc eq_refl).
Qed.

(** all messages from the user, to another operator *)
Lemma send_all_obo n ep ms h l h' : x <> ep -> ok D h -> lsend_all n ep ms h = (Ok l, h') -> obo (calls x l).
Proof.
  intros NE H E. assert (X : String.eqb x ep = false) by now apply String.eqb_neq.
  destruct H as (HD & HW & HN). revert HD. revert ms h l h' HW HN E.
  apply (lsend_all_ind n ep (fun h _ l _ => erase_heap h = D -> obo (calls x l))).
  - intros _ _. apply obo_nil.
  - intros h port m l1 h1 ms l2 h2 W N W1 N1 K E1 E2 HD. rewrite calls_app. apply obo_app; [|apply E2; congruence].
    destruct (lsend1_ok _ _ _ _ _ _ _ W E1) as (o & u & o' & l' & Ho & R & E & -> & K').
    assert (H : ok D h) by (repeat split; auto; apply W).
    destruct (exec_obo n false ep _ _ _ (ok_same _ _ _ H K') (fun _ => eq_refl) E) as (l3 & E3 & O).
    rewrite X in E3. cbn [app] in E3. subst l3. rewrite calls_app. cbn [calls flat_map]. rewrite X. exact O.
Qed.
End OneByOne.
