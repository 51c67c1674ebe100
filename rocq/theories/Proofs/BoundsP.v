(** * Buffers never hold more than their declared number of messages *)

From Coq Require Import String ZArith Bool List Lia.
From Verif Require Import Base.StrMap Base.Num Model.Core Model.Ops Model.Make Model.Graph Model.Json.
From Verif Require Import Spec.Shape Spec.Snapshot Spec.Definition Spec.Bounds.
From Verif Require Import Proofs.Ports Proofs.ShapeP Proofs.JsonP Proofs.Restored Proofs.Deep Proofs.PortNames.
Import ListNotations.
Open Scope string_scope.
Open Scope list_scope.
Open Scope Z_scope.

Section Bounds.
Context {NO : NumOps}.

Definition within (p : inport) : Prop := ip_size p <= Z.max 0 (ip_max p).
Definition ports_within (b : base) : Prop :=
  Forall (fun x => within (snd x)) (o_data b) /\ Forall (fun x => within (snd x)) (o_ctrl b).
Definition bounded (o : op) : Prop := windowed o = true -> ports_within (op_base o).

Lemma receive_within p m p' : port_receive p m = Ok p' -> within p -> within p'.
Proof.
  unfold port_receive, within, ip_pop, ip_push, ip_size. intros E H.
  destruct (Z.eqb_spec (ip_max p) (Z.of_nat (length (ip_data p)))) as [Q|Q].
  - destruct (ip_data p) as [|x q] eqn:D; [discriminate E|]. injection E as <-. cbn [ip_data ip_max].
    rewrite app_length. cbn [length] in *. lia.
  - destruct (Z.ltb_spec (ip_max p) (Z.of_nat (length (ip_data p)))); [discriminate E|]. injection E as <-. cbn [ip_data ip_max].
    rewrite app_length. cbn [length]. lia.
Qed.

Lemma Forall_find {A} (P : string * A -> Prop) k v m : Forall P m -> sfind k m = Some v -> P (k, v).
Proof. intros H E. rewrite Forall_forall in H. apply H, sfind_In, E. Qed.

Lemma recv_base_within b m port : ports_within b -> ports_within (snd (recv_data_base b m port)).
Proof.
  intros [H1 H2]. unfold recv_data_base. cbv zeta. destruct (sfind _ (o_data b)) as [p|] eqn:F; [|split; auto].
  destruct (port_receive p m) as [p'| | | |] eqn:E; try (split; auto; fail). split; cbn; [|exact H2].
  apply Forall_sset; [exact H1|]. cbn. eapply receive_within; [exact E|]. exact (Forall_find _ _ _ _ H1 F).
Qed.
Lemma ctrl_base_within b m port : ports_within b -> ports_within (snd (recv_ctrl_base b m port)).
Proof.
  intros [H1 H2]. unfold recv_ctrl_base. cbv zeta. destruct (sfind _ (o_ctrl b)) as [p|] eqn:F; [|split; auto].
  destruct (port_receive p m) as [p'| | | |] eqn:E; try (split; auto; fail). split; cbn; [exact H1|].
  apply Forall_sset; [exact H2|]. cbn. eapply receive_within; [exact E|]. exact (Forall_find _ _ _ _ H2 F).
Qed.

Lemma bounded_recv o m port : is_pipeline o = false -> bounded o -> bounded (snd (recv_data_local o m port)).
Proof.
  destruct o as [b k]. unfold bounded. cbn [op_base]. intros _ H. unfold recv_data_local.
  pose proof (recv_base_within b m port) as X.
  destruct k; try (destruct (recv_data_base b m port); exact (fun W => X (H W)));
    match goal with |- context [let '(r, b') := ?x in _] => destruct x end; intros W; discriminate W.
Qed.
Lemma bounded_ctrl o m port : bounded o -> bounded (snd (recv_ctrl_local o m port)).
Proof.
  destruct o as [b k]. unfold bounded. cbn [op_base]. intros H. unfold recv_ctrl_local.
  pose proof (ctrl_base_within b m port) as X.
  destruct k; try (destruct (recv_ctrl_base b m port); exact (fun W => X (H W)));
    match goal with |- context [let '(r, b') := ?x in _] => destruct x end; intros W; discriminate W.
Qed.

(** the base class does not change the buffers when executing *)
Definition same_ports (b : base) (s : base * kind) : Prop := o_data (fst s) = o_data b /\ o_ctrl (fst s) = o_ctrl b.

Lemma input_loop_ports tp b pm : forall ls out, same_ports b (snd (input_loop tp b pm ls out)).
Proof.
  induction tp as [|port tp IH]; intros ls out; cbn [input_loop]; [split; reflexivity|].
  destruct (d_msg b port 0); try (split; reflexivity).
  destruct (match sfind port ls with Some l => mtime l <? mtime a | None => true end); auto.
  destruct (sfind port pm); [auto|split; reflexivity].
Qed.
Lemma output_loop_ports tp b pm : forall out, same_ports b (snd (output_loop tp b pm out)).
Proof.
  induction tp as [|port tp IH]; intros out; cbn [output_loop]; [split; reflexivity|].
  destruct (d_last b port); try (split; reflexivity). destruct (sfind port pm); [auto|split; reflexivity].
Qed.
Lemma process_ports b k : same_ports b (snd (process_data b k)).
Proof.
  destruct k; cbn [process_data]; try (split; reflexivity).
  - apply input_loop_ports.
  - apply output_loop_ports.
  - destruct (rbind _ _) as [m| | | |]; split; reflexivity.
  - destruct (rbind _ _) as [m| | | |]; split; reflexivity.
  - destruct (rbind _ _) as [[e [[? ?] ?]]| | | |]; split; reflexivity.
  - destruct (rbind _ _) as [[e ?]| | | |]; split; reflexivity.
  - destruct (rbind _ _) as [[[e ?] ?]| | | |]; split; reflexivity.
  - destruct (rbind _ _) as [[m [? ?]]| | | |]; split; reflexivity.
Qed.
Lemma exec_base_ports b k : same_ports b (snd (exec_base b k)).
Proof.
  unfold exec_base. destruct (ready_ports b (o_toproc b)) as [tp| | | |] eqn:E; try (split; reflexivity).
  pose proof (process_ports (set_toproc b tp) k) as X.
  destruct tp as [|p tp]; [split; reflexivity|].
  destruct (process_data _ k) as [r [b' k']]. destruct X as [X1 X2]. cbn [fst snd] in *.
  destruct r; split; cbn; auto.
Qed.
Lemma same_within b s : same_ports b s -> ports_within b -> ports_within (fst s).
Proof. intros [E1 E2]. unfold ports_within. now rewrite E1, E2. Qed.

Lemma var_loop_length q : forall d, (length (snd (var_loop q d)) <= length d)%nat.
Proof.
  induction d as [|a d IH]; [apply le_n|]. cbn [var_loop]. destruct d as [|c d]; [apply le_n|].
  destruct (_ && _); [apply le_n|]. destruct (q =? mtime c); [cbn; lia|]. cbn [length] in *. lia.
Qed.
Lemma shorter_within p q : (length q <= length (ip_data p))%nat -> within p -> within (set_q p q).
Proof. unfold within, ip_size, set_q. cbn [ip_data ip_max]. lia. Qed.

Lemma var_within b v i : ports_within b -> ports_within (fst (snd (var_query b v i))).
Proof.
  intros H. unfold var_query.
  destruct (o_data b) as [|[dport dp] [|]] eqn:D; try exact H.
  destruct (o_ctrl b) as [|[cport cp] [|]] eqn:C; try exact H.
  destruct (ip_data dp) as [|d0 dr] eqn:Q; [exact H|].
  destruct (ip_data cp) as [|c0 crest] eqn:R; [exact H|]. cbv zeta. pose proof H as [H1 H2]. rewrite D in H1. rewrite C in H2.
  assert (W1 : within dp) by (inversion H1; auto). assert (W2 : within cp) by (inversion H2; auto).
  assert (X2 : Forall (fun x : string * inport => within (snd x)) [(cport, set_q cp crest)]).
  { constructor; [|constructor]. apply shorter_within; auto. rewrite R. cbn. lia. }
  assert (P : ports_within (set_ctrl b [(cport, set_q cp crest)])) by (split; cbn; [rewrite D|]; auto).
  destruct (_ && _); [exact P|]. destruct (mtime d0 <=? mtime c0); [|exact H].
  destruct (mtime c0 =? mtime d0); [exact P|].
  pose proof (var_loop_length (mtime c0) (d0 :: dr)) as LL. destruct (var_loop (mtime c0) (d0 :: dr)) as [[v1|] q']; cbn [fst snd] in *.
  - split; cbn; [|exact X2]. constructor; [|constructor]. apply shorter_within; auto. now rewrite Q.
  - split; cbn; [|now rewrite C]. constructor; [|constructor]. apply shorter_within; auto. now rewrite Q.
Qed.

Lemma bounded_exec o : is_pipeline o = false -> bounded o -> bounded (snd (exec_data_local o)).
Proof.
  intros _ H. pose proof (exec_data_local_erase o) as E. destruct o as [b k]. unfold bounded in *. cbn [op_base] in H.
  intros W. assert (W0 : windowed (Op b k) = true).
  { revert W. unfold windowed. destruct (snd (exec_data_local (Op b k))) as [b' k']. apply (f_equal op_kind) in E.
    cbn [op_kind]. destruct k, k'; try discriminate E; auto. }
  specialize (H W0). clear W E. unfold exec_data_local.
  match goal with |- context [let '(r, s) := ?x in _] =>
    assert (S : ports_within (fst (snd x))); [|destruct x as [r [b' k']]; exact S] end.
  destruct k; try discriminate W0; try (now apply same_within with b; [apply exec_base_ports|]). now apply var_within.
Qed.
Lemma bounded_execc o : bounded o -> bounded (snd (exec_ctrl_local o)).
Proof.
  intros H. pose proof (exec_ctrl_local_erase o) as E. destruct o as [b k]. unfold bounded in *. cbn [op_base] in H.
  intros W. assert (W0 : windowed (Op b k) = true).
  { revert W. unfold windowed. destruct (snd (exec_ctrl_local (Op b k))) as [b' k']. apply (f_equal op_kind) in E.
    cbn [op_kind]. destruct k, k'; try discriminate E; auto. }
  specialize (H W0). clear W E. unfold exec_ctrl_local.
  match goal with |- context [let '(r, s) := ?x in _] =>
    assert (S : ports_within (fst (snd x))); [|destruct x as [r [b' k']]; exact S] end.
  destruct k; try discriminate W0; try exact H. now apply var_within.
Qed.

Lemma bounded_session n history p : all_every bounded (p_ops p) -> all_every bounded (p_ops (snd (session n p history))).
Proof.
  apply every_session; [apply bounded_recv|apply bounded_ctrl|apply bounded_exec|apply bounded_execc|].
  intros b js ops ops' ins outs pm tp H. exact H.
Qed.

Lemma new_within name m : new_ports name m -> Forall (fun x => within (snd x)) m.
Proof.
  apply Forall_impl. intros [k p] (i & max & _ & ->). unfold within, new_port, ip_size. cbn. lia.
Qed.

Context {JT : JsonText}.

Lemma bounded_new g text p : new_prog g text = Ok p -> all_every bounded (p_ops p).
Proof.
  apply new_prog_every.
  - intros o C _. destruct (created_ports o C) as (H1 & H2 & _). split; eapply new_within; eauto.
  - intros f id t prog o M _. destruct (mk_pipeline_new _ _ _ _ _ M) as (H1 & H2 & _). split; eapply new_within; eauto.
  - intros b k cs H. exact H.
Qed.

(** ** Reaching operators inside Pipelines *)

Lemma lookup_every P path : forall h o, all_every P h -> lookup path h = Some o -> every P o.
Proof.
  induction path as [|id [|id' path] IH]; intros h o A F; [discriminate F|exact (all_find _ _ _ _ A F)|].
  cbn [lookup] in F. destruct (sfind id h) as [[b k]|] eqn:E; [|discriminate F]. destruct k; try discriminate F.
  eapply IH; [|exact F]. pose proof (all_find _ _ _ _ A E) as X. now apply every_pipe in X.
Qed.

Lemma lookup_erase path : forall h h0 o, erase_heap h = erase_heap h0 -> lookup path h = Some o ->
  exists o0, lookup path h0 = Some o0 /\ erase o0 = erase o.
Proof.
  induction path as [|id [|id' path] IH]; intros h h0 o E F; [discriminate F|exact (erase_heap_find _ _ _ _ E F)|].
  cbn [lookup] in F |- *. destruct (sfind id h) as [[b k]|] eqn:X; [|discriminate F]. destruct k; try discriminate F.
  destruct (erase_heap_find _ _ _ _ E X) as ([b0 k0] & -> & Eo). destruct k0; try discriminate (f_equal op_kind Eo).
  rewrite !erase_pipeline in Eo. apply (IH all_op); [|exact F]. apply (f_equal op_kind) in Eo. cbn [op_kind] in Eo. now injection Eo.
Qed.

Lemma erase_buffer a b port p : erase a = erase b -> buffer_of a port p ->
  exists q, buffer_of b port q /\ erase_port q = erase_port p.
Proof.
  intros E H. apply (f_equal op_base) in E. destruct a as [ba ka], b as [bb kb]. rewrite !erase_op in E. cbn [op_base] in E.
  pose proof (f_equal o_data E) as E1. pose proof (f_equal o_ctrl E) as E2. cbn in E1, E2. unfold buffer_of in *. cbn [op_base] in *.
  destruct H as [H|H].
  - pose proof (f_equal (sfind port) E1) as F. rewrite !sfind_smapv, H in F. destruct (sfind port (o_data bb)) as [q|]; [|discriminate F].
    exists q. split; [auto|].
    exact (eq_sym (f_equal (fun x => match x with Some y => y | None => erase_port q end) F)).
  - pose proof (f_equal (sfind port) E2) as F. rewrite !sfind_smapv, H in F. destruct (sfind port (o_ctrl bb)) as [q|]; [|discriminate F].
    exists q. split; [auto|].
    exact (eq_sym (f_equal (fun x => match x with Some y => y | None => erase_port q end) F)).
Qed.

End Bounds.
