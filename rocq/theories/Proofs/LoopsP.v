(** * A message that reaches a loop is never processed to the end *)

From Coq Require Import String ZArith Bool List Lia.
From Verif Require Import Base.StrMap Base.Num Model.Core Model.Ops Model.Graph Model.Json.
From Verif Require Import Spec.Shape Spec.Log Spec.Definition Spec.Loops.
From Verif Require Import Proofs.Merge Proofs.LogP Proofs.ShapeP.
Import ListNotations.
Open Scope string_scope.
Open Scope list_scope.
Open Scope Z_scope.
Open Scope rtbot_scope.

Section LoopsP.
Context {NO : NumOps}.

Definition passing (k : kind) : bool :=
  match k with
  | KAdd _ | KScale _ | KPower _ | KConstant _ | KIdentity | KCount _ | KCumSum _ | KTimeShift _ _ | KFunction _ _ => true
  | _ => false
  end.

(** one data input for one message, no control input *)
Definition single (o : op) : Prop :=
  passing (op_kind o) = true /\ o_ctrl (op_base o) = [] /\ exists name p, o_data (op_base o) = [(name, p)] /\ ip_max p = 1.

Lemma single_erase o o' : erase o' = erase o -> single o -> single o'.
Proof.
  destruct o as [b k], o' as [b' k']. rewrite !erase_op. intros E (P & C & name & p & D & M).
  pose proof (f_equal op_kind E) as Ek. pose proof (f_equal (fun x => o_data (op_base x)) E) as E2. pose proof (f_equal (fun x => o_ctrl (op_base x)) E) as E3.
  unfold single. cbn [op_kind op_base erase_base o_data o_ctrl] in *. rewrite C in E3. rewrite D in E2.
  split; [destruct k; try discriminate P; destruct k'; try discriminate Ek; reflexivity|].
  split; [destruct (o_ctrl b') as [|[? ?] ?]; [reflexivity|discriminate E3]|].
  destruct (o_data b') as [|[x q] [|[? ?] ?]]; try discriminate E2. exists x, q. split; [reflexivity|]. cbn in E2. injection E2 as _ _ E2. congruence.
Qed.

(** a message is waiting to be processed *)
Definition waiting (o : op) : Prop :=
  exists port p, In port (o_toproc (op_base o)) /\ sfind port (o_data (op_base o)) = Some p /\ ip_data p <> [].

Lemma waiting_recv n o m port u o' : single o -> recv_data n o m port = (Ok u, o') -> waiting o'.
Proof.
  intros (P & _ & _) E. assert (E' : recv_data_local o m port = (Ok u, o')).
  { destruct o as [b k]. destruct n; cbn [recv_data] in E; destruct k; try discriminate P; exact E. }
  clear E. destruct o as [b k]. unfold recv_data_local in E'.
  assert (E : recv_data_base b m port = (Ok u, op_base o')).
  { destruct k; try discriminate P; destruct (recv_data_base b m port) as [r b1]; injection E' as -> <-; reflexivity. }
  clear E'. unfold recv_data_base in E. set (q := resolve port (o_data b)) in *. destruct (sfind q (o_data b)) as [p|]; [|discriminate E].
  destruct (port_receive p m) as [p'| | | |] eqn:R; try discriminate E. injection E as _ E. exists q, p'. rewrite <- E. cbn.
  split; [|split].
  - apply sset_add_In. now left.
  - apply sfind_sset_same.
  - unfold port_receive in R. destruct (_ =? _); [destruct (ip_pop p); [|discriminate R]|destruct (_ <? _); [discriminate R|]]; injection R as <-; cbn [ip_push ip_data]; now destruct (ip_data _).
Qed.

Lemma ready_in b tp l port : ready_ports b tp = Ok l -> In port tp ->
  (forall p, sfind (resolve port (o_data b)) (o_data b) = Some p -> ip_max p <= ip_size p) -> In port l.
Proof.
  revert l. induction tp as [|q tp IH]; intros l E I F; [destruct I|]. cbn [ready_ports] in E.
  unfold d_max, d_size in E. destruct (sfind (resolve q (o_data b)) (o_data b)) as [p|] eqn:Fp; [|unfold no_port in E; cbn in E; discriminate E]. cbn [rbind] in E.
  destruct (ready_ports b tp) as [r| | | |]; try discriminate E. cbn [rbind] in E. injection E as <-.
  destruct I as [->|I].
  - specialize (F p Fp). destruct (Z.ltb_spec (ip_size p) (ip_max p)); [lia|now left].
  - specialize (IH r eq_refl I F). destruct (_ <? _); [exact IH|now right].
Qed.

Lemma waiting_exec rec o out o' : single o -> waiting o -> exec_local rec false o = (Ok out, o') -> exists m, out = [("o1", [m])].
Proof.
  intros (P & C & name & p & D & M) (port & q & I & F & N) E. destruct o as [b k]. cbn [op_base op_kind] in *.
  rewrite D in F. cbn in F. destruct (String.eqb_spec port name) as [->|]; [|discriminate F]. injection F as <-.
  assert (E' : exec_base b k = (Ok out, (op_base o', op_kind o'))).
  { unfold exec_local in E. cbn [op_kind] in E. unfold exec_data_local in E.
    destruct k; try discriminate P; cbn [op_kind] in E; destruct (exec_base b _) as [r [b1 k1]]; injection E as -> <-; reflexivity. }
  clear E. unfold exec_base in E'. destruct (ready_ports b (o_toproc b)) as [l| | | |] eqn:R; try discriminate E'.
  assert (Il : In name l).
  { eapply ready_in; eauto. rewrite D. replace (resolve name [(name, p)]) with name by (unfold resolve; now destruct (String.eqb name "")).
    cbn. rewrite String.eqb_refl. intros p0 [= <-]. rewrite M. unfold ip_size. destruct (ip_data p); [contradiction|cbn [length]; lia]. }
  destruct l as [|x l]; [destruct Il|].
  set (b1 := set_toproc b (x :: l)) in *.
  assert (Sp : single_port b1 = Ok name) by (unfold single_port, b1; cbn; now rewrite D).
  assert (Pr : forall r s, process_data b1 k = (Ok r, s) -> exists m, r = [("o1", [m])]).
  { intros r s. unfold process_data, keep, map_last.
    destruct k; try discriminate P; rewrite Sp; cbn [rbind];
      (match goal with |- context [d_last b1 name] => destruct (d_last b1 name) as [m| | | |] | |- context [d_first b1 name] => destruct (d_first b1 name) as [m| | | |] end); cbn [rbind];
      try (match goal with |- context [function_value ?a ?b ?c] => destruct (function_value a b c) as [v| | | |]; cbn [rbind] end); intros X; apply (f_equal fst) in X; cbn [fst] in X; try discriminate X;
      injection X as <-; eexists; reflexivity. }
  destruct (process_data b1 k) as [r s]. destruct r as [r| | | |]; [|destruct s; discriminate E'..]. destruct s as [b2 k2]. injection E' as <- _.
  eapply Pr. reflexivity.
Qed.

(** ** The loop of a program *)

Section Program.
Variable h0 : heap.
Variable loop : list string.
Hypothesis Nm : named h0.

(** what this output emits goes to an operator of the loop *)
Definition enters (x port : string) : Prop :=
  exists o b pt ob, sfind x h0 = Some o /\ In (b, pt) (targets o port) /\ In b loop /\ sfind b h0 = Some ob /\ is_data_input ob pt = true.

Hypothesis Lp : forall a, In a loop -> exists o, sfind a h0 = Some o /\ single o /\ enters a "o1".

Definition like (h : heap) : Prop := wf_heap h /\ erase_heap h = erase_heap h0.
Definition waits (h : heap) (a : string) : Prop := exists o, sfind a h = Some o /\ waiting o.

Lemma like_find h x o : like h -> sfind x h = Some o -> exists o0, sfind x h0 = Some o0 /\ erase o = erase o0.
Proof.
  intros [_ E] F. symmetry in E. destruct (erase_find _ _ _ _ E F) as (o0 & F0 & Eo). eauto.
Qed.

Lemma like_single h a : like h -> In a loop -> exists o, sfind a h = Some o /\ single o.
Proof.
  intros [_ E] I. destruct (Lp a I) as (o0 & F0 & Si & _). destruct (erase_find _ _ _ _ E F0) as (o & F & Eo). exists o. split; [exact F|].
  eapply single_erase; eauto.
Qed.

Lemma like_keeps {A} h (x : sres heap A) : like h -> keeps h x -> like (snd x).
Proof. intros [W E] K. unfold keeps in K. split; [eapply wf_heap_same; eauto|]. now rewrite K. Qed.

Lemma deliver1_waits n m c h u h1 : like h -> deliver1 n m c h = (Ok u, h1) ->
  (forall a, In a loop -> waits h a -> waits h1 a) /\
  (forall o, In (fst c) loop -> sfind (fst c) h = Some o -> is_data_input o (snd c) = true -> waits h1 (fst c)).
Proof.
  intros L E. destruct c as [dst port]. cbn [fst snd]. unfold deliver1 in E. destruct (sfind dst h) as [o|] eqn:F; [|discriminate E].
  destruct (is_data_input o port) eqn:D.
  - destruct (recv_data n o m port) as [r o'] eqn:R. injection E as -> <-.
    assert (X : In dst loop -> waits (sset dst o' h) dst).
    { intros I. destruct (like_single h dst L I) as (o1 & F1 & Si). rewrite F in F1. injection F1 as <-.
      exists o'. split; [apply sfind_sset_same|]. eapply waiting_recv; eauto. }
    split; [|auto]. intros a I W. destruct (String.eqb_spec a dst) as [->|N]; [auto|]. destruct W as (oa & Fa & Wa). exists oa.
    rewrite sfind_sset. destruct (String.eqb_spec a dst); [contradiction|auto].
  - destruct (is_control_input o port) eqn:C.
    + destruct (recv_ctrl_local o m port) as [r o'] eqn:R. injection E as -> <-. split; [|intros o1 _ [= <-]; congruence].
      intros a I W. destruct (String.eqb_spec a dst) as [->|N].
      * destruct (like_single h dst L I) as (o1 & F1 & (_ & Cc & _)). rewrite F in F1. injection F1 as <-.
        unfold is_control_input in C. rewrite Cc in C. discriminate C.
      * destruct W as (oa & Fa & Wa). exists oa. rewrite sfind_sset. destruct (String.eqb_spec a dst); [contradiction|auto].
    + injection E as _ <-. split; [auto|]. intros o1 _ [= <-]. congruence.
Qed.

Lemma bind_inv {A B} (x : sres heap A) (k : A -> heap -> sres heap B) b h : bind x k = (Ok b, h) -> exists a h1, x = (Ok a, h1) /\ k a h1 = (Ok b, h).
Proof. destruct x as [[a| | | |] h1]; intros E; try discriminate E. exists a, h1. auto. Qed.

Lemma data_like h b ob o pt : like h -> sfind b h0 = Some ob -> sfind b h = Some o -> is_data_input ob pt = true -> is_data_input o pt = true.
Proof.
  intros L F0 F D. destruct (like_find h b o L F) as (o1 & F1 & E). rewrite F0 in F1. injection F1 as <-.
  destruct o as [b1 k1], ob as [b2 k2]. rewrite !erase_op in E. apply (f_equal (fun x => o_data (op_base x))) in E. cbn [op_base erase_base o_data] in E.
  unfold is_data_input, shas in *. cbn [op_base] in *. pose proof (f_equal (sfind pt) E) as X. rewrite !sfind_smapv in X.
  destruct (sfind pt (o_data b1)), (sfind pt (o_data b2)); try discriminate X; auto.
Qed.

Lemma deliver_waits n m cs : forall h u h1, like h -> deliver n m cs h = (Ok u, h1) ->
  like h1 /\ (forall a, In a loop -> waits h a -> waits h1 a) /\
  (forall b pt ob, In (b, pt) cs -> In b loop -> sfind b h0 = Some ob -> is_data_input ob pt = true -> waits h1 b).
Proof.
  induction cs as [|c cs IH]; intros h u h1 L E; cbn [deliver] in E.
  - injection E as _ <-. split; [exact L|]. split; [auto|]. intros ? ? ? [].
  - apply bind_inv in E as (u1 & h2 & E1 & E2).
    assert (L2 : like h2).
    { pose proof (deliver1_keeps n m c h (proj1 L)) as K. rewrite E1 in K. exact (like_keeps h _ L K). }
    destruct (deliver1_waits _ _ _ _ _ _ L E1) as [K1 K2]. destruct (IH _ _ _ L2 E2) as (L1 & W1 & W2).
    split; [exact L1|]. split; [intros a Ia Wa; exact (W1 a Ia (K1 a Ia Wa))|]. intros b pt ob [->|I] Ib Fb D; [|exact (W2 b pt ob I Ib Fb D)].
    apply W1; [exact Ib|]. destruct (like_single h b L Ib) as (o & Fo & _). exact (K2 o Ib Fo (data_like h b ob o pt L Fb Fo D)).
Qed.

(** what a successful execution tells *)
Definition calm (h : heap) (out : progmsg) (h1 : heap) : Prop :=
  like h1 /\ wf_pm out /\ (forall a, In a loop -> waits h a -> waits h1 a) /\ forall x port, enters x port -> result_at out x port = [].

Definition good_rec (rec : bool -> string -> heap -> sres heap progmsg) : Prop :=
  (forall ctl id h, wf_heap h -> keeps h (rec ctl id h)) /\
  forall ctl id h out h1, like h -> (In id loop -> ctl = false) -> rec ctl id h = (Ok out, h1) ->
    (In id loop -> ~ waits h id) /\ calm h out h1.

Section Emit.
Variable rec : bool -> string -> heap -> sres heap progmsg.
Variable n : nat.
Hypothesis R : good_rec rec.

Lemma execute1_calm c h out h1 : like h -> execute1 rec c h = (Ok out, h1) ->
  calm h out h1 /\ forall ob, In (fst c) loop -> sfind (fst c) h0 = Some ob -> is_data_input ob (snd c) = true -> ~ waits h (fst c).
Proof.
  intros L E. destruct c as [dst port]. cbn [fst snd]. unfold execute1 in E. destruct (sfind dst h) as [o|] eqn:F; [|discriminate E].
  destruct (is_data_input o port) eqn:D.
  - destruct (proj2 R _ _ _ _ _ L (fun _ => eq_refl) E) as [N C]. split; [exact C|]. intros; auto.
  - assert (N : forall ob, In dst loop -> sfind dst h0 = Some ob -> is_data_input ob port = true -> ~ waits h dst).
    { intros ob I Fb Db. exfalso. rewrite (data_like h dst ob o port L Fb F Db) in D. discriminate D. }
    split; [|exact N]. destruct (is_control_input o port) eqn:C.
    + apply (proj2 R _ _ _ _ _ L) in E; [apply E|]. intros I. exfalso.
      destruct (like_single h dst L I) as (o1 & F1 & (_ & Cc & _)). rewrite F in F1. injection F1 as <-. unfold is_control_input in C. rewrite Cc in C. discriminate C.
    + injection E as <- <-. split; [exact L|]. split; [apply wf_pm_nil|]. split; auto.
Qed.

Lemma execute_all_calm cs : forall out h r h1, like h -> wf_pm out -> (forall x port, enters x port -> result_at out x port = []) ->
  execute_all rec cs out h = (Ok r, h1) ->
  calm h r h1 /\ forall b pt ob, In (b, pt) cs -> In b loop -> sfind b h0 = Some ob -> is_data_input ob pt = true -> ~ waits h b.
Proof.
  induction cs as [|c cs IH]; intros out h r h1 L Wo Ro E; cbn [execute_all] in E.
  - injection E as <- <-. split; [|intros ? ? ? []]. split; [exact L|]. split; [exact Wo|]. split; auto.
  - apply bind_inv in E as (x & h2 & E1 & E2). destruct (execute1_calm c h x h2 L E1) as [(L2 & Wx & K & Rx) N].
    destruct (IH (merge_pm out x) h2 r h1) as [(L1 & Wr & K1 & R1) N1]; auto.
    { now apply merge_pm_wf. } { intros y port Hy. rewrite result_merge by exact Wx. now rewrite Ro, Rx. }
    split; [split; [exact L1|]; split; [exact Wr|]; split; auto|].
    intros b pt ob [->|I] Ib Fb D W; [now apply (N ob)|]. eapply N1; eauto.
Qed.

Lemma execute_all_in cs : forall out h r h1, like h -> execute_all rec cs out h = (Ok r, h1) ->
  forall b pt ob, In (b, pt) cs -> In b loop -> sfind b h0 = Some ob -> is_data_input ob pt = true -> ~ waits h b.
Proof.
  induction cs as [|c cs IH]; intros out h r h1 L E b pt ob I; [destruct I|]. cbn [execute_all] in E.
  apply bind_inv in E as (x & h2 & E1 & E2). destruct (execute1_calm c h x h2 L E1) as [(L2 & Wx & K & Rx) N].
  destruct I as [->|I]; intros Ib Fb D W; [now apply (N ob)|]. eapply IH; eauto.
Qed.

Lemma emit_msg_calm b port m h r h1 o : like h -> sfind (o_id b) h0 = Some o -> o_conns b = o_conns (op_base o) ->
  emit_msg rec n b port m h = (Ok r, h1) -> ~ enters (o_id b) port /\ calm h r h1.
Proof.
  intros L F C E. unfold emit_msg in E.
  assert (NE : ~ enters (o_id b) port).
  { intros (o1 & c & pt & oc & F1 & I & Ic & Fc & D). rewrite F in F1. injection F1 as <-. unfold targets in I. rewrite <- C in I.
    destruct (sfind port (o_conns b)) as [cs|]; [|destruct I]. apply bind_inv in E as (u & h2 & E1 & E2).
    destruct (deliver_waits _ _ _ _ _ _ L E1) as (L2 & _ & W). apply (execute_all_in cs _ _ _ _ L2 E2 c pt oc); eauto. }
  split; [exact NE|].
  assert (Ro : forall x p, enters x p -> result_at [(o_id b, [(port, [m])])] x p = []).
  { intros x p Ex. unfold result_at. cbn. destruct (String.eqb_spec x (o_id b)) as [->|]; [|reflexivity]. cbn.
    destruct (String.eqb_spec p port) as [->|]; [contradiction|reflexivity]. }
  destruct (sfind port (o_conns b)) as [cs|].
  - apply bind_inv in E as (u & h2 & E1 & E2). destruct (deliver_waits _ _ _ _ _ _ L E1) as (L2 & K & _).
    destruct (execute_all_calm cs _ _ _ _ L2 (wf_pm_one _ _ _) Ro E2) as [(L1 & Wr & K1 & R1) _].
    split; [exact L1|]. split; [exact Wr|]. split; auto.
  - injection E as <- <-. split; [exact L|]. split; [apply wf_pm_one|]. split; auto.
Qed.

Lemma emit_port_calm b port ms o : sfind (o_id b) h0 = Some o -> o_conns b = o_conns (op_base o) ->
  forall out h r h1, like h -> wf_pm out -> (forall x p, enters x p -> result_at out x p = []) ->
  emit_port rec n b port ms out h = (Ok r, h1) -> (ms <> [] -> ~ enters (o_id b) port) /\ calm h r h1.
Proof.
  intros F C. induction ms as [|m ms IH]; intros out h r h1 L Wo Ro E; cbn [emit_port] in E.
  - injection E as <- <-. split; [congruence|]. split; [exact L|]. split; [exact Wo|]. split; auto.
  - apply bind_inv in E as (x & h2 & E1 & E2). destruct (emit_msg_calm b port m h x h2 o L F C E1) as (NE & L2 & Wx & K & Rx).
    destruct (IH (merge_pm out x) h2 r h1) as (_ & L1 & Wr & K1 & R1); auto.
    { now apply merge_pm_wf. } { intros y p Hy. rewrite result_merge by exact Wx. now rewrite Ro, Rx. }
    split; [auto|]. split; [exact L1|]. split; [exact Wr|]. split; auto.
Qed.

Lemma emit_op_calm b oms o : sfind (o_id b) h0 = Some o -> o_conns b = o_conns (op_base o) ->
  forall out h r h1, like h -> wf_pm out -> (forall x p, enters x p -> result_at out x p = []) ->
  emit_op rec n b oms out h = (Ok r, h1) -> (forall port ms, In (port, ms) oms -> ms <> [] -> ~ enters (o_id b) port) /\ calm h r h1.
Proof.
  intros F C. induction oms as [|[port ms] oms IH]; intros out h r h1 L Wo Ro E; cbn [emit_op] in E.
  - injection E as <- <-. split; [intros ? ? []|]. split; [exact L|]. split; [exact Wo|]. split; auto.
  - destruct (sset_mem port (o_outs b)); [|discriminate E].
    apply bind_inv in E as (x & h2 & E1 & E2). destruct (emit_port_calm b port ms o F C [] h x h2 L wf_pm_nil (fun _ _ _ => eq_refl) E1) as (NE & L2 & Wx & K & Rx).
    destruct (IH (merge_pm out x) h2 r h1) as (NE1 & L1 & Wr & K1 & R1); auto.
    { now apply merge_pm_wf. } { intros y p Hy. rewrite result_merge by exact Wx. now rewrite Ro, Rx. }
    split; [|split; [exact L1|]; split; [exact Wr|]; split; auto].
    intros p q [[= <- <-]|I] Nq; [auto|]. eapply NE1; eauto.
Qed.
End Emit.

Lemma erase_fields o o' : erase o' = erase o -> o_id (op_base o') = o_id (op_base o) /\ o_conns (op_base o') = o_conns (op_base o).
Proof. destruct o as [b k], o' as [b' k']. rewrite !erase_op. intros E. split; [exact (f_equal (fun x => o_id (op_base x)) E)|exact (f_equal (fun x => o_conns (op_base x)) E)]. Qed.

Lemma exec_good n : good_rec (exec n).
Proof.
  induction n as [|n IH]; (split; [apply exec_keeps|]); intros ctl id h out h1 L Hc E; [discriminate E|].
  cbn [exec] in E. destruct (sfind id h) as [o|] eqn:F; [|discriminate E].
  assert (W : wf_op o) by (eapply (proj2 (proj1 L)); eauto).
  pose proof (exec_local_erase (exec n) (proj1 IH) ctl o W) as X.
  destruct (exec_local (exec n) ctl o) as [r o'] eqn:El. cbn [snd] in X. destruct r as [oms| | | |]; try discriminate E.
  assert (Y : erase_heap (sset id o' h) = erase_heap h) by exact (erase_heap_sset _ _ _ _ (proj1 L) F X).
  assert (L' : like (sset id o' h)) by (split; [exact (wf_heap_same _ _ Y (proj1 L))|rewrite Y; exact (proj2 L)]).
  destruct (like_find h id o L F) as (o0 & F0 & E0). destruct (erase_fields _ _ X) as [X1 X2]. destruct (erase_fields _ _ E0) as [Y1 Y2].
  assert (Id : o_id (op_base o') = id) by (rewrite X1, Y1; now apply Nm).
  destruct (emit_op_calm (exec n) n IH (op_base o') oms o0) with (out := @nil (string * opmsg)) (h := sset id o' h) (r := out) (h1 := h1) as (NE & L1 & Wr & K & Rr).
  { now rewrite Id. } { now rewrite X2, Y2. } { exact L'. } { apply wf_pm_nil. } { reflexivity. } { exact E. }
  rewrite Id in NE.
  assert (NW : In id loop -> ~ waits h id).
  { intros I (o1 & F1 & Wt). rewrite F in F1. injection F1 as <-. rewrite (Hc I) in El.
    destruct (like_single h id L I) as (o1 & F1 & Si). rewrite F in F1. injection F1 as <-.
    destruct (waiting_exec _ _ _ _ Si Wt El) as (m & ->). destruct (Lp id I) as (_ & _ & _ & En).
    apply (NE "o1" [m]); [now left|discriminate|exact En]. }
  split; [exact NW|]. split; [exact L1|]. split; [exact Wr|]. split; [|exact Rr].
  intros a I Wa. apply K; [exact I|]. destruct (String.eqb_spec a id) as [->|N]; [destruct (NW I Wa)|].
  destruct Wa as (oa & Fa & Wa). exists oa. rewrite sfind_sset. destruct (String.eqb_spec a id); [contradiction|auto].
Qed.

(** what an execution that succeeds computed did not go to the loop *)
Lemma exec_emits n ctl id h out h1 o : like h -> sfind id h = Some o -> is_pipeline o = false -> exec n ctl id h = (Ok out, h1) ->
  exists oms o', (if ctl then exec_ctrl_local o else exec_data_local o) = (Ok oms, o') /\
    forall port ms, In (port, ms) oms -> ms <> [] -> ~ enters id port.
Proof.
  intros L F NP E. destruct n as [|n]; [discriminate E|]. cbn [exec] in E. rewrite F in E.
  assert (W : wf_op o) by (eapply (proj2 (proj1 L)); eauto).
  pose proof (exec_local_erase (exec n) (proj1 (exec_good n)) ctl o W) as X.
  assert (Q : exec_local (exec n) ctl o = if ctl then exec_ctrl_local o else exec_data_local o).
  { unfold exec_local. destruct ctl; [reflexivity|]. unfold is_pipeline in NP. destruct (op_kind o); try reflexivity. discriminate NP. }
  rewrite Q in E, X. destruct (if ctl then exec_ctrl_local o else exec_data_local o) as [r o']. cbn [snd] in X. destruct r as [oms| | | |]; try discriminate E.
  exists oms, o'. split; [reflexivity|].
  assert (Y : erase_heap (sset id o' h) = erase_heap h) by exact (erase_heap_sset _ _ _ _ (proj1 L) F X).
  assert (L' : like (sset id o' h)) by (split; [exact (wf_heap_same _ _ Y (proj1 L))|rewrite Y; exact (proj2 L)]).
  destruct (like_find h id o L F) as (o0 & F0 & E0). destruct (erase_fields _ _ X) as [X1 X2]. destruct (erase_fields _ _ E0) as [Y1 Y2].
  assert (Id : o_id (op_base o') = id) by (rewrite X1, Y1; now apply Nm).
  destruct (emit_op_calm (exec n) n (exec_good n) (op_base o') oms o0) with (out := @nil (string * opmsg)) (h := sset id o' h) (r := out) (h1 := h1) as (NE & _).
  { now rewrite Id. } { now rewrite X2, Y2. } { exact L'. } { apply wf_pm_nil. } { reflexivity. } { exact E. }
  now rewrite Id in NE.
Qed.

(** ** Calls of the program *)

Lemma send1_calm n entry port m h out h1 : like h -> send1 n entry port m h = (Ok out, h1) ->
  ~ In entry loop /\ calm h out h1.
Proof.
  intros L E. unfold send1 in E. destruct (sfind entry h) as [o|] eqn:F; [|discriminate E].
  assert (W : wf_op o) by (eapply (proj2 (proj1 L)); eauto). pose proof (recv_data_erase n o m port W) as X.
  destruct (recv_data n o m port) as [r o'] eqn:Re. cbn [snd] in X. destruct r as [u| | | |]; try discriminate E.
  assert (Y : erase_heap (sset entry o' h) = erase_heap h) by exact (erase_heap_sset _ _ _ _ (proj1 L) F X).
  assert (L' : like (sset entry o' h)) by (split; [exact (wf_heap_same _ _ Y (proj1 L))|rewrite Y; exact (proj2 L)]).
  destruct (proj2 (exec_good n) false entry _ _ _ L' (fun _ => eq_refl) E) as (NW & L1 & Wr & K & Rr).
  assert (NI : ~ In entry loop).
  { intros I. apply (NW I). exists o'. split; [apply sfind_sset_same|]. destruct (like_single h entry L I) as (o1 & F1 & Si).
    rewrite F in F1. injection F1 as <-. eapply waiting_recv; eauto. }
  split; [exact NI|]. split; [exact L1|]. split; [exact Wr|]. split; [|exact Rr].
  intros a I (oa & Fa & Wa). apply K; [exact I|]. exists oa. rewrite sfind_sset. destruct (String.eqb_spec a entry) as [->|]; [contradiction|auto].
Qed.

Lemma send_port_calm n entry port ms : forall out h r h1, like h -> wf_pm out -> (forall x p, enters x p -> result_at out x p = []) ->
  send_port n entry port ms out h = (Ok r, h1) -> (ms <> [] -> ~ In entry loop) /\ calm h r h1.
Proof.
  induction ms as [|m ms IH]; intros out h r h1 L Wo Ro E; cbn [send_port] in E.
  - injection E as <- <-. split; [congruence|]. split; [exact L|]. split; [exact Wo|]. split; auto.
  - apply bind_inv in E as (x & h2 & E1 & E2). destruct (send1_calm _ _ _ _ _ _ _ L E1) as (NI & L2 & Wx & K & Rx).
    destruct (IH (merge_pm out x) h2 r h1) as (_ & L1 & Wr & K1 & R1); auto.
    { now apply merge_pm_wf. } { intros y p Hy. rewrite result_merge by exact Wx. now rewrite Ro, Rx. }
    split; [auto|]. split; [exact L1|]. split; [exact Wr|]. split; auto.
Qed.

Lemma send_batch_calm n entry batch : forall out h r h1, like h -> wf_pm out -> (forall x p, enters x p -> result_at out x p = []) ->
  send_batch n entry batch out h = (Ok r, h1) -> (forall port ms, In (port, ms) batch -> ms <> [] -> ~ In entry loop) /\ calm h r h1.
Proof.
  induction batch as [|[port ms] batch IH]; intros out h r h1 L Wo Ro E; cbn [send_batch] in E.
  - injection E as <- <-. split; [intros ? ? []|]. split; [exact L|]. split; [exact Wo|]. split; auto.
  - apply bind_inv in E as (x & h2 & E1 & E2). destruct (send_port_calm _ _ _ _ _ _ _ _ L Wo Ro E1) as (NI & L2 & Wx & K & Rx).
    destruct (IH x h2 r h1) as (NI1 & L1 & Wr & K1 & R1); auto.
    split; [|split; [exact L1|]; split; [exact Wr|]; split; auto].
    intros p q [[= <- <-]|I] Nq; [auto|]. eapply NI1; eauto.
Qed.

End Program.
End LoopsP.
