(** * Where a failing call of a program comes from *)

From Coq Require Import String ZArith Bool List Lia.
From Verif Require Import Base.StrMap Base.Num Model.Core Model.Ops Model.Graph Model.Run.
From Verif Require Import Spec.Streams Spec.Shape Spec.Preserving Spec.Multi Spec.Join Spec.Cause Spec.Log.
From Verif Require Import Proofs.Lists Proofs.ShapeP Proofs.Merge Proofs.LogP Proofs.LogRun Proofs.LogBal Proofs.LogProg Proofs.Rounds Proofs.Sync.
Import ListNotations.
Open Scope string_scope.
Open Scope list_scope.
Open Scope Z_scope.
Open Scope rtbot_scope.

Section Fail.
Context {NO : NumOps}.

Lemma bind_fail {T A B} (x : sres T A) (k : A -> T -> sres T B) r s' f : bind x k = (r, s') -> ending r = f -> f <> Ok tt ->
  (exists r0, x = (r0, s') /\ ending r0 = f) \/ (exists a s, x = (Ok a, s) /\ k a s = (r, s')).
Proof.
  destruct x as [[a|e| | |] s]; cbn; intros E F N; [right; eauto| | | |]; left; apply pair_equal_spec in E as [<- <-];
    eexists; split; try reflexivity; exact F.
Qed.

(** operator [o], by itself, fails in call [e]: the call fails, or its result is for an
    output which the operator does not have *)
Definition stuck (o : op) (e : ev) (f : res unit) : Prop :=
  (ending (fst (step o e)) = f) \/
  (exists out o' port ms, step o e = (Ok out, o') /\ In (port, ms) out /\ sset_mem port (o_outs (op_base o)) = false /\
     f = Throw (RuntimeError "refers to a non existing output port")).

Definition hushed (l : list entry) : Prop := forall i e out, In (LCall i e out) l -> out = [].
Definition kept (l : list entry) : Prop := forall i e out, In (LCall i e out) l -> swf out.

(** the log up to the failing call, continued as if nothing were computed from there on *)
Definition broke (h : heap) (shape : list entry -> Prop) (f : res unit) : Prop :=
  exists L id e L' h1 o, shape (L ++ LCall id e [] :: L') /\ replays h L h1 /\ erase_heap h1 = erase_heap h /\
    sfind id h1 = Some o /\ stuck o e f /\ kept L /\ hushed L'.

Lemma kept_app l1 l2 : kept l1 -> kept l2 -> kept (l1 ++ l2).
Proof. intros A B i e out H. apply in_app_or in H as [H|H]; eauto. Qed.
Lemma hushed_app l1 l2 : hushed l1 -> hushed l2 -> hushed (l1 ++ l2).
Proof. intros A B i e out H. apply in_app_or in H as [H|H]; eauto. Qed.
Lemma hushed_kept l : hushed l -> kept l.
Proof. intros A i e out H. rewrite (A i e out H). constructor. Qed.

Lemma broke_after h l1 h1 f (s s' : list entry -> Prop) : replays h l1 h1 -> erase_heap h1 = erase_heap h -> kept l1 ->
  broke h1 s f -> (forall l2, s l2 -> s' (l1 ++ l2)) -> broke h s' f.
Proof.
  intros R K Kp (L & id & e & L' & h2 & o & Sh & R2 & K2 & Ho & St & Kp2 & Hu) A.
  exists (l1 ++ L), id, e, L', h2, o. rewrite <- app_assoc. repeat split; auto.
  - apply (replays_app _ _ _ _ _ R R2).
  - apply (replays_app _ _ _ _ _ R R2).
  - congruence.
  - now apply kept_app.
Qed.
Lemma broke_before h f (s s' : list entry -> Prop) l2 : broke h s f -> hushed l2 -> (forall l1, s l1 -> s' (l1 ++ l2)) -> broke h s' f.
Proof.
  intros (L & id & e & L' & h2 & o & Sh & R2 & K2 & Ho & St & Kp2 & Hu) H A.
  exists L, id, e, (L' ++ l2), h2, o. split; [|repeat split; auto; now apply hushed_app || apply R2].
  specialize (A _ Sh). rewrite <- app_assoc in A. exact A.
Qed.
Lemma broke_here h id e o f (s : list entry -> Prop) : sfind id h = Some o -> stuck o e f -> s [LCall id e []] -> broke h s f.
Proof.
  intros Ho St Sh. exists [], id, e, [], h, o. repeat split; auto; try (now intros i e' out []).
  intros i oi Hi Pi. exists oi. auto.
Qed.

(** ** Continuing in silence *)

Lemma hushed_delivered h m cs : hushed (delivered h m cs).
Proof. intros i e out H. apply delivered_In in H as (j & p & _ & [[E _]|[E _]]); congruence. Qed.

Lemma silent_trees h cs : exists l, trees h cs l /\ hushed l.
Proof.
  induction cs as [|[ctl id] cs (l & T & H)]; [exists []; split; [constructor|intros i e out []]|].
  exists ([LCall id (if ctl : bool then EExecC else EExec) []] ++ l). split.
  - constructor; auto. constructor. constructor.
  - apply hushed_app; auto. intros i e out [[= _ _ <-]|[]]. reflexivity.
Qed.
Lemma silent_emissions h id ms : exists l, emissions h id ms l /\ hushed l.
Proof.
  induction ms as [|[port m] ms (l & T & H)]; [exists []; split; [constructor|intros i e out []]|].
  destruct (silent_trees h (executed h (wires h id port))) as (x & Tx & Hx).
  exists ((LEmit id port m :: delivered h m (wires h id port)) ++ x ++ l). split; [now constructor|].
  apply hushed_app; [|now apply hushed_app]. intros i e out [[=]|X]. eapply hushed_delivered; eauto.
Qed.

(** ** What is computed is in order *)

Lemma kept_deliver n m cs h l h' : wf_heap h -> ldeliver n m cs h = (Ok l, h') -> kept l.
Proof. intros W E. rewrite (ldeliver_delivered h n m cs h l h' W eq_refl E). apply hushed_kept, hushed_delivered. Qed.

Lemma log_kept n ctl id h l h' : wf_heap h -> named h -> lexec n ctl id h = (Ok l, h') -> kept l.
Proof.
  intros W N E.
  eapply (log_principle (erase_heap h) (fun _ => True) (fun _ l _ => kept l)) with (n := n); eauto.
  - intros _ i e out [].
  - intros; now apply kept_app.
  - intros. intros i e out [[=]|X]. refine (kept_deliver _ _ _ _ _ _ _ H1 _ _ _ X). apply H.
  - intros n' c i o h1 out o' _ _ _ X j e out' [[= _ _ <-]|[]].
    pose proof (exec_local_swf (exec n') c o) as Y. rewrite X in Y. exact Y.
  - repeat split; auto; apply W.
Qed.

(** ** The failing call *)

Section Inside.
Variable h0 : heap.
Hypothesis Simple : forall id o, sfind id h0 = Some o -> is_pipeline o = false.
Hypothesis Closed : forall a q c, In c (wires h0 a q) -> exists o, sfind (fst c) h0 = Some o.

Definition sane (h : heap) : Prop := wf_heap h /\ named h /\ erase_heap h = erase_heap h0.

Lemma sane_same h h1 : sane h -> erase_heap h1 = erase_heap h -> sane h1.
Proof.
  intros (W & N & K) E. split; [eapply wf_heap_same; eauto|]. split; [eapply named_same; eauto|congruence].
Qed.
Lemma sane_simple h id o : sane h -> sfind id h = Some o -> is_pipeline o = false.
Proof.
  intros (W & N & K) Ho. destruct (erase_find h h0 id o (eq_sym K) Ho) as (o1 & H1 & E1).
  eapply not_pipeline_same; [exact (eq_sym E1)|]. eauto.
Qed.
Lemma sane_there h id : sane h -> (exists o, sfind id h0 = Some o) -> exists o, sfind id h = Some o.
Proof.
  intros (W & N & K) (o & Ho). destruct (erase_find h0 h id o K Ho) as (o1 & H1 & E1). eauto.
Qed.

Lemma stuck_recv n o m port r o' f : is_pipeline o = false -> recv_data n o m port = (r, o') -> ending r = f -> f <> Ok tt -> stuck o (EData port m) f.
Proof.
  intros P E F N. left. cbn [step]. rewrite recv_data_simple in E by auto. rewrite E. destruct r; cbn in *; auto; congruence.
Qed.
Lemma stuck_ctrl o m port r o' f : recv_ctrl_local o m port = (r, o') -> ending r = f -> f <> Ok tt -> stuck o (ECtrl port m) f.
Proof. intros E F N. left. cbn [step]. rewrite E. destruct r; cbn in *; auto; congruence. Qed.
Lemma step_exec n ctl o : is_pipeline o = false -> exec_local (exec n) ctl o = step o (if ctl : bool then EExecC else EExec).
Proof. intros P. unfold exec_local. destruct ctl; [reflexivity|]. destruct o as [b []]; cbn in *; auto; discriminate. Qed.

Lemma ldeliver1_fail n m c h r h' f : sane h -> (exists o, sfind (fst c) h0 = Some o) -> ldeliver1 n m c h = (r, h') -> ending r = f -> f <> Ok tt ->
  broke h (fun l => l = delivered h0 m [c]) f.
Proof.
  intros Sn Th E F N. destruct (sane_there h _ Sn Th) as (o & Ho). pose proof (sane_simple _ _ _ Sn Ho) as P.
  unfold delivered. cbn [flat_map]. rewrite app_nil_r, <- (port_class_same h0 h c (proj2 (proj2 Sn))).
  destruct c as [dst port]. unfold ldeliver1 in E. unfold port_class. cbn [fst snd] in *. rewrite Ho in *.
  destruct (is_data_input o port).
  - apply (bind_fail _ _ _ _ _ E F) in N as G. destruct G as [(r0 & E0 & F0)|(a & s & _ & X)]; [|apply pair_equal_spec in X as [<- _]; cbn in F; congruence].
    destruct (recv_data n o m port) as [r1 o1] eqn:R. apply pair_equal_spec in E0 as [-> _].
    eapply broke_here; [exact Ho|eapply stuck_recv; eauto|reflexivity].
  - destruct (is_control_input o port).
    + apply (bind_fail _ _ _ _ _ E F) in N as G. destruct G as [(r0 & E0 & F0)|(a & s & _ & X)]; [|apply pair_equal_spec in X as [<- _]; cbn in F; congruence].
      destruct (recv_ctrl_local o m port) as [r1 o1] eqn:R. apply pair_equal_spec in E0 as [-> _].
      eapply broke_here; [exact Ho|eapply stuck_ctrl; eauto|reflexivity].
    + apply pair_equal_spec in E as [<- _]. cbn in F. congruence.
Qed.

Lemma ldeliver_fail n m cs : forall h r h' f, sane h -> (forall c, In c cs -> exists o, sfind (fst c) h0 = Some o) ->
  ldeliver n m cs h = (r, h') -> ending r = f -> f <> Ok tt -> broke h (fun l => l = delivered h0 m cs) f.
Proof.
  induction cs as [|c cs IH]; intros h r h' f Sn Th E F N; cbn [ldeliver] in E.
  { apply pair_equal_spec in E as [<- _]. cbn in F. congruence. }
  assert (Ed : delivered h0 m (c :: cs) = delivered h0 m [c] ++ delivered h0 m cs).
  { unfold delivered. cbn [flat_map]. now rewrite app_nil_r. }
  destruct (bind_fail _ _ _ _ _ E F N) as [(r0 & E0 & F0)|(l1 & h1 & E1 & E2)].
  - eapply broke_before; [eapply ldeliver1_fail; eauto; apply Th; cbn; auto|apply (hushed_delivered h0 m cs)|].
    intros l1 ->. auto.
  - destruct (bind_fail _ _ _ _ _ E2 F N) as [(r0 & E0 & F0)|(l2 & h2 & E3 & E4)];
      [|apply pair_equal_spec in E4 as [<- _]; cbn in F; congruence].
    assert (K1 : erase_heap h1 = erase_heap h) by (eapply ldeliver1_keeps; eauto; apply Sn).
    assert (E1' : ldeliver n m [c] h = (Ok l1, h1)) by (cbn [ldeliver]; rewrite E1; cbn; now rewrite app_nil_r).
    assert (El : l1 = delivered h0 m [c]) by (eapply ldeliver_delivered; [apply Sn|apply Sn|exact E1']).
    eapply broke_after; [eapply replays_deliver1; [apply Sn|exact E1]|exact K1|rewrite El; apply hushed_kept, hushed_delivered| |].
    + eapply IH; [eapply sane_same; eauto| |exact E0|exact F0|exact N]. intros c' H'. apply Th. cbn; auto.
    + intros l2 ->. now rewrite Ed, El.
Qed.

Section Emit.
Variable n : nat.
Hypothesis IH : forall ctl id h r h' f, sane h -> (exists o, sfind id h0 = Some o) -> lexec n ctl id h = (r, h') -> ending r = f ->
  f <> Ok tt -> f <> OutOfFuel -> broke h (tree h0 ctl id) f.

Lemma lexecute1_fail c h r h' f : sane h -> (exists o, sfind (fst c) h0 = Some o) -> lexecute1 (lexec n) c h = (r, h') -> ending r = f ->
  f <> Ok tt -> f <> OutOfFuel -> broke h (trees h0 (executed h0 [c])) f.
Proof.
  intros Sn Th E F N Nf. destruct (sane_there h _ Sn Th) as (o & Ho).
  unfold executed. cbn [flat_map]. rewrite app_nil_r, <- (port_class_same h0 h c (proj2 (proj2 Sn))).
  destruct c as [dst port]. unfold lexecute1 in E. unfold port_class. cbn [fst snd] in *. rewrite Ho in *.
  assert (One : forall b, lexec n b dst h = (r, h') -> broke h (trees h0 [(b, dst)]) f).
  { intros b X. eapply broke_before with (l2 := []); [eapply IH; eauto|intros i e out []|].
    intros l1 T. constructor; [exact T|constructor]. }
  destruct (is_data_input o port); [now apply One|]. destruct (is_control_input o port); [now apply One|].
  apply pair_equal_spec in E as [<- _]. cbn in F. congruence.
Qed.

Lemma lexecute1_tree c h l h' : sane h -> lexecute1 (lexec n) c h = (Ok l, h') ->
  trees h0 (executed h0 [c]) l /\ replays h l h' /\ erase_heap h' = erase_heap h /\ kept l.
Proof.
  intros (W & Nm & K) E. split; [|split; [|split]].
  - unfold executed. cbn [flat_map]. rewrite app_nil_r, <- (port_class_same h0 h c K).
    destruct c as [dst port]. unfold lexecute1 in E. unfold port_class. cbn [fst snd].
    destruct (sfind dst h) as [o|]; [|discriminate E].
    destruct (is_data_input o port); [rewrite <- (app_nil_r l); constructor; [eapply lexec_tree; eauto|constructor]|].
    destruct (is_control_input o port); [rewrite <- (app_nil_r l); constructor; [eapply lexec_tree; eauto|constructor]|].
    injection E as <- <-. constructor.
  - destruct c as [dst port]. unfold lexecute1 in E. destruct (sfind dst h) as [o|]; [|discriminate E].
    destruct (is_data_input o port); [eapply log_replays; eauto|].
    destruct (is_control_input o port); [eapply log_replays; eauto|]. injection E as <- <-. apply replays_nil.
  - eapply lexecute1_keeps; eauto.
  - destruct c as [dst port]. unfold lexecute1 in E. destruct (sfind dst h) as [o|]; [|discriminate E].
    destruct (is_data_input o port); [eapply log_kept; eauto|].
    destruct (is_control_input o port); [eapply log_kept; eauto|]. injection E as <- <-. intros i e out [].
Qed.

Lemma lexecute_all_fail cs : forall h r h' f, sane h -> (forall c, In c cs -> exists o, sfind (fst c) h0 = Some o) ->
  lexecute_all (lexec n) cs h = (r, h') -> ending r = f -> f <> Ok tt -> f <> OutOfFuel -> broke h (trees h0 (executed h0 cs)) f.
Proof.
  induction cs as [|c cs IHc]; intros h r h' f Sn Th E F N Nf; cbn [lexecute_all] in E.
  { apply pair_equal_spec in E as [<- _]. cbn in F. congruence. }
  assert (Ed : executed h0 (c :: cs) = executed h0 [c] ++ executed h0 cs).
  { unfold executed. cbn [flat_map]. now rewrite app_nil_r. }
  destruct (bind_fail _ _ _ _ _ E F N) as [(r0 & E0 & F0)|(l1 & h1 & E1 & E2)].
  - destruct (silent_trees h0 (executed h0 cs)) as (x & Tx & Hx).
    eapply broke_before; [eapply lexecute1_fail; eauto; apply Th; cbn; auto|exact Hx|].
    intros l1 T1. rewrite Ed. now apply trees_app.
  - destruct (bind_fail _ _ _ _ _ E2 F N) as [(r0 & E0 & F0)|(l2 & h2 & E3 & E4)];
      [|apply pair_equal_spec in E4 as [<- _]; cbn in F; congruence].
    destruct (lexecute1_tree c h l1 h1 Sn E1) as (T1 & R1 & K1 & Kp).
    eapply broke_after; [exact R1|exact K1|exact Kp| |].
    + eapply IHc; [eapply sane_same; eauto| |exact E0|exact F0|exact N|exact Nf]. intros c' H'. apply Th. cbn; auto.
    + intros l2 T2. rewrite Ed. now apply trees_app.
Qed.

Lemma lexecute_all_tree cs : forall h l h', sane h -> lexecute_all (lexec n) cs h = (Ok l, h') ->
  trees h0 (executed h0 cs) l /\ replays h l h' /\ erase_heap h' = erase_heap h /\ kept l.
Proof.
  induction cs as [|c cs IHc]; intros h l h' Sn E; cbn [lexecute_all] in E.
  { injection E as <- <-. split; [exact (ts_nil h0)|]. split; [apply replays_nil|]. split; [reflexivity|intros i e out []]. }
  assert (Ed : executed h0 (c :: cs) = executed h0 [c] ++ executed h0 cs).
  { unfold executed. cbn [flat_map]. now rewrite app_nil_r. }
  apply bind_ok in E as (l2 & h2 & E2 & E). apply bind_ok in E as (l3 & h3 & E3 & E). injection E as <- <-.
  destruct (lexecute1_tree c h l2 h2 Sn E2) as (T1 & R1 & K1 & Kp).
  destruct (IHc h2 l3 h3 (sane_same _ _ Sn K1) E3) as (T2 & R2 & K2 & Kp2). rewrite Ed.
  split; [now apply trees_app|]. split; [eapply replays_app; eauto|]. split; [congruence|now apply kept_app].
Qed.

Variable id : string.
Variable b : base.
Hypothesis Bid : o_id b = id.
Hypothesis Bw : forall port, odefault [] (sfind port (o_conns b)) = wires h0 id port.

Lemma replays_mark h port m : replays h [LEmit id port m] h.
Proof. apply replays_emit, replays_nil. Qed.

Lemma lemit_msg_fail port m h r h' f : sane h -> lemit_msg (lexec n) n b port m h = (r, h') -> ending r = f -> f <> Ok tt -> f <> OutOfFuel ->
  broke h (emissions h0 id [(port, m)]) f.
Proof.
  intros Sn E F N Nf. unfold lemit_msg in E. specialize (Bw port).
  destruct (sfind port (o_conns b)) as [cs|] eqn:Ec; cbn [odefault] in Bw; [|apply pair_equal_spec in E as [<- _]; cbn in F; congruence].
  assert (Th : forall c, In c cs -> exists o, sfind (fst c) h0 = Some o) by (intros c; rewrite Bw; apply Closed).
  assert (Mk : forall x, trees h0 (executed h0 cs) x -> emissions h0 id [(port, m)] ([LEmit id port m] ++ delivered h0 m cs ++ x)).
  { intros x T. rewrite Bw in *. rewrite <- (app_nil_r x). apply (em_cons h0 id port m [] x []); [exact T|constructor]. }
  assert (Km : kept [LEmit id port m]) by (intros i e out [[=]|[]]).
  destruct (silent_trees h0 (executed h0 cs)) as (x & Tx & Hx).
  destruct (bind_fail _ _ _ _ _ E F N) as [(r0 & E0 & F0)|(l1 & h1 & E1 & E2)].
  - apply (broke_after h [LEmit id port m] h f (fun l => l = delivered h0 m cs ++ x)); [apply replays_mark|reflexivity|exact Km| |].
    + apply (broke_before h f (fun l => l = delivered h0 m cs) _ x); [eapply ldeliver_fail; eauto|exact Hx|].
      intros l1 ->. reflexivity.
    + intros l2 ->. now apply Mk.
  - destruct (bind_fail _ _ _ _ _ E2 F N) as [(r0 & E0 & F0)|(l2 & h2 & E3 & E4)];
      [|apply pair_equal_spec in E4 as [<- _]; cbn in F; congruence].
    assert (K1 : erase_heap h1 = erase_heap h) by (eapply ldeliver_keeps; eauto; apply Sn).
    assert (El : l1 = delivered h0 m cs) by (eapply ldeliver_delivered; [apply Sn|apply Sn|exact E1]).
    apply (broke_after h (LEmit id port m :: l1) h1 f (trees h0 (executed h0 cs))).
    + apply replays_emit. eapply replays_deliver; [apply Sn|exact E1].
    + exact K1.
    + intros i e out [[=]|X]. subst l1. rewrite (hushed_delivered _ _ _ _ _ _ X). constructor.
    + eapply lexecute_all_fail; [eapply sane_same; eauto|exact Th|exact E0|exact F0|exact N|exact Nf].
    + intros l2 T. rewrite El. exact (Mk l2 T).
Qed.

Lemma lemit_msg_tree port m h l h' : sane h -> lemit_msg (lexec n) n b port m h = (Ok l, h') ->
  emissions h0 id [(port, m)] l /\ replays h l h' /\ erase_heap h' = erase_heap h /\ kept l.
Proof.
  intros Sn E. unfold lemit_msg in E. specialize (Bw port). rewrite Bid in E.
  destruct (sfind port (o_conns b)) as [cs|] eqn:Ec; cbn [odefault] in Bw.
  - apply bind_ok in E as (l2 & h2 & E2 & E). apply bind_ok in E as (l3 & h3 & E3 & E). injection E as <- <-.
    assert (K3 : erase_heap h2 = erase_heap h) by (eapply ldeliver_keeps; eauto; apply Sn).
    destruct (lexecute_all_tree cs h2 l3 h3 (sane_same _ _ Sn K3) E3) as (T & R & K & Kp).
    assert (El : l2 = delivered h0 m cs) by (eapply ldeliver_delivered; [apply Sn|apply Sn|exact E2]).
    split; [|split; [|split]].
    + rewrite El, Bw. rewrite <- (app_nil_r l3). apply (em_cons h0 id port m [] l3 []); [now rewrite <- Bw|constructor].
    + eapply replays_app; [apply (replays_emit id port m); eapply replays_deliver; [apply Sn|exact E2]|exact R].
    + congruence.
    + apply (kept_app (LEmit id port m :: l2) l3); auto. intros i e out [[=]|X]. subst l2. rewrite (hushed_delivered _ _ _ _ _ _ X). constructor.
  - injection E as <- <-. split; [|split; [|split]]; auto.
    + assert (X : emissions h0 id [(port, m)] ((LEmit id port m :: delivered h0 m (wires h0 id port)) ++ [] ++ [])).
      { constructor; [|constructor]. rewrite <- Bw. constructor. }
      rewrite <- Bw in X. exact X.
    + apply replays_mark.
    + intros i e out [[=]|[]].
Qed.

Lemma lemit_port_fail port ms : forall h r h' f, sane h -> lemit_port (lexec n) n b port ms h = (r, h') -> ending r = f -> f <> Ok tt -> f <> OutOfFuel ->
  broke h (emissions h0 id (map (pair port) ms)) f.
Proof.
  induction ms as [|m ms IHm]; intros h r h' f Sn E F N Nf; cbn [lemit_port] in E.
  { apply pair_equal_spec in E as [<- _]. cbn in F. congruence. }
  change (map (pair port) (m :: ms)) with ([(port, m)] ++ map (pair port) ms).
  destruct (bind_fail _ _ _ _ _ E F N) as [(r0 & E0 & F0)|(l1 & h1 & E1 & E2)].
  - destruct (silent_emissions h0 id (map (pair port) ms)) as (x & Tx & Hx).
    eapply broke_before; [eapply lemit_msg_fail; eauto|exact Hx|]. intros l1 T1. now apply emissions_app.
  - destruct (bind_fail _ _ _ _ _ E2 F N) as [(r0 & E0 & F0)|(l2 & h2 & E3 & E4)];
      [|apply pair_equal_spec in E4 as [<- _]; cbn in F; congruence].
    destruct (lemit_msg_tree port m h l1 h1 Sn E1) as (T1 & R1 & K1 & Kp).
    eapply broke_after; [exact R1|exact K1|exact Kp| |].
    + eapply IHm; [eapply sane_same; eauto|exact E0|exact F0|exact N|exact Nf].
    + intros l2 T2. now apply emissions_app.
Qed.
Lemma lemit_port_tree port ms : forall h l h', sane h -> lemit_port (lexec n) n b port ms h = (Ok l, h') ->
  emissions h0 id (map (pair port) ms) l /\ replays h l h' /\ erase_heap h' = erase_heap h /\ kept l.
Proof.
  induction ms as [|m ms IHm]; intros h l h' Sn E; cbn [lemit_port] in E.
  { injection E as <- <-. split; [exact (em_nil h0 id)|]. split; [apply replays_nil|]. split; [reflexivity|intros i e out []]. }
  apply bind_ok in E as (l2 & h2 & E2 & E). apply bind_ok in E as (l3 & h3 & E3 & E). injection E as <- <-.
  destruct (lemit_msg_tree port m h l2 h2 Sn E2) as (T1 & R1 & K1 & Kp).
  destruct (IHm h2 l3 h3 (sane_same _ _ Sn K1) E3) as (T2 & R2 & K2 & Kp2).
  change (map (pair port) (m :: ms)) with ([(port, m)] ++ map (pair port) ms).
  split; [now apply emissions_app|]. split; [eapply replays_app; eauto|]. split; [congruence|now apply kept_app].
Qed.

Lemma lemit_op_fail oms : forall h r h' f, sane h -> lemit_op (lexec n) n b oms h = (r, h') -> ending r = f -> f <> Ok tt -> f <> OutOfFuel ->
  broke h (emissions h0 id (batch_messages oms)) f \/
  (exists port ms, In (port, ms) oms /\ sset_mem port (o_outs b) = false /\ f = Throw (RuntimeError "refers to a non existing output port")).
Proof.
  induction oms as [|[port ms] oms IHo]; intros h r h' f Sn E F N Nf; cbn [lemit_op] in E.
  { apply pair_equal_spec in E as [<- _]. cbn in F. congruence. }
  unfold batch_messages. cbn [flat_map fst snd]. fold (batch_messages oms).
  destruct (sset_mem port (o_outs b)) eqn:M.
  - destruct (bind_fail _ _ _ _ _ E F N) as [(r0 & E0 & F0)|(l1 & h1 & E1 & E2)].
    + left. destruct (silent_emissions h0 id (batch_messages oms)) as (x & Tx & Hx).
      eapply broke_before; [eapply lemit_port_fail; eauto|exact Hx|]. intros l1 T1. now apply emissions_app.
    + destruct (bind_fail _ _ _ _ _ E2 F N) as [(r0 & E0 & F0)|(l2 & h2 & E3 & E4)];
        [|apply pair_equal_spec in E4 as [<- _]; cbn in F; congruence].
      destruct (lemit_port_tree port ms h l1 h1 Sn E1) as (T1 & R1 & K1 & Kp).
      destruct (IHo h1 r0 h' f (sane_same _ _ Sn K1) E0 F0 N Nf) as [B|(p & x & H1 & H2 & H3)].
      * left. eapply broke_after; [exact R1|exact K1|exact Kp|exact B|]. intros l2 T2. now apply emissions_app.
      * right. exists p, x. split; [cbn; auto|auto].
  - right. exists port, ms. split; [cbn; auto|]. split; auto. apply pair_equal_spec in E as [<- _]. now rewrite <- F.
Qed.
End Emit.

Theorem lexec_fail n : forall ctl id h r h' f, sane h -> (exists o, sfind id h0 = Some o) -> lexec n ctl id h = (r, h') -> ending r = f ->
  f <> Ok tt -> f <> OutOfFuel -> broke h (tree h0 ctl id) f.
Proof.
  induction n as [|n IH]; intros ctl id h r h' f Sn Th E F N Nf; cbn [lexec] in E.
  { apply pair_equal_spec in E as [<- _]. cbn in F. congruence. }
  destruct (sane_there h _ Sn Th) as (o & Ho). pose proof (sane_simple _ _ _ Sn Ho) as P. rewrite Ho in E.
  destruct (exec_local (exec n) ctl o) as [rx o'] eqn:X.
  assert (Here : forall f', stuck o (if ctl then EExecC else EExec) f' -> broke h (tree h0 ctl id) f').
  { intros f' St. eapply broke_here; [exact Ho|exact St|]. constructor. constructor. }
  destruct rx as [out|e| | |].
  2-5: apply pair_equal_spec in E as [<- _]; apply Here; left; rewrite <- (step_exec n ctl o P), X; exact F.
  destruct (bind_fail _ _ _ _ _ E F N) as [(r0 & E0 & F0)|(l1 & h1 & E1 & E2)];
    [|apply pair_equal_spec in E2 as [<- _]; cbn in F; congruence].
  destruct (ok_exec (erase_heap h) n ctl h id o out o') as ((K' & W' & N') & Eo & Hi & Hw); auto.
  { repeat split; apply Sn. }
  assert (Sn' : sane (sset id o' h)) by (eapply sane_same; eauto).
  destruct (lemit_op_fail n IH id (op_base o') Hi) with (oms := out) (h := sset id o' h) (r := r0) (h' := h') (f := f) as [B|(port & ms & H1 & H2 & H3)]; auto.
  - intros port. rewrite Hw. apply wires_same. apply Sn'.
  - eapply broke_after with (l1 := [LCall id (if ctl then EExecC else EExec) out]); [eapply replays_exec; eauto; apply Sn|exact K'| |exact B|].
    + intros i e out' [[= _ _ <-]|[]]. pose proof (exec_local_swf (exec n) ctl o) as Y. rewrite X in Y. exact Y.
    + intros l2 T. now constructor.
  - apply Here. right. exists out, o', port, ms. rewrite <- (step_exec n ctl o P). repeat split; auto.
    rewrite <- erase_outs, <- Eo, erase_outs. exact H2.
Qed.

(** a sequence of messages *)
Theorem lsend_all_fail n ep ms : forall h r h' f, sane h -> (exists o, sfind ep h0 = Some o) -> lsend_all n ep ms h = (r, h') -> ending r = f ->
  f <> Ok tt -> f <> OutOfFuel -> exists ms1 ms2, ms = ms1 ++ ms2 /\ broke h (rounds h0 ep ms1) f.
Proof.
  induction ms as [|[port m] ms IHm]; intros h r h' f Sn Th E F N Nf; cbn [lsend_all] in E.
  { apply pair_equal_spec in E as [<- _]. cbn in F. congruence. }
  destruct (bind_fail _ _ _ _ _ E F N) as [(r0 & E0 & F0)|(l1 & h1 & E1 & E2)].
  - exists [(port, m)], ms. split; [reflexivity|].
    destruct (sane_there h _ Sn Th) as (o & Ho). pose proof (sane_simple _ _ _ Sn Ho) as P.
    assert (Mk : forall t, tree h0 false ep t -> rounds h0 ep [(port, m)] ([LSend port m] ++ [LCall ep (EData port m) []] ++ t)).
    { intros t T. exact (rounds_snoc h0 ep [] [] port m t (rounds_nil h0 ep) T). }
    assert (Rs : replays h [LSend port m] h). { split; auto. intros i oi Hi Pi. exists oi. auto. }
    assert (Ks : kept [LSend port m]) by (intros i e out [[=]|[]]).
    unfold lsend1 in E0. rewrite Ho in E0.
    destruct (bind_fail _ _ _ _ _ E0 F0 N) as [(r1 & E1 & F1)|(u & h1 & E1 & E2)].
    + destruct (recv_data n o m port) as [r2 o2] eqn:R. apply pair_equal_spec in E1 as [-> _].
      apply (broke_after h [LSend port m] h f (fun l => l = [LCall ep (EData port m) []] ++ [LCall ep EExec []])); [exact Rs|reflexivity|exact Ks| |].
      * apply (broke_before h f (fun l => l = [LCall ep (EData port m) []]) _ [LCall ep EExec []]).
        -- eapply broke_here; [exact Ho|eapply stuck_recv; eauto|reflexivity].
        -- intros i e out [[= _ _ <-]|[]]. reflexivity.
        -- intros l1 ->. reflexivity.
      * intros l2 ->. apply Mk. constructor. constructor.
    + destruct (recv_data n o m port) as [r2 o2] eqn:R. apply pair_equal_spec in E1 as [-> <-].
      destruct (bind_fail _ _ _ _ _ E2 F0 N) as [(r1 & E3 & F1)|(l & h2 & E3 & E4)];
        [|apply pair_equal_spec in E4 as [<- _]; cbn in F0; congruence].
      assert (K : erase_heap (sset ep o2 h) = erase_heap h).
      { eapply erase_heap_sset; [apply Sn|exact Ho|]. pose proof (recv_data_erase n o m port (proj2 (proj1 Sn) _ _ Ho)) as X. now rewrite R in X. }
      apply (broke_after h ([LSend port m] ++ [LCall ep (EData port m) []]) (sset ep o2 h) f (tree h0 false ep)).
      * eapply replays_app; [exact Rs|]. eapply replays_recv; [apply Sn|exact Ho|exact R].
      * exact K.
      * apply kept_app; [exact Ks|]. intros i e out [[= _ _ <-]|[]]. constructor.
      * eapply lexec_fail; [eapply sane_same; eauto|exact Th|exact E3|exact F1|exact N|exact Nf].
      * intros l2 T. rewrite <- app_assoc. now apply Mk.
  - destruct (bind_fail _ _ _ _ _ E2 F N) as [(r0 & E0 & F0)|(l2 & h2 & E3 & E4)];
      [|apply pair_equal_spec in E4 as [<- _]; cbn in F; congruence].
    pose proof (lsend1_keeps _ _ _ _ _ _ _ (proj1 Sn) E1) as K1.
    destruct (IHm h1 r0 h' f (sane_same _ _ Sn K1) Th E0 F0 N Nf) as (ms1 & ms2 & -> & B).
    exists ((port, m) :: ms1), ms2. split; [reflexivity|].
    destruct (lsend1_ok _ _ _ _ _ _ _ (proj1 Sn) E1) as (o & u & o' & l' & Ho & R & E3 & -> & K').
    assert (S2 : sane (sset ep o' h)) by (eapply sane_same; eauto).
    apply (broke_after h (head ep port m ++ l') h1 f (rounds h0 ep ms1)); [| | |exact B|].
    + eapply replays_app; [|eapply log_replays; [apply S2|apply S2|exact E3]].
      change (head ep port m) with ([LSend port m] ++ [LCall ep (EData port m) []]).
      apply (replays_app h [LSend port m] h); [|eapply replays_recv; [apply Sn|exact Ho|exact R]].
      split; auto. intros i oi Hi Pi. exists oi. auto.
    + exact K1.
    + apply kept_app; [|eapply log_kept; [apply S2|apply S2|exact E3]]. intros i e out [[=]|[[= _ _ <-]|[]]]. constructor.
    + intros l2 T. apply rounds_cons; auto. eapply lexec_tree; [apply S2|apply S2|apply S2|exact E3].
Qed.
End Inside.

End Fail.
