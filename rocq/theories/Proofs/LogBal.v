(** * Without cycles, an operator emits exactly what its executions computed *)

From Coq Require Import String ZArith Bool List Lia.
From Verif Require Import Base.StrMap Base.Num Model.Core Model.Ops Model.Graph Model.Run.
From Verif Require Import Spec.Streams Spec.Shape Spec.Log Proofs.Lists Proofs.ShapeP Proofs.Merge Proofs.LogP.
From Verif Require Import Proofs.LogRun.
Import ListNotations.
Open Scope string_scope.
Open Scope list_scope.
Open Scope Z_scope.
Open Scope rtbot_scope.

Section LogBal.
Context {NO : NumOps}.

(** ** the results of an execution have one entry per port *)

Lemma swf_one {A} k (v : A) : swf [(k, v)].
Proof. repeat constructor. Qed.
Lemma swf_nil {A} : swf (@nil (string * A)).
Proof. constructor. Qed.

Definition owf (x : res opmsg) : Prop := match x with Ok out => swf out | _ => True end.

Lemma owf_bind {A} (x : res A) (f : A -> res opmsg) : (forall a, owf (f a)) -> owf (rbind x f).
Proof. destruct x; cbn; auto. Qed.

Lemma input_loop_swf tp : forall b pm ls out, swf out -> owf (fst (input_loop tp b pm ls out)).
Proof.
  induction tp as [|p tp IH]; intros b pm ls out H; cbn [input_loop]; [exact H|].
  destruct (d_msg b p 0) as [m| | | |]; cbn; auto.
  match goal with |- context [if ?c then _ else _] => destruct c end; [|now apply IH].
  destruct (sfind p pm); cbn; auto. apply IH. now apply swf_semplace.
Qed.

Lemma output_loop_swf tp : forall b pm out, swf out -> owf (fst (output_loop tp b pm out)).
Proof.
  induction tp as [|p tp IH]; intros b pm out H; cbn [output_loop]; [exact H|].
  destruct (d_last b p) as [m| | | |]; cbn; auto.
  destruct (sfind p pm); cbn; auto. apply IH. now apply swf_semplace.
Qed.

Lemma join_tuple_swf ports : forall cm out, swf out -> owf (join_tuple ports cm out).
Proof.
  induction ports as [|[n p] r IH]; intros cm out H; cbn [join_tuple]; [exact H|].
  destruct (ip_data p); cbn; auto. destruct (sfind n cm); cbn; auto. apply IH. now apply swf_semplace.
Qed.

Lemma demux_out_swf m ctrls : forall cm out, swf out -> owf (demux_out m ctrls cm out).
Proof.
  induction ctrls as [|[n p] r IH]; intros cm out H; cbn [demux_out]; [exact H|].
  destruct (ip_data p); cbn; auto. destruct (veq (mval _) v1); [|now apply IH].
  destruct (sfind n cm); cbn; auto. apply IH. now apply swf_semplace.
Qed.

Ltac swf_auto :=
  repeat (apply owf_bind; intros);
  cbn [owf]; auto using swf_nil;
  try (apply swf_one);
  repeat match goal with
  | |- swf (if ?c then _ else _) => destruct c
  | |- swf (match ?c with _ => _ end) => destruct c
  end; auto using swf_nil; try apply swf_one.

Lemma process_data_swf b k : owf (fst (process_data b k)).
Proof.
  destruct k; cbn [process_data]; unfold keep, map_last; cbn [fst];
  try (apply input_loop_swf, swf_nil); try (apply output_loop_swf, swf_nil);
  try solve [swf_auto];
  match goal with |- context [match ?x with _ => _ end] => destruct x as [a| | | |] eqn:?E end;
  try exact I;
  repeat match goal with
  | x : _ * _ |- _ => destruct x
  end; cbn [fst owf]; try (apply swf_one);
  repeat match goal with
  | |- swf (match ?c with _ => _ end) => destruct c
  end; try apply swf_one; apply swf_nil.
Qed.

Lemma exec_base_swf b k : owf (fst (exec_base b k)).
Proof.
  unfold exec_base. destruct (ready_ports b (o_toproc b)) as [tp| | | |]; cbn; auto.
  destruct tp; cbn [fst owf]; [apply swf_nil|].
  pose proof (process_data_swf (set_toproc b (s :: tp)) k) as H.
  destruct (process_data (set_toproc b (s :: tp)) k) as [[out| | | |] [b' k']]; cbn in *; auto.
Qed.

Lemma join_exec_swf b k : owf (fst (join_exec b k)).
Proof.
  unfold join_exec. destruct (o_data b) as [|[n p] r]; try exact I.
  destruct (ip_data p); cbn [fst owf]; [apply swf_nil|].
  destruct (join_latest ((n, p) :: r) n (mtime m)) as [[best t]|]; cbn [fst owf]; [|apply swf_nil].
  cbv zeta. set (b1 := set_data b _). destruct (join_ready t (o_data b1)); cbn [fst owf]; [|apply swf_nil].
  assert (H : owf (join_process b1 k)).
  { unfold join_process. destruct k; cbn [owf]; try apply swf_nil.
    - apply join_tuple_swf, swf_nil.
    - swf_auto.
    - swf_auto. }
  destruct (join_process b1 k); cbn; auto.
Qed.

Lemma demux_join_swf b k cm : owf (fst (demux_join b k cm)).
Proof.
  unfold demux_join. destruct (o_data b) as [|[n p] [|]]; try exact I.
  destruct (ip_data p); cbn [fst owf]; [apply swf_nil|].
  destruct (demux_scan (mtime m) (o_ctrl b)) as [[c| | | |] cs]; try exact I.
  destruct (c =? Z.of_nat (length cs)); cbn [fst owf]; [|apply swf_nil].
  pose proof (demux_out_swf m cs cm [] swf_nil) as H.
  destruct (demux_out m cs cm []); cbn; auto.
Qed.

Lemma var_query_swf b v i : owf (fst (var_query b v i)).
Proof.
  unfold var_query. destruct (o_data b) as [|[n p] [|]]; try exact I.
  destruct (o_ctrl b) as [|[cn cp] [|]]; try exact I.
  destruct (ip_data p); cbn [fst owf]; [apply swf_nil|].
  destruct (ip_data cp); cbn [fst owf]; [apply swf_nil|].
  destruct ((mtime m0 <? mtime m) && negb i); cbn [fst owf]; [apply swf_one|].
  destruct (mtime m <=? mtime m0); cbn [fst owf]; auto.
  destruct (mtime m0 =? mtime m); cbn [fst owf]; [apply swf_one|].
  destruct (var_loop (mtime m0) (m :: l)) as [[x|] q]; cbn [fst owf]; [apply swf_one|apply swf_nil].
Qed.

Lemma ar_exec_swf b coeff : owf (fst (ar_exec b coeff)).
Proof.
  unfold ar_exec. destruct (o_data b) as [|[n p] [|]]; try exact I.
  destruct (ar_loop coeff (ip_data p) 0 (ip_max p) (mval (last (ip_data p) msg0))); cbn; auto.
  repeat match goal with
  | |- owf (fst (match ?c with _ => _ end)) => destruct c
  end; cbn; auto; try apply swf_nil; apply swf_one.
Qed.

Lemma pipe_ports_swf id om : forall outs pm acc, swf acc -> owf (pipe_ports id om outs pm acc).
Proof.
  induction om as [|[port ms] om IH]; intros outs pm acc H; cbn [pipe_ports]; [exact H|].
  destruct (shas _ outs); [|now apply IH]. destruct (sfind _ pm); cbn; auto. apply IH. now apply swf_semplace.
Qed.
Lemma pipe_outputs_swf r : forall outs pm acc, swf acc -> owf (pipe_outputs r outs pm acc).
Proof.
  induction r as [|[id om] r IH]; intros outs pm acc H; cbn [pipe_outputs]; [exact H|].
  pose proof (pipe_ports_swf id om outs pm acc H) as X. destruct (pipe_ports id om outs pm acc); cbn in *; auto.
Qed.

Lemma exec_data_local_swf o : owf (fst (exec_data_local o)).
Proof.
  destruct o as [b k]. unfold exec_data_local.
  destruct k;
  match goal with |- owf (fst (let (r, s) := ?x in _)) =>
    assert (H : owf (fst x)); [|destruct x as [? [? ?]]; exact H]
  end;
  first [ apply join_exec_swf | apply demux_join_swf | apply var_query_swf | apply ar_exec_swf
        | apply exec_base_swf | apply swf_nil].
Qed.
Lemma exec_ctrl_local_swf o : owf (fst (exec_ctrl_local o)).
Proof.
  destruct o as [b k]. unfold exec_ctrl_local.
  destruct k; try (cbn; apply swf_nil);
  match goal with |- owf (fst (let (r, s) := ?x in _)) =>
    assert (H : owf (fst x)); [|destruct x as [? [? ?]]; exact H]
  | _ => idtac
  end;
  first [ apply demux_join_swf | apply var_query_swf | apply swf_nil].
Qed.

Lemma exec_local_swf rec ctl o : owf (fst (exec_local rec ctl o)).
Proof.
  unfold exec_local. destruct ctl; [apply exec_ctrl_local_swf|].
  destruct o as [b k]. destruct k; try apply exec_data_local_swf.
  cbn [op_kind op_base]. unfold pipe_exec.
  destruct (pipe_run rec (o_toproc b) inputs [] all_op) as [[r| | | |] ops']; cbn; auto.
  apply pipe_outputs_swf, swf_nil.
Qed.

(** ** emissions of one operator *)

Lemma on_port_app p (l1 l2 : list opmsg) : on_port p (l1 ++ l2) = on_port p l1 ++ on_port p l2.
Proof. apply flat_map_app. Qed.

Lemma balanced_app l1 l2 : balanced l1 -> balanced l2 -> balanced (l1 ++ l2).
Proof. intros A B id port. now rewrite emitted_app, returned_app, on_port_app, A, B. Qed.

Lemma ldeliver_balanced n m cs : forall h l h', ldeliver n m cs h = (Ok l, h') -> balanced l.
Proof.
  induction cs as [|c cs IH]; intros h l h' E; cbn [ldeliver] in E; [injection E as <- <-; intros ? ?; reflexivity|].
  apply bind_ok in E as (l1 & h1 & E1 & E). apply bind_ok in E as (l2 & h2 & E2 & E). injection E as <- <-.
  apply balanced_app; [|eauto].
  assert (X : forall dst e, balanced [LCall dst e []]).
  { intros dst e id port. cbn. destruct (String.eqb id dst); reflexivity. }
  destruct c as [dst port]. unfold ldeliver1 in E1. destruct (sfind dst h) as [o|]; [|discriminate E1].
  destruct (is_data_input o port).
  - destruct (recv_data n o m port) as [[u| | | |] o'] eqn:R; try discriminate E1. injection E1 as <- <-. apply X.
  - destruct (is_control_input o port).
    + destruct (recv_ctrl_local o m port) as [[u| | | |] o'] eqn:R; try discriminate E1. injection E1 as <- <-. apply X.
    + injection E1 as <- <-. intros ? ?; reflexivity.
Qed.

(** the log of emitting [out] from operator [id]: balanced for the others, and [out] for [id] *)
Definition emits_out (id : string) (out : string -> list msg) (l : list entry) : Prop :=
  (forall i port, i <> id -> emitted i port l = on_port port (returned i l)) /\
  (forall port, emitted id port l = out port) /\ returned id l = [].

Lemma emits_out_app id o1 o2 o l1 l2 :
  emits_out id o1 l1 -> emits_out id o2 l2 -> (forall p, o1 p ++ o2 p = o p) -> emits_out id o (l1 ++ l2).
Proof.
  intros (A1 & A2 & A3) (B1 & B2 & B3) E. split; [|split].
  - intros i port N. now rewrite emitted_app, returned_app, on_port_app, A1, B1.
  - intros port. now rewrite emitted_app, A2, B2, E.
  - now rewrite returned_app, A3, B3.
Qed.

Ltac carry K :=
  match type of K with erase_heap ?h1 = erase_heap ?h =>
    assert (wf_heap h1) by (eapply wf_heap_same; eauto);
    assert (named h1) by (eapply named_same; eauto);
    assert (erase_heap h1 = erase_heap h) by (exact K)
  end.

Section Emit.
Variable rank : string -> nat.
Variable D : heap.
Hypothesis RD : ranked rank D.
Variable n : nat.
Hypothesis IH : forall ctl id h l h', wf_heap h -> named h -> erase_heap h = D ->
  lexec n ctl id h = (Ok l, h') -> balanced l.

Lemma lexecute1_balanced c h l h' : wf_heap h -> named h -> erase_heap h = D ->
  lexecute1 (lexec n) c h = (Ok l, h') -> balanced l.
Proof.
  intros W N HD E. destruct c as [dst port]. unfold lexecute1 in E. destruct (sfind dst h); [|discriminate E].
  destruct (is_data_input o port); [eapply IH; eauto|].
  destruct (is_control_input o port); [eapply IH; eauto|]. injection E as <- _. intros ? ?; reflexivity.
Qed.

Lemma lexecute_all_balanced cs : forall h l h', wf_heap h -> named h -> erase_heap h = D ->
  lexecute_all (lexec n) cs h = (Ok l, h') -> balanced l.
Proof.
  induction cs as [|c cs IHc]; intros h l h' W N HD E; cbn [lexecute_all] in E; [injection E as <- _; intros ? ?; reflexivity|].
  apply bind_ok in E as (l1 & h1 & E1 & E). apply bind_ok in E as (l2 & h2 & E2 & E). injection E as <- _.
  assert (K : erase_heap h1 = erase_heap h) by (eapply lexecute1_keeps; eauto). carry K. rewrite HD in *.
  apply balanced_app; [eapply (lexecute1_balanced c h); eauto|].
  eapply (IHc h1); eauto.
Qed.

(** nothing at or above the rank of [id] occurs below it *)
Definition low (r : nat) (i : string) : Prop := (rank i < r)%nat.

Lemma lexecute_all_low r cs : (forall c, In c cs -> low r (fst c)) -> forall h l h', wf_heap h -> named h -> erase_heap h = D ->
  lexecute_all (lexec n) cs h = (Ok l, h') -> mentions (low r) l.
Proof.
  intros L. induction cs as [|c cs IHc]; intros h l h' W N HD E; cbn [lexecute_all] in E; [injection E as <- _; constructor|].
  apply bind_ok in E as (l1 & h1 & E1 & E). apply bind_ok in E as (l2 & h2 & E2 & E). injection E as <- _.
  assert (K : erase_heap h1 = erase_heap h) by (eapply lexecute1_keeps; eauto). carry K. rewrite HD in *.
  assert (C : forall a b, low r a -> wired h a b -> low r b).
  { intros a b Ha Hw. apply wired_erase in Hw. rewrite HD in Hw. apply RD in Hw. unfold low in *. lia. }
  apply Forall_app. split.
  - assert (Lc : low r (fst c)) by (apply L; now left).
    destruct c as [dst port]. unfold lexecute1 in E1. destruct (sfind dst h); [|discriminate E1].
    destruct (is_data_input o port); [eapply (log_mentions _ n _ dst h); eauto|].
    destruct (is_control_input o port); [eapply (log_mentions _ n _ dst h); eauto|]. injection E1 as <- _. constructor.
  - eapply (IHc (fun c Hc => L c (or_intror Hc)) h1); eauto.
Qed.

Lemma mentions_returned P l id : mentions P l -> ~ P id -> returned id l = [].
Proof.
  intros H N. induction H as [|x l Hx H IHl]; [reflexivity|].
  destruct x as [p m|i e out|i p m]; cbn; auto.
  destruct (String.eqb_spec id i) as [->|]; [contradiction|auto].
Qed.

Lemma balanced_low_emits id l : balanced l -> mentions (low (rank id)) l -> emits_out id (fun _ => []) l.
Proof.
  intros B M. assert (NL : ~ low (rank id) id) by (unfold low; lia).
  split; [|split].
  - intros i port _. apply B.
  - intros port. destruct (mentions_calls _ _ _ M NL) as [_ H]. apply H.
  - eapply mentions_returned; eauto.
Qed.

Lemma wires_low h id port c : erase_heap h = D -> In c (wires h id port) -> low (rank id) (fst c).
Proof.
  intros HD Hc. apply RD. exists port, (snd c). rewrite <- HD, wires_erase. now destruct c.
Qed.

Definition one_at (port : string) (ms : list msg) (p : string) : list msg := if String.eqb p port then ms else [].

Lemma lemit_msg_out b id port m h l h' :
  wf_heap h -> named h -> erase_heap h = D -> o_id b = id ->
  odefault [] (sfind port (o_conns b)) = wires h id port ->
  lemit_msg (lexec n) n b port m h = (Ok l, h') -> emits_out id (one_at port [m]) l.
Proof.
  intros W N HD <- Hw E.
  assert (X : emits_out (o_id b) (one_at port [m]) [LEmit (o_id b) port m]).
  { split; [|split].
    - intros i p Ni. cbn. destruct (String.eqb_spec i (o_id b)); [contradiction|reflexivity].
    - intros p. cbn. rewrite String.eqb_refl. unfold one_at. cbn. destruct (String.eqb p port); reflexivity.
    - reflexivity. }
  unfold lemit_msg in E. destruct (sfind port (o_conns b)) as [cs|]; [|injection E as <- _; exact X].
  cbn [odefault] in Hw.
  apply bind_ok in E as (l1 & h1 & E1 & E). apply bind_ok in E as (l2 & h2 & E2 & E). injection E as <- _.
  assert (K : erase_heap h1 = erase_heap h) by (eapply ldeliver_keeps; eauto). carry K. rewrite HD in *.
  assert (L : forall c, In c cs -> low (rank (o_id b)) (fst c)).
  { intros c Hc. apply (wires_low h _ port); auto. now rewrite <- Hw. }
  change (LEmit (o_id b) port m :: l1 ++ l2) with ([LEmit (o_id b) port m] ++ l1 ++ l2).
  eapply emits_out_app; [exact X| |].
  - apply balanced_low_emits.
    + apply balanced_app; [eapply ldeliver_balanced; eauto|].
      eapply (lexecute_all_balanced cs h1); eauto.
    + apply Forall_app. split; [eapply ldeliver_mentions; eauto|].
      eapply (lexecute_all_low _ cs L h1); eauto.
  - intros p. apply app_nil_r.
Qed.

Lemma emits_out_nil id : emits_out id (fun _ => []) [].
Proof. split; [|split]; reflexivity. Qed.

Lemma lemit_port_out b id port ms : forall h l h',
  wf_heap h -> named h -> erase_heap h = D -> o_id b = id ->
  odefault [] (sfind port (o_conns b)) = wires h id port ->
  lemit_port (lexec n) n b port ms h = (Ok l, h') -> emits_out id (one_at port ms) l.
Proof.
  induction ms as [|m ms IHm]; intros h l h' W N HD Hi Hw E; cbn [lemit_port] in E.
  { injection E as <- _. split; [|split]; try reflexivity. intros p. unfold one_at. now destruct (String.eqb p port). }
  apply bind_ok in E as (l1 & h1 & E1 & E). apply bind_ok in E as (l2 & h2 & E2 & E). injection E as <- _.
  assert (K : erase_heap h1 = erase_heap h) by (eapply lemit_msg_keeps; eauto). carry K. rewrite HD in *.
  eapply emits_out_app; [eapply (lemit_msg_out b id port m h); eauto| |].
  - eapply (IHm h1); eauto.
    rewrite (wires_same h h1); auto. congruence.
  - intros p. unfold one_at. now destruct (String.eqb p port).
Qed.

Definition all_at (oms : opmsg) (p : string) : list msg :=
  flat_map (fun pm => one_at (fst pm) (snd pm) p) oms.

Lemma lemit_op_out b id oms : forall h l h',
  wf_heap h -> named h -> erase_heap h = D -> o_id b = id ->
  (forall port, odefault [] (sfind port (o_conns b)) = wires h id port) ->
  lemit_op (lexec n) n b oms h = (Ok l, h') -> emits_out id (all_at oms) l.
Proof.
  induction oms as [|[port ms] oms IHm]; intros h l h' W N HD Hi Hw E; cbn [lemit_op] in E.
  { injection E as <- _. apply emits_out_nil. }
  destruct (sset_mem port (o_outs b)); [|discriminate E].
  apply bind_ok in E as (l1 & h1 & E1 & E). apply bind_ok in E as (l2 & h2 & E2 & E). injection E as <- _.
  assert (K : erase_heap h1 = erase_heap h) by (eapply lemit_port_keeps; eauto). carry K. rewrite HD in *.
  eapply emits_out_app; [eapply (lemit_port_out b id port ms h); eauto| |].
  - eapply (IHm h1); eauto.
    intros p. rewrite (wires_same h h1); auto. congruence.
  - intros p. reflexivity.
Qed.
End Emit.

Lemma all_at_swf oms : swf oms -> forall p, all_at oms p = odefault [] (sfind p oms).
Proof.
  induction oms as [|[k v] oms IH]; intros W p; [reflexivity|].
  destruct (swf_cons_inv _ _ _ W) as [W' F]. unfold all_at. cbn [flat_map fst snd]. fold (all_at oms p).
  rewrite IH by auto. cbn [sfind]. unfold one_at. destruct (String.eqb_spec p k) as [->|]; [|reflexivity].
  cbn [odefault]. destruct (sfind k oms) eqn:Ek; [|apply app_nil_r].
  apply sfind_In_key in Ek. rewrite Forall_forall in F. apply F in Ek. exfalso. unfold slt in Ek. now rewrite sltb_irrefl in Ek.
Qed.

Theorem log_balanced rank D n : ranked rank D -> forall ctl id h l h',
  wf_heap h -> named h -> erase_heap h = D -> lexec n ctl id h = (Ok l, h') -> balanced l.
Proof.
  intros RD. induction n as [|n IH]; intros ctl id h l h' W N HD E; [discriminate E|]. cbn [lexec] in E.
  destruct (sfind id h) as [o|] eqn:Ho; [|discriminate E].
  pose proof (exec_local_swf (exec n) ctl o) as Wo.
  destruct (exec_local (exec n) ctl o) as [[out| | | |] o'] eqn:X; try discriminate E. cbn [fst owf] in Wo.
  apply bind_ok in E as (l1 & h1 & E1 & E). injection E as <- _.
  assert (OK : ok D h) by (repeat split; auto; apply W).
  destruct (ok_exec D _ _ _ _ _ _ _ OK Ho X) as ((H1 & H2 & H3) & _ & Hi & Hw).
  destruct (lemit_op_out rank D RD n IH (op_base o') id out _ _ _ H2 H3 H1 Hi Hw E1) as (A & B & C).
  intros i port. cbn [emitted returned flat_map].
  fold (emitted i port l1) (returned i l1). rewrite on_port_app.
  destruct (String.eqb_spec i id) as [->|Ni].
  - rewrite B, C, all_at_swf by auto. cbn. rewrite !app_nil_r. unfold odefault, opmsg, portmsg in *. now destruct (sfind port out).
  - cbn. now apply A.
Qed.

End LogBal.
