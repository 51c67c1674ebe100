(** * Invariants of operators that hold in every reachable state *)

From Coq Require Import String ZArith Bool List Lia Sorted.
From Verif Require Import Base.StrMap Base.Num Model.Core Model.Ops Model.Graph Model.Codec.
From Verif Require Import Spec.Shape Spec.Snapshot Proofs.ShapeP Proofs.CodecP Proofs.HeapRel.
Import ListNotations.
Open Scope string_scope.
Open Scope list_scope.
Open Scope Z_scope.

Section Tidy.
Context {NO : NumOps}.

(** ** Invariants of all operators of a heap *)

Section Inv.
Variable P : op -> Prop.
Hypothesis P_wf : forall o, P o -> wf_op o.
Hypothesis P_recv : forall n o m port, P o -> P (snd (recv_data n o m port)).
Hypothesis P_ctrl : forall o m port, P o -> P (snd (recv_ctrl_local o m port)).
Hypothesis P_exec : forall n ctl o, P o -> P (snd (exec_local (exec n) ctl o)).

Definition all_ops (h : heap) : Prop := forall id o, sfind id h = Some o -> P o.

Lemma send_batch_inv n entry batch out h : all_ops h -> all_ops (snd (send_batch n entry batch out h)).
Proof.
  intros H.
  set (R := fun a b : op => a = b /\ P a).
  set (Inp := fun id port => match sfind id h with Some o => has_port o port | None => false end).
  assert (X : srel R R Inp (fun _ => False) (send_batch n entry batch out h) (send_batch n entry batch out h)).
  { apply send_batch_rel; unfold R.
    - auto.
    - intros a b [-> _]. reflexivity.
    - intros a b [-> Pa]. auto.
    - intros k a b m port [-> Pa]. repeat split; auto.
    - intros a b m port [-> Pa]. repeat split; auto.
    - intros k ctl a b [-> Pa]. repeat split; auto.
    - intros id. destruct (sfind id h) as [o|] eqn:E; auto. split; [|split].
      + split; eauto.
      + intros [].
      + intros port. unfold Inp. now rewrite E. }
  destruct X as [_ X]. intros id o E. destruct (hrel_find _ _ _ _ _ _ _ _ X E) as (b & _ & [_ Pb] & _). auto.
Qed.
End Inv.

(** ** Sets and maps stay sorted *)

Definition orderly (b : base) (k : kind) : Prop :=
  ssorted (o_toproc b) /\ match k with KInput _ ls => swf ls | _ => True end.

Lemma ready_sorted b : forall tp r, ssorted tp -> ready_ports b tp = Ok r ->
  ssorted r /\ forall x, In x r -> In x tp.
Proof.
  induction tp as [|p tp IH]; intros r H E; cbn in E.
  - injection E as <-. split; auto.
  - destruct (d_max b p) as [mx| | | |]; try discriminate E. cbn in E.
    destruct (d_size b p) as [sz| | | |]; try discriminate E. cbn in E.
    destruct (ready_ports b tp) as [r'| | | |]; try discriminate E. cbn in E. injection E as <-.
    inversion H as [|? ? H1 H2]; subst.
    destruct (IH r' H1 eq_refl) as [I1 I2].
    destruct (sz <? mx).
    + split; auto. intros x Hx. right. auto.
    + split.
      * constructor; auto. rewrite Forall_forall in *. auto.
      * intros x [->|Hx]; [now left|right; auto].
Qed.

Lemma ssorted_nil : ssorted []. Proof. constructor. Qed.

Lemma input_loop_orderly tp b pm : forall ls out, ssorted tp -> swf ls ->
  orderly (fst (snd (input_loop tp b pm ls out))) (snd (snd (input_loop tp b pm ls out))).
Proof.
  induction tp as [|port tp IH]; intros ls out H L; cbn [input_loop].
  - split; cbn; auto; constructor.
  - pose proof H as H0. inversion H as [|? ? H1 H2]; subst.
    destruct (d_msg b port 0); try (split; cbn; auto; fail).
    destruct (match sfind port ls with Some l => mtime l <? mtime a | None => true end); auto.
    destruct (sfind port pm); [|split; cbn; auto]. apply IH; auto. now apply swf_sset.
Qed.

Lemma output_loop_orderly tp b pm : forall out, ssorted tp ->
  orderly (fst (snd (output_loop tp b pm out))) (snd (snd (output_loop tp b pm out))).
Proof.
  induction tp as [|port tp IH]; intros out H; cbn [output_loop].
  - split; cbn; auto; constructor.
  - pose proof H as H0. inversion H as [|? ? H1 H2]; subst.
    destruct (d_last b port); try (split; cbn; auto; fail).
    destruct (sfind port pm); [|split; cbn; auto]. apply IH; auto.
Qed.

Definition ord2 (s : base * kind) : Prop := orderly (fst s) (snd s).

Lemma process_orderly b k : orderly b k -> ord2 (snd (process_data b k)).
Proof.
  intros [H1 H2]. unfold ord2. destruct k; cbn [process_data]; try (split; cbn; auto; fail).
  - now apply input_loop_orderly.
  - now apply output_loop_orderly.
  - destruct (rbind _ _) as [m| | | |]; split; cbn; auto.
  - destruct (rbind _ _) as [m| | | |]; split; cbn; auto.
  - destruct (rbind _ _) as [[e [[? ?] ?]]| | | |]; split; cbn; auto.
  - destruct (rbind _ _) as [[e ?]| | | |]; split; cbn; auto.
  - destruct (rbind _ _) as [[[e ?] ?]| | | |]; split; cbn; auto.
  - destruct (rbind _ _) as [[m [? ?]]| | | |]; split; cbn; auto.
Qed.

Lemma exec_base_orderly b k : orderly b k -> ord2 (snd (exec_base b k)).
Proof.
  intros H. unfold exec_base. destruct (ready_ports b (o_toproc b)) as [tp| | | |] eqn:E; try exact H.
  destruct H as [H1 H2]. destruct (ready_sorted _ _ _ H1 E) as [S1 _].
  assert (X : ord2 (snd (process_data (set_toproc b tp) k))) by (apply process_orderly; split; auto).
  destruct tp as [|p tp]; [split; cbn; auto; constructor|].
  destruct (process_data _ k) as [r [b' k']]. destruct X as [X1 X2]. cbn [fst snd] in *.
  destruct r; split; cbn; auto; constructor.
Qed.

(** the others do not touch [toProcess] *)
Definition same_toproc (b : base) (k : kind) (s : base * kind) : Prop :=
  o_toproc (fst s) = o_toproc b /\ (match k with KInput _ _ => False | _ => True end -> match snd s with KInput _ _ => False | _ => True end).

Lemma same_toproc_orderly b k s : match k with KInput _ _ => False | _ => True end -> same_toproc b k s -> orderly b k -> ord2 s.
Proof.
  intros K [E1 E2] [H1 H2]. destruct s as [b' k']. cbn in *. split; cbn; [now rewrite E1|].
  specialize (E2 K). destruct k'; auto. contradiction.
Qed.

Lemma join_toproc b k : same_toproc b k (snd (join_exec b k)).
Proof.
  unfold join_exec. destruct (o_data b) as [|[name0 p0] rest]; [split; auto|].
  destruct (ip_data p0); [split; auto|].
  destruct (join_latest _ _ _) as [[best t]|]; [|split; auto].
  cbv zeta. destruct (join_ready _ _); [|split; auto]. destruct (join_process _ _); split; auto.
Qed.

Lemma demux_toproc b k cm : same_toproc b k (snd (demux_join b k cm)).
Proof.
  unfold demux_join. destruct (o_data b) as [|[port p] [|]]; try (split; auto; fail).
  destruct (ip_data p); [split; auto|].
  destruct (demux_scan (mtime m) (o_ctrl b)) as [x ctrls]. destruct x; try (split; auto; fail).
  cbv zeta. destruct (a =? _); [|split; auto]. destruct (demux_out _ _ _ _); split; auto.
Qed.

Lemma var_toproc b v i : same_toproc b (KVariable v i) (snd (var_query b v i)).
Proof.
  unfold var_query.
  destruct (o_data b) as [|[dport dp] [|]]; try (split; auto; fail).
  destruct (o_ctrl b) as [|[cport cp] [|]]; try (split; auto; fail).
  destruct (ip_data dp) as [|d0 dr]; [split; auto|].
  destruct (ip_data cp) as [|c0 crest]; [split; auto|].
  cbv zeta. destruct (_ && _); [split; auto|].
  destruct (mtime d0 <=? mtime c0); [|split; auto].
  destruct (mtime c0 =? mtime d0); [split; auto|].
  destruct (var_loop _ _) as [[v1|] q']; split; auto.
Qed.

Lemma ar_toproc b c : same_toproc b (KAutoReg c) (snd (ar_exec b c)).
Proof.
  unfold ar_exec. destruct (o_data b) as [|[port p] [|]]; try (split; auto; fail).
  destruct (ar_loop _ _ _ _ _); try (split; auto; fail).
  destruct (ip_data p) as [|? [|]]; split; auto.
Qed.

Definition ordo (o : op) : Prop := orderly (op_base o) (op_kind o).

Lemma exec_data_local_orderly o : ordo o -> ordo (snd (exec_data_local o)).
Proof.
  destruct o as [b k]. intros H. unfold ordo in *. cbn [op_base op_kind] in H. unfold exec_data_local.
  match goal with |- context [let (r, s) := ?x in _] =>
    assert (S : ord2 (snd x)); [|destruct x as [r [b' k']]; exact S] end.
  destruct k; try (now apply exec_base_orderly).
  - eapply same_toproc_orderly; [|apply join_toproc|]; cbn; auto.
  - eapply same_toproc_orderly; [|apply join_toproc|]; cbn; auto.
  - eapply same_toproc_orderly; [|apply join_toproc|]; cbn; auto.
  - eapply same_toproc_orderly; [|apply demux_toproc|]; cbn; auto.
  - eapply same_toproc_orderly; [|apply ar_toproc|]; cbn; auto.
  - eapply same_toproc_orderly; [|apply var_toproc|]; cbn; auto.
Qed.

Lemma exec_ctrl_local_orderly o : ordo o -> ordo (snd (exec_ctrl_local o)).
Proof.
  destruct o as [b k]. intros H. unfold ordo in *. cbn [op_base op_kind] in H. unfold exec_ctrl_local.
  match goal with |- context [let (r, s) := ?x in _] =>
    assert (S : ord2 (snd x)); [|destruct x as [r [b' k']]; exact S] end.
  destruct k; try exact H.
  - eapply same_toproc_orderly; [|apply demux_toproc|]; cbn; auto.
  - eapply same_toproc_orderly; [|apply var_toproc|]; cbn; auto.
Qed.

Lemma recv_data_local_orderly o m port : ordo o -> ordo (snd (recv_data_local o m port)).
Proof.
  destruct o as [b k]. intros [H1 H2]. cbn [op_base op_kind] in *. unfold recv_data_local.
  match goal with |- context [let '(r, b') := ?x in _] =>
    assert (S : ssorted (o_toproc (snd x))); [|destruct x as [r b']; split; auto] end.
  destruct k; unfold recv_data_base, recv_data_join, recv_data_demux, recv_data_ar;
    try match goal with |- context [if String.eqb port "" then _ else _] => destruct (String.eqb port ""); auto end;
    destruct (sfind _ _) as [p|]; auto; cbv zeta;
    try match goal with |- context [port_receive p m] => destruct (port_receive p m); auto; cbn; now apply ssorted_add end.
  destruct (_ <=? _); auto.
Qed.

Lemma recv_ctrl_local_orderly o m port : ordo o -> ordo (snd (recv_ctrl_local o m port)).
Proof.
  destruct o as [b k]. intros [H1 H2]. cbn [op_base op_kind] in *. unfold recv_ctrl_local.
  match goal with |- context [let '(r, b') := ?x in _] =>
    assert (S : ssorted (o_toproc (snd x))); [|destruct x as [r b']; split; auto] end.
  destruct k; unfold recv_ctrl_base, recv_ctrl_demux;
    destruct (sfind _ _) as [p|]; auto; cbv zeta;
    try match goal with |- context [port_receive p m] => destruct (port_receive p m); auto end.
Qed.

(** pipelines included *)
Lemma recv_data_orderly n o m port : ordo o -> ordo (snd (recv_data n o m port)).
Proof.
  intros H. destruct o as [b k].
  destruct n; (destruct k; [..|]; try (now apply recv_data_local_orderly)); [exact H|].
  cbn [recv_data op_kind op_base].
  match goal with |- context [match ?x with Some key => _ | None => (Throw OutOfRange, _) end] =>
      destruct x as [key|]; [|exact H] end.
  destruct (sfind key inputs) as [inner|]; [|exact H].
  destruct (sfind inner all_op) as [oi|] eqn:E; [|exact H].
  destruct (recv_data n oi m (snd (split2 key))) as [r oi']. destruct H as [H1 H2]. cbn in H1.
  destruct r; split; cbn; auto. now apply ssorted_add.
Qed.

Lemma exec_local_orderly rec ctl o : ordo o -> ordo (snd (exec_local rec ctl o)).
Proof.
  intros H. unfold exec_local. destruct ctl; [now apply exec_ctrl_local_orderly|].
  destruct o as [b k]; destruct k; try (now apply exec_data_local_orderly).
  cbn [op_kind op_base]. unfold pipe_exec. destruct (pipe_run _ _ _ _ _) as [r ops']. destruct H as [H1 H2].
  destruct r; split; cbn; auto; constructor.
Qed.

(** ** Ports keep their names *)

Definition named_ports (o : op) : Prop := names_ok (o_data (op_base o)) /\ names_ok (o_ctrl (op_base o)).

Lemma names_erase m : names_ok m <-> names_ok (smapv erase_port m).
Proof.
  unfold names_ok. rewrite !Forall_forall. unfold smapv. split.
  - intros H x Hx. apply in_map_iff in Hx as ([k p] & <- & Hx). apply (H _ Hx).
  - intros H [k p] Hx. apply (H (k, erase_port p)). apply in_map_iff. exists (k, p). auto.
Qed.

Lemma named_same a b : erase a = erase b -> named_ports b -> named_ports a.
Proof.
  intros E [H1 H2]. destruct a as [ba ka], b as [bb kb]. apply erase_parts in E as [E _].
  pose proof (f_equal o_data E) as E1. pose proof (f_equal o_ctrl E) as E2. cbn in E1, E2.
  split; cbn; apply names_erase.
  - rewrite E1. now apply (proj1 (names_erase _)).
  - rewrite E2. now apply (proj1 (names_erase _)).
Qed.

(** ** CumulativeSum: one port of size 1 *)

Definition cum_base (b : base) : Prop :=
  o_ctrl b = [] /\
  (exists p, o_data b = [("i1", p)] /\ ip_max p = 1 /\ (ip_data p = [] \/ exists m, ip_data p = [m])) /\
  (o_toproc b = [] \/ o_toproc b = ["i1"]).

Definition cum_ok (o : op) : Prop :=
  match op_kind o with KCumSum _ => cum_base (op_base o) | _ => True end.

(** receiving: either the port does not exist, or the message is now pending *)
Definition i1_port (port : string) : bool := String.eqb (if String.eqb port "" then "i1" else port) "i1".

Lemma cum_recv b m port : cum_base b ->
  (i1_port port = false /\ recv_data_base b m port = (no_port, b)) \/
  (exists p', i1_port port = true /\ recv_data_base b m port = (Ok tt, set_toproc (set_data b [("i1", p')]) ["i1"]) /\
     ip_id p' = match o_data b with [(_, p)] => ip_id p | _ => "" end /\ ip_max p' = 1 /\ ip_data p' = [m]).
Proof.
  intros (C & (p & D & M & Q) & T). unfold recv_data_base, resolve. rewrite D.
  unfold i1_port. set (port' := if String.eqb port "" then "i1" else port).
  replace (if String.eqb port "" then match [("i1", p)] with [(q, _)] => q | _ => port end else port) with port'
    by (unfold port'; destruct (String.eqb port ""); reflexivity).
  cbn [sfind]. destruct (String.eqb_spec port' "i1") as [E|N]; [|left; split; reflexivity].
  right. rewrite E. unfold port_receive, ip_size. rewrite M.
  destruct Q as [Q|(m0 & Q)]; rewrite Q; cbn [length Z.of_nat Z.eqb Pos.eqb].
  - exists (ip_push p m). cbn. rewrite Q. repeat split; auto.
    destruct T as [T|T]; rewrite T; reflexivity.
  - unfold ip_pop. rewrite Q. exists (ip_push (mkPort (ip_id p) (ip_max p) (vsub (ip_sum p) (mval m0)) []) m).
    cbn. rewrite M. repeat split; auto. destruct T as [T|T]; rewrite T; reflexivity.
Qed.

Lemma cum_recv_ctrl b m port : cum_base b -> recv_ctrl_base b m port = (no_port, b).
Proof.
  intros (C & _). unfold recv_ctrl_base, resolve. rewrite C. destruct (String.eqb port ""); reflexivity.
Qed.

(** executing: nothing pending, or the pending message is added *)
Lemma cum_exec b acc p m : o_data b = [("i1", p)] -> ip_max p = 1 -> ip_data p = [m] -> o_toproc b = ["i1"] ->
  exec_base b (KCumSum acc) = (Ok (out1 (mkMsg (mtime m) (vadd acc (mval m)))), (set_toproc b [], KCumSum (vadd acc (mval m)))).
Proof.
  intros D M Q T. unfold exec_base. rewrite T.
  cbn [ready_ports]. unfold d_max, d_size. rewrite D. cbn.
  unfold ip_size. rewrite M, Q. cbn. unfold single_port, d_last. cbn. rewrite D. cbn. rewrite Q. reflexivity.
Qed.

Lemma cum_exec_idle b acc : o_toproc b = [] -> exec_base b (KCumSum acc) = (Ok [], (set_toproc b [], KCumSum acc)).
Proof. intros T. unfold exec_base. rewrite T. reflexivity. Qed.

Lemma cum_exec_empty b acc p : o_data b = [("i1", p)] -> ip_max p = 1 -> ip_data p = [] -> o_toproc b = ["i1"] ->
  exec_base b (KCumSum acc) = (Ok [], (set_toproc b [], KCumSum acc)).
Proof.
  intros D M Q T. unfold exec_base. rewrite T.
  cbn [ready_ports]. unfold d_max, d_size. rewrite D. cbn. unfold ip_size. rewrite M, Q. reflexivity.
Qed.

End Tidy.
