(** * Related heaps give the same results.

    [R] relates two operators with the same definition; [Rp] is the stronger relation they
    are in once both have received the same message.  An operator is only executed after it
    has received something, so it is enough that execution respects [Rp]. *)

From Coq Require Import String ZArith Bool List Lia.
From Verif Require Import Base.StrMap Base.Num Model.Core Model.Ops Model.Graph.
From Verif Require Import Spec.Shape Proofs.ShapeP.
Import ListNotations.
Open Scope string_scope.
Open Scope list_scope.

Section HeapRel.
Context {NO : NumOps}.

Definition has_port (o : op) (port : string) : bool := is_data_input o port || is_control_input o port.

Lemma erase_ports a b port : erase a = erase b ->
  is_data_input a port = is_data_input b port /\ is_control_input a port = is_control_input b port.
Proof.
  intros E. apply (f_equal op_base) in E. destruct a as [ba ka], b as [bb kb]. rewrite !erase_op in E.
  cbn [op_base] in E. unfold is_data_input, is_control_input, shas. cbn [op_base].
  pose proof (f_equal o_data E) as E1. pose proof (f_equal o_ctrl E) as E2. cbn in E1, E2.
  pose proof (f_equal (sfind port) E1) as F1. pose proof (f_equal (sfind port) E2) as F2.
  rewrite !sfind_smapv in F1, F2.
  destruct (sfind port (o_data ba)), (sfind port (o_data bb)), (sfind port (o_ctrl ba)), (sfind port (o_ctrl bb));
    cbn in F1, F2; try discriminate; auto.
Qed.

Lemma erase_conns a b : erase a = erase b ->
  o_id (op_base a) = o_id (op_base b) /\ o_outs (op_base a) = o_outs (op_base b) /\
  o_conns (op_base a) = o_conns (op_base b).
Proof.
  intros E. apply (f_equal op_base) in E. destruct a as [ba ka], b as [bb kb]. rewrite !erase_op in E.
  cbn [op_base] in E. pose proof (f_equal o_id E). pose proof (f_equal o_outs E). pose proof (f_equal o_conns E). auto.
Qed.

Variables R Rp : op -> op -> Prop.
Hypothesis Rp_R : forall a b, Rp a b -> R a b.
Hypothesis R_same : forall a b, R a b -> erase a = erase b.
Hypothesis R_wf : forall a b, R a b -> wf_op a.
Hypothesis R_recv : forall n a b m port, R a b ->
  fst (recv_data n a m port) = fst (recv_data n b m port) /\
  R (snd (recv_data n a m port)) (snd (recv_data n b m port)) /\
  (Rp a b \/ fst (recv_data n a m port) = Ok tt -> Rp (snd (recv_data n a m port)) (snd (recv_data n b m port))).
Hypothesis R_ctrl : forall a b m port, R a b ->
  fst (recv_ctrl_local a m port) = fst (recv_ctrl_local b m port) /\
  R (snd (recv_ctrl_local a m port)) (snd (recv_ctrl_local b m port)) /\
  (Rp a b \/ fst (recv_ctrl_local a m port) = Ok tt -> Rp (snd (recv_ctrl_local a m port)) (snd (recv_ctrl_local b m port))).
Hypothesis R_exec : forall n ctl a b, Rp a b ->
  fst (exec_local (exec n) ctl a) = fst (exec_local (exec n) ctl b) /\
  Rp (snd (exec_local (exec n) ctl a)) (snd (exec_local (exec n) ctl b)).

(** the input ports of every operator; they never change *)
Variable Inp : string -> string -> bool.

Definition orel (D : string -> Prop) (id : string) (a b : op) : Prop :=
  R a b /\ (D id -> Rp a b) /\ (forall port, has_port a port = Inp id port).

(** the heaps are related, those of [D] have received something *)
Definition hrel (D : string -> Prop) (h1 h2 : heap) : Prop :=
  forall id, match sfind id h1, sfind id h2 with
             | Some a, Some b => orel D id a b
             | None, None => True
             | _, _ => False
             end.

Definition srel {A} (D : string -> Prop) (x y : sres heap A) : Prop :=
  fst x = fst y /\ hrel D (snd x) (snd y).

Lemma hrel_find D h1 h2 id a : hrel D h1 h2 -> sfind id h1 = Some a ->
  exists b, sfind id h2 = Some b /\ orel D id a b.
Proof.
  intros H E. specialize (H id). rewrite E in H. destruct (sfind id h2) as [b|]; [|contradiction].
  exists b. auto.
Qed.

Lemma hrel_none D h1 h2 id : hrel D h1 h2 -> sfind id h1 = None -> sfind id h2 = None.
Proof. intros H E. specialize (H id). rewrite E in H. destruct (sfind id h2); auto. contradiction. Qed.

Lemma hrel_sset D h1 h2 id a b : hrel D h1 h2 -> orel D id a b -> hrel D (sset id a h1) (sset id b h2).
Proof.
  intros H O x. rewrite !sfind_sset. destruct (String.eqb_spec x id) as [->|N]; auto. apply H.
Qed.

Lemma hrel_weaken (D D' : string -> Prop) h1 h2 : (forall x, D' x -> D x) -> hrel D h1 h2 -> hrel D' h1 h2.
Proof.
  intros W H id. specialize (H id). destruct (sfind id h1), (sfind id h2); auto.
  destruct H as (H1 & H2 & H3). repeat split; auto.
Qed.

Lemma srel_weaken {A} (D D' : string -> Prop) (x y : sres heap A) :
  (forall x, D' x -> D x) -> srel D x y -> srel D' x y.
Proof. intros W [E H]. split; auto. eapply hrel_weaken; eauto. Qed.

Lemma srel_bind {A B} D (x y : sres heap A) (k1 k2 : A -> heap -> sres heap B) :
  srel D x y -> (forall a h1 h2, hrel D h1 h2 -> srel D (k1 a h1) (k2 a h2)) ->
  srel D (bind x k1) (bind y k2).
Proof.
  intros [E H] K. destruct x as [rx hx], y as [ry hy]. cbn in E, H. subst ry.
  destruct rx; cbn; [now apply K|..]; split; auto.
Qed.

Lemma has_port_same a a' port : erase a' = erase a -> has_port a' port = has_port a port.
Proof. intros E. unfold has_port. destruct (erase_ports _ _ port E) as [-> ->]. reflexivity. Qed.

(** one delivery *)
Lemma deliver1_rel n m c D h1 h2 : hrel D h1 h2 ->
  srel D (deliver1 n m c h1) (deliver1 n m c h2) /\
  (fst (deliver1 n m c h1) = Ok tt ->
   hrel (fun x => D x \/ (x = fst c /\ Inp (fst c) (snd c) = true)) (snd (deliver1 n m c h1)) (snd (deliver1 n m c h2))).
Proof.
  intros H. destruct c as [dst port]. cbn [fst snd]. unfold deliver1.
  destruct (sfind dst h1) as [a|] eqn:E.
  2:{ rewrite (hrel_none _ _ _ _ H E). split; [split; auto|]. discriminate. }
  destruct (hrel_find _ _ _ _ _ H E) as (b & E2 & HR & HP & HI). rewrite E2.
  destruct (erase_ports a b port (R_same _ _ HR)) as [<- <-].
  assert (G : forall (x y : sres op unit), fst x = fst y -> R (snd x) (snd y) ->
    (Rp a b \/ fst x = Ok tt -> Rp (snd x) (snd y)) -> erase (snd x) = erase a ->
    srel D (let '(r, o') := x in (r, sset dst o' h1)) (let '(r, o') := y in (r, sset dst o' h2)) /\
    (fst (let '(r, o') := x in (r, sset dst o' h1)) = Ok tt ->
     hrel (fun x => D x \/ (x = dst /\ Inp dst port = true))
       (snd (let '(r, o') := x in (r, sset dst o' h1))) (snd (let '(r, o') := y in (r, sset dst o' h2))))).
  { intros [r1 a'] [r2 b'] Q1 Q2 Q3 X. cbn [fst snd] in *. subst r2.
    assert (I' : forall p, has_port a' p = Inp dst p) by (intros p; now rewrite (has_port_same a a' p X)).
    split; [split; [reflexivity|]|]; cbn [snd].
    - apply hrel_sset; auto. split; [auto|split]; auto.
    - intros Eo x. rewrite !sfind_sset. destruct (String.eqb_spec x dst) as [->|N].
      + split; [auto|split]; auto.
      + specialize (H x). destruct (sfind x h1), (sfind x h2); auto. destruct H as (J1 & J2 & J3).
        split; [auto|split]; auto. intros [Dx|[? _]]; [auto|contradiction]. }
  destruct (is_data_input a port) eqn:D1.
  - destruct (R_recv n a b m port HR) as (Q1 & Q2 & Q3). apply G; auto.
    apply recv_data_erase. eapply R_wf; eauto.
  - destruct (is_control_input a port) eqn:D2.
    + destruct (R_ctrl a b m port HR) as (Q1 & Q2 & Q3). apply G; auto.
      apply recv_ctrl_local_erase. eapply R_wf; eauto.
    + split; [split; auto|]. intros _ x. cbn [snd]. specialize (H x).
      destruct (sfind x h1) as [o1|] eqn:Ex, (sfind x h2) as [o2|] eqn:Ey; auto.
      destruct H as (J1 & J2 & J3). split; [auto|split]; auto. intros [Dx|[-> F]]; [auto|].
      rewrite E in Ex. injection Ex as <-. rewrite <- J3 in F. unfold has_port in F.
      rewrite D1, D2 in F. discriminate F.
Qed.

(** the operators that receive something when [cs] are served *)
Definition touched (cs : list (string * string)) (x : string) : Prop :=
  exists c, In c cs /\ x = fst c /\ Inp (fst c) (snd c) = true.

Lemma deliver_rel n m cs : forall D h1 h2, hrel D h1 h2 ->
  srel D (deliver n m cs h1) (deliver n m cs h2) /\
  (fst (deliver n m cs h1) = Ok tt ->
   hrel (fun x => D x \/ touched cs x) (snd (deliver n m cs h1)) (snd (deliver n m cs h2))).
Proof.
  induction cs as [|c cs IH]; intros D h1 h2 H.
  - split; [split; auto|]. intros _. cbn [deliver snd]. eapply hrel_weaken; [|exact H].
    intros x [?|(c & [] & _)]; auto.
  - cbn [deliver]. destruct (deliver1_rel n m c D h1 h2 H) as [[S1 S2] S3].
    destruct (deliver1 n m c h1) as [r1 k1], (deliver1 n m c h2) as [r2 k2]. cbn [fst snd] in *. subst r2.
    destruct r1 as [[]| | | |]; cbn [bind sbind]; try (split; [split; auto|discriminate]).
    specialize (S3 eq_refl).
    destruct (IH _ _ _ S3) as [T1 T2]. split.
    + eapply srel_weaken; [|exact T1]. intros x Dx; now left.
    + intros E. eapply hrel_weaken; [|exact (T2 E)].
      intros x [Dx|(c' & [<-|Hc] & -> & Hi)]; auto. right. exists c'. auto.
Qed.

Section Emit.
Variable rec : bool -> string -> heap -> sres heap progmsg.
Variable n : nat.
Hypothesis rec_rel : forall ctl id (D : string -> Prop) h1 h2, hrel D h1 h2 -> D id -> srel D (rec ctl id h1) (rec ctl id h2).

Lemma execute1_rel c (D : string -> Prop) h1 h2 : hrel D h1 h2 -> (Inp (fst c) (snd c) = true -> D (fst c)) ->
  srel D (execute1 rec c h1) (execute1 rec c h2).
Proof.
  intros H HD. destruct c as [dst port]. cbn [fst snd] in HD. unfold execute1.
  destruct (sfind dst h1) as [a|] eqn:E.
  2:{ rewrite (hrel_none _ _ _ _ H E). split; auto. }
  destruct (hrel_find _ _ _ _ _ H E) as (b & E2 & HR & HP & HI). rewrite E2.
  destruct (erase_ports a b port (R_same _ _ HR)) as [<- <-].
  pose proof (HI port) as I. unfold has_port in I.
  destruct (is_data_input a port); [apply rec_rel; auto|].
  destruct (is_control_input a port); [apply rec_rel; auto|]. split; auto.
Qed.

Lemma execute_all_rel cs : forall out (D : string -> Prop) h1 h2, hrel D h1 h2 -> (forall x, touched cs x -> D x) ->
  srel D (execute_all rec cs out h1) (execute_all rec cs out h2).
Proof.
  induction cs as [|c cs IH]; intros out D h1 h2 H HD; cbn [execute_all]; [split; auto|].
  apply srel_bind.
  - apply execute1_rel; auto. intros I. apply HD. exists c. split; [now left|]. auto.
  - intros x k1 k2 K. apply IH; auto. intros y (c' & Hc & Hy). apply HD. exists c'. split; [now right|]. auto.
Qed.

Lemma emit_msg_rel b1 b2 port m D h1 h2 : o_id b1 = o_id b2 -> o_conns b1 = o_conns b2 -> hrel D h1 h2 ->
  srel D (emit_msg rec n b1 port m h1) (emit_msg rec n b2 port m h2).
Proof.
  intros E1 E2 H. unfold emit_msg. rewrite E1, E2. destruct (sfind port (o_conns b2)) as [cs|]; [|split; auto].
  destruct (deliver_rel n m cs D h1 h2 H) as [[S1 S2] S3].
  destruct (deliver n m cs h1) as [r1 k1], (deliver n m cs h2) as [r2 k2]. cbn [fst snd] in *. subst r2.
  destruct r1 as [[]| | | |]; cbn [bind sbind]; try (split; auto).
  all: destruct (execute_all_rel cs [(o_id b2, [(port, [m])])] _ _ _ (S3 eq_refl) (fun x H => or_intror H)) as [X1 X2]; auto.
  eapply hrel_weaken; [|exact X2]. intros x Dx; now left.
Qed.

Lemma emit_port_rel b1 b2 port ms : o_id b1 = o_id b2 -> o_conns b1 = o_conns b2 -> forall out D h1 h2, hrel D h1 h2 ->
  srel D (emit_port rec n b1 port ms out h1) (emit_port rec n b2 port ms out h2).
Proof.
  intros E1 E2. induction ms as [|m ms IH]; intros out D h1 h2 H; cbn [emit_port]; [split; auto|].
  apply srel_bind; [now apply emit_msg_rel|]. intros; now apply IH.
Qed.

Lemma emit_op_rel b1 b2 oms : o_id b1 = o_id b2 -> o_conns b1 = o_conns b2 -> o_outs b1 = o_outs b2 ->
  forall out D h1 h2, hrel D h1 h2 ->
  srel D (emit_op rec n b1 oms out h1) (emit_op rec n b2 oms out h2).
Proof.
  intros E1 E2 E3. induction oms as [|[port ms] oms IH]; intros out D h1 h2 H; cbn [emit_op]; [split; auto|].
  rewrite E3. destruct (sset_mem port (o_outs b2)); [|split; auto].
  apply srel_bind; [now apply emit_port_rel|]. intros; now apply IH.
Qed.
End Emit.

Lemma exec_rel n : forall ctl id (D : string -> Prop) h1 h2, hrel D h1 h2 -> D id -> srel D (exec n ctl id h1) (exec n ctl id h2).
Proof.
  induction n as [|n IH]; intros ctl id D h1 h2 H HD; cbn [exec]; [split; auto|].
  destruct (sfind id h1) as [a|] eqn:E.
  2:{ rewrite (hrel_none _ _ _ _ H E). split; auto. }
  destruct (hrel_find _ _ _ _ _ H E) as (b & E2 & HR & HP & HI). rewrite E2.
  destruct (R_exec n ctl a b (HP HD)) as [Q1 Q2].
  pose proof (exec_local_erase (exec n) (exec_keeps n) ctl a (R_wf _ _ HR)) as X.
  destruct (exec_local (exec n) ctl a) as [r1 a'], (exec_local (exec n) ctl b) as [r2 b']. cbn [fst snd] in *. subst r2.
  assert (K : hrel D (sset id a' h1) (sset id b' h2)).
  { apply hrel_sset; auto. split; [auto|split]; auto. intros p. now rewrite (has_port_same a a' p X). }
  destruct r1; try (split; auto; fail).
  destruct (erase_conns a' b' (R_same _ _ (Rp_R _ _ Q2))) as (J1 & J2 & J3).
  apply emit_op_rel; auto.
Qed.

Lemma send1_rel n entry port m D h1 h2 : hrel D h1 h2 -> srel D (send1 n entry port m h1) (send1 n entry port m h2).
Proof.
  intros H. unfold send1. destruct (sfind entry h1) as [a|] eqn:E.
  2:{ rewrite (hrel_none _ _ _ _ H E). split; auto. }
  destruct (hrel_find _ _ _ _ _ H E) as (b & E2 & HR & HP & HI). rewrite E2.
  destruct (R_recv n a b m port HR) as (Q1 & Q2 & Q3).
  pose proof (recv_data_erase n a m port (R_wf _ _ HR)) as X.
  destruct (recv_data n a m port) as [r1 a'], (recv_data n b m port) as [r2 b']. cbn [fst snd] in *. subst r2.
  assert (I' : forall p, has_port a' p = Inp entry p) by (intros p; now rewrite (has_port_same a a' p X)).
  assert (K : hrel D (sset entry a' h1) (sset entry b' h2)).
  { apply hrel_sset; auto. split; [auto|split]; auto. }
  destruct r1 as [[]| | | |]; try (split; auto; fail).
  eapply (srel_weaken (fun x => D x \/ x = entry)); [intros x Dx; now left|]. apply exec_rel; auto.
  intros x. rewrite !sfind_sset. destruct (String.eqb_spec x entry) as [->|N].
  - split; [auto|split]; auto.
  - specialize (H x). destruct (sfind x h1), (sfind x h2); auto. destruct H as (J1 & J2 & J3).
    split; [auto|split]; auto. intros [?|?]; [auto|contradiction].
Qed.

Lemma send_port_rel n entry port ms : forall out D h1 h2, hrel D h1 h2 ->
  srel D (send_port n entry port ms out h1) (send_port n entry port ms out h2).
Proof.
  induction ms as [|m ms IH]; intros out D h1 h2 H; cbn [send_port]; [split; auto|].
  apply srel_bind; [now apply send1_rel|]. intros; now apply IH.
Qed.

Lemma send_batch_rel n entry batch : forall out D h1 h2, hrel D h1 h2 ->
  srel D (send_batch n entry batch out h1) (send_batch n entry batch out h2).
Proof.
  induction batch as [|[port ms] batch IH]; intros out D h1 h2 H; cbn [send_batch]; [split; auto|].
  apply srel_bind; [now apply send_port_rel|]. intros; now apply IH.
Qed.

End HeapRel.
