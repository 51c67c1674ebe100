(** * Composites can be replaced by their operators, wired directly *)

From Coq Require Import String ZArith Bool List Lia.
From Verif Require Import Base.StrMap Base.Num Model.Core Model.Ops Model.Make Model.Graph Model.Composite.
From Verif Require Import Spec.Shape Spec.Log Spec.Preserving Spec.Snapshot Spec.Composite.
From Verif Require Import Proofs.Ports Proofs.ShapeP Proofs.MakeP Proofs.Restored Proofs.JsonP Proofs.LogRun Proofs.Conns.
Import ListNotations.
Open Scope string_scope.
Open Scope list_scope.
Open Scope rtbot_scope.

Lemma smapv_sset {A B} (f : A -> B) k v (m : smap A) : smapv f (sset k v m) = sset k (f v) (smapv f m).
Proof.
  induction m as [|[k' v'] m IH]; cbn; [reflexivity|].
  destruct (String.eqb k k'); [reflexivity|]. destruct (sltb k k'); [reflexivity|]. cbn. unfold smapv in IH. now rewrite IH.
Qed.

Lemma shas_keys {A B} k (m : smap A) (m' : smap B) : skeys m = skeys m' -> shas k m = shas k m'.
Proof. intros E. apply eq_true_iff_eq. rewrite !shas_spec, E. reflexivity. Qed.

Section CompositeP.
Context {NO : NumOps}.

(** ** Connections do not matter to an operator by itself *)

Lemma recv_data_any n cs o m port : recv_data n (with_conns cs o) m port = (fst (recv_data n o m port), with_conns cs (snd (recv_data n o m port))).
Proof.
  destruct o as [b k]. destruct k; try (destruct n; apply (recv_data_conns cs)).
  destruct n; [reflexivity|]. cbn [recv_data with_conns op_kind op_base].
  destruct (match inputs with [(k, _)] => _ | _ => _ end); [|reflexivity]. destruct (sfind s inputs); [|reflexivity].
  destruct (sfind s0 all_op); [|reflexivity]. destruct (recv_data n o m (snd (split2 s))) as [[] ?]; reflexivity.
Qed.

Lemma exec_local_any rec ctl cs o : exec_local rec ctl (with_conns cs o) = (fst (exec_local rec ctl o), with_conns cs (snd (exec_local rec ctl o))).
Proof.
  destruct ctl; [apply (exec_ctrl_conns cs)|]. destruct o as [b k]. destruct k; try apply (exec_data_conns cs).
  cbn [exec_local with_conns op_kind op_base]. unfold pipe_exec. change (o_toproc (set_conns b cs)) with (o_toproc b).
  destruct (pipe_run rec (o_toproc b) inputs [] all_op) as [[] ?]; reflexivity.
Qed.

(** ** Messages *)

Section Messages.
Variable comps : smap composite.

Definition resolve (d : string) : string :=
  match sfind d comps with
  | Some k => match c_in k with Some a => a | None => d end
  | None => d
  end.
Definition flat_conns (cs : smap (list (string * string))) : smap (list (string * string)) :=
  smapv (map (fun c => (resolve (fst c), snd c))) cs.
Definition flat_op (o : op) : op := with_conns (flat_conns (o_conns (op_base o))) o.
Definition flat (h : heap) : heap := smapv flat_op h.

Definition comp_ok (h : heap) (k : composite) : Prop :=
  match c_in k with
  | Some a => exists o, sfind a h = Some o /\ skeys (o_data (op_base o)) = skeys (o_data (c_base k)) /\
                                             skeys (o_ctrl (op_base o)) = skeys (o_ctrl (c_base k))
  | None => o_data (c_base k) = [] /\ o_ctrl (c_base k) = []
  end.
Lemma comp_ports o k : skeys (o_data (op_base o)) = skeys (o_data (c_base k)) -> skeys (o_ctrl (op_base o)) = skeys (o_ctrl (c_base k)) ->
  forall p, is_data_input o p = shas p (o_data (c_base k)) /\ is_control_input o p = shas p (o_ctrl (c_base k)).
Proof. intros D C p. split; now apply shas_keys. Qed.
(** connections go to Composites with an input operator *)
Definition target_ok (c : string * string) : Prop := forall k, sfind (fst c) comps = Some k -> c_in k <> None.
Definition conns_ok (b : base) : Prop := forall port cs, In (port, cs) (o_conns b) -> Forall target_ok cs.
Definition good (h : heap) : Prop :=
  wf_heap h /\ (forall x k, sfind x comps = Some k -> comp_ok h k) /\
  (forall a o, sfind a h = Some o -> sfind a comps = None /\ conns_ok (op_base o)).

Lemma good_same h h' : erase_heap h' = erase_heap h -> good h -> good h'.
Proof.
  intros E (W & C & D). split; [eapply wf_heap_same; eauto|]. split.
  - intros x k F. specialize (C _ _ F). unfold comp_ok in *. destruct (c_in k) as [a|]; [|exact C].
    destruct C as (o & Fo & P). destruct (erase_find h h' a o E Fo) as (o' & Fo' & Eo). exists o'. split; [exact Fo'|].
    assert (X : forall o, skeys (o_data (op_base (erase o))) = skeys (o_data (op_base o)) /\
                          skeys (o_ctrl (op_base (erase o))) = skeys (o_ctrl (op_base o))).
    { intros []. rewrite erase_op. cbn [op_base erase_base o_data o_ctrl]. now rewrite !skeys_smapv. }
    destruct (X o) as [X1 X2], (X o') as [X3 X4]. rewrite Eo in X3, X4. now rewrite <- X3, <- X4, X1, X2.
  - intros a o F. destruct (erase_find h' h a o (eq_sym E) F) as (o' & Fo' & Eo). destruct (D _ _ Fo') as [D1 D2]. split; [exact D1|].
    unfold conns_ok in *. rewrite <- (erase_conns o), <- Eo, erase_conns. exact D2.
Qed.

(** [y] does on the flat operators what [x] does *)
Definition sim {A} (h : heap) (x y : sres heap A) : Prop :=
  y = (fst x, flat (snd x)) /\ erase_heap (snd x) = erase_heap h.

Lemma sim_ret {A} (r : res A) h : sim h (r, h) (r, flat h).
Proof. split; reflexivity. Qed.

Lemma sim_bind {A B} h (x y : sres heap A) (k k' : A -> heap -> sres heap B) :
  good h -> sim h x y -> (forall a h1, good h1 -> sim h1 (k a h1) (k' a (flat h1))) -> sim h (bind x k) (bind y k').
Proof.
  intros G [-> E] K. destruct x as [[a| | | |] h1]; cbn [bind sbind fst snd] in *; try (split; [reflexivity|exact E]).
  destruct (K a h1) as [K1 K2]; [eapply good_same; eauto|]. split; [exact K1|congruence].
Qed.

Lemma flat_recv o r o' : erase o' = erase o -> (r, with_conns (flat_conns (o_conns (op_base o))) o') = (r : res unit, flat_op o').
Proof. intros E. unfold flat_op. rewrite <- (erase_conns o'), E, erase_conns. reflexivity. Qed.

Lemma sfind_flat a h : sfind a (flat h) = option_map flat_op (sfind a h).
Proof. apply sfind_smapv. Qed.
Lemma flat_is_data o p : is_data_input (flat_op o) p = is_data_input o p.
Proof. reflexivity. Qed.
Lemma flat_is_ctrl o p : is_control_input (flat_op o) p = is_control_input o p.
Proof. reflexivity. Qed.
Lemma flat_sset a o h : flat (sset a o h) = sset a (flat_op o) (flat h).
Proof. apply smapv_sset. Qed.

Lemma flat_op_same cs o o' : cs = flat_conns (o_conns (op_base o)) -> erase o' = erase o -> with_conns cs o' = flat_op o'.
Proof. intros -> E. unfold flat_op. now rewrite <- (erase_conns o'), E, erase_conns. Qed.

Lemma recv_at_flat n ctl m a port h : good h -> sim h (recv_at n ctl m a port h) (recv_at n ctl m a port (flat h)).
Proof.
  intros (W & _). unfold recv_at. rewrite sfind_flat. destruct (sfind a h) as [o|] eqn:F; cbn [option_map]; [|apply sim_ret].
  pose proof (proj2 W _ _ F) as Wo. destruct ctl.
  - pose proof (recv_ctrl_conns (flat_conns (o_conns (op_base o))) o m port) as X. unfold simo in X. unfold flat_op at 1. rewrite X.
    pose proof (recv_ctrl_local_erase o m port Wo) as E. destruct (recv_ctrl_local o m port) as [r o']. cbn [fst snd] in *. split; cbn [fst snd].
    + rewrite flat_sset. f_equal. f_equal. now apply flat_op_same with o.
    + eapply erase_heap_sset; eauto.
  - unfold flat_op at 1. rewrite recv_data_any.
    pose proof (recv_data_erase n o m port Wo) as E. destruct (recv_data n o m port) as [r o']. cbn [fst snd] in *. split; cbn [fst snd].
    + rewrite flat_sset. f_equal. f_equal. now apply flat_op_same with o.
    + eapply erase_heap_sset; eauto.
Qed.

Lemma deliver1_at n m d port h : deliver1 n m (d, port) h =
  match sfind d h with
  | None => (UB, h)
  | Some o => if is_data_input o port then recv_at n false m d port h
              else if is_control_input o port then recv_at n true m d port h else (Ok tt, h)
  end.
Proof. unfold deliver1, recv_at. destruct (sfind d h); reflexivity. Qed.

Lemma deliver1_flat n m c h : good h -> target_ok c -> sim h (cdeliver1 comps n m c h) (cdeliver1 [] n m (resolve (fst c), snd c) (flat h)).
Proof.
  intros G T. destruct c as [d port]. unfold cdeliver1 at 2. cbn [fst snd sfind]. rewrite deliver1_at, sfind_flat.
  unfold cdeliver1, resolve. specialize (T : forall k, sfind d comps = Some k -> c_in k <> None).
  pose proof (proj1 (proj2 G)) as C. specialize (C d). destruct (sfind d comps) as [k|] eqn:Fd.
  - specialize (C k eq_refl). specialize (T k eq_refl). unfold comp_ok in C. destruct (c_in k) as [a|]; [|congruence].
    destruct C as (o & Fo & Pd & Pc). rewrite Fo. cbn [option_map]. rewrite flat_is_data, flat_is_ctrl. destruct (comp_ports o k Pd Pc port) as [-> ->].
    destruct (shas port (o_data (c_base k))); [now apply recv_at_flat|]. destruct (shas port (o_ctrl (c_base k))); [now apply recv_at_flat|]. apply sim_ret.
  - rewrite deliver1_at. destruct (sfind d h) as [o|] eqn:Fo; cbn [option_map]; [|apply sim_ret]. rewrite flat_is_data, flat_is_ctrl.
    destruct (is_data_input o port); [now apply recv_at_flat|]. destruct (is_control_input o port); [now apply recv_at_flat|]. apply sim_ret.
Qed.

Definition flat_target (c : string * string) : string * string := (resolve (fst c), snd c).

Lemma deliver_flat n m cs : Forall target_ok cs -> forall h, good h -> sim h (cdeliver comps n m cs h) (cdeliver [] n m (map flat_target cs) (flat h)).
Proof.
  induction 1 as [|c cs T _ IH]; intros h G; cbn [cdeliver map]; [apply sim_ret|].
  apply sim_bind; [exact G|now apply deliver1_flat|]. intros _ h1 G1. now apply IH.
Qed.

Section Emit.
Variable n : nat.
Hypothesis rec_flat : forall ctl a h, good h -> sim h (cexec comps n ctl a h) (cexec [] n ctl a (flat h)).

Lemma execute1_flat c h : good h -> target_ok c ->
  sim h (cexecute1 comps (cexec comps n) c h) (cexecute1 [] (cexec [] n) (flat_target c) (flat h)).
Proof.
  intros G T. destruct c as [d port]. unfold flat_target, cexecute1 at 2. cbn [fst snd sfind]. unfold execute1. rewrite sfind_flat.
  unfold cexecute1, resolve. specialize (T : forall k, sfind d comps = Some k -> c_in k <> None).
  pose proof (proj1 (proj2 G)) as C. specialize (C d). destruct (sfind d comps) as [k|] eqn:Fd.
  - specialize (C k eq_refl). specialize (T k eq_refl). unfold comp_ok in C. destruct (c_in k) as [a|]; [|congruence].
    destruct C as (o & Fo & Pd & Pc). rewrite Fo. cbn [option_map]. rewrite flat_is_data, flat_is_ctrl. destruct (comp_ports o k Pd Pc port) as [-> ->].
    destruct (shas port (o_data (c_base k))); [now apply rec_flat|]. destruct (shas port (o_ctrl (c_base k))); [now apply rec_flat|]. apply sim_ret.
  - unfold execute1. destruct (sfind d h) as [o|] eqn:Fo; cbn [option_map]; [|apply sim_ret]. rewrite flat_is_data, flat_is_ctrl.
    destruct (is_data_input o port); [now apply rec_flat|]. destruct (is_control_input o port); [now apply rec_flat|]. apply sim_ret.
Qed.

Lemma execute_all_flat cs : Forall target_ok cs -> forall out h, good h ->
  sim h (cexecute_all comps (cexec comps n) cs out h) (cexecute_all [] (cexec [] n) (map flat_target cs) out (flat h)).
Proof.
  induction 1 as [|c cs T _ IH]; intros out h G; cbn [cexecute_all map]; [apply sim_ret|].
  apply sim_bind; [exact G|now apply execute1_flat|]. intros x h1 G1. now apply IH.
Qed.

Definition flat_base (b : base) : base := set_conns b (flat_conns (o_conns b)).

Lemma emit_msg_flat b port m h : good h -> conns_ok b ->
  sim h (cemit_msg comps (cexec comps n) n b port m h) (cemit_msg [] (cexec [] n) n (flat_base b) port m (flat h)).
Proof.
  intros G B. unfold cemit_msg. cbn [flat_base o_conns set_conns o_id]. unfold flat_conns. rewrite sfind_smapv.
  specialize (B port). destruct (sfind port (o_conns b)) as [cs|] eqn:Fc; cbn [option_map]; [apply sfind_In in Fc|apply sim_ret].
  apply sim_bind; [exact G|apply deliver_flat; auto|]. intros _ h1 G1. apply execute_all_flat; auto.
Qed.

Lemma emit_port_flat b port ms : conns_ok b -> forall out h, good h ->
  sim h (cemit_port comps (cexec comps n) n b port ms out h) (cemit_port [] (cexec [] n) n (flat_base b) port ms out (flat h)).
Proof.
  intros B. induction ms as [|m ms IH]; intros out h G; cbn [cemit_port]; [apply sim_ret|].
  apply sim_bind; [exact G|now apply emit_msg_flat|]. intros x h1 G1. now apply IH.
Qed.

Lemma emit_op_flat b oms : conns_ok b -> forall out h, good h ->
  sim h (cemit_op comps (cexec comps n) n b oms out h) (cemit_op [] (cexec [] n) n (flat_base b) oms out (flat h)).
Proof.
  intros B. induction oms as [|[port ms] oms IH]; intros out h G; cbn [cemit_op]; [apply sim_ret|].
  change (o_outs (flat_base b)) with (o_outs b). destruct (sset_mem port (o_outs b)); [|apply sim_ret].
  apply sim_bind; [exact G|now apply emit_port_flat|]. intros x h1 G1. now apply IH.
Qed.
End Emit.

Lemma cexec_flat n : forall ctl a h, good h -> sim h (cexec comps n ctl a h) (cexec [] n ctl a (flat h)).
Proof.
  induction n as [|n IH]; intros ctl a h G; cbn [cexec]; [apply sim_ret|].
  rewrite sfind_flat. destruct (sfind a h) as [o|] eqn:F; cbn [option_map]; [|apply sim_ret].
  pose proof (proj2 (proj1 G) _ _ F) as Wo. unfold flat_op at 1. rewrite exec_local_any.
  pose proof (exec_local_erase (exec n) (exec_keeps n) ctl o Wo) as E.
  destruct (exec_local (exec n) ctl o) as [r o']. cbn [fst snd] in *. rewrite (flat_op_same _ o o' eq_refl E), <- flat_sset.
  assert (K : erase_heap (sset a o' h) = erase_heap h) by (eapply erase_heap_sset; eauto; apply G).
  assert (G' : good (sset a o' h)) by (eapply good_same; eauto).
  destruct r as [out| | | |]; try (split; [reflexivity|exact K]).
  destruct (emit_op_flat n IH (op_base o') out) with (out := @nil (string * opmsg)) (h := sset a o' h) as [X Y]; [|exact G'|].
  - pose proof (proj2 (proj2 G) _ _ F) as [_ D]. unfold conns_ok in *. rewrite <- (erase_conns o'), E, erase_conns. exact D.
  - split; [exact X|congruence].
Qed.

Lemma csend_flat n x port m h : good h -> target_ok (x, port) -> sim h (csend comps n x port m h) (csend [] n (resolve x) port m (flat h)).
Proof.
  intros G T. specialize (T : forall k, sfind x comps = Some k -> c_in k <> None). unfold csend, resolve. cbn [sfind].
  assert (X : forall a, sim h (do! (_u, h1) <- recv_at n false m a port h; cexec comps n false a h1)
                              (do! (_u, h1) <- recv_at n false m a port (flat h); cexec [] n false a h1)).
  { intros a. apply sim_bind; [exact G|now apply recv_at_flat|]. intros _ h1 G1. now apply cexec_flat. }
  destruct (sfind x comps) as [k|] eqn:F; [|apply X]. specialize (T k eq_refl). destruct (c_in k) as [a|]; [apply X|congruence].
Qed.
End Messages.

(** without Composites this is the execution of Model/Graph.v *)
Lemma cexec_plain n : forall ctl a h, cexec [] n ctl a h = exec n ctl a h.
Proof.
  induction n as [|n IH]; intros ctl a h; [reflexivity|]. cbn [cexec exec]. destruct (sfind a h) as [o|]; [|reflexivity].
  destruct (exec_local (exec n) ctl o) as [[out| | | |] o']; try reflexivity.
  generalize (sset a o' h). generalize (@nil (string * opmsg)). generalize (op_base o'). clear h o o'.
  assert (D : forall m cs h, cdeliver [] n m cs h = deliver n m cs h).
  { intros m cs. induction cs as [|[d p] cs IHc]; intros h; [reflexivity|]. cbn [cdeliver deliver]. unfold cdeliver1 at 1. cbn [sfind].
    destruct (deliver1 n m (d, p) h) as [[] h1]; cbn [bind sbind]; auto. }
  assert (X : forall cs acc h, cexecute_all [] (cexec [] n) cs acc h = execute_all (exec n) cs acc h).
  { intros cs. induction cs as [|[d p] cs IHc]; intros acc h; [reflexivity|]. cbn [cexecute_all execute_all].
    assert (Y : cexecute1 [] (cexec [] n) (d, p) h = execute1 (exec n) (d, p) h).
    { unfold cexecute1, execute1. cbn [sfind]. destruct (sfind d h); [|reflexivity]. now rewrite !IH. }
    rewrite Y. destruct (execute1 (exec n) (d, p) h) as [[] h1]; cbn [bind sbind]; auto. }
  assert (M : forall b port m h, cemit_msg [] (cexec [] n) n b port m h = emit_msg (exec n) n b port m h).
  { intros b port m h. unfold cemit_msg, emit_msg. destruct (sfind port (o_conns b)) as [cs|]; [|reflexivity]. rewrite D.
    destruct (deliver n m cs h) as [[] h1]; cbn [bind sbind]; auto. }
  assert (P : forall b port ms acc h, cemit_port [] (cexec [] n) n b port ms acc h = emit_port (exec n) n b port ms acc h).
  { intros b port ms. induction ms as [|m ms IHm]; intros acc h; [reflexivity|]. cbn [cemit_port emit_port]. rewrite M.
    destruct (emit_msg (exec n) n b port m h) as [[] h1]; cbn [bind sbind]; auto. }
  intros b. induction out as [|[port ms] out IHo]; intros acc h; [reflexivity|]. cbn [cemit_op emit_op].
  destruct (sset_mem port (o_outs b)); [|reflexivity]. rewrite P.
  destruct (emit_port (exec n) n b port ms [] h) as [[] h1]; cbn [bind sbind]; auto.
Qed.

Lemma csend_plain n a port m h : shas a h = true -> csend [] n a port m h = send1 n a port m h.
Proof.
  intros S. unfold csend, send1, recv_at, shas in *. cbn [sfind]. destruct (sfind a h) as [o|]; [|discriminate S].
  destruct (recv_data n o m port) as [[] o']; cbn [bind sbind]; try reflexivity. apply cexec_plain.
Qed.
End CompositeP.
