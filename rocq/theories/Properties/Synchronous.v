(** * What a program emits, read off its wiring (C72); the order of connections and the
    interleaving of arrivals in programs fed in order of time (C33, C34). *)

From Coq Require Import String ZArith QArith Bool List Lia Sorted Permutation.
From Verif Require Import Base.StrMap Base.Num Base.NumQc Model.Core Model.Ops Model.Make Model.Run Model.Graph Model.Json.
From Verif Require Import Spec.Shape Spec.Preserving Spec.Streams Spec.Operators Spec.Multi Spec.Demux Spec.Join Spec.Build Spec.Show Spec.Snapshot Spec.Definition Spec.Forest.
From Verif Require Import Proofs.Ports Proofs.VariableP Proofs.InputP Proofs.OutputP Proofs.JoinP Proofs.JoinRun Proofs.JoinKinds Proofs.JoinOrder Proofs.LogP Proofs.LogRun Proofs.LogProg Proofs.ForestP Proofs.JsonP Proofs.MakeP Proofs.Window.
From Verif Require Import Proofs.ShapeP Proofs.Conns Proofs.Monotone Proofs.Increasing Proofs.Rounds Proofs.Prompt Proofs.Sync Proofs.Settled Proofs.Dataflow.
From Verif Require Import Spec.Log Spec.Synchronous.
From Verif Require Properties.Graph Properties.Definition Properties.Forest Properties.Join Properties.Order.
Import ListNotations.
Open Scope string_scope.
Open Scope list_scope.
Open Scope Z_scope.
Open Scope rtbot_scope.

Section C72.
Context {NO : NumOps}.

Lemma stream_log n p batches rs p' : wf_heap (p_ops p) -> named (p_ops p) -> receive_all n p batches = (Ok rs, p') ->
  exists l, lsend_all n (p_entry p) (all_messages batches) (p_ops p) = (Ok l, p_ops p') /\
    forall id port, stream rs id port = emitted id port l.
Proof. apply receive_all_log. Qed.

Lemma reachable_before h a b c : wired h a b -> reachable h b c -> reachable h a c.
Proof. intros W R. induction R as [|x y R IH Wx]; [eapply reach_next; [apply reach_here|exact W]|]. eapply reach_next; eauto. Qed.

(** ** Operators with one connected input: no condition on times or kinds

    An operator that hears from one output port only emits exactly what it emits by itself when
    the messages of that output are given to it one after the other. *)
Theorem C72_single_source (rank : string -> nat) (n : nat) (p : program) (batches : list opmsg) (rs : list progmsg) (p' : program)
    (id : string) (o : op) (port a q : string) :
  wf_heap (p_ops p) -> named (p_ops p) -> ranked rank (p_ops p) -> one_feed (p_ops p) ->
  receive_all n p batches = (Ok rs, p') ->
  id <> p_entry p -> sfind id (p_ops p) = Some o -> is_pipeline o = false ->
  fed_by (p_ops p) id port (a, q) -> is_data_input o port = true ->
  (forall port' src, fed_by (p_ops p) id port' src -> is_data_input o port' || is_control_input o port' = true -> port' = port) ->
  exists outs o', run o (feed port (stream rs a q)) = (Ok outs, o') /\ forall y, stream rs id y = on_port y outs.
Proof.
  intros W N Rk Of E Ne Ho Np Fb D Only. destruct (stream_log n p batches rs p' W N E) as (l & El & Es).
  destruct (flow_emitted (p_ops p) rank (p_entry p) W N Rk n _ l _ El id o Ho Np) as (outs & o' & R & Q).
  exists outs, o'. split; [|intros y; rewrite Es; apply Q]. rewrite Es.
  rewrite <- (rounds_single (p_ops p) rank Rk (p_entry p) id port a q (all_messages batches) l); auto.
  - eapply flow_rounds; eauto.
  - intros a' q' p1 Hin Cl. unfold port_class in Cl. cbn [fst snd] in Cl. rewrite Ho in Cl.
    assert (Ep : p1 = port).
    { apply (Only p1 (a', q')); [exact Hin|]. destruct (is_data_input o p1); [reflexivity|]. destruct (is_control_input o p1); [reflexivity|congruence]. }
    subst p1. destruct Of as (U & _). specialize (U id port (a, q) (a', q') Fb Hin). injection U as <- <-. reflexivity.
  - unfold port_class. cbn [fst snd]. rewrite Ho, D. reflexivity.
  - apply Of.
Qed.

(** ** The entry *)
Theorem C72_entry (rank : string -> nat) (n : nat) (p : program) (batches : list opmsg) (rs : list progmsg) (p' : program)
    (x : string) (k : nat) (o : op) (cs : smap (list (string * string))) :
  wf_heap (p_ops p) -> named (p_ops p) -> ranked rank (p_ops p) ->
  receive_all n p batches = (Ok rs, p') ->
  mk_input x k = Ok o -> sfind (p_entry p) (p_ops p) = Some (with_conns cs o) ->
  Forall (fun pm => exists j, (1 <= j <= k)%nat /\ fst pm = iport j) (all_messages batches) ->
  (forall j, (1 <= j <= k)%nat -> stream rs (p_entry p) (oport j) = records (sent_to (iport j) batches)) /\
  (forall y, (forall j, (1 <= j <= k)%nat -> y <> oport j) -> stream rs (p_entry p) y = []).
Proof.
  intros W N Rk E Hm Ho Hp. destruct (stream_log n p batches rs p' W N E) as (l & El & Es).
  assert (Np : is_pipeline (with_conns cs o) = false).
  { apply time_preserving_simple. exists o, cs. split; auto. eapply C_input; eauto. }
  destruct (flow_emitted (p_ops p) rank (p_entry p) W N Rk n _ l _ El _ _ Ho Np) as (outs & o' & R & Q).
  assert (Ec : calls (p_entry p) l = flat_map (fun pm => [EData (fst pm) (snd pm); EExec]) (all_messages batches)).
  { eapply rounds_entry; eauto. eapply flow_rounds; eauto. }
  rewrite Ec in R. apply run_conns_ok in R as (o1 & R).
  destruct (run_input x k (flat_map (fun pm => [EData (fst pm) (snd pm); EExec]) (all_messages batches))) as (o2 & outs2 & b & ls & Hm2 & R2 & _ & Out & Oth).
  { unfold data_on. apply Forall_flat_map. eapply Forall_impl; [|exact Hp]. intros [y m] (j & Hj & Ej). cbn in *. repeat constructor. eauto. }
  rewrite Hm in Hm2. injection Hm2 as <-. rewrite R in R2. injection R2 as <- _.
  split; [|intros y Hy; rewrite Es, Q; auto]. intros j Hj. rewrite Es, Q, Out by auto. f_equal. unfold sent_to. clear.
  unfold processed, project. induction (all_messages batches) as [|[y m] r IH]; [reflexivity|]. cbn [flat_map app filter fst snd].
  destruct (String.eqb y (iport j)); cbn; [f_equal|]; exact IH.
Qed.

(** ** Output, and Input not used as entry: port by port, no condition on times *)

Lemma spaced_calls (rank : string -> nat) n p batches rs p' id o x :
  wf_heap (p_ops p) -> named (p_ops p) -> ranked rank (p_ops p) -> one_feed (p_ops p) ->
  lsend_all n (p_entry p) (all_messages batches) (p_ops p) = (Ok rs, p') -> id <> p_entry p -> sfind id (p_ops p) = Some o ->
  spaced x false (calls id rs) /\ waits x false (calls id rs) = false.
Proof.
  intros W N Rk Of El Ne Ho.
  pose proof (lsend_all_proper _ _ _ _ _ _ W N El) as Pr. pose proof (lsend_all_routed _ _ _ _ _ _ W N El) as Ro.
  destruct (into_calls (p_ops p) _ id rs o Pr Ne Ho) as (_ & Hh). destruct (Hh x) as ([Eh|Eh] & _); [|now apply unfed_spaced].
  destruct (into_source (p_ops p) _ id x rs Ro Ne Of) as [Ei|(a & q & Fb & Ei)]; [apply unfed_spaced; congruence|].
  apply (rounds_spaced (p_ops p) rank Rk (p_entry p) id x a q (all_messages batches) rs); auto.
  - eapply flow_rounds; eauto.
  - intros a' q' Hin. destruct Of as (O1 & _). exact (eq_sym (O1 id x (a, q) (a', q') Fb Hin)).
  - apply Of.
Qed.

Lemma calls_data_on rank n p batches rs p' id o0 cs k :
  wf_heap (p_ops p) -> named (p_ops p) -> ranked rank (p_ops p) ->
  lsend_all n (p_entry p) (all_messages batches) (p_ops p) = (Ok rs, p') -> id <> p_entry p -> sfind id (p_ops p) = Some (with_conns cs o0) ->
  numbered k (skeys (o_data (op_base o0))) -> o_ctrl (op_base o0) = [] -> data_on k (calls id rs).
Proof.
  intros W N Rk El Ne Ho Nu Ct. pose proof (lsend_all_proper _ _ _ _ _ _ W N El) as Pr.
  destruct (into_calls (p_ops p) _ id rs _ Pr Ne Ho) as (Pe & _).
  assert (Nc : no_control (calls id rs)).
  { apply (rounds_no_control (p_ops p) (p_entry p) id) with (ms := all_messages batches); [|eapply flow_rounds; eauto].
    intros y. unfold port_class. cbn [fst snd]. rewrite Ho. destruct (is_data_input _ y); [discriminate|].
    unfold is_control_input, with_conns. cbn. rewrite Ct. discriminate. }
  apply ports_exist_conns in Pe. destruct o0 as [b kd]. eapply ports_data_on; eauto.
Qed.

Lemma carried_hist n p batches rs l p' id o x s : wf_heap (p_ops p) -> named (p_ops p) -> one_feed (p_ops p) ->
  lsend_all n (p_entry p) (all_messages batches) (p_ops p) = (Ok l, p') -> (forall id port, stream rs id port = emitted id port l) ->
  id <> p_entry p -> sfind id (p_ops p) = Some o -> is_data_input o x = true -> carried (p_ops p) rs id x s -> hist x (calls id l) = s.
Proof.
  intros W N Of El Es Ne Ho D C. eapply flow_carried; eauto. destruct C as [(a & q & Fb & ->)|C]; [left; exists a, q; split; auto|right; auto].
Qed.

Lemma numbered_input k b cs kd j : numbered k (skeys (o_data b)) -> (1 <= j <= k)%nat -> is_data_input (with_conns cs (Op b kd)) (iport j) = true.
Proof.
  intros Nu Hj. unfold is_data_input, with_conns. cbn. apply shas_spec, Nu. eauto.
Qed.

Theorem C72_output (rank : string -> nat) (n : nat) (p : program) (batches : list opmsg) (rs : list progmsg) (p' : program)
    (id x : string) (k : nat) (o : op) (cs : smap (list (string * string))) (j : nat) (s : list msg) :
  wf_heap (p_ops p) -> named (p_ops p) -> ranked rank (p_ops p) -> one_feed (p_ops p) ->
  receive_all n p batches = (Ok rs, p') ->
  id <> p_entry p -> mk_output x k = Ok o -> sfind id (p_ops p) = Some (with_conns cs o) ->
  (1 <= j <= k)%nat -> carried (p_ops p) rs id (iport j) s -> stream rs id (oport j) = s.
Proof.
  intros W N Rk Of E Ne Hm Ho Hj C. destruct (stream_log n p batches rs p' W N E) as (l & El & Es).
  assert (Np : is_pipeline (with_conns cs o) = false).
  { apply time_preserving_simple. exists o, cs. split; auto. eapply C_output; eauto. }
  destruct (flow_emitted (p_ops p) rank (p_entry p) W N Rk n _ l _ El _ _ Ho Np) as (outs & o' & R & Q). apply run_conns_ok in R as (o1 & R).
  pose proof Hm as Hm'. unfold mk_output in Hm'. destruct (add_ports (seq 1 k) 1 true (base0 x)) as [b| | | |] eqn:A; try discriminate Hm'.
  cbn in Hm'. injection Hm' as Eo. pose proof (add_ports_numbered _ _ _ _ _ A) as Nu.
  assert (Ct : o_ctrl b = []).
  { destruct (add_ports_spec (seq 1 k) 1 true (base0 x)) as (b' & Eb & _ & _ & Cb & _); auto using seq_NoDup; [constructor|].
    rewrite A in Eb. injection Eb as <-. exact Cb. }
  assert (On : data_on k (calls id l)).
  { eapply calls_data_on; eauto; rewrite <- Eo; auto. }
  destruct (run_output x k o (calls id l) Hm On) as (outs2 & o2 & R2 & Out & _). rewrite R in R2. injection R2 as <- _.
  rewrite Es, Q, Out by auto. destruct (spaced_calls rank n p batches l _ id _ (iport j) W N Rk Of El Ne Ho) as (S1 & S2).
  rewrite spaced_processed by auto. eapply carried_hist; eauto. subst o. now apply (numbered_input k).
Qed.

Theorem C72_inner_input (rank : string -> nat) (n : nat) (p : program) (batches : list opmsg) (rs : list progmsg) (p' : program)
    (id x : string) (k : nat) (o : op) (cs : smap (list (string * string))) (j : nat) (s : list msg) :
  wf_heap (p_ops p) -> named (p_ops p) -> ranked rank (p_ops p) -> one_feed (p_ops p) ->
  receive_all n p batches = (Ok rs, p') ->
  id <> p_entry p -> mk_input x k = Ok o -> sfind id (p_ops p) = Some (with_conns cs o) ->
  (1 <= j <= k)%nat -> carried (p_ops p) rs id (iport j) s -> stream rs id (oport j) = records s.
Proof.
  intros W N Rk Of E Ne Hm Ho Hj C. destruct (stream_log n p batches rs p' W N E) as (l & El & Es).
  assert (Np : is_pipeline (with_conns cs o) = false).
  { apply time_preserving_simple. exists o, cs. split; auto. eapply C_input; eauto. }
  destruct (flow_emitted (p_ops p) rank (p_entry p) W N Rk n _ l _ El _ _ Ho Np) as (outs & o' & R & Q). apply run_conns_ok in R as (o1 & R).
  pose proof Hm as Hm'. unfold mk_input in Hm'. destruct (add_ports (seq 1 k) 1 true (base0 x)) as [b| | | |] eqn:A; try discriminate Hm'.
  cbn in Hm'. injection Hm' as Eo. pose proof (add_ports_numbered _ _ _ _ _ A) as Nu.
  assert (Ct : o_ctrl b = []).
  { destruct (add_ports_spec (seq 1 k) 1 true (base0 x)) as (b' & Eb & _ & _ & Cb & _); auto using seq_NoDup; [constructor|].
    rewrite A in Eb. injection Eb as <-. exact Cb. }
  assert (On : data_on k (calls id l)).
  { eapply calls_data_on; eauto; rewrite <- Eo; auto. }
  destruct (run_input x k (calls id l) On) as (o2 & outs2 & b2 & ls & Hm2 & R2 & _ & Out & _).
  rewrite Hm in Hm2. injection Hm2 as <-. rewrite R in R2. injection R2 as <- _.
  rewrite Es, Q, Out by auto. destruct (spaced_calls rank n p batches l _ id _ (iport j) W N Rk Of El Ne Ho) as (S1 & S2).
  rewrite spaced_processed by auto. f_equal. eapply carried_hist; eauto. subst o. now apply (numbered_input k).
Qed.

(** ** Joins, in programs fed in order of time *)

Lemma flat_map_ext_in' {A B} (f g : A -> list B) l : (forall x, In x l -> f x = g x) -> flat_map f l = flat_map g l.
Proof. induction l as [|x l IH]; intros H; [reflexivity|]. cbn. rewrite H, IH; cbn; auto. intros; apply H; cbn; auto. Qed.
Lemma flat_map_none {A B} (f : A -> list B) l : (forall x, f x = []) -> flat_map f l = [].
Proof. intros H. induction l as [|x l IH]; [reflexivity|]. cbn. now rewrite H, IH. Qed.
Lemma flat_map_map_in {A B} (f : A -> list B) (g : A -> B) l : (forall x, In x l -> f x = [g x]) -> flat_map f l = map g l.
Proof. induction l as [|x l IH]; intros H; [reflexivity|]. cbn. rewrite H, IH; cbn; auto. intros; apply H; cbn; auto. Qed.

Lemma synchronous_join n p batches rs p' id b kd cs k g s :
  synchronous_at p id -> in_time_order batches -> receive_all n p batches = (Ok rs, p') ->
  id <> p_entry p -> sfind id (p_ops p) = Some (with_conns cs (Op b kd)) -> is_pipeline (Op b kd) = false ->
  (1 <= k)%nat -> fresh k b -> processes b kd g ->
  (forall j, (1 <= j <= k)%nat -> carried (p_ops p) rs id (iport j) (s j)) ->
  exists evs, (forall j, (1 <= j <= k)%nat -> hist (iport j) evs = s j) /\ common_times k evs = shared k s /\
    forall y, stream rs id y =
      flat_map (fun t => odefault [] (sfind y (g (map (fun x => at_time (hist x evs) t) (skeys (o_data b)))))) (shared k s).
Proof.
  intros (W & N & (rank & Rk) & Of & (oe & Ein & Inp) & Im) St E Ne Ho Np Hk Fr Pr C.
  destruct (stream_log n p batches rs p' W N E) as (l & El & Es).
  assert (T : tidy (with_conns cs (Op b kd)) (calls id l)).
  { eapply (flow_tidy (p_ops p) rank (p_entry p) W N Rk Of oe Ein Inp (fun a => reachable (p_ops p) a id)); eauto.
    - intros a c Wr R. eapply reachable_before; eauto.
    - apply reach_here. }
  assert (Np' : is_pipeline (with_conns cs (Op b kd)) = false) by (destruct kd; auto).
  destruct (flow_emitted (p_ops p) rank (p_entry p) W N Rk n _ l _ El _ _ Ho Np') as (outs & o' & R & Q).
  apply run_conns_ok in R as (o1 & R). apply tidy_conns in T.
  assert (Hh : forall j, (1 <= j <= k)%nat -> hist (iport j) (calls id l) = s j).
  { intros j Hj. eapply carried_hist; eauto. apply (numbered_input k); auto. apply Fr. }
  assert (Ec : common_times k (calls id l) = shared k s).
  { unfold common_times, shared. rewrite Hh by lia. apply filter_ext_in. intros t _.
    assert (X : forall j, In j (seq 1 k) -> (1 <= j <= k)%nat) by (intros j Hj; apply in_seq in Hj; lia).
    induction (seq 1 k) as [|j r IH]; [reflexivity|]. cbn. rewrite Hh by (apply X; cbn; auto). rewrite IH; [reflexivity|].
    intros i Hi. apply X. cbn; auto. }
  exists (calls id l). split; [exact Hh|]. split; [exact Ec|]. intros y.
  rewrite Es, Q, <- Ec. eapply join_settled; eauto.
Qed.

(** Join: at exactly the times all its inputs have, output [oj] repeats the message of input [ij]. *)
Theorem C72_join (n : nat) (p : program) (batches : list opmsg) (rs : list progmsg) (p' : program)
    (id x : string) (k : nat) (o : op) (cs : smap (list (string * string))) (s : nat -> list msg) :
  synchronous_at p id -> in_time_order batches -> receive_all n p batches = (Ok rs, p') ->
  id <> p_entry p -> mk_join x k = Ok o -> sfind id (p_ops p) = Some (with_conns cs o) ->
  (forall j, (1 <= j <= k)%nat -> carried (p_ops p) rs id (iport j) (s j)) ->
  (forall j, (1 <= j <= k)%nat -> stream rs id (oport j) = map (at_time (s j)) (shared k s)) /\
  (forall y, (forall j, (1 <= j <= k)%nat -> y <> oport j) -> stream rs id y = []).
Proof.
  intros Sy St E Ne Hm Ho C. destruct (mk_join_fresh x k o Hm) as (b & -> & Hn & Fr & Pr).
  destruct (synchronous_join n p batches rs p' id b _ cs k _ s Sy St E Ne Ho eq_refl ltac:(lia) Fr Pr C) as (evs & Hh & _ & Q).
  assert (O1 : forall t, one_per_port k evs t (jtuple (skeys (o_data b)) (map (fun x => at_time (hist x evs) t) (skeys (o_data b))) (port_map iport k) []))
    by (intros t; apply join_one_per_port; [lia|apply ssorted_NoDup, Fr|apply Fr]).
  split.
  - intros j Hj. rewrite Q. apply flat_map_map_in. intros t Ht. rewrite (proj1 (O1 t)) by auto. cbn. now rewrite Hh.
  - intros y Hy. rewrite Q. apply flat_map_none. intros t. destruct (sfind y _) as [ms|] eqn:F; [|reflexivity].
    destruct (proj2 (O1 t) y ms F) as (j & Hj & Ey). now destruct (Hy j Hj).
Qed.

(** Two-input operators: at every time both inputs have, the function of the two values. *)
Theorem C72_two_input (n : nat) (p : program) (batches : list opmsg) (rs : list progmsg) (p' : program)
    (id x : string) (f : binop) (o : op) (cs : smap (list (string * string))) (s : nat -> list msg) :
  synchronous_at p id -> in_time_order batches -> receive_all n p batches = (Ok rs, p') ->
  id <> p_entry p -> mk_binary x f = Ok o -> sfind id (p_ops p) = Some (with_conns cs o) ->
  (forall j, (1 <= j <= 2)%nat -> carried (p_ops p) rs id (iport j) (s j)) ->
  Forall (fun m => comparable (mval m)) (s 1%nat) ->
  stream rs id "o1" =
    flat_map (fun t => match two_input f (mval (at_time (s 1%nat) t)) (mval (at_time (s 2%nat) t)) with
                       | Some v => [mkMsg t v] | None => [] end) (shared 2 s) /\
  forall y, y <> "o1" -> stream rs id y = [].
Proof.
  intros Sy St E Ne Hm Ho C Cv. destruct (mk_binary_fresh x f o Hm) as (b & -> & Fr & K & Pr).
  destruct (synchronous_join n p batches rs p' id b _ cs 2 _ s Sy St E Ne Ho eq_refl ltac:(lia) Fr Pr C) as (evs & Hh & Ec & Q).
  split; [|intros y Hy; rewrite Q; apply flat_map_none; intros t; unfold bin_apply, out1; apply String.eqb_neq in Hy;
    repeat match goal with |- context [match ?x with _ => _ end] => destruct x end; cbn; rewrite ?Hy; reflexivity].
  rewrite Q, K. apply flat_map_ext_in'. intros t Ht. cbn [map].
  change "i1" with (iport 1). change "i2" with (iport 2). rewrite !Hh by lia.
  assert (H1 : In t (times (s 1%nat))) by (unfold shared in Ht; now apply filter_In in Ht as [Ht _]).
  destruct (at_time_spec _ _ H1) as [I1 T1]. rewrite T1.
  rewrite Properties.Join.bin_apply_two_input by (rewrite Forall_forall in Cv; now apply Cv).
  destruct (two_input f _ _); reflexivity.
Qed.

(** Linear: at every time all inputs have, c1 * v1 + ... + cn * vn (at most nine inputs; with
    more the coefficients go to the inputs in alphabetical order, see C25). *)
Theorem C72_linear (n : nat) (p : program) (batches : list opmsg) (rs : list progmsg) (p' : program)
    (id x : string) (coeff : list V) (o : op) (cs : smap (list (string * string))) (s : nat -> list msg) :
  synchronous_at p id -> in_time_order batches -> receive_all n p batches = (Ok rs, p') ->
  id <> p_entry p -> mk_linear x coeff = Ok o -> (length coeff <= 9)%nat -> sfind id (p_ops p) = Some (with_conns cs o) ->
  (forall j, (1 <= j <= length coeff)%nat -> carried (p_ops p) rs id (iport j) (s j)) ->
  stream rs id "o1" =
    map (fun t => mkMsg t (vsum (map (fun kc => vmul (mval (at_time (s (fst kc)) t)) (snd kc)) (combine (seq 1 (length coeff)) coeff))))
        (shared (length coeff) s) /\
  forall y, y <> "o1" -> stream rs id y = [].
Proof.
  intros Sy St E Ne Hm H9 Ho C. destruct (mk_linear_fresh x coeff o Hm) as (b & -> & Hn & Fr & Ln & Pr).
  destruct (synchronous_join n p batches rs p' id b _ cs (length coeff) _ s Sy St E Ne Ho eq_refl ltac:(lia) Fr Pr C) as (evs & Hh & Ec & Q).
  assert (K : skeys (o_data b) = map iport (seq 1 (length coeff))).
  { apply (alphabetical_keys (length coeff)); auto. apply Properties.Join.alphabetical_9. exact H9. }
  split; [|intros y Hy; rewrite Q; apply flat_map_none; intros t; cbn; apply String.eqb_neq in Hy; now rewrite Hy].
  rewrite Q. rewrite <- Ec. apply flat_map_map_in. intros t Ht.
  pose proof (Properties.Join.linear_sync (seq 1 (length coeff)) coeff evs t b ltac:(lia) Fr K (seq_length _ _) Ht) as X.
  unfold linear_emits in X. rewrite X. cbn [emits sfind]. cbn. f_equal. f_equal. f_equal.
  apply map_ext_in. intros [k c] Hkc. cbn [fst snd]. rewrite Hh; [reflexivity|]. apply in_combine_l, in_seq in Hkc. lia.
Qed.

(** ** Joins in any acyclic program, whatever the operators before them and the order of the
    messages sent.  If times increase on each of its inputs, what a join emits is right and in order
    but may come late: it is there for an initial part [ts] of the times all its inputs have, and the
    messages for the others are still waiting in it. *)
Lemma loose_join (rank : string -> nat) n p batches rs p' id b kd cs k g s :
  wf_heap (p_ops p) -> named (p_ops p) -> ranked rank (p_ops p) -> one_feed (p_ops p) ->
  receive_all n p batches = (Ok rs, p') ->
  id <> p_entry p -> sfind id (p_ops p) = Some (with_conns cs (Op b kd)) -> is_pipeline (Op b kd) = false ->
  (1 <= k)%nat -> fresh k b -> o_ctrl b = [] -> processes b kd g ->
  (forall j, (1 <= j <= k)%nat -> carried (p_ops p) rs id (iport j) (s j) /\ increasing (times (s j))) ->
  exists evs ts late, (forall j, (1 <= j <= k)%nat -> hist (iport j) evs = s j) /\ common_times k evs = shared k s /\ shared k s = ts ++ late /\
    (forall y, stream rs id y =
      flat_map (fun t => odefault [] (sfind y (g (map (fun x => at_time (hist x evs) t) (skeys (o_data b)))))) ts) /\
    exists o', sfind id (p_ops p') = Some o' /\ forall t j, In t late -> (1 <= j <= k)%nat -> queued o' (iport j) t.
Proof.
  intros W N Rk Of E Ne Ho Np Hk Fr Ct Pr C. destruct (stream_log n p batches rs p' W N E) as (l & El & Es).
  assert (Np' : is_pipeline (with_conns cs (Op b kd)) = false) by (destruct kd; auto).
  destruct (lsend_all_replays _ _ _ _ _ _ W N El) as (_ & Rep). destruct (Rep id _ Ho Np') as (o1 & F1 & _ & R).
  assert (Q : forall port, emitted id port l = on_port port (returned id l)).
  { intros port. apply (lsend_all_balanced rank _ _ _ _ _ _ W N Rk El). }
  assert (On : data_on k (calls id l)).
  { eapply calls_data_on; eauto. apply Fr. }
  assert (Hh : forall j, (1 <= j <= k)%nat -> hist (iport j) (calls id l) = s j).
  { intros j Hj. eapply carried_hist; eauto; [|apply C; auto]. apply (numbered_input k); auto. apply Fr. }
  assert (Ec : common_times k (calls id l) = shared k s).
  { unfold common_times, shared. rewrite Hh by lia. apply filter_ext_in. intros t _.
    assert (X : forall j, In j (seq 1 k) -> (1 <= j <= k)%nat) by (intros j Hj; apply in_seq in Hj; lia).
    induction (seq 1 k) as [|j r IH]; [reflexivity|]. cbn. rewrite Hh by (apply X; cbn; auto). rewrite IH; [reflexivity|].
    intros i Hi. apply X. cbn; auto. }
  destruct (join_sync k b kd g (fun e t out => out = g (map (fun x => at_time (hist x e) t) (skeys (o_data b)))) (calls id l) Hk Fr Pr On)
    as (outs & o2 & late & R2 & (ts & F & Et) & Qu).
  { intros j Hj. rewrite Hh by auto. now apply C. }
  { reflexivity. }
  exists (calls id l), (somes ts), late. split; [exact Hh|]. split; [exact Ec|]. split; [congruence|].
  rewrite run_conns in R. rewrite R2 in R. cbn [fst snd] in R. injection R as Er Eo. split.
  - intros y. rewrite Es, Q, <- Er. clear - F. unfold on_port. induction F as [|t out ts outs H F IH]; [reflexivity|].
    cbn [flat_map]. rewrite IH. destruct t as [t|]; cbn [somes flat_map]; rewrite H; reflexivity.
  - exists o1. split; [exact F1|]. rewrite <- Eo. intros t j Ht Hj. destruct (Qu t Ht j Hj) as (q & Fq & Iq). exists q. split; auto.
Qed.

Lemma join_no_ctrl x k o : mk_join x k = Ok o -> o_ctrl (op_base o) = [].
Proof.
  unfold mk_join. destruct (Nat.ltb k 2); [discriminate|].
  destruct (add_ports_spec (seq 1 k) 0 true (base0 x)) as (b & -> & _ & _ & Ct & _); auto using seq_NoDup; [constructor|].
  cbn. now intros [= <-].
Qed.
Lemma binary_no_ctrl x f o : mk_binary x f = Ok o -> o_ctrl (op_base o) = [].
Proof. cbn. now intros [= <-]. Qed.
Lemma linear_no_ctrl x coeff o : mk_linear x coeff = Ok o -> o_ctrl (op_base o) = [].
Proof.
  unfold mk_linear. destruct (Nat.ltb _ 2); [discriminate|].
  destruct (add_ports_spec (seq 1 (length coeff)) 0 false (base0 x)) as (b & -> & _ & _ & Ct & _); auto using seq_NoDup; [constructor|].
  cbn. now intros [= <-].
Qed.

(** Join: [oj] repeats the messages of [ij], for an initial part of the times all inputs have. *)
Theorem C72_join_any_order (rank : string -> nat) (n : nat) (p : program) (batches : list opmsg) (rs : list progmsg) (p' : program)
    (id x : string) (k : nat) (o : op) (cs : smap (list (string * string))) (s : nat -> list msg) :
  wf_heap (p_ops p) -> named (p_ops p) -> ranked rank (p_ops p) -> one_feed (p_ops p) ->
  receive_all n p batches = (Ok rs, p') ->
  id <> p_entry p -> mk_join x k = Ok o -> sfind id (p_ops p) = Some (with_conns cs o) ->
  (forall j, (1 <= j <= k)%nat -> carried (p_ops p) rs id (iport j) (s j) /\ increasing (times (s j))) ->
  exists ts late, shared k s = ts ++ late /\
    (forall j, (1 <= j <= k)%nat -> stream rs id (oport j) = map (at_time (s j)) ts) /\
    (forall y, (forall j, (1 <= j <= k)%nat -> y <> oport j) -> stream rs id y = []) /\
    exists o', sfind id (p_ops p') = Some o' /\ forall t j, In t late -> (1 <= j <= k)%nat -> queued o' (iport j) t.
Proof.
  intros W N Rk Of E Ne Hm Ho C. pose proof (join_no_ctrl _ _ _ Hm) as Ct. destruct (mk_join_fresh x k o Hm) as (b & -> & Hn & Fr & Pr).
  destruct (loose_join rank n p batches rs p' id b _ cs k _ s W N Rk Of E Ne Ho eq_refl ltac:(lia) Fr Ct Pr C) as (evs & ts & late & Hh & _ & Et & Q & L).
  assert (O1 : forall t, one_per_port k evs t (jtuple (skeys (o_data b)) (map (fun x => at_time (hist x evs) t) (skeys (o_data b))) (port_map iport k) []))
    by (intros t; apply join_one_per_port; [lia|apply ssorted_NoDup, Fr|apply Fr]).
  exists ts, late. split; [exact Et|]. split; [|split; [|exact L]].
  - intros j Hj. rewrite Q. apply flat_map_map_in. intros t Ht. rewrite (proj1 (O1 t)) by auto. cbn. now rewrite Hh.
  - intros y Hy. rewrite Q. apply flat_map_none. intros t. destruct (sfind y _) as [ms|] eqn:F; [|reflexivity].
    destruct (proj2 (O1 t) y ms F) as (j & Hj & Ey). now destruct (Hy j Hj).
Qed.

(** Two-input operators: the function of the two values, for an initial part of the times both inputs have. *)
Theorem C72_two_input_any_order (rank : string -> nat) (n : nat) (p : program) (batches : list opmsg) (rs : list progmsg) (p' : program)
    (id x : string) (f : binop) (o : op) (cs : smap (list (string * string))) (s : nat -> list msg) :
  wf_heap (p_ops p) -> named (p_ops p) -> ranked rank (p_ops p) -> one_feed (p_ops p) ->
  receive_all n p batches = (Ok rs, p') ->
  id <> p_entry p -> mk_binary x f = Ok o -> sfind id (p_ops p) = Some (with_conns cs o) ->
  (forall j, (1 <= j <= 2)%nat -> carried (p_ops p) rs id (iport j) (s j) /\ increasing (times (s j))) ->
  Forall (fun m => comparable (mval m)) (s 1%nat) ->
  exists ts late, shared 2 s = ts ++ late /\
    stream rs id "o1" =
      flat_map (fun t => match two_input f (mval (at_time (s 1%nat) t)) (mval (at_time (s 2%nat) t)) with
                         | Some v => [mkMsg t v] | None => [] end) ts /\
    (forall y, y <> "o1" -> stream rs id y = []) /\
    exists o', sfind id (p_ops p') = Some o' /\ forall t j, In t late -> (1 <= j <= 2)%nat -> queued o' (iport j) t.
Proof.
  intros W N Rk Of E Ne Hm Ho C Cv. pose proof (binary_no_ctrl _ _ _ Hm) as Ct. destruct (mk_binary_fresh x f o Hm) as (b & -> & Fr & K & Pr).
  destruct (loose_join rank n p batches rs p' id b _ cs 2 _ s W N Rk Of E Ne Ho eq_refl ltac:(lia) Fr Ct Pr C) as (evs & ts & late & Hh & Ec & Et & Q & L).
  exists ts, late. split; [exact Et|].
  split; [|split; [intros y Hy; rewrite Q; apply flat_map_none; intros t; unfold bin_apply, out1; apply String.eqb_neq in Hy;
    repeat match goal with |- context [match ?x with _ => _ end] => destruct x end; cbn; rewrite ?Hy; reflexivity|exact L]].
  rewrite Q, K. apply flat_map_ext_in'. intros t Ht. cbn [map].
  change "i1" with (iport 1). change "i2" with (iport 2). rewrite !Hh by lia.
  assert (H1 : In t (times (s 1%nat))).
  { assert (X : In t (shared 2 s)) by (rewrite Et; apply in_or_app; auto). unfold shared in X. now apply filter_In in X as [X _]. }
  destruct (at_time_spec _ _ H1) as [I1 T1]. rewrite T1.
  rewrite Properties.Join.bin_apply_two_input by (rewrite Forall_forall in Cv; now apply Cv).
  destruct (two_input f _ _); reflexivity.
Qed.

(** Linear: the weighted sum, for an initial part of the times all inputs have. *)
Theorem C72_linear_any_order (rank : string -> nat) (n : nat) (p : program) (batches : list opmsg) (rs : list progmsg) (p' : program)
    (id x : string) (coeff : list V) (o : op) (cs : smap (list (string * string))) (s : nat -> list msg) :
  wf_heap (p_ops p) -> named (p_ops p) -> ranked rank (p_ops p) -> one_feed (p_ops p) ->
  receive_all n p batches = (Ok rs, p') ->
  id <> p_entry p -> mk_linear x coeff = Ok o -> (length coeff <= 9)%nat -> sfind id (p_ops p) = Some (with_conns cs o) ->
  (forall j, (1 <= j <= length coeff)%nat -> carried (p_ops p) rs id (iport j) (s j) /\ increasing (times (s j))) ->
  exists ts late, shared (length coeff) s = ts ++ late /\
    stream rs id "o1" =
      map (fun t => mkMsg t (vsum (map (fun kc => vmul (mval (at_time (s (fst kc)) t)) (snd kc)) (combine (seq 1 (length coeff)) coeff)))) ts /\
    (forall y, y <> "o1" -> stream rs id y = []) /\
    exists o', sfind id (p_ops p') = Some o' /\ forall t j, In t late -> (1 <= j <= length coeff)%nat -> queued o' (iport j) t.
Proof.
  intros W N Rk Of E Ne Hm H9 Ho C. pose proof (linear_no_ctrl _ _ _ Hm) as Ct. destruct (mk_linear_fresh x coeff o Hm) as (b & -> & Hn & Fr & Ln & Pr).
  destruct (loose_join rank n p batches rs p' id b _ cs (length coeff) _ s W N Rk Of E Ne Ho eq_refl ltac:(lia) Fr Ct Pr C) as (evs & ts & late & Hh & Ec & Et & Q & L).
  assert (K : skeys (o_data b) = map iport (seq 1 (length coeff))).
  { apply (alphabetical_keys (length coeff)); auto. apply Properties.Join.alphabetical_9. exact H9. }
  exists ts, late. split; [exact Et|].
  split; [|split; [intros y Hy; rewrite Q; apply flat_map_none; intros t; cbn; apply String.eqb_neq in Hy; now rewrite Hy|exact L]].
  rewrite Q. apply flat_map_map_in. intros t Ht0.
  assert (Ht : In t (common_times (length coeff) evs)) by (rewrite Ec, Et; apply in_or_app; auto).
  pose proof (Properties.Join.linear_sync (seq 1 (length coeff)) coeff evs t b ltac:(lia) Fr K (seq_length _ _) Ht) as X.
  unfold linear_emits in X. rewrite X. cbn [emits sfind]. cbn. f_equal. f_equal. f_equal.
  apply map_ext_in. intros [k c] Hkc. cbn [fst snd]. rewrite Hh; [reflexivity|]. apply in_combine_l, in_seq in Hkc. lia.
Qed.



(** ** C33, C34: the order of connections, the interleaving of arrivals *)

(** the entry's emissions depend only on the messages sent *)
Lemma entry_same_messages (rank : string -> nat) ep h1 h2 cs1 cs2 o n1 n2 ms L1 L2 h1' h2' :
  wf_heap h1 -> named h1 -> ranked rank h1 -> wf_heap h2 -> named h2 -> ranked rank h2 ->
  sfind ep h1 = Some (with_conns cs1 o) -> sfind ep h2 = Some (with_conns cs2 o) -> is_pipeline o = false ->
  lsend_all n1 ep ms h1 = (Ok L1, h1') -> lsend_all n2 ep ms h2 = (Ok L2, h2') ->
  forall port, emitted ep port L1 = emitted ep port L2.
Proof.
  intros W1 N1 Rk1 W2 N2 Rk2 F1 F2 Np E1 E2 port.
  assert (Np1 : is_pipeline (with_conns cs1 o) = false) by (destruct o as [b []]; auto).
  assert (Np2 : is_pipeline (with_conns cs2 o) = false) by (destruct o as [b []]; auto).
  destruct (flow_emitted h1 rank ep W1 N1 Rk1 n1 ms L1 h1' E1 _ _ F1 Np1) as (outs1 & o1 & R1 & Q1).
  destruct (flow_emitted h2 rank ep W2 N2 Rk2 n2 ms L2 h2' E2 _ _ F2 Np2) as (outs2 & o2 & R2 & Q2).
  rewrite Q1, Q2. f_equal.
  rewrite (rounds_entry h1 rank Rk1 ep ms L1) in R1 by (eapply flow_rounds; eauto).
  rewrite (rounds_entry h2 rank Rk2 ep ms L2) in R2 by (eapply flow_rounds; eauto).
  apply run_conns_ok in R1 as (? & R1). apply run_conns_ok in R2 as (? & R2). congruence.
Qed.

Lemma with_conns_unwired o : with_conns (o_conns (op_base o)) (unwired o) = o.
Proof. destruct o as [[] ?]. reflexivity. Qed.

Lemma reordered_wires h h' : reordered h h' -> forall id port, Permutation (wires h id port) (wires h' id port).
Proof.
  intros (K & H) id port. unfold wires. destruct (sfind id h) as [o|] eqn:F.
  - destruct (In_skeys_sfind id h') as (o' & F'); [rewrite K; eapply sfind_In_key; eauto|]. rewrite F'. apply (H _ _ _ F F').
  - destruct (sfind id h') as [o'|] eqn:F'; [|constructor]. apply sfind_In_key in F'. rewrite K in F'.
    apply In_skeys_sfind in F' as (o & F'). congruence.
Qed.

Lemma reordered_wf_rank rank h h' : reordered h h' -> ranked rank h -> ranked rank h'.
Proof.
  intros R Rk a b (port & q & Hin). apply Rk. exists port, q. eapply Permutation_in; [apply Permutation_sym, reordered_wires; eauto|exact Hin].
Qed.

Lemma reordered_fed h h' id port src : reordered h h' -> fed_by h id port src <-> fed_by h' id port src.
Proof.
  intros R. unfold fed_by. pose proof (reordered_wires _ _ R (fst src) (snd src)) as P.
  split; intros H; [eapply Permutation_in; eauto|]. eapply Permutation_in; [apply Permutation_sym; exact P|exact H].
Qed.

Lemma reordered_one_feed h h' : reordered h h' -> one_feed h -> one_feed h'.
Proof.
  intros R (O1 & O2). split.
  - intros id port s1 s2 H1 H2. eapply O1; eapply reordered_fed; eauto.
  - intros id port. eapply Permutation_NoDup; [apply reordered_wires; eauto|apply O2].
Qed.

Lemma receive_all_snoc n bs : forall p b rs q, receive_all n p (bs ++ [b]) = (Ok rs, q) ->
  exists rs0 r q0, receive_all n p bs = (Ok rs0, q0) /\ rs = rs0 ++ [r].
Proof.
  induction bs as [|b0 bs IH]; intros p b rs q E; cbn [receive_all app] in *.
  - apply bind_ok in E as (r & p1 & E1 & E). injection E as <- <-. exists [], r, p. auto.
  - apply bind_ok in E as (r & p1 & E1 & E). apply bind_ok in E as (rs' & p2 & E2 & E). injection E as <- <-.
    destruct (IH _ _ _ _ E2) as (rs0 & r0 & q0 & E0 & ->). rewrite E1. cbn [bind sbind]. rewrite E0. cbn [bind sbind].
    exists (r :: rs0), r0, q0. auto.
Qed.

(** Two programs fed the same batches that agree on the whole streams after every number of
    calls agree call by call. *)
Lemma call_by_call n1 n2 p1 p2 id port (P : list opmsg -> Prop) : (forall bs b, P (bs ++ [b]) -> P bs) ->
  (forall bs rs1 q1 rs2 q2, P bs -> receive_all n1 p1 bs = (Ok rs1, q1) -> receive_all n2 p2 bs = (Ok rs2, q2) ->
     stream rs1 id port = stream rs2 id port) ->
  forall bs rs1 q1 rs2 q2, P bs -> receive_all n1 p1 bs = (Ok rs1, q1) -> receive_all n2 p2 bs = (Ok rs2, q2) ->
    map (fun r => result_at r id port) rs1 = map (fun r => result_at r id port) rs2.
Proof.
  intros Pp H. induction bs as [|b bs IH] using rev_ind; intros rs1 q1 rs2 q2 Hp E1 E2.
  - injection E1 as <- _. injection E2 as <- _. reflexivity.
  - pose proof (H _ _ _ _ _ Hp E1 E2) as Es.
    destruct (receive_all_snoc _ _ _ _ _ _ E1) as (a1 & r1 & s1 & F1 & ->). destruct (receive_all_snoc _ _ _ _ _ _ E2) as (a2 & r2 & s2 & F2 & ->).
    pose proof (IH _ _ _ _ (Pp _ _ Hp) F1 F2) as Em. rewrite !map_app. cbn. f_equal; [exact Em|]. f_equal.
    pose proof (H _ _ _ _ _ (Pp _ _ Hp) F1 F2) as E0. unfold stream in Es, E0. rewrite !flat_map_app, E0 in Es. cbn in Es.
    rewrite !app_nil_r in Es. now apply app_inv_head in Es.
Qed.

Lemma in_time_order_snoc bs b : in_time_order (bs ++ [b]) -> in_time_order bs.
Proof.
  unfold in_time_order, all_messages. rewrite flat_map_app, map_app. unfold times. rewrite map_app.
  generalize (map mtime (map snd (flat_map batch_messages bs))) as l. intros l.
  induction l as [|t l IH]; intros H; [constructor|]. cbn in H. inversion H as [|? ? H1 H2]; subst. constructor; auto.
  apply Forall_app in H2 as [H2 _]. exact H2.
Qed.

End C72.

Section C33.
Context {NO : NumOps} {JT : JsonText}.

(** a program of operators that answer at once, with an Input as entry and no input port with
    two connections (nothing has been processed yet) *)
Definition synchronous (p : program) : Prop :=
  (exists rank, ranked rank (p_ops p)) /\ one_feed (p_ops p) /\
  (exists oe, sfind (p_entry p) (p_ops p) = Some oe /\ an_input oe) /\
  (forall a o, a <> p_entry p -> sfind a (p_ops p) = Some o -> immediate o).

Lemma reordered_streams n1 n2 p p' batches rs q rs' q' :
  well (p_ops p) -> well (p_ops p') -> synchronous p -> Properties.Forest.same_but_order p p' -> in_time_order batches ->
  receive_all n1 p batches = (Ok rs, q) -> receive_all n2 p' batches = (Ok rs', q') ->
  forall id port, stream rs id port = stream rs' id port.
Proof.
  intros (W & N) (W' & N') ((rank & Rk) & Of & (oe & Ein & Inp) & Im) (Ro & Ee & _) St E E' id port.
  destruct (stream_log _ _ _ _ _ W N E) as (l & El & Es). destruct (stream_log _ _ _ _ _ W' N' E') as (l' & El' & Es').
  rewrite Es, Es'. rewrite Ee in El'.
  pose proof (reordered_wf_rank rank _ _ Ro Rk) as Rk'. pose proof (reordered_one_feed _ _ Ro Of) as Of'.
  assert (Same : forall i o, sfind i (p_ops p) = Some o -> exists o', sfind i (p_ops p') = Some o' /\
            o = with_conns (o_conns (op_base o)) (unwired o) /\ o' = with_conns (o_conns (op_base o')) (unwired o)).
  { intros i o F. destruct Ro as (K & Ro). destruct (In_skeys_sfind i (p_ops p')) as (o' & F'); [rewrite K; eapply sfind_In_key; eauto|].
    exists o'. split; [exact F'|]. destruct (Ro _ _ _ F F') as (U & _). split; [now rewrite with_conns_unwired|]. now rewrite <- U, with_conns_unwired. }
  destruct (Same _ _ Ein) as (oe' & Ein' & Eo & Eo').
  assert (Inp' : an_input oe').
  { destruct Inp as (x & k & o0 & cs & Hm & ->). exists x, k, o0, (o_conns (op_base oe')). split; [exact Hm|]. rewrite Eo'. destruct o0 as [[] ?]. reflexivity. }
  apply (two_streams (p_ops p) (p_ops p') rank (p_entry p) W N Rk Of W' N' Rk' Of' oe oe' Ein Ein' Inp Inp'
           (fun i o F Ne => Im i o Ne F)) with (n1 := n1) (n2 := n2) (ms1 := all_messages batches) (ms2 := all_messages batches) (h1' := p_ops q) (h2' := p_ops q'); auto.
  - intros i. destruct (sfind i (p_ops p)) as [o|] eqn:F.
    + destruct (Same _ _ F) as (o' & -> & A & B). eauto.
    + destruct (sfind i (p_ops p')) as [o'|] eqn:F'; [|exact I]. apply sfind_In_key in F'. rewrite (proj1 Ro) in F'.
      apply In_skeys_sfind in F' as (o & F'). congruence.
  - intros i x src. now apply reordered_fed.
  - apply (entry_same_messages rank (p_entry p) (p_ops p) (p_ops p') (o_conns (op_base oe)) (o_conns (op_base oe')) (unwired oe) n1 n2 (all_messages batches) l l' (p_ops q) (p_ops q'));
      auto; try congruence.
    destruct Inp as (x & k & o0 & cs & Hm & ->). unfold mk_input in Hm. destruct (add_ports _ _ _ _); [|discriminate Hm..].
    cbn in Hm. injection Hm as <-. reflexivity.
Qed.

(** ** C33.  Two definitions with the same operators, entry and filter, whose connections are
    the same in another order.  If the entry is an Input, no input port has two connections, there are
    no cycles, and every other operator answers at once, then both are accepted, and while the messages
    sent have times that never decrease from one to the next, every call returns the same messages on every
    port of every operator, in both (as long as no call fails).  Diamonds are allowed. *)
Theorem C33_time_order_partial (g : string -> junk) (text text' : string) (j j' : json) (conns conns' : list connection) (p : program) :
  parse text = Ok j -> parse text' = Ok j' ->
  jvalue get_str "entryOperator" "" j' = jvalue get_str "entryOperator" "" j ->
  operators_of g j' = operators_of g j -> filter_of j' = filter_of j ->
  connections_of j = Ok conns -> connections_of j' = Ok conns' -> Permutation conns conns' ->
  new_prog g text = Ok p -> synchronous p ->
  exists p', new_prog g text' = Ok p' /\
    forall n n' batches rs q rs' q', in_time_order batches ->
      receive_all n p batches = (Ok rs, q) -> receive_all n' p' batches = (Ok rs', q') ->
      forall id port, map (fun r => result_at r id port) rs' = map (fun r => result_at r id port) rs.
Proof.
  intros P P' Een Eop Efi Ec Ec' Pm H Sy. pose proof (Properties.Definition.created_well_formed _ _ _ H) as W.
  destruct (Properties.Forest.permuted_definition g text text' j j' conns conns' p P P' Een Eop Efi Ec Ec' Pm H) as (p' & H' & S).
  pose proof (Properties.Definition.created_well_formed _ _ _ H') as W'.
  exists p'. split; [exact H'|]. intros n n' batches rs q rs' q' St E E' id port. symmetry.
  apply (call_by_call n n' p p' id port in_time_order) with (bs := batches) (q1 := q) (q2 := q'); auto; [apply in_time_order_snoc|].
  intros bs rs1 q1 rs2 q2 St' E1 E2. apply (reordered_streams n n' p p' bs rs1 q1 rs2 q2); auto.
Qed.

(** ** C34.  The same messages on each input, interleaved in two ways, in both with times
    that never decrease: every operator emits the same stream on every port.  With times that go back
    between ports the property is false, see [C34_interleaving_refuted]. *)
Theorem C34_time_order_partial (n n' : nat) (p : program) (x : string) (k : nat) (o : op) (cs : smap (list (string * string)))
    (batches batches' : list opmsg) (rs rs' : list progmsg) (q q' : program) :
  wf_heap (p_ops p) -> named (p_ops p) -> synchronous p ->
  mk_input x k = Ok o -> sfind (p_entry p) (p_ops p) = Some (with_conns cs o) ->
  Forall (fun pm => exists i, (1 <= i <= k)%nat /\ fst pm = iport i) (all_messages batches) ->
  Forall (fun pm => exists i, (1 <= i <= k)%nat /\ fst pm = iport i) (all_messages batches') ->
  (forall i, (1 <= i <= k)%nat -> sent_to (iport i) batches = sent_to (iport i) batches') ->
  in_time_order batches -> in_time_order batches' ->
  receive_all n p batches = (Ok rs, q) -> receive_all n' p batches' = (Ok rs', q') ->
  forall id port, stream rs id port = stream rs' id port.
Proof.
  intros W N ((rank & Rk) & Of & (oe & Ein & Inp) & Im) Hm Fe Po Po' Sa St St' E E' id port.
  assert (Entry : forall y, stream rs (p_entry p) y = stream rs' (p_entry p) y).
  { intros y. destruct (C72_entry rank n p batches rs q x k o cs W N Rk E Hm Fe Po) as (A & B).
    destruct (C72_entry rank n' p batches' rs' q' x k o cs W N Rk E' Hm Fe Po') as (A' & B').
    destruct (existsb (fun i => String.eqb y (oport i)) (seq 1 k)) eqn:X.
    - apply existsb_exists in X as (i & Hi & Ey). apply String.eqb_eq in Ey. apply in_seq in Hi. subst y.
      rewrite A, A', Sa by lia. reflexivity.
    - assert (Ny : forall i, (1 <= i <= k)%nat -> y <> oport i).
      { intros i Hi Ey. assert (X' : existsb (fun i => String.eqb y (oport i)) (seq 1 k) = true).
        { apply existsb_exists. exists i. split; [apply in_seq; lia|]. now apply String.eqb_eq. }
        congruence. }
      now rewrite B, B'. }
  destruct (stream_log _ _ _ _ _ W N E) as (l & El & Es). destruct (stream_log _ _ _ _ _ W N E') as (l' & El' & Es').
  rewrite Es, Es'.
  apply (two_streams (p_ops p) (p_ops p) rank (p_entry p) W N Rk Of W N Rk Of oe oe Ein Ein Inp Inp
           (fun i o F Ne => Im i o Ne F)) with (n1 := n) (n2 := n') (ms1 := all_messages batches) (ms2 := all_messages batches') (h1' := p_ops q) (h2' := p_ops q'); auto.
  - intros i. destruct (sfind i (p_ops p)) as [o1|]; [|exact I].
    exists (o_conns (op_base o1)), (o_conns (op_base o1)), (unwired o1). now rewrite with_conns_unwired.
  - reflexivity.
  - intros y. now rewrite <- Es, <- Es'.
Qed.

End C33.
Print Assumptions C72_single_source.
Print Assumptions C72_entry.
Print Assumptions C72_output.
Print Assumptions C72_inner_input.
Print Assumptions C72_join.
Print Assumptions C72_two_input.
Print Assumptions C72_linear.
Print Assumptions C33_time_order_partial.
Print Assumptions C34_time_order_partial.

(** ** Example: the difference between the input and its moving average, end to end *)
Section Example_.
Import Properties.Graph.

Lemma demo_ops p : demo = Ok p -> forall id o, sfind id (p_ops p) = Some o ->
  exists o0 cs, In (Ok o0) [mk_input "in" 1; mk_movavg "avg" 2; mk_binary "diff" BMinus; mk_output "out" 1; mk_identity "alone"] /\
    o_id (op_base o0) = id /\ o = with_conns cs o0.
Proof.
  intros B id o H. unfold demo, demo_filter, build in B.
  apply rbind_ok in B as (h & E1 & B). apply rbind_ok in B as (h' & E2 & B). apply Ok_inj in B. rewrite <- B in H. cbn [p_ops] in H.
  destruct (Properties.Order.connect_all_was _ _ _ _ _ E2 H) as (o0 & cs & H0 & ->).
  destruct (Properties.Order.collect_ops_In _ _ _ _ E1 H0). exists o0, cs. auto.
Qed.

Lemma demo_at p id : demo = Ok p -> In id ["in"; "avg"; "diff"; "out"] ->
  exists o0 cs, match id with
                | "in" => mk_input "in" 1
                | "avg" => mk_movavg "avg" 2
                | "diff" => mk_binary "diff" BMinus
                | _ => mk_output "out" 1
                end = Ok o0 /\ sfind id (p_ops p) = Some (with_conns cs o0).
Proof.
  intros E Hid.
  assert (K : match demo with Ok p => skeys (p_ops p) | _ => [] end = ["alone"; "avg"; "diff"; "in"; "out"]) by (vm_compute; reflexivity).
  rewrite E in K. destruct (In_skeys_sfind id (p_ops p)) as (o & F).
  { rewrite K. cbn in *. intuition (subst; auto 10). }
  destruct (demo_ops p E id o F) as (o0 & cs & Hin & Hi & ->). exists o0, cs. split; [|exact F].
  assert (X : forall x : res op, x = Ok o0 -> match x with Ok o => o_id (op_base o) | _ => "" end = id) by (intros x ->; exact Hi).
  cbn [In] in Hin. destruct Hid as [<-|[<-|[<-|[<-|[]]]]];
    (destruct Hin as [Hin|[Hin|[Hin|[Hin|[Hin|[]]]]]]; pose proof (X _ Hin) as Y; try exact Hin; exfalso; vm_compute in Y; discriminate Y).
Qed.

Example C72_demo_synchronous p : demo = Ok p -> synchronous p.
Proof.
  intros E. pose proof C28_demo_ranked as Rk. pose proof Properties.Order.C32_demo_hypotheses as Of. rewrite E in Rk, Of.
  assert (Ep : p_entry p = "in").
  { assert (X : match demo with Ok p => p_entry p | _ => "" end = "in") by (vm_compute; reflexivity). now rewrite E in X. }
  split; [eauto|]. split; [apply Of|]. split.
  - rewrite Ep. destruct (demo_at p "in" E) as (o0 & cs & Hm & F); [cbn; auto|]. exists (with_conns cs o0). split; [exact F|]. exists "in", 1%nat, o0, cs. auto.
  - intros a o Ne F. destruct (demo_ops p E a o F) as (o0 & cs & Hin & Hi & ->). split.
    + exists o0, cs. split; [|reflexivity]. destruct Hin as [H|[H|[H|[H|[H|[]]]]]].
      * eapply C_input; eauto.
      * eapply C_movavg; eauto. reflexivity.
      * eapply C_binary; eauto.
      * eapply C_output; eauto.
      * eapply C_identity; eauto.
    + assert (X : forall x, In x [mk_input "in" 1; mk_movavg "avg" 2; mk_binary "diff" BMinus; mk_output "out" 1; mk_identity "alone"] ->
        match x with Ok o => match op_kind o with KPeak | KDemux _ | KVariable _ _ => False | _ => True end | _ => True end).
      { intros x [<-|[<-|[<-|[<-|[<-|[]]]]]]; cbn; exact I. }
      exact (X _ Hin).
Qed.

Lemma demo_fed p id port src : demo = Ok p -> In ((id, port), src)
    [(("diff", "i2"), ("avg", "o1")); (("out", "i1"), ("diff", "o1")); (("avg", "i1"), ("in", "o1")); (("diff", "i1"), ("in", "o1"))] ->
  fed_by (p_ops p) id port src.
Proof.
  intros E H.
  assert (X : match demo with Ok p => map (fun s => wires (p_ops p) (fst s) (snd s)) [("avg", "o1"); ("diff", "o1"); ("in", "o1")] | _ => [] end =
     [[("diff", "i2")]; [("out", "i1")]; [("avg", "i1"); ("diff", "i1")]]) by (vm_compute; reflexivity).
  rewrite E in X. cbn [map fst snd] in X. injection X as X1 X2 X3. unfold fed_by.
  destruct H as [H|[H|[H|[H|[]]]]]; injection H as <- <- <-; cbn [fst snd]; rewrite ?X1, ?X2, ?X3; cbn; auto.
Qed.

(** Whatever is sent to this program with times that never decrease: "in" emits the messages
    with new times, "avg" their moving average, and "out" the value minus the average at every time the
    average has. *)
Example C72_demo n p batches rs p' : demo = Ok p -> receive_all n p batches = (Ok rs, p') ->
  Forall (fun pm => fst pm = "i1") (all_messages batches) -> in_time_order batches ->
  let x := records (sent_to "i1" batches) in
  let avg := stream rs "avg" "o1" in
  stream rs "in" "o1" = x /\
  (exists o outs o', mk_movavg "avg" 2 = Ok o /\ run o (feed "i1" x) = (Ok outs, o') /\ avg = on_port "o1" outs) /\
  stream rs "out" "o1" =
    map (fun t => mkMsg t (vsub (mval (at_time x t)) (mval (at_time avg t)))) (filter (fun t => has_time t avg) (times x)).
Proof.
  intros E R Po St x avg. pose proof (C72_demo_synchronous p E) as Sy. destruct (demo_ok []) as (p0 & E0 & W & N & _). fold demo in E0.
  rewrite E in E0. apply Ok_inj in E0. subst p0. pose proof Sy as ((rank & Rk) & Of & Ent & Im).
  assert (Ep : p_entry p = "in").
  { assert (X : match demo with Ok p => p_entry p | _ => "" end = "in") by (vm_compute; reflexivity). now rewrite E in X. }
  assert (Sin : stream rs "in" "o1" = x).
  { destruct (demo_at p "in" E) as (o0 & cs & Hm & F); [cbn; auto|]. rewrite <- Ep in F |- *.
    apply (C72_entry rank n p batches rs p' "in" 1 o0 cs W N Rk R Hm F) with (j := 1%nat); [|lia].
    eapply Forall_impl; [|exact Po]. intros pm ->. exists 1%nat. split; [lia|reflexivity]. }
  split; [exact Sin|]. split.
  - destruct (demo_at p "avg" E) as (o0 & cs & Hm & F); [cbn; auto|]. pose proof Hm as Hm'. unfold mk_movavg in Hm'. rewrite mk_simple_sop in Hm'.
    destruct (C72_single_source rank n p batches rs p' "avg" (with_conns cs o0) "i1" "in" "o1" W N Rk Of R) as (outs & o' & Ro & Q); auto.
    + rewrite Ep. discriminate.
    + apply Ok_inj in Hm'. subst o0. reflexivity.
    + apply (demo_fed p _ _ _ E). cbn; auto.
    + apply Ok_inj in Hm'. subst o0. reflexivity.
    + intros port' src Fb D. apply Ok_inj in Hm'. subst o0. cbn in D.
      unfold is_data_input, is_control_input, shas in D. cbn in D. destruct (String.eqb_spec port' "i1"); [auto|discriminate D].
    + apply run_conns_ok in Ro as (o1 & Ro). exists o0, outs, o1. rewrite Sin in Ro. split; [exact Hm|]. split; [exact Ro|apply Q].
  - destruct (demo_at p "out" E) as (o2 & cs2 & Hm2 & F2); [cbn; auto 10|].
    change "o1" with (oport 1) at 1. rewrite (C72_output rank n p batches rs p' "out" "out" 1 o2 cs2 1 (stream rs "diff" "o1")); auto.
    2: { rewrite Ep; discriminate. }
    2: { left. exists "diff", "o1". split; [apply (demo_fed p _ _ _ E); cbn; auto|reflexivity]. }
    destruct (demo_at p "diff" E) as (o3 & cs3 & Hm3 & F3); [cbn; auto 10|].
    destruct (C72_two_input n p batches rs p' "diff" "diff" BMinus o3 cs3 (fun j => match j with 1%nat => x | _ => avg end)) as (Q & _); auto.
    + split; [exact W|]. split; [exact N|]. split; [eauto|]. split; [exact Of|]. split; [exact Ent|]. intros a o _ Ne F. eapply Im; eauto.
    + rewrite Ep; discriminate.
    + intros j Hj. assert (j = 1 \/ j = 2)%nat as [->| ->] by lia; left.
      * exists "in", "o1". split; [apply (demo_fed p _ _ _ E); cbn; auto|symmetry; exact Sin].
      * exists "avg", "o1". split; [apply (demo_fed p _ _ _ E); cbn; auto|reflexivity].
    + apply Forall_forall. intros m _. apply v_le_spec.
    + rewrite Q. unfold shared. cbn [seq forallb].
      rewrite (flat_map_map_in _ (fun t => mkMsg t (vsub (mval (at_time x t)) (mval (at_time avg t))))) by reflexivity.
      f_equal. apply filter_ext_in. intros t Ht.
      replace (has_time t x) with true; [now rewrite andb_true_r|]. symmetry. unfold has_time. apply existsb_exists.
      unfold times in Ht. apply in_map_iff in Ht as (m & <- & Hm). exists m. split; [exact Hm|apply Z.eqb_refl].
Qed.

(** ** Example for C33: two branches that meet again, the connections listed in two orders *)
Section Diamond.
Import Properties.Definition.

Definition diamond_conns : list (@json QcOps) :=
  [a_conn "in" "ma1"; a_conn "in" "ma2"; a_conn_to "ma1" "minus" "i1"; a_conn_to "ma2" "minus" "i2"; a_conn "minus" "out"].
Definition diamond (cs : list (@json QcOps)) : @json QcOps := obj [
  ("entryOperator", JStr "in");
  ("output", obj [("out", JArr [JStr "o1"])]);
  ("operators", JArr [definition "Input" "in" [("numPorts", JInt 1)];
                      definition "MovingAverage" "ma1" [("n", JInt 1)];
                      definition "MovingAverage" "ma2" [("n", JInt 2)];
                      definition "Minus" "minus" [];
                      definition "Output" "out" [("numPorts", JInt 1)]]);
  ("connections", JArr cs)].
Definition diamond_texts : JsonText := a_text (diamond diamond_conns) (diamond (rev diamond_conns)).

Definition diamond_results (text : string) : list (list (string * list (string * list (Z * Q)))) :=
  match new_prog (JT := diamond_texts) j0 text with
  | Ok p => match fst (receive_all 9 p [[("i1", [im 1 10; im 2 20])]; [("i1", [im 2 7; im 4 30])]]) with
            | Ok rs => map show_pm rs | _ => [] end
  | _ => []
  end.

(** the order in which the branches are called differs, the results do not *)
Example C33_time_order_example :
  match new_prog (JT := diamond_texts) j0 "text", new_prog (JT := diamond_texts) j0 "inner" with
  | Ok p, Ok p' => wires (p_ops p) "in" "o1" = [("ma1", "i1"); ("ma2", "i1")] /\ wires (p_ops p') "in" "o1" = [("ma2", "i1"); ("ma1", "i1")]
  | _, _ => False
  end /\
  diamond_results "text" = diamond_results "inner" /\
  map (fun r => odefault [] (sfind "out" r)) (diamond_results "text") = [[("o1", [(2, 5 # 1)])]; [("o1", [(4, 5 # 1)])]].
Proof. split; [split; reflexivity|]. split; vm_compute; reflexivity. Qed.

Lemma diamond_at : match new_prog (JT := diamond_texts) j0 "text" with
  | Ok p => p_entry p = "in" /\
      map (fun x => (fst x, Ok (unwired (snd x)))) (p_ops p) =
        [("in", mk_input "in" 1); ("ma1", mk_movavg "ma1" 1); ("ma2", mk_movavg "ma2" 2); ("minus", mk_binary "minus" BMinus); ("out", mk_output "out" 1)]
  | _ => False
  end.
Proof. split; reflexivity. Qed.

Example C33_time_order_hypotheses :
  match new_prog (JT := diamond_texts) j0 "text" with Ok p => synchronous p | _ => False end /\
  match connections_of (diamond diamond_conns), connections_of (diamond (rev diamond_conns)) with
  | Ok cs, Ok cs' => Permutation cs cs'
  | _, _ => False
  end /\
  jvalue get_str "entryOperator" "" (diamond (rev diamond_conns)) = jvalue get_str "entryOperator" "" (diamond diamond_conns) /\
  (forall JT : JsonText, operators_of (JT := JT) j0 (diamond (rev diamond_conns)) = operators_of j0 (diamond diamond_conns)) /\
  filter_of (diamond (rev diamond_conns)) = filter_of (diamond diamond_conns) /\
  in_time_order [[("i1", [im 1 10; im 2 20])]; [("i1", [im 2 7; im 4 30])]].
Proof.
  split; [|split; [|repeat split]].
  - pose proof diamond_at as D.
    assert (X : match new_prog (JT := diamond_texts) j0 "text" with
                | Ok p => (edges (p_ops p), (Properties.Order.feeds (p_ops p), map (fun x => (fst x, o_conns (op_base (snd x)))) (p_ops p)))
                | _ => ([], ([], [])) end =
      ([("in", "ma1"); ("in", "ma2"); ("ma1", "minus"); ("ma2", "minus"); ("minus", "out")],
       ([("ma1", "i1", ("in", "o1")); ("ma2", "i1", ("in", "o1")); ("minus", "i1", ("ma1", "o1")); ("minus", "i2", ("ma2", "o1")); ("out", "i1", ("minus", "o1"))],
        [("in", [("o1", [("ma1", "i1"); ("ma2", "i1")])]); ("ma1", [("o1", [("minus", "i1")])]); ("ma2", [("o1", [("minus", "i2")])]);
         ("minus", [("o1", [("out", "i1")])]); ("out", [])]))) by (vm_compute; reflexivity).
    destruct (new_prog (JT := diamond_texts) j0 "text") as [p| | | |]; try contradiction D.
    assert (X1 := f_equal fst X). assert (X2 := f_equal (fun x => fst (snd x)) X). assert (X3 := f_equal (fun x => snd (snd x)) X). cbn [fst snd] in X1, X2, X3. clear X.
    destruct D as (Ep & D).
    assert (At : forall id o, sfind id (p_ops p) = Some o ->
      In (id, Ok (unwired o)) [("in", mk_input "in" 1); ("ma1", mk_movavg "ma1" 1); ("ma2", mk_movavg "ma2" 2); ("minus", mk_binary "minus" BMinus); ("out", mk_output "out" 1)]).
    { intros id o F. rewrite <- D. apply sfind_In in F. apply in_map_iff. exists (id, o). auto. }
    split; [|split; [split|split]].
    + exists (fun id => match id with "in" => 3 | "ma1" => 2 | "ma2" => 2 | "minus" => 1 | _ => 0 end)%nat.
      intros a b H. apply edges_wired in H. rewrite X1 in H. cbn in H.
      destruct H as [H|[H|[H|[H|[H|[]]]]]]; injection H as <- <-; cbn; lia.
    + intros id port s1 s2 H1 H2. apply Properties.Order.feeds_fed in H1, H2. rewrite X2 in H1, H2. cbn in H1, H2.
      destruct H1 as [H1|[H1|[H1|[H1|[H1|[]]]]]]; destruct H2 as [H2|[H2|[H2|[H2|[H2|[]]]]]]; congruence.
    + intros id port. unfold wires. destruct (sfind id (p_ops p)) as [o|] eqn:F; [|constructor].
      apply sfind_In in F. apply (in_map (fun x => (fst x, o_conns (op_base (snd x))))) in F. rewrite X3 in F. cbn in F.
      destruct F as [F|[F|[F|[F|[F|[]]]]]]; injection F as _ <-; cbn; try destruct (String.eqb port "o1"); cbn;
        repeat constructor; cbn; intuition congruence.
    + rewrite Ep. destruct (sfind "in" (p_ops p)) as [o|] eqn:F.
      * exists o. split; [reflexivity|]. apply At in F. exists "in", 1%nat, (unwired o), (o_conns (op_base o)). rewrite with_conns_unwired. split; [|reflexivity].
        destruct F as [F|[F|[F|[F|[F|[]]]]]]; try (apply (f_equal fst) in F; discriminate F). now apply (f_equal snd) in F.
      * exfalso. assert (K : In "in" (skeys (p_ops p))).
        { assert (K : map fst (p_ops p) = ["in"; "ma1"; "ma2"; "minus"; "out"]).
          { apply (f_equal (map fst)) in D. rewrite map_map in D. exact D. }
          unfold skeys. rewrite K. cbn. auto. }
        apply In_skeys_sfind in K as (o & K). congruence.
    + intros a o Ne F. rewrite Ep in Ne. apply At in F. rewrite <- (with_conns_unwired o). split.
      * exists (unwired o), (o_conns (op_base o)). split; [|reflexivity].
        destruct F as [F|[F|[F|[F|[F|[]]]]]]; apply (f_equal snd) in F; cbn [snd] in F.
        -- eapply C_input; eauto.
        -- eapply C_movavg; [|exact F]. reflexivity.
        -- eapply C_movavg; [|exact F]. reflexivity.
        -- eapply C_binary; eauto.
        -- eapply C_output; eauto.
      * assert (Y : forall x, In x [mk_input "in" 1; mk_movavg "ma1" 1; mk_movavg "ma2" 2; mk_binary "minus" BMinus; mk_output "out" 1] ->
          match x with Ok o => match op_kind o with KPeak | KDemux _ | KVariable _ _ => False | _ => True end | _ => True end).
        { intros x [<-|[<-|[<-|[<-|[<-|[]]]]]]; cbn; exact I. }
        apply (in_map snd) in F. exact (Y _ F).
  - vm_compute. match goal with |- Permutation ?l _ => change (Permutation l (rev l)) end. apply Permutation_rev.
  - unfold in_time_order. cbn. repeat constructor; cbn; lia.
Qed.

(** ** Example for C34: a Join fed from two ports, interleaved in two ways *)
Definition woven : list (@opmsg QcOps) :=
  [[("i1", [im 5 1])]; [("i2", [im 7 4])]; [("i1", [im 8 2])]; [("i1", [im 10 3])]; [("i2", [im 10 5])]].
Definition woven' : list (@opmsg QcOps) :=
  [[("i1", [im 5 1])]; [("i2", [im 7 4])]; [("i1", [im 8 2])]; [("i2", [im 10 5])]; [("i1", [im 10 3])]].

Definition woven_results (bs : list (@opmsg QcOps)) : list (Z * Q) * list (list (string * list (string * list (Z * Q)))) :=
  match Properties.Order.two_ports with
  | Ok p => match fst (receive_all 9 p bs) with
            | Ok rs => (map show_msg (stream rs "pair" "o1"), map show_pm rs)
            | _ => ([], [])
            end
  | _ => ([], [])
  end.

Example C34_time_order_example :
  (forall x, sent_to x woven = sent_to x woven') /\ in_time_order woven /\ in_time_order woven' /\
  fst (woven_results woven) = [(10, 3 # 1)] /\ fst (woven_results woven') = [(10, 3 # 1)] /\
  snd (woven_results woven) <> snd (woven_results woven').
Proof.
  split; [|split; [|split; [|split; [|split]]]].
  - intros x. unfold sent_to.
    assert (E1 : all_messages woven = [("i1", im 5 1); ("i2", im 7 4); ("i1", im 8 2); ("i1", im 10 3); ("i2", im 10 5)]) by reflexivity.
    assert (E2 : all_messages woven' = [("i1", im 5 1); ("i2", im 7 4); ("i1", im 8 2); ("i2", im 10 5); ("i1", im 10 3)]) by reflexivity.
    rewrite E1, E2. clear. cbn [filter fst].
    destruct (String.eqb_spec "i1" x) as [<-|N1]; [reflexivity|]. destruct (String.eqb "i2" x); reflexivity.
  - unfold in_time_order. cbn. repeat constructor; cbn; lia.
  - unfold in_time_order. cbn. repeat constructor; cbn; lia.
  - vm_compute. reflexivity.
  - vm_compute. reflexivity.
  - vm_compute. discriminate.
Qed.

End Diamond.

(** ** Example for joins in any order: the input minus the input five earlier

    TimeShift changes times, so the program is not synchronous in the sense of [synchronous_at]. *)
Definition lagged : res (@program QcOps) :=
  build [mk_input "in" 1; mk_timeshift "lag" 5 1; mk_binary "minus" BMinus]
        [("in", "o1", "lag", "i1"); ("in", "o1", "minus", "i1"); ("lag", "o1", "minus", "i2")] "in" [].
Definition lagged_batches : list (@opmsg QcOps) := [[("i1", [im 1 10; im 6 20; im 7 30])]; [("i1", [im 11 40; im 12 80])]].

Example C72_any_order_example :
  match lagged with
  | Ok p => match fst (receive_all 9 p lagged_batches) with
            | Ok rs => (map show_msg (stream rs "in" "o1"), map show_msg (stream rs "lag" "o1"), map show_msg (stream rs "minus" "o1"))
            | _ => ([], [], []) end
  | _ => ([], [], [])
  end = ([(1, 10%Q); (6, 20%Q); (7, 30%Q); (11, 40%Q); (12, 80%Q)],
         [(6, 10%Q); (11, 20%Q); (12, 30%Q); (16, 40%Q); (17, 80%Q)],
         [(6, 10%Q); (11, 20%Q); (12, 50%Q)]).
Proof. vm_compute. reflexivity. Qed.

Example C72_any_order_hypotheses :
  match lagged with
  | Ok p => wf_heap (p_ops p) /\ named (p_ops p) /\ (exists rank, ranked rank (p_ops p)) /\ one_feed (p_ops p) /\ p_entry p = "in" /\
      (exists o cs, mk_binary "minus" BMinus = Ok o /\ sfind "minus" (p_ops p) = Some (with_conns cs o)) /\
      fed_by (p_ops p) "minus" "i1" ("in", "o1") /\ fed_by (p_ops p) "minus" "i2" ("lag", "o1")
  | _ => False
  end.
Proof.
  assert (X : match lagged with
              | Ok p => (edges (p_ops p), (Properties.Order.feeds (p_ops p), map (fun x => (fst x, o_conns (op_base (snd x)))) (p_ops p)))
              | _ => ([], ([], [])) end =
      ([("in", "lag"); ("in", "minus"); ("lag", "minus")],
       ([("lag", "i1", ("in", "o1")); ("minus", "i1", ("in", "o1")); ("minus", "i2", ("lag", "o1"))],
        [("in", [("o1", [("lag", "i1"); ("minus", "i1")])]); ("lag", [("o1", [("minus", "i2")])]); ("minus", [])]))) by (vm_compute; reflexivity).
  assert (Y : match lagged with Ok p => p_entry p = "in" /\ sfind "minus" (p_ops p) = match mk_binary "minus" BMinus with Ok o => Some o | _ => None end | _ => False end) by (repeat split; reflexivity).
  assert (B : forall p, lagged = Ok p -> wf_heap (p_ops p) /\ named (p_ops p)).
  { intros p E. eapply build_wf; [|exact E]. intros o [H|[H|[H|[]]]]; eapply mk_wf; try (exact (eq_sym H)).
    - apply mk_input_made.
    - intros o'. now apply mk_simple_made.
    - apply mk_binary_made. }
  destruct lagged as [p| | | |]; try contradiction Y. destruct (B p eq_refl) as (W & N). clear B.
  assert (X1 := f_equal fst X). assert (X2 := f_equal (fun x => fst (snd x)) X). assert (X3 := f_equal (fun x => snd (snd x)) X). cbn [fst snd] in X1, X2, X3. clear X.
  destruct Y as (Ep & Fm).
  split; [exact W|]. split; [exact N|]. split; [|split; [split|split; [exact Ep|split; [|]]]].
  - exists (fun id => match id with "in" => 2 | "lag" => 1 | _ => 0 end)%nat.
    intros a b H. apply edges_wired in H. rewrite X1 in H. cbn in H. destruct H as [H|[H|[H|[]]]]; injection H as <- <-; cbn; lia.
  - intros id port s1 s2 H1 H2. apply Properties.Order.feeds_fed in H1, H2. rewrite X2 in H1, H2. cbn in H1, H2.
    destruct H1 as [H1|[H1|[H1|[]]]]; destruct H2 as [H2|[H2|[H2|[]]]]; congruence.
  - intros id port. unfold wires. destruct (sfind id (p_ops p)) as [o|] eqn:F; [|constructor].
    apply sfind_In in F. apply (in_map (fun x => (fst x, o_conns (op_base (snd x))))) in F. rewrite X3 in F. cbn in F.
    destruct F as [F|[F|[F|[]]]]; injection F as _ <-; cbn; try destruct (String.eqb port "o1"); cbn;
      repeat constructor; cbn; intuition congruence.
  - cbn in Fm. eexists _, []. split; [reflexivity|]. exact Fm.
  - assert (Gc : forall a o, sfind a (p_ops p) = Some o -> In (a, o_conns (op_base o)) (map (fun x => (fst x, o_conns (op_base (snd x)))) (p_ops p))).
    { intros a o F. apply sfind_In in F. now apply (in_map (fun x => (fst x, o_conns (op_base (snd x))))) in F. }
    assert (K : forall a, In a ["in"; "lag"; "minus"] -> exists o, sfind a (p_ops p) = Some o).
    { intros a Ha. apply In_skeys_sfind. apply (f_equal (map fst)) in X3. rewrite map_map in X3. unfold skeys.
      change (map fst (p_ops p)) with (map (fun x => fst (fst x, o_conns (op_base (snd x)))) (p_ops p)). rewrite X3. exact Ha. }
    assert (Fi : fed_by (p_ops p) "minus" "i1" ("in", "o1")).
    { destruct (K "in") as (o & F); [cbn; auto|]. unfold fed_by, wires. cbn [fst snd]. rewrite F. apply Gc in F. rewrite X3 in F. cbn in F.
      destruct F as [F|[F|[F|[]]]]; try discriminate F. injection F as <-. cbn. auto. }
    assert (Fl2 : fed_by (p_ops p) "minus" "i2" ("lag", "o1")).
    { destruct (K "lag") as (o & F); [cbn; auto|]. unfold fed_by, wires. cbn [fst snd]. rewrite F. apply Gc in F. rewrite X3 in F. cbn in F.
      destruct F as [F|[F|[F|[]]]]; try discriminate F. injection F as <-. cbn. auto. }
    split; [exact Fi|exact Fl2].
Qed.

(** a Join whose first input was filled before the second: both have a message for time 10, the
    Join has not emitted it and keeps both *)
Example C72_late_example :
  match Properties.Order.two_ports with
  | Ok p => match receive_all 9 p [[("i1", [im 5 1; im 8 2; im 10 3])]; [("i2", [im 7 4; im 10 5])]] with
            | (Ok rs, p') => (map show_msg (stream rs "in" "o1"), map show_msg (stream rs "in" "o2"), map show_msg (stream rs "pair" "o1"),
                              match sfind "pair" (p_ops p') with
                              | Some o => map (fun x => (fst x, times (ip_data (snd x)))) (o_data (op_base o)) | None => [] end)
            | _ => ([], [], [], []) end
  | _ => ([], [], [], [])
  end = ([(5, 1%Q); (8, 2%Q); (10, 3%Q)], [(7, 4%Q); (10, 5%Q)], [], [("i1", [8; 10]); ("i2", [10])]).
Proof. vm_compute. reflexivity. Qed.

End Example_.

Print Assumptions C72_join_any_order.
Print Assumptions C72_two_input_any_order.
Print Assumptions C72_linear_any_order.
