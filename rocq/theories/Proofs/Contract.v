(** * Programs whose operators keep a contract do not fail *)

From Coq Require Import String ZArith Bool List Lia.
From Verif Require Import Base.StrMap Base.Num Base.NumInt Model.Core Model.Ops Model.Graph Model.Run Model.Json.
From Verif Require Import Spec.Streams Spec.Shape Spec.Preserving Spec.Join Spec.Cause Spec.Build Spec.Snapshot Spec.Depth Spec.Definition Spec.Reliable Spec.Synchronous Spec.Log.
From Verif Require Import Proofs.Lists Proofs.ShapeP Proofs.LogRun Proofs.DepthP Proofs.JsonP Proofs.MakeP Proofs.Deep Proofs.ReliableP Proofs.ReliableRun Proofs.ReliableNew Proofs.PipelineP Proofs.CauseP.
From Verif Require Properties.Graph Properties.Definition.
Import ListNotations.
Open Scope string_scope.
Open Scope list_scope.
Open Scope Z_scope.
Open Scope rtbot_scope.

Section Contract.
Context {NO : NumOps}.

Lemma ranked_top (rank : string -> nat) (h : heap) : exists top, forall id o, sfind id h = Some o -> (rank id <= top)%nat.
Proof.
  assert (X : exists top, forall id o, In (id, o) h -> (rank id <= top)%nat).
  { induction h as [|[i x] h [top IH]]; [exists 0%nat; intros ? ? []|].
    exists (Nat.max top (rank i)). intros id o [[= -> ->]|I]; [lia|]. specialize (IH _ _ I). lia. }
  destruct X as [top X]. exists top. intros id o F. apply (X id o). now apply sfind_In in F.
Qed.

Lemma fed_there h id port a q : fed_by h id port (a, q) -> exists o, sfind a h = Some o.
Proof. unfold fed_by, wires. cbn. destruct (sfind a h) as [o|]; [eauto|intros []]. Qed.

(** what all operators have emitted meets the assumptions *)
Lemma contract_made rank h ep ms G did made : ranked rank h -> contract h ep ms G ->
  (forall a oa, sfind a h = Some oa -> given h ep ms made a (did a) /\ exists oa', run oa (did a) = (Ok (made a), oa')) ->
  forall a o, sfind a h = Some o -> forall q, G a q (on_port q (made a)).
Proof.
  intros Rk C D. destruct (ranked_top rank h) as [top T].
  assert (X : forall k a o, sfind a h = Some o -> (top - rank a <= k)%nat -> forall q, G a q (on_port q (made a))).
  { induction k as [|k IH]; intros a o F L q; destruct (D a o F) as [Gv (o' & R)].
    - destruct (C a o made (did a) F) as (outs & o1 & R1 & _ & Go); auto.
      + intros port b q' Fb. exfalso. destruct (fed_there _ _ _ _ _ Fb) as [ob Hb].
        specialize (Rk b a). assert (rank a < rank b)%nat by (apply Rk; exists q', port; exact Fb). specialize (T _ _ Hb). lia.
      + rewrite R in R1. injection R1 as <- _. auto.
    - destruct (C a o made (did a) F) as (outs & o1 & R1 & _ & Go); auto.
      + intros port b q' Fb. destruct (fed_there _ _ _ _ _ Fb) as [ob Hb]. apply (IH b ob Hb).
        assert (rank a < rank b)%nat by (apply Rk; exists q', port; exact Fb). specialize (T _ _ Hb). lia.
      + rewrite R in R1. injection R1 as <- _. auto. }
  intros a o F q. exact (X _ a o F (le_n _) q).
Qed.

Lemma receive_all_quiet n batches : forall p level, wf_heap (p_ops p) -> fits false (p_ops p) level -> (level (p_entry p) < n)%nat ->
  fst (receive_all n p batches) <> OutOfFuel.
Proof.
  induction batches as [|b batches IH]; intros p level W F L; [discriminate|]. cbn [receive_all].
  destruct (Properties.Graph.receive_debug_quiet false n p b level W F L) as [Q _].
  assert (Er : erase_heap (p_ops (snd (receive_debug n p b))) = erase_heap (p_ops p) /\ p_entry (snd (receive_debug n p b)) = p_entry p).
  { unfold receive_debug. destruct (shas (p_entry p) (p_ops p)); [|auto]. pose proof (send_batch_keeps n (p_entry p) b [] (p_ops p) W) as X.
    destruct (send_batch n (p_entry p) b [] (p_ops p)) as [y h]. exact (conj X eq_refl). }
  destruct Er as [E Ee].
  destruct (receive_debug n p b) as [[r|e| | |] p1]; cbn [fst snd bind sbind] in *; try discriminate; auto.
  unfold sbind. cbn [fst snd]. specialize (IH p1 level). destruct (receive_all n p1 batches) as [[rs|e| | |] p2]; cbn in *; try discriminate.
  apply IH; [eapply wf_heap_same; eauto|eapply fits_same; eauto|now rewrite Ee].
Qed.

Theorem contract_no_failure rank n p batches G :
  wf_heap (p_ops p) -> named (p_ops p) -> ranked rank (p_ops p) -> one_feed (p_ops p) ->
  (forall id o, sfind id (p_ops p) = Some o -> is_pipeline o = false) ->
  (forall a q c, In c (wires (p_ops p) a q) -> exists o, sfind (fst c) (p_ops p) = Some o) ->
  (exists o, sfind (p_entry p) (p_ops p) = Some o) -> (heap_size (p_ops p) < n)%nat ->
  contract (p_ops p) (p_entry p) (all_messages batches) G ->
  exists rs p', receive_all n p batches = (Ok rs, p').
Proof.
  intros W N Rk Of Np Cl He L C. destruct (receive_all n p batches) as [r p'] eqn:E.
  assert (Fu : r <> OutOfFuel).
  { intros ->. assert (A : acyclic (p_ops p)).
    { apply (Properties.Graph.ranked_acyclic rank); auto. intros id b js ops ins outs pm F. apply Np in F. discriminate F. }
    apply (acyclic_fits false (p_ops p) W A); [discriminate|]. intros (level & F & Hl).
    apply (receive_all_quiet n batches p level W F); [specialize (Hl (p_entry p)); lia|]. now rewrite E. }
  assert (X : ending r = Ok tt \/ ending r <> Ok tt) by (destruct r; cbn; auto; right; discriminate).
  destruct X as [X|X]; [destruct r; try discriminate X; eauto|].
  assert (Fe : ending r <> OutOfFuel) by (destruct r; cbn; try discriminate; now destruct Fu).
  destruct (program_fails rank n p batches r p' _ W N Rk Of Np Cl He E eq_refl X Fe) as (did & made & id & o & e & D & F & Gv & B).
  exfalso. pose proof (contract_made rank _ _ _ G did made Rk C D) as M.
  destruct (C id o made (did id ++ [e]) F) as (outs & o' & R & De & _); auto.
  { intros port a q Fb. destruct (fed_there _ _ _ _ _ Fb) as [oa Fa]. exact (M a oa Fa q). }
  destruct B as [[B Bn]|(outs' & out & o1 & port & ms & R1 & I1 & I2 & Mm & _)].
  - rewrite R in B. cbn in B. congruence.
  - rewrite R in R1. injection R1 as <- <-. specialize (De out port ms I1 I2). congruence.
Qed.

(** ** Reliable operators keep any contract that asks nothing of them *)

Lemma run_local o evs : wf_op o -> local (op_base o) (op_kind o) -> Forall (for_inputs o) evs ->
  exists outs o', run o evs = (Ok outs, o') /\
    forall out port l, In out outs -> In (port, l) out -> sset_mem port (o_outs (op_base o)) = true.
Proof.
  revert o. induction evs as [|e evs IH]; intros o W Lo Fi; [exists [], o; split; [reflexivity|intros out port l []]|].
  inversion Fi as [|? ? Fe Fs]; subst.
  assert (St : exists out o1, step o e = (Ok out, o1) /\ ports_in out (o_outs (op_base o)) /\ local (op_base o1) (op_kind o1) /\ erase o1 = erase o).
  { destruct o as [b k]. cbn [op_base op_kind] in *. destruct e as [port m|port m| |]; cbn [for_inputs] in Fe.
    - destruct (recv_local_ok b k m port W Lo) as [R L1]; [now apply shas_spec in Fe|].
      pose proof (recv_data_local_erase (Op b k) m port W) as E. cbn [step].
      destruct (recv_data_local (Op b k) m port) as [r o1]. cbn [fst snd] in *. subst r. exists [], o1. split; [reflexivity|split; [intros ? ? []|split; [exact L1|exact E]]].
    - destruct Lo as [[Kc _] _]. unfold is_control_input in Fe. cbn in Fe. rewrite Kc in Fe. discriminate Fe.
    - destruct (exec_local_ok b k Lo) as (out & R & P & L1). pose proof (exec_data_local_erase (Op b k)) as E. cbn [step].
      destruct (exec_data_local (Op b k)) as [r o1]. cbn [fst snd] in *. subst r. exists out, o1. split; [reflexivity|split; [exact P|split; [exact L1|exact E]]].
    - destruct Fe as [port Fe]. destruct Lo as [[Kc _] _]. unfold is_control_input in Fe. cbn in Fe. rewrite Kc in Fe. discriminate Fe. }
  destruct St as (out & o1 & S1 & P & L1 & E).
  destruct (IH o1) as (outs & o2 & R & De).
  - eapply wf_same; eauto.
  - exact L1.
  - assert (D : forall p, is_data_input o1 p = is_data_input o p /\ is_control_input o1 p = is_control_input o p).
    { intros p. split; [rewrite <- (erase_is_data o1), <- (erase_is_data o)|rewrite <- (erase_is_ctrl o1), <- (erase_is_ctrl o)]; now rewrite E. }
    eapply Forall_impl; [|exact Fs]. intros [p m|p m| |]; cbn; auto; try (now rewrite ?(proj1 (D p)), ?(proj2 (D p))).
    intros [p Hp]. exists p. now rewrite (proj2 (D p)).
  - exists (out :: outs), o2. cbn [run]. rewrite S1. cbn [bind sbind]. unfold sbind. cbn [fst snd]. rewrite R. split; [reflexivity|].
    assert (Eo : o_outs (op_base o1) = o_outs (op_base o)) by now apply same_outs in E as [E _].
    intros out' port l [<-|I] Ip; [|rewrite <- Eo; eauto]. apply sset_mem_In. eauto.
Qed.

End Contract.

Section Made.
Context {NO : NumOps} {NI : NumInt NO} {JT : JsonText}.

Lemma new_closed g text p : new_prog g text = Ok p ->
  forall a q c, In c (wires (p_ops p) a q) -> exists o, sfind (fst c) (p_ops p) = Some o.
Proof.
  intros H.
  assert (C : forall a b, wired (p_ops p) a b -> exists o, sfind b (p_ops p) = Some o).
  { unfold new_prog in H. apply rbind_ok in H as (j & _ & H).
    destruct (init_cases _ _ _ _ H) as (entry & filter & h & h' & cs & o & _ & _ & _ & E & _ & Rc & _ & [[_ ->]|[_ ->]]); cbn [p_ops].
    + destruct (operators_good _ _ _ E) as [_ N]. destruct (read_conns_ok _ _ _ Rc) as (cl & rs & _ & F & Rw).
      now destruct (wired_new _ _ _ _ N F Rw) as (_ & C & _).
    + intros a b (port & tp & []). }
  intros a q [b p'] I. apply (C a). exists q, p'. exact I.
Qed.

(** a reliable operator of a new program, called for its own inputs, answers *)
Lemma new_reliable g text p id o evs : new_prog g text = Ok p -> sfind id (p_ops p) = Some o -> reliable o -> is_pipeline o = false ->
  Forall (for_inputs o) evs ->
  exists outs o', run o evs = (Ok outs, o') /\
    forall out port l, In out outs -> In (port, l) out -> sset_mem port (o_outs (op_base o)) = true.
Proof.
  intros H F R Np Fi. pose proof (new_prog_meant _ _ _ H) as A. pose proof (every_L _ _ (Deep.all_find _ _ _ _ A F)) as M.
  destruct o as [b k]. assert (S : simple k) by (destruct k; try exact I; discriminate Np).
  pose proof (M R) as X. apply node_simple in X as [W Lo]; auto. now apply run_local.
Qed.

End Made.
