(** * Operators that emit at the time of the latest message they received *)

From Coq Require Import String ZArith Bool List Lia Sorted.
From Verif Require Import Base.StrMap Base.Num Model.Core Model.Ops Model.Make Model.Run Model.Graph.
From Verif Require Import Spec.Shape Spec.Log Spec.Preserving Spec.Streams Spec.Operators Spec.Multi Spec.Join Spec.Demux Spec.Variable Spec.Synchronous.
From Verif Require Import Proofs.Lists Proofs.Ports Proofs.Window Proofs.Basic Proofs.MakeP Proofs.InputP Proofs.JoinP Proofs.JoinRun Proofs.JoinKinds.
From Verif Require Import Proofs.JoinOrder Proofs.LogP Proofs.LogRun Proofs.LogBal Proofs.Conns Proofs.Monotone Proofs.Monotone2 Proofs.Increasing Proofs.Deep.
Import ListNotations.
Open Scope string_scope.
Open Scope list_scope.
Open Scope Z_scope.
Open Scope rtbot_scope.

Section Prompt.
Context {NO : NumOps}.

Definition no_control (evs : list ev) : Prop :=
  Forall (fun e => match e with ECtrl _ _ | EExecC => False | _ => True end) evs.

Definition at_last (evs : list ev) (out : opmsg) : Prop :=
  forall q ms m, In (q, ms) out -> In m ms -> pending evs = true /\ mtime m = last_time (received evs).

(** what an execution emits has the time of the last message received *)
Definition prompt (o : op) : Prop :=
  forall evs outs out o', run o (evs ++ [EExec]) = (Ok (outs ++ [out]), o') ->
    no_control evs -> ports_exist o evs -> orderly evs -> (forall x, increasing (times (hist x evs))) -> at_last evs out.
(** the same, whatever the ports *)
Definition prompt_always (o : op) : Prop :=
  forall evs outs out o', run o (evs ++ [EExec]) = (Ok (outs ++ [out]), o') ->
    no_control evs -> orderly evs -> at_last evs out.

Lemma prompt_weaken o : prompt_always o -> prompt o.
Proof. intros H evs outs out o' R N _ Or _. eapply H; eauto. Qed.

(** ** Operators that are executed by [Operator::executeData] *)

Definition front_kind (k : kind) : bool := match k with KInput _ _ | KIdentity => true | _ => false end.
Definition prompt_kind (k : kind) : bool := latest_kind k || front_kind k.

Definition short (b : base) : Prop :=
  forall x p, sfind x (o_data b) = Some p -> ip_max p = 1 /\ (length (ip_data p) <= 1)%nat.

Lemma input_loop_front b pm : short b -> forall tp ls out0 out b' k',
  input_loop tp b pm ls out0 = (Ok out, (b', k')) ->
  o_data b' = o_data b /\ front_kind k' = true /\
  forall y ms, sfind y out = Some ms -> sfind y out0 = Some ms \/
    exists x p, In x tp /\ sfind x (o_data b) = Some p /\ ms = [last (ip_data p) msg0].
Proof.
  intros Sh. induction tp as [|x tp IH]; intros ls out0 out b' k' E; cbn [input_loop] in E.
  - injection E as <- <- <-. auto.
  - unfold d_msg in E. destruct (sfind x (o_data b)) as [p|] eqn:Fx; [|discriminate E].
    destruct (q_at (ip_data p) 0) as [m0| | | |] eqn:Q; try discriminate E.
    assert (L0 : m0 = last (ip_data p) msg0).
    { destruct (Sh x p Fx) as (_ & L). destruct (ip_data p) as [|m [|]]; cbn in *; try lia; injection Q as <-; reflexivity. }
    destruct (match sfind x ls with Some l => mtime l <? mtime m0 | None => true end).
    + destruct (sfind x pm) as [o|]; [|discriminate E]. apply IH in E as (D & F & A). split; auto. split; auto.
      intros y ms Hy. destruct (A y ms Hy) as [H|(x' & p' & H1 & H2 & H3)]; [|right; exists x', p'; cbn; auto].
      rewrite sfind_semplace in H. destruct (sfind y out0) eqn:Y; [auto|].
      destruct (String.eqb_spec y o) as [->|]; [|discriminate]. injection H as <-. right. exists x, p. rewrite L0. cbn. auto.
    + apply IH in E as (D & F & A). split; auto. split; auto. intros y ms Hy.
      destruct (A y ms Hy) as [H|(x' & p' & H1 & H2 & H3)]; auto. right. exists x', p'. cbn. auto.
Qed.

Lemma process_prompt b k out b' k' :
  prompt_kind k = true -> o_toproc b <> [] -> (forall x, In x (o_toproc b) -> shas x (o_data b) = true) ->
  (front_kind k = true -> short b) ->
  process_data b k = (Ok out, (b', k')) ->
  o_data b' = o_data b /\ prompt_kind k' = true /\ front_kind k' = front_kind k /\
  forall y ms m, sfind y out = Some ms -> In m ms ->
    exists x p, In x (o_toproc b) /\ sfind x (o_data b) = Some p /\ mtime m = mtime (last (ip_data p) msg0).
Proof.
  intros Hk Hne Hin Sh E. unfold prompt_kind in Hk. destruct (latest_kind k) eqn:Lk.
  - destruct (process_latest b k out b' k' Lk Hne Hin E) as (D & _ & K & _ & Q). split; auto.
    split; [unfold prompt_kind; now rewrite K|]. split; [destruct k; try discriminate Lk; destruct k'; try discriminate K; reflexivity|].
    intros y ms m Hy Hm. destruct (Q y ms Hy) as (x & p & m' & A & B & _ & -> & T). destruct Hm as [<-|[]]. eauto.
  - cbn in Hk. specialize (Sh Hk). destruct k; try discriminate Hk; cbn [process_data] in E.
    + apply (input_loop_front b _ Sh) in E as (D & F & Q). split; auto. split; [unfold prompt_kind; rewrite F; apply orb_true_r|].
      split; [exact F|]. intros y ms m Hy Hm. destruct (Q y ms Hy) as [H|(x & p & A & B & ->)]; [discriminate H|].
      destruct Hm as [<-|[]]. eauto.
    + unfold keep in E. destruct (single_port b) as [x| | | |] eqn:Sp; try discriminate E. cbn [rbind] in E.
      destruct (d_first b x) as [m0| | | |] eqn:Df; try discriminate E. cbn [rbind] in E. injection E as <- <- <-.
      split; auto. split; auto. split; auto. intros y ms m Hy Hm. cbn in Hy. destruct (String.eqb_spec y "o1") as [->|]; [|discriminate]. injection Hy as <-.
      destruct Hm as [<-|[]]. unfold single_port in Sp. destruct (o_data b) as [|[x0 p0] [|]] eqn:D; try discriminate Sp. injection Sp as ->.
      unfold d_first in Df. rewrite D in Df. cbn in Df. rewrite String.eqb_refl in Df. injection Df as <-.
      exists x, p0. destruct (o_toproc b) as [|t tp]; [congruence|].
      specialize (Hin t (or_introl eq_refl)). unfold shas in Hin. cbn in Hin. destruct (String.eqb_spec t x) as [->|]; [|discriminate].
      split; [cbn; auto|]. cbn. rewrite String.eqb_refl. split; auto.
      destruct (Sh x p0) as (_ & L). { rewrite D. cbn. now rewrite String.eqb_refl. }
      destruct (ip_data p0) as [|? [|]]; cbn in *; auto; lia.
Qed.

Definition pinv (evs : list ev) (b : base) (k : kind) : Prop :=
  prompt_kind k = true /\ (front_kind k = true -> short b) /\
  forall x, In x (o_toproc b) -> exists p, sfind x (o_data b) = Some p /\ pending evs = true /\
    mtime (last (ip_data p) msg0) = last_time (received evs).

Lemma pinv_exec evs b k out b' k' : pinv evs b k -> exec_base b k = (Ok out, (b', k')) ->
  at_last evs out /\ pinv (evs ++ [EExec]) b' k'.
Proof.
  intros (Hk & Sh & T) X. pose proof (exec_base_swf b k) as Wf. rewrite X in Wf. cbn in Wf. unfold exec_base in X.
  destruct (ready_ports b (o_toproc b)) as [tp| | | |] eqn:R; try discriminate X.
  pose proof (ready_ports_In _ _ _ R) as Rin.
  destruct tp as [|x0 tp].
  - injection X as <- <- <-. split; [intros ? ? ? []|]. split; auto. split; auto. intros x [].
  - set (tp1 := x0 :: tp) in *. destruct (process_data (set_toproc b tp1) k) as [[out1| | | |] [b1 k1]] eqn:P; try discriminate X.
    injection X as -> <- <-.
    destruct (process_prompt (set_toproc b tp1) k out b1 k1 Hk) as (D & K1 & F1 & Q); [discriminate| |auto|exact P|].
    { intros x Hx. destruct (T x) as (p & Fp & _); [now apply Rin|]. unfold shas. cbn. now rewrite Fp. }
    cbn [o_data set_toproc o_toproc] in D, Q. split.
    + intros q ms m Hq Hm. apply (In_sfind _ _ _ Wf) in Hq. destruct (Q q ms m Hq Hm) as (x & p & Hx & Fx & ->).
      destruct (T x) as (p' & Fp & Pe & L); [now apply Rin|]. rewrite Fx in Fp. injection Fp as <-. auto.
    + split; auto. rewrite F1. split; [|intros x []]. unfold short. cbn. rewrite D. exact Sh.
Qed.

Lemma pinv_recv evs b k p m b' : pinv evs b k -> (pending evs = true -> last_time (received evs) = mtime m) ->
  recv_data_base b m p = (Ok tt, b') -> pinv (evs ++ [EData p m]) b' k.
Proof.
  intros (Hk & Sh & T) Or X. unfold recv_data_base in X. cbv zeta in X. set (x := resolve p (o_data b)) in *.
  destruct (sfind x (o_data b)) as [q|] eqn:F; [|discriminate X].
  destruct (port_receive q m) as [q'| | | |] eqn:P; try discriminate X. injection X as <-.
  assert (Lp : last (ip_data q') msg0 = m).
  { unfold port_receive in P. destruct (_ =? _).
    - destruct (ip_pop q); [|discriminate]. injection P as <-. cbn. apply last_last.
    - destruct (_ <? _); [discriminate|]. injection P as <-. cbn. apply last_last. }
  split; auto. split.
  - intros Fk. specialize (Sh Fk). intros y r Hy. cbn in Hy. rewrite sfind_sset in Hy. destruct (String.eqb_spec y x) as [->|]; [|eauto].
    injection Hy as <-. destruct (Sh x q F) as (Mx & Ln). unfold port_receive, ip_pop, ip_size in P. rewrite Mx in P.
    destruct (ip_data q) as [|a [|]] eqn:Dq; cbn in Ln; try lia; cbn in P; injection P as <-; cbn; rewrite ?Dq; cbn; auto.
  - cbn. rewrite pending_snoc, received_app. cbn [received]. rewrite last_time_snoc. intros y Hy. rewrite sfind_sset.
    destruct (String.eqb_spec y x) as [->|Ne]; [exists q'; now rewrite Lp|].
    apply sset_add_In in Hy as [->|Hy]; [congruence|]. destruct (T y Hy) as (r & Fr & Pe & L). exists r. rewrite L, (Or Pe). auto.
Qed.

Lemma pinv_run b0 k0 evs : prompt_kind k0 = true -> o_toproc b0 = [] -> (front_kind k0 = true -> short b0) ->
  forall outs o', run (Op b0 k0) evs = (Ok outs, o') -> no_control evs -> orderly evs ->
  exists b k, o' = Op b k /\ pinv evs b k.
Proof.
  intros Hk Ht Sh. induction evs as [|e evs IH] using rev_ind; intros outs o' R Nc Or.
  - injection R as <- <-. exists b0, k0. split; auto. split; auto. split; auto. rewrite Ht. intros x [].
  - apply run_ok_snoc in R as (outs1 & o1 & out & R & St & ->). apply Forall_app in Nc as [Nc Ne].
    destruct (IH outs1 o1 R Nc (orderly_app _ _ Or)) as (b & k & -> & I). pose proof (Forall_inv Ne) as He. cbn in He.
    pose proof I as (Hk' & _). destruct e as [p m| | |]; try tauto; cbn [step] in St.
    + unfold recv_data_local in St.
      assert (Q : exists b', recv_data_base b m p = (Ok tt, b') /\ o' = Op b' k).
      { destruct (recv_data_base b m p) as [[[]| | | |] b'] eqn:Q; destruct k; try discriminate Hk'; try discriminate St; injection St as <- <-; eauto. }
      destruct Q as (b' & Q & ->). exists b', k. split; auto. apply (pinv_recv evs b k p m b' I); auto.
      intros Pe. now apply (Or evs p m [] eq_refl).
    + unfold exec_data_local in St.
      assert (Q : exists b' k', exec_base b k = (Ok out, (b', k')) /\ o' = Op b' k').
      { destruct (exec_base b k) as [r [b' k']] eqn:Q; destruct k; try discriminate Hk'; injection St as -> <-; eauto. }
      destruct Q as (b' & k' & Q & ->). exists b', k'. split; auto. now apply (pinv_exec evs b k out b' k' I).
Qed.

Lemma simple_prompt b0 k0 : prompt_kind k0 = true -> o_toproc b0 = [] -> (front_kind k0 = true -> short b0) -> prompt_always (Op b0 k0).
Proof.
  intros Hk Ht Sh evs outs out o' R Nc Or. apply run_ok_snoc in R as (outs1 & o1 & out1 & R & St & E).
  apply app_inj_tail in E as [<- <-].
  destruct (pinv_run b0 k0 evs Hk Ht Sh outs o1 R Nc Or) as (b & k & -> & I). pose proof I as (Hk' & _).
  cbn [step] in St. unfold exec_data_local in St.
  assert (Q : exists b' k', exec_base b k = (Ok out, (b', k')) /\ o' = Op b' k').
  { destruct (exec_base b k) as [r [b' k']] eqn:Q; destruct k; try discriminate Hk'; injection St as -> <-; eauto. }
  destruct Q as (b' & k' & Q & ->). now apply (pinv_exec evs b k out b' k' I).
Qed.

(** ** Joins *)

Lemma on_names_of b k evs : shas "" (o_data b) = false -> ports_exist (Op b k) evs -> no_control evs -> on_names (skeys (o_data b)) evs.
Proof.
  intros Ne Pe Nc. unfold on_names. apply Forall_forall. intros e He.
  unfold ports_exist, no_control in *. rewrite Forall_forall in Pe, Nc. specialize (Pe _ He). specialize (Nc _ He).
  destruct e as [p m| | |]; auto. unfold is_data_input, shas in *. cbn in Pe. destruct (sfind p (o_data b)) as [q|] eqn:F; [|discriminate Pe].
  split; [|intros ->; rewrite F in Ne; discriminate Ne]. unfold skeys. apply in_map_iff. exists (p, q). split; auto. now apply sfind_In.
Qed.


Lemma join_prompt n b0 k g : (1 <= n)%nat -> fresh n b0 -> processes b0 k g ->
  (forall T ms0 q ms m, (forall m, In m ms0 -> mtime m = T) -> ms0 <> [] -> In (q, ms) (g ms0) -> In m ms -> mtime m = T) ->
  prompt (Op b0 k).
Proof.
  intros Hn Fr (Kj & Hg) Gt evs outs out o' R Nc Pe Or Inc. pose proof (names_ne n b0 Hn Fr) as Nn. pose proof Fr as (W0 & Nu & Em).
  assert (Ne : shas "" (o_data b0) = false).
  { unfold shas. destruct (sfind "" (o_data b0)) as [p|] eqn:F; auto. apply sfind_In in F. exfalso.
    assert (X : In "" (skeys (o_data b0))) by (unfold skeys; apply in_map_iff; exists ("", p); auto).
    apply Nu in X as (j & _ & X). symmetry in X. now apply iport_ne in X. }
  destruct (order_emits b0 k (skeys (o_data b0)) g Kj Nn eq_refl W0 Em Hg evs) as (outs1 & o1 & out1 & o2 & R1 & S1 & H); auto.
  { eapply on_names_of; eauto. }
  { intros x _. apply Inc. }
  apply run_ok_snoc in R as (outs' & o1' & out' & R & St & E). apply app_inj_tail in E as [<- <-].
  rewrite R1 in R. injection R as <- <-. rewrite S1 in St. injection St as <- <-.
  destruct H as [->|(Pn & -> & Al)]; [intros ? ? ? []|]. intros q ms m Hq Hm. split; auto.
  refine (Gt _ _ q ms m _ _ Hq Hm).
  - intros m' Hm'. apply in_map_iff in Hm' as (x & <- & Hx). now apply at_time_spec, Al.
  - destruct (skeys (o_data b0)); [congruence|discriminate].
Qed.

Lemma jtuple_In names pm : forall ms0 out0 q ms, In (q, ms) (jtuple names ms0 pm out0) -> In (q, ms) out0 \/ exists m, ms = [m] /\ In m ms0.
Proof.
  induction names as [|x names IH]; intros ms0 out0 q ms H; destruct ms0 as [|m0 ms0]; cbn [jtuple] in H; auto.
  destruct (sfind x pm) as [o|]; [|auto].
  apply IH in H as [H|(m & -> & H)]; [|right; exists m; cbn; auto].
  unfold semplace in H. match type of H with context [match ?x with Some _ => _ | None => _ end] => destruct x end; auto. apply In_sset in H as [[= -> ->]|H]; auto. right. exists m0. cbn. auto.
Qed.

(** ** Every constructor *)

Lemma sop_prompt id n k : prompt_kind k = true -> (front_kind k = true -> n = 1) ->
  prompt_always (sop id ["o1"] [] (new_port "i1" n) false k).
Proof.
  intros Hk Hn. apply simple_prompt; auto. intros F. specialize (Hn F) as ->. intros x p H. cbn in H.
  destruct (String.eqb x "i1"); [injection H as <-; cbn; auto|discriminate].
Qed.

Lemma ports_short n id b : add_ports (seq 1 n) 1 true (base0 id) = Ok b -> short b /\ o_toproc b = [].
Proof.
  intros A. destruct (add_ports_spec (seq 1 n) 1 true (base0 id)) as (b' & E & W & Sp & _ & _ & T & _); auto using seq_NoDup; [constructor|].
  rewrite A in E. injection E as <-. split; auto. intros x p H. rewrite Sp in H.
  destruct (num_ports iport (seq 1 n) 1 x) as [q|] eqn:F; [|discriminate H]. injection H as <-.
  unfold num_ports in F. destruct (find _ _); [|discriminate F]. injection F as <-. cbn. auto.
Qed.

Lemma constructed_prompt o : constructed o -> match op_kind o with KPeak | KDemux _ | KVariable _ _ => False | _ => True end ->
  prompt_always o \/ prompt o.
Proof.
  intros [id n o' H|id n o' H|id n o' H|id f v o' H|id v o' H|id v o' H|id v o' H|id v o' H|id o' H|id o' H|id o' H|id l ty o' H
         |id n o' Hn H|id n o' Hn H|id n o' Hn H|id c o' Hc H|id n g1 g2 g3 g4 o' Hn H|id n o' H|id f o' H|id c o' H|id n o' H|id v o' H] Im.
  - left. unfold mk_input in H. destruct (add_ports (seq 1 n) 1 true (base0 id)) as [b| | | |] eqn:A; try discriminate H.
    cbn in H. injection H as <-. apply ports_short in A as (Sh & T). apply simple_prompt; auto.
  - left. unfold mk_output in H. destruct (add_ports (seq 1 n) 1 true (base0 id)) as [b| | | |] eqn:A; try discriminate H.
    cbn in H. injection H as <-. apply ports_short in A as (Sh & T). apply simple_prompt; auto.
  - left. cbn in H. injection H as <-. apply simple_prompt; auto. discriminate.
  - left. unfold mk_filter in H. rewrite mk_simple_sop in H. injection H as <-. now apply sop_prompt.
  - left. unfold mk_add in H. rewrite mk_simple_sop in H. injection H as <-. now apply sop_prompt.
  - left. unfold mk_scale in H. rewrite mk_simple_sop in H. injection H as <-. now apply sop_prompt.
  - left. unfold mk_power in H. rewrite mk_simple_sop in H. injection H as <-. now apply sop_prompt.
  - left. unfold mk_constant in H. rewrite mk_simple_sop in H. injection H as <-. now apply sop_prompt.
  - left. unfold mk_identity in H. rewrite mk_simple_sop in H. injection H as <-. now apply sop_prompt.
  - left. unfold mk_count in H. rewrite mk_simple_sop in H. injection H as <-. now apply sop_prompt.
  - left. unfold mk_cumsum in H. rewrite mk_simple_sop in H. injection H as <-. now apply sop_prompt.
  - left. unfold mk_function in H. destruct (Nat.ltb _ _); [discriminate H|]. destruct (String.eqb ty "linear").
    { rewrite mk_simple_sop in H. injection H as <-. now apply sop_prompt. }
    destruct (String.eqb ty "hermite"); [|discriminate H]. rewrite mk_simple_sop in H. injection H as <-. now apply sop_prompt.
  - left. unfold mk_movavg in H. rewrite mk_simple_sop in H. injection H as <-. now apply sop_prompt.
  - left. unfold mk_stddev in H. rewrite mk_simple_sop in H. injection H as <-. now apply sop_prompt.
  - unfold mk_peak in H. rewrite mk_simple_sop in H. injection H as <-. destruct Im.
  - left. unfold mk_fir in H. rewrite mk_simple_sop in H. injection H as <-. now apply sop_prompt.
  - left. unfold mk_rsi in H. rewrite mk_simple_sop in H. injection H as <-. now apply sop_prompt.
  - right. destruct (mk_join_fresh _ _ _ H) as (b & -> & Hn & Fr & Pr). eapply (join_prompt n); [lia|exact Fr|exact Pr|].
    intros T ms0 q ms m Ha Hne Hq Hm. apply jtuple_In in Hq as [[]|(m' & -> & H')]. destruct Hm as [<-|[]]. auto.
  - right. destruct (mk_binary_fresh _ _ _ H) as (b & -> & Fr & _ & Pr). eapply (join_prompt 2); [lia|exact Fr|exact Pr|].
    intros T ms0 q ms m Ha Hne Hq Hm. destruct ms0 as [|m0 [|m1 [|]]]; try destruct Hq as [].
    destruct (bin_apply _ _ _); [|destruct Hq]. destruct Hq as [[= <- <-]|[]]. destruct Hm as [<-|[]]. cbn. apply Ha. cbn; auto.
  - right. destruct (mk_linear_fresh _ _ _ H) as (b & -> & Hn & Fr & _ & Pr). eapply (join_prompt (length c)); [lia|exact Fr|exact Pr|].
    intros T ms0 q ms m Ha Hne Hq Hm. destruct ms0 as [|m0 ms0]; [congruence|]. destruct Hq as [[= <- <-]|[]]. destruct Hm as [<-|[]]. cbn. apply Ha. cbn; auto.
  - unfold mk_demux in H. destruct (Nat.ltb _ _); [discriminate H|]. destruct (add_ctrls _ _) as [b| | | |]; try discriminate H. cbn [rbind] in H.
    destruct (add_data _ _ _); try discriminate H. injection H as <-. destruct Im.
  - cbn in H. injection H as <-. destruct Im.
Qed.

Lemma ports_exist_conns cs o evs : ports_exist (with_conns cs o) evs -> ports_exist o evs.
Proof. unfold ports_exist. apply Forall_impl. intros []; destruct o; auto. Qed.

Lemma run_conns_ok cs o evs outs o' : run (with_conns cs o) evs = (Ok outs, o') -> exists o1, run o evs = (Ok outs, o1).
Proof. rewrite run_conns. destruct (run o evs) as [r o1]. cbn. intros [= -> <-]. eauto. Qed.

Lemma immediate_prompt o : immediate o -> prompt o.
Proof.
  intros ((o0 & cs & C & ->) & Im). destruct o0 as [b k]. destruct (constructed_prompt (Op b k) C) as [P|P]; [exact Im| |].
  - intros evs outs out o' R Nc _ Or _. apply run_conns_ok in R as (o1 & R). eapply P; eauto.
  - intros evs outs out o' R Nc Pe Or Inc. apply run_conns_ok in R as (o1 & R). eapply P; eauto.
Qed.

Lemma input_prompt id n o cs : mk_input id n = Ok o -> prompt_always (with_conns cs o).
Proof.
  intros H evs outs out o' R Nc Or. apply run_conns_ok in R as (o1 & R). revert evs outs out o1 R Nc Or. change (prompt_always o).
  unfold mk_input in H. destruct (add_ports (seq 1 n) 1 true (base0 id)) as [b| | | |] eqn:A; try discriminate H.
  cbn in H. injection H as <-. apply ports_short in A as (Sh & T). apply simple_prompt; auto.
Qed.

Lemma constructed_no_ctrl o : constructed o -> match op_kind o with KPeak | KDemux _ | KVariable _ _ => False | _ => True end ->
  o_ctrl (op_base o) = [].
Proof.
  assert (S : forall id n k, mk_simple id n k = Ok o -> o_ctrl (op_base o) = []).
  { intros id n k E. rewrite mk_simple_sop in E. now injection E as <-. }
  assert (P : forall n mx outs id b, add_ports (seq 1 n) mx outs (base0 id) = Ok b -> o_ctrl b = []).
  { intros n mx outs id b A. destruct (add_ports_spec (seq 1 n) mx outs (base0 id)) as (b' & E & _ & _ & C & _); auto using seq_NoDup; [constructor|].
    rewrite A in E. injection E as <-. exact C. }
  intros H Im. destruct H as [id n o' H|id n o' H|id n o' H|id f v o' H|id v o' H|id v o' H|id v o' H|id v o' H|id o' H|id o' H|id o' H|id l ty o' H
         |id n o' Hn H|id n o' Hn H|id n o' Hn H|id c o' Hc H|id n g1 g2 g3 g4 o' Hn H|id n o' H|id f o' H|id c o' H|id n o' H|id v o' H];
    try (eapply S; exact H).
  - unfold mk_input in H. destruct (add_ports _ _ _ _) as [b| | | |] eqn:A; try discriminate H. injection H as <-. eapply P; eauto.
  - unfold mk_output in H. destruct (add_ports _ _ _ _) as [b| | | |] eqn:A; try discriminate H. injection H as <-. eapply P; eauto.
  - cbn in H. now injection H as <-.
  - unfold mk_function in H. destruct (Nat.ltb _ _); [discriminate H|]. destruct (String.eqb ty "linear"); [eapply S; eauto|].
    destruct (String.eqb ty "hermite"); [eapply S; eauto|discriminate H].
  - unfold mk_join in H. destruct (Nat.ltb _ _); [discriminate H|]. destruct (add_ports _ _ _ _) as [b| | | |] eqn:A; try discriminate H.
    injection H as <-. eapply P; eauto.
  - unfold mk_binary in H. destruct (add_ports _ _ _ _) as [b| | | |] eqn:A; try discriminate H.
    injection H as <-. change (o_ctrl b = []). eapply P; eauto.
  - unfold mk_linear in H. destruct (Nat.ltb _ _); [discriminate H|]. destruct (add_ports _ _ _ _) as [b| | | |] eqn:A; try discriminate H.
    injection H as <-. change (o_ctrl b = []). eapply P; eauto.
  - unfold mk_demux in H. destruct (Nat.ltb _ _); [discriminate H|]. destruct (add_ctrls _ _) as [b| | | |]; try discriminate H. cbn [rbind] in H.
    destruct (add_data _ _ _); try discriminate H. injection H as <-. destruct Im.
  - cbn in H. injection H as <-. destruct Im.
Qed.

Lemma immediate_no_ctrl o p : immediate o -> is_control_input o p = false.
Proof.
  intros ((o0 & cs & C & ->) & Im). assert (E : o_ctrl (op_base o0) = []).
  { apply constructed_no_ctrl; auto.  }
  unfold is_control_input. destruct o0 as [b k]. cbn in *. now rewrite E.
Qed.

End Prompt.
