(** * What an operator emits when its messages come in order of time and it is executed after each *)

From Coq Require Import String ZArith Bool List Lia Sorted Arith.
From Verif Require Import Base.StrMap Base.Num Model.Core Model.Ops Model.Make Model.Run Model.Graph.
From Verif Require Import Spec.Shape Spec.Log Spec.Preserving Spec.Streams Spec.Operators Spec.Multi Spec.Demux Spec.Join Spec.Synchronous.
From Verif Require Import Proofs.Lists Proofs.Ports Proofs.Window Proofs.VariableP Proofs.InputP Proofs.OutputP Proofs.JoinP Proofs.JoinRun Proofs.JoinKinds Proofs.JoinOrder.
From Verif Require Import Proofs.Conns Proofs.Monotone Proofs.Monotone2 Proofs.Increasing Proofs.Rounds Proofs.Prompt.
Import ListNotations.
Open Scope string_scope.
Open Scope list_scope.
Open Scope Z_scope.
Open Scope rtbot_scope.

Section Settled.
Context {NO : NumOps}.

Definition tidy (o : op) (evs : list ev) : Prop :=
  ports_exist o evs /\ no_control evs /\ orderly evs /\ pending evs = false /\
  (forall x, increasing (times (hist x evs))) /\
  (forall p, spaced p false evs /\ waits p false evs = false).

Lemma tidy_conns cs o evs : tidy (with_conns cs o) evs -> tidy o evs.
Proof. intros (A & B). split; [now apply ports_exist_conns in A|exact B]. Qed.

(** ** One message at a time on a port *)

Lemma spaced_processed_from p evs : forall w,
  spaced p (match w with Some _ => true | None => false end) evs ->
  waits p (match w with Some _ => true | None => false end) evs = false ->
  processed_from w (project p evs) = match w with Some m => [m] | None => [] end ++ hist p evs.
Proof.
  unfold hist. induction evs as [|e evs IH]; intros w S Wt; [destruct w; [discriminate Wt|reflexivity]|].
  destruct e as [q m|q m| |]; cbn [project filter spaced] in *.
  - unfold waits in Wt. cbn [fold_left] in Wt. destruct (String.eqb q p); cbn [orb] in Wt.
    + destruct S as (Ew & S). destruct w; [discriminate Ew|]. cbn. apply (IH (Some m)); auto.
    + now apply IH.
  - now apply IH.
  - unfold waits in Wt. cbn [fold_left] in Wt. cbn. destruct w; cbn; [f_equal|]; apply (IH None); auto.
  - now apply IH.
Qed.
Lemma spaced_processed p evs : spaced p false evs -> waits p false evs = false -> processed (project p evs) = hist p evs.
Proof. apply (spaced_processed_from p evs None). Qed.

Lemma unfed_spaced p evs : hist p evs = [] -> spaced p false evs /\ waits p false evs = false.
Proof.
  unfold hist. induction evs as [|e evs IH]; intros H; [cbn; auto|].
  destruct e as [q m|q m| |]; cbn [project filter spaced] in *; auto.
  unfold waits. cbn [fold_left]. destruct (String.eqb q p); [discriminate H|]. apply IH, H.
Qed.

Lemma ports_data_on n b k evs : numbered n (skeys (o_data b)) -> ports_exist (Op b k) evs -> no_control evs -> data_on n evs.
Proof.
  intros Nu Pe Nc. unfold data_on. apply Forall_forall. intros e He. unfold ports_exist, no_control in *.
  rewrite Forall_forall in Pe, Nc. specialize (Pe _ He). specialize (Nc _ He).
  destruct e as [p m| | |]; auto. unfold is_data_input, shas in *. cbn in Pe. destruct (sfind p (o_data b)) as [q|] eqn:F; [|discriminate Pe].
  apply Nu. unfold skeys. apply in_map_iff. exists (p, q). split; auto. now apply sfind_In.
Qed.

Lemma add_ports_numbered n mx outs id b : add_ports (seq 1 n) mx outs (base0 id) = Ok b -> numbered n (skeys (o_data b)).
Proof.
  intros A. destruct (add_ports_spec (seq 1 n) mx outs (base0 id)) as (b' & E & W & Sp & _); auto using seq_NoDup; [constructor|].
  rewrite A in E. injection E as <-. cbn in Sp. intros x. split.
  - intros Hx. apply In_skeys_sfind in Hx as (p & Fp). rewrite Sp in Fp. destruct (num_ports _ _ _ _) eqn:N; [|discriminate].
    now apply num_ports_In in N.
  - intros (j & Hj & ->). eapply (sfind_In_key _ (new_port (iport j) mx)). rewrite Sp. unfold num_ports.
    rewrite find_from; auto using iport_inj. apply in_seq. lia.
Qed.

(** ** Input and Output *)

Lemma input_settled id n o evs outs o' : mk_input id n = Ok o -> tidy o evs -> run o evs = (Ok outs, o') ->
  (forall k, (1 <= k <= n)%nat -> on_port (oport k) outs = hist (iport k) evs) /\
  (forall x, (forall k, (1 <= k <= n)%nat -> x <> oport k) -> on_port x outs = []).
Proof.
  intros Ho T R. pose proof T as (Pe & Nc & _ & _ & Inc & Sp).
  assert (On : data_on n evs).
  { unfold mk_input in Ho. destruct (add_ports (seq 1 n) 1 true (base0 id)) as [b| | | |] eqn:A; try discriminate Ho.
    cbn in Ho. injection Ho as <-. eapply ports_data_on; eauto. eapply add_ports_numbered; eauto. }
  destruct (run_input id n evs On) as (o1 & outs1 & b & ls & E & R1 & _ & Out & Oth).
  rewrite Ho in E. injection E as <-. rewrite R in R1. injection R1 as <- _. split; auto.
  intros k Hk. rewrite Out by auto. destruct (Sp (iport k)) as (S1 & S2). rewrite spaced_processed by auto.
  apply records_all. apply Inc.
Qed.

Lemma output_settled id n o evs outs o' : mk_output id n = Ok o -> tidy o evs -> run o evs = (Ok outs, o') ->
  (forall k, (1 <= k <= n)%nat -> on_port (oport k) outs = hist (iport k) evs) /\
  (forall x, (forall k, (1 <= k <= n)%nat -> x <> oport k) -> on_port x outs = []).
Proof.
  intros Ho T R. pose proof T as (Pe & Nc & _ & _ & Inc & Sp).
  assert (On : data_on n evs).
  { pose proof Ho as Ho'. unfold mk_output in Ho'. destruct (add_ports (seq 1 n) 1 true (base0 id)) as [b| | | |] eqn:A; try discriminate Ho'.
    cbn in Ho'. injection Ho' as <-. eapply ports_data_on; eauto. eapply add_ports_numbered; eauto. }
  destruct (run_output id n o evs Ho On) as (outs1 & o1 & R1 & Out & Oth).
  rewrite R in R1. injection R1 as <- _. split; auto.
  intros k Hk. rewrite Out by auto. destruct (Sp (iport k)) as (S1 & S2). now apply spaced_processed.
Qed.

(** ** Joins *)

Lemma fresh_no_empty n b : fresh n b -> shas "" (o_data b) = false.
Proof.
  intros (_ & Nu & _). unfold shas. destruct (sfind "" (o_data b)) as [p|] eqn:F; auto. apply sfind_In in F. exfalso.
  assert (X : In "" (skeys (o_data b))) by (unfold skeys; apply in_map_iff; exists ("", p); auto).
  apply Nu in X as (j & _ & X). symmetry in X. now apply iport_ne in X.
Qed.

Lemma join_settled n b k g evs outs o' : (1 <= n)%nat -> fresh n b -> processes b k g -> tidy (Op b k) evs ->
  run (Op b k) evs = (Ok outs, o') ->
  forall y, on_port y outs =
    flat_map (fun t => odefault [] (sfind y (g (map (fun x => at_time (hist x evs) t) (skeys (o_data b)))))) (common_times n evs).
Proof.
  intros Hn Fr Pr (Pe & Nc & Or & Pd & Inc & _) R y. pose proof (names_ne n b Hn Fr) as Nn. pose proof Fr as (W0 & Nu & Em). pose proof Pr as (Kj & Hg).
  destruct (order_run b k (skeys (o_data b)) g Kj Nn eq_refl W0 Em Hg evs) as (outs1 & ports & ts & Rk & _ & Se); auto.
  { eapply on_names_of; eauto. eapply fresh_no_empty; eauto. }
  { intros x _. apply Inc. }
  destruct (run_ok_sync n b k g (fun t out => out = g (map (fun x => at_time (hist x evs) t) (skeys (o_data b)))) evs outs1 ports ts)
    as (pend & (ts' & F & E) & _ & Ep); auto.
  { intros j Hj. apply Inc. }
  rewrite (Ep (Se Pd)), app_nil_r in E. rewrite E. clear E Ep.
  destruct Rk as (R1 & _). rewrite R in R1. injection R1 as <- _. clear - F.
  induction F as [|t out ts outs H F IH]; [reflexivity|]. unfold on_port in *. cbn [flat_map]. rewrite IH.
  destruct t as [t|]; cbn [somes flat_map]; rewrite H; reflexivity.
Qed.

(** ** Operators with one port *)

Definition only_i1 (evs : list ev) : Prop :=
  Forall (fun e => match e with EData p _ => p = "i1" | EExec => True | _ => False end) evs.

Lemma prompt_step_exec b k : prompt_kind k = true ->
  step (Op b k) EExec = (let '(r, (b', k')) := exec_base b k in (r, Op b' k')).
Proof. intros H. cbn [step exec_data_local]. destruct k; try discriminate H; reflexivity. Qed.
Lemma prompt_step_data b k p m : prompt_kind k = true ->
  step (Op b k) (EData p m) = match recv_data_base b m p with (Ok _, b') => (Ok [], Op b' k) | (r, b') => (rbind r (fun _ => Ok []), Op b' k) end.
Proof.
  intros H. cbn [step]. unfold recv_data_local. destruct (recv_data_base b m p) as [[[]| | | |] b'] eqn:Q; destruct k; try discriminate H; cbn; rewrite ?Q; reflexivity.
Qed.

Lemma run_feed_from post : forall pre b k outs o', pinv pre b k -> pending pre = false -> orderly (pre ++ post) ->
  only_i1 post -> spaced "i1" false post -> waits "i1" false post = false -> run (Op b k) post = (Ok outs, o') ->
  exists outs' o'', run (Op b k) (feed "i1" (hist "i1" post)) = (Ok outs', o'') /\ forall y, on_port y outs' = on_port y outs.
Proof.
  remember (length post) as len. assert (Hl : (length post <= len)%nat) by lia. clear Heqlen. revert post Hl.
  induction len as [|len IH]; intros post Hl pre b k outs o' I Pd Or On Sp Wt R.
  { destruct post; [|cbn in Hl; lia]. injection R as <- <-. exists [], (Op b k). split; auto. }
  destruct post as [|e post]; [injection R as <- <-; exists [], (Op b k); split; auto|].
  pose proof I as (Hk & Sh & Tp).
  assert (T0 : o_toproc b = []).
  { destruct (o_toproc b) as [|x l] eqn:E; auto. destruct (Tp x) as (p & _ & X & _); [cbn; auto|congruence]. }
  pose proof (Forall_inv On) as He. pose proof (Forall_inv_tail On) as On'.
  destruct e as [p m| | |]; try contradiction; cbn in He.
  - subst p. destruct post as [|e' post].
    { unfold waits in Wt. cbn in Wt. discriminate Wt. }
    cbn [spaced] in Sp. rewrite String.eqb_refl in Sp. destruct Sp as (_ & Sp).
    pose proof (Forall_inv On') as He'. pose proof (Forall_inv_tail On') as On2.
    destruct e' as [p m'| | |]; try contradiction; cbn in He'.
    { subst p. cbn [spaced] in Sp. rewrite String.eqb_refl in Sp. destruct Sp as (F & _). discriminate F. }
    cbn [spaced] in Sp. unfold waits in Wt. cbn [fold_left] in Wt. fold (waits "i1" false post) in Wt.
    change (hist "i1" (EData "i1" m :: EExec :: post)) with (m :: hist "i1" post).
    cbn [feed flat_map app]. fold (feed "i1" (hist "i1" post)).
    change (run (Op b k) (EData "i1" m :: EExec :: feed "i1" (hist "i1" post))) with (run (Op b k) ([EData "i1" m; EExec] ++ feed "i1" (hist "i1" post))).
    change (EData "i1" m :: EExec :: post) with ([EData "i1" m; EExec] ++ post) in R. rewrite run_app in *.
    destruct (run (Op b k) [EData "i1" m; EExec]) as [[outs1| | | |] o1] eqn:R1; try discriminate R.
    change [EData "i1" m; @EExec NO] with ([EData "i1" m] ++ [@EExec NO]) in R1. apply run_ok_snoc in R1 as (x1 & o2 & out & R1 & St & ->).
    change [EData "i1" m] with ([] ++ [EData "i1" m]) in R1. apply run_ok_snoc in R1 as (x2 & o3 & out0 & R1 & Sd & ->). injection R1 as <- <-.
    rewrite prompt_step_data in Sd by auto. destruct (recv_data_base b m "i1") as [[[]| | | |] b1] eqn:Rv; try discriminate Sd. injection Sd as <- <-.
    assert (I1 : pinv (pre ++ [EData "i1" m]) b1 k) by (eapply pinv_recv; eauto; intros X; congruence).
    rewrite prompt_step_exec in St by auto. destruct (exec_base b1 k) as [r [b2 k2]] eqn:Ex. injection St as -> <-.
    destruct (pinv_exec _ _ _ _ _ _ I1 Ex) as (_ & I2).
    destruct (run (Op b2 k2) post) as [[outs2| | | |] o4] eqn:R2; try discriminate R. injection R as <- <-.
    destruct (IH post) with (pre := (pre ++ [EData "i1" m]) ++ [@EExec NO]) (b := b2) (k := k2) (outs := outs2) (o' := o4) as (outs' & o'' & R' & Q); auto.
    { cbn in Hl. lia. }
    { now rewrite pending_snoc. }
    { rewrite <- !app_assoc. exact Or. }
    rewrite R'. eexists _, _. split; [reflexivity|]. intros y.
    change ([] :: out :: outs2) with ((([] ++ [[]]) ++ [out]) ++ outs2). rewrite (on_port_app y _ outs'), (on_port_app y _ outs2). now rewrite Q.
  - cbn [spaced] in Sp. unfold waits in Wt. cbn [fold_left] in Wt. fold (waits "i1" false post) in Wt.
    change (hist "i1" (EExec :: post)) with (hist "i1" post).
    change (EExec :: post) with ([EExec] ++ post) in R. rewrite run_app in R.
    destruct (run (Op b k) [EExec]) as [[outs1| | | |] o1] eqn:R1; try discriminate R.
    change [@EExec NO] with ([] ++ [@EExec NO]) in R1. apply run_ok_snoc in R1 as (x1 & o2 & out & R1 & St & ->). injection R1 as <- <-.
    rewrite prompt_step_exec in St by auto. destruct (exec_base b k) as [r [b2 k2]] eqn:Ex. injection St as -> <-.
    destruct (pinv_exec _ _ _ _ _ _ I Ex) as (_ & I2).
    assert (Eq : b2 = b /\ k2 = k /\ out = []).
    { unfold exec_base in Ex. rewrite T0 in Ex. cbn [ready_ports] in Ex. injection Ex as <- <- <-. split; auto. destruct b; cbn in T0; subst; reflexivity. }
    destruct Eq as (-> & -> & ->).
    destruct (run (Op b k) post) as [[outs2| | | |] o4] eqn:R2; try discriminate R. injection R as <- <-.
    destruct (IH post) with (pre := pre ++ [@EExec NO]) (b := b) (k := k) (outs := outs2) (o' := o4) as (outs' & o'' & R' & Q); auto.
    { cbn in Hl. lia. }
    { now rewrite pending_snoc. }
    { rewrite <- !app_assoc. exact Or. }
    exists outs', o''. split; auto.
Qed.

(** one port [i1]; the queue of one message where the oldest is used *)
Definition one_port (o : op) : Prop :=
  exists b k, o = Op b k /\ prompt_kind k = true /\ o_toproc b = [] /\ (front_kind k = true -> short b) /\
    forall p, is_data_input o p = true -> p = "i1".

Lemma one_port_settled o evs outs o' : one_port o -> tidy o evs -> run o evs = (Ok outs, o') ->
  exists outs' o'', run o (feed "i1" (hist "i1" evs)) = (Ok outs', o'') /\ forall y, on_port y outs' = on_port y outs.
Proof.
  intros (b & k & -> & Hk & T0 & Sh & Ip) (Pe & Nc & Or & Pd & Inc & Sp) R. destruct (Sp "i1") as (S1 & S2).
  apply (run_feed_from evs [] b k outs o'); auto.
  - split; auto. split; auto. rewrite T0. intros x [].
  - unfold only_i1, ports_exist, no_control in *. rewrite Forall_forall in *. intros e He. specialize (Pe _ He). specialize (Nc _ He).
    destruct e; auto.
Qed.

Lemma sop_one_port id n k : prompt_kind k = true -> (front_kind k = true -> n = 1) ->
  one_port (sop id ["o1"] [] (new_port "i1" n) false k).
Proof.
  intros Hk Hn. eexists _, _. split; [reflexivity|]. split; auto. split; auto. split.
  - intros F. specialize (Hn F) as ->. intros x p H. cbn in H. destruct (String.eqb x "i1"); [injection H as <-; cbn; auto|discriminate].
  - intros p H. unfold is_data_input, shas in H. cbn in H. destruct (String.eqb_spec p "i1"); [auto|discriminate].
Qed.

(** ** Every constructor *)

Inductive shape : op -> Prop :=
| Sh_one o : one_port o -> shape o
| Sh_input id n o : mk_input id n = Ok o -> shape o
| Sh_output id n o : mk_output id n = Ok o -> shape o
| Sh_join n b k g : (1 <= n)%nat -> fresh n b -> processes b k g -> shape (Op b k).

Lemma constructed_shape o : constructed o -> match op_kind o with KPeak | KDemux _ | KVariable _ _ => False | _ => True end -> shape o.
Proof.
  intros [id n o' H|id n o' H|id n o' H|id f v o' H|id v o' H|id v o' H|id v o' H|id v o' H|id o' H|id o' H|id o' H|id l ty o' H
         |id n o' Hn H|id n o' Hn H|id n o' Hn H|id c o' Hc H|id n g1 g2 g3 g4 o' Hn H|id n o' H|id f o' H|id c o' H|id n o' H|id v o' H] Im.
  - eapply Sh_input; eauto.
  - eapply Sh_output; eauto.
  - apply Sh_one. cbn in H. injection H as <-. eexists _, _. split; [reflexivity|]. split; [reflexivity|]. split; [reflexivity|].
    split; [intros F; discriminate F|]. intros p Hp. unfold is_data_input, shas in Hp. cbn in Hp. destruct (String.eqb_spec p "i1"); [auto|discriminate].
  - apply Sh_one. unfold mk_filter in H. rewrite mk_simple_sop in H. injection H as <-. now apply sop_one_port.
  - apply Sh_one. unfold mk_add in H. rewrite mk_simple_sop in H. injection H as <-. now apply sop_one_port.
  - apply Sh_one. unfold mk_scale in H. rewrite mk_simple_sop in H. injection H as <-. now apply sop_one_port.
  - apply Sh_one. unfold mk_power in H. rewrite mk_simple_sop in H. injection H as <-. now apply sop_one_port.
  - apply Sh_one. unfold mk_constant in H. rewrite mk_simple_sop in H. injection H as <-. now apply sop_one_port.
  - apply Sh_one. unfold mk_identity in H. rewrite mk_simple_sop in H. injection H as <-. now apply sop_one_port.
  - apply Sh_one. unfold mk_count in H. rewrite mk_simple_sop in H. injection H as <-. now apply sop_one_port.
  - apply Sh_one. unfold mk_cumsum in H. rewrite mk_simple_sop in H. injection H as <-. now apply sop_one_port.
  - apply Sh_one. unfold mk_function in H. destruct (Nat.ltb _ _); [discriminate H|]. destruct (String.eqb ty "linear").
    { rewrite mk_simple_sop in H. injection H as <-. now apply sop_one_port. }
    destruct (String.eqb ty "hermite"); [|discriminate H]. rewrite mk_simple_sop in H. injection H as <-. now apply sop_one_port.
  - apply Sh_one. unfold mk_movavg in H. rewrite mk_simple_sop in H. injection H as <-. now apply sop_one_port.
  - apply Sh_one. unfold mk_stddev in H. rewrite mk_simple_sop in H. injection H as <-. now apply sop_one_port.
  - unfold mk_peak in H. rewrite mk_simple_sop in H. injection H as <-. destruct Im.
  - apply Sh_one. unfold mk_fir in H. rewrite mk_simple_sop in H. injection H as <-. now apply sop_one_port.
  - apply Sh_one. unfold mk_rsi in H. rewrite mk_simple_sop in H. injection H as <-. now apply sop_one_port.
  - destruct (mk_join_fresh _ _ _ H) as (b & -> & Hn & Fr & Pr). eapply (Sh_join n); eauto. lia.
  - destruct (mk_binary_fresh _ _ _ H) as (b & -> & Fr & _ & Pr). eapply (Sh_join 2); eauto.
  - destruct (mk_linear_fresh _ _ _ H) as (b & -> & Hn & Fr & _ & Pr). eapply (Sh_join (length c)); eauto. lia.
  - unfold mk_demux in H. destruct (Nat.ltb _ _); [discriminate H|]. destruct (add_ctrls _ _) as [b| | | |]; try discriminate H. cbn [rbind] in H.
    destruct (add_data _ _ _); try discriminate H. injection H as <-. destruct Im.
  - cbn in H. injection H as <-. destruct Im.
Qed.

Lemma common_times_ext n e1 e2 : (forall p, hist p e1 = hist p e2) -> common_times n e1 = common_times n e2.
Proof.
  intros H. unfold common_times. rewrite H. apply filter_ext. intros t. induction (seq 1 n); cbn; auto. now rewrite H, IHl.
Qed.

(** what an operator emits depends only on what its ports received *)
Lemma shape_determined o e1 e2 outs1 o1 outs2 o2 : shape o -> tidy o e1 -> tidy o e2 -> (forall p, hist p e1 = hist p e2) ->
  run o e1 = (Ok outs1, o1) -> run o e2 = (Ok outs2, o2) -> forall y, on_port y outs1 = on_port y outs2.
Proof.
  intros S T1 T2 H R1 R2 y. destruct S as [o S|id n o S|id n o S|n b k g Hn Fr Pr].
  - destruct (one_port_settled o e1 outs1 o1 S T1 R1) as (outs' & o' & R & Q).
    destruct (one_port_settled o e2 outs2 o2 S T2 R2) as (outs'' & o'' & R' & Q').
    rewrite <- H, R in R'. injection R' as <- <-. now rewrite <- Q, <- Q'.
  - destruct (input_settled id n o e1 outs1 o1 S T1 R1) as (A1 & B1), (input_settled id n o e2 outs2 o2 S T2 R2) as (A2 & B2).
    destruct (in_dec string_dec y (map oport (seq 1 n))) as [Hy|Hy].
    + apply in_map_iff in Hy as (k & <- & Hk). apply in_seq in Hk. rewrite A1, A2, H by lia. reflexivity.
    + assert (Hy' : forall k, (1 <= k <= n)%nat -> y <> oport k).
      { intros k Hk ->. apply Hy, in_map, in_seq. lia. }
      now rewrite B1, B2.
  - destruct (output_settled id n o e1 outs1 o1 S T1 R1) as (A1 & B1), (output_settled id n o e2 outs2 o2 S T2 R2) as (A2 & B2).
    destruct (in_dec string_dec y (map oport (seq 1 n))) as [Hy|Hy].
    + apply in_map_iff in Hy as (k & <- & Hk). apply in_seq in Hk. rewrite A1, A2, H by lia. reflexivity.
    + assert (Hy' : forall k, (1 <= k <= n)%nat -> y <> oport k).
      { intros k Hk ->. apply Hy, in_map, in_seq. lia. }
      now rewrite B1, B2.
  - rewrite (join_settled n b k g e1 outs1 o1 Hn Fr Pr T1 R1), (join_settled n b k g e2 outs2 o2 Hn Fr Pr T2 R2).
    rewrite (common_times_ext n e1 e2 H). apply flat_map_ext. intros t. f_equal. f_equal. f_equal. apply map_ext. intros x. now rewrite H.
Qed.

Lemma immediate_determined o cs1 cs2 e1 e2 outs1 o1 outs2 o2 : immediate (with_conns cs1 o) -> tidy (with_conns cs1 o) e1 -> tidy (with_conns cs2 o) e2 ->
  (forall p, hist p e1 = hist p e2) ->
  run (with_conns cs1 o) e1 = (Ok outs1, o1) -> run (with_conns cs2 o) e2 = (Ok outs2, o2) -> forall y, on_port y outs1 = on_port y outs2.
Proof.
  intros ((o0 & cs & C & E) & Im) T1 T2 H R1 R2.
  assert (E2 : with_conns cs2 o = with_conns cs2 o0).
  { destruct o as [[] ?], o0 as [[] ?]. cbn in E. injection E as <- <- <- <- <- <- <-. reflexivity. }
  rewrite E2 in R2, T2. rewrite E in R1, T1. rewrite E in Im.
  apply run_conns_ok in R1 as (o1' & R1), R2 as (o2' & R2). apply tidy_conns in T1, T2.
  apply (shape_determined o0 e1 e2 outs1 o1' outs2 o2'); auto. apply constructed_shape; auto.
Qed.

End Settled.
