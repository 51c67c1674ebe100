(** * Output: every port passes on the latest message of each execution *)

From Coq Require Import String ZArith Bool List Lia Sorted.
From Verif Require Import Base.StrMap Base.Num Model.Core Model.Ops Model.Make Model.Run.
From Verif Require Import Spec.Streams Spec.Operators Spec.Multi Spec.Join Proofs.Lists Proofs.Ports Proofs.Window Proofs.InputP.
Import ListNotations.
Open Scope string_scope.
Open Scope list_scope.
Open Scope Z_scope.
Open Scope rtbot_scope.

Section OutputP.
Context {NO : NumOps}.

Lemma output_loop_spec (b : base) (pm : smap string) (M : string -> msg) (O : string -> string) tp : forall out,
  NoDup tp -> (forall p, In p tp -> d_last b p = Ok (M p)) -> (forall p, In p tp -> sfind p pm = Some (O p)) ->
  (forall p q, In p tp -> In q tp -> O p = O q -> p = q) -> (forall p, In p tp -> sfind (O p) out = None) ->
  exists out', output_loop tp b pm out = (Ok out', (set_toproc b [], KOutput pm)) /\
    (forall p, In p tp -> sfind (O p) out' = Some [M p]) /\
    (forall x, (forall p, In p tp -> x <> O p) -> sfind x out' = sfind x out).
Proof.
  induction tp as [|p tp IH]; intros out ND HM HO Hinj Hout.
  - exists out. cbn. repeat split; auto; contradiction.
  - inversion ND as [|? ? Hp ND']; subst. cbn [output_loop]. rewrite (HM p), (HO p) by (cbn; auto).
    destruct (IH (semplace (O p) [M p] out)) as (out' & E & H1 & H2); auto.
    + intros q Hq. apply HM. cbn; auto.
    + intros q Hq. apply HO. cbn; auto.
    + intros q r Hq Hr. apply Hinj; cbn; auto.
    + intros q Hq. rewrite sfind_semplace, (Hout q) by (cbn; auto). destruct (String.eqb_spec (O q) (O p)) as [Eq|]; auto.
      apply Hinj in Eq; cbn; auto. subst. contradiction.
    + exists out'. split; [exact E|]. split.
      * intros q [<-|Hq]; auto. rewrite H2.
        -- rewrite sfind_semplace, (Hout p) by (cbn; auto). now rewrite String.eqb_refl.
        -- intros q Hq Eq. apply Hinj in Eq; cbn; auto. subst. contradiction.
      * intros x Hx. rewrite H2 by (intros; apply Hx; cbn; auto). rewrite sfind_semplace.
        destruct (String.eqb_spec x (O p)) as [Ex|]; [exfalso; apply (Hx p); cbn; auto|]. now destruct (sfind x out).
Qed.

Record output_state (n : nat) (evs : list ev) (b : base) : Prop := {
  os_wf : swf (o_data b);
  os_port : forall k, (1 <= k <= n)%nat ->
    sfind (iport k) (o_data b) = Some (port_after (iport k) 1 (received (project (iport k) evs)));
  os_tp_sorted : ssorted (o_toproc b);
  os_tp : forall x, In x (o_toproc b) <->
    exists k, (1 <= k <= n)%nat /\ x = iport k /\ pending (project (iport k) evs) = true
}.

Lemma output_state_exec n evs b :
  output_state n evs b ->
  exists out b',
    exec_data_local (Op b (KOutput (port_map iport n))) = (Ok out, Op b' (KOutput (port_map iport n))) /\
    (forall k, (1 <= k <= n)%nat ->
       sfind (oport k) out =
       if pending (project (iport k) evs) then Some [last (received (project (iport k) evs)) msg0] else None) /\
    (forall x, (forall k, (1 <= k <= n)%nat -> x <> oport k) -> sfind x out = None) /\
    output_state n (evs ++ [EExec]) b'.
Proof.
  intros [W HP TS HT].
  assert (One : forall k, pending (project (iport k) evs) = true ->
     ip_data (port_after (iport k) 1 (received (project (iport k) evs))) =
     [last (received (project (iport k) evs)) msg0]).
  { intros k Pk. rewrite port_after_data by lia. change (Z.to_nat (eff 1)) with 1%nat.
    apply pending_received in Pk. destruct (received (project (iport k) evs)) as [|m h] using rev_ind; [congruence|].
    now rewrite lastn_snoc, lastn_0, last_last. }
  assert (R : ready_ports b (o_toproc b) = Ok (o_toproc b)).
  { apply ready_all. intros p Hp. apply HT in Hp as (k & Hk & -> & Pk). split; [apply iport_ne|].
    eexists. split; [apply HP; auto|]. rewrite port_after_full by lia. change (eff 1) with 1.
    apply pending_received in Pk. apply Z.ltb_ge. destruct (received _); [congruence|cbn [length]; lia]. }
  cbn [exec_data_local]. unfold exec_base. rewrite R.
  set (M := fun p => last (received (project p evs)) msg0).
  set (O := fun p => match sfind p (port_map iport n) with Some o => o | None => "" end).
  assert (HO : forall k, (1 <= k <= n)%nat -> O (iport k) = oport k).
  { intros k Hk. unfold O. rewrite port_map_find by (auto; apply iport_inj). reflexivity. }
  destruct (output_loop_spec b (port_map iport n) M O (o_toproc b) []) as (out & E & H1 & H2); auto using ssorted_NoDup.
  { intros p Hp. apply HT in Hp as (k & Hk & -> & Pk). unfold d_last. rewrite HP by auto.
    rewrite One by auto. reflexivity. }
  { intros p Hp. apply HT in Hp as (k & Hk & -> & Pk). unfold O.
    rewrite port_map_find by (auto; apply iport_inj). reflexivity. }
  { intros p q Hp Hq. apply HT in Hp as (k & Hk & -> & Pk). apply HT in Hq as (j & Hj & -> & Pj).
    rewrite !HO by auto. intros X. apply oport_inj in X. now subst. }
  assert (E' : process_data (set_toproc b (o_toproc b)) (KOutput (port_map iport n)) =
               (Ok out, (set_toproc b [], KOutput (port_map iport n)))).
  { rewrite set_toproc_id. exact E. }
  exists out, (set_toproc b []). split; [|split; [|split]].
  - destruct (o_toproc b) eqn:TP.
    + cbn in E. injection E as <-. reflexivity.
    + rewrite E'. reflexivity.
  - intros k Hk. rewrite <- (HO k Hk). destruct (pending (project (iport k) evs)) eqn:Pk.
    + apply H1. apply HT. eauto.
    + apply H2. intros p Hp X. apply HT in Hp as (j & Hj & -> & Pj). rewrite !HO in X by auto.
      apply oport_inj in X. subst. congruence.
  - intros x Hx. apply H2. intros p Hp. apply HT in Hp as (j & Hj & -> & Pj). rewrite HO by auto. auto.
  - constructor; cbn [o_data o_toproc set_toproc]; auto.
    + intros k Hk. rewrite project_app, received_app. cbn. rewrite app_nil_r. auto.
    + constructor.
    + intros x. split; [intros []|]. intros (k & Hk & -> & Pk). exfalso.
      rewrite project_app in Pk. cbn in Pk. rewrite pending_snoc in Pk. discriminate.
Qed.

Lemma output_state_recv n evs b k m :
  (1 <= k <= n)%nat -> output_state n evs b ->
  exists b', recv_data_local (Op b (KOutput (port_map iport n))) m (iport k) =
             (Ok tt, Op b' (KOutput (port_map iport n))) /\
             output_state n (evs ++ [EData (iport k) m]) b'.
Proof.
  intros Hk [W HP TS HT]. cbn [recv_data_local]. unfold recv_data_base.
  assert (R : resolve (iport k) (o_data b) = iport k) by reflexivity. rewrite R, HP by auto.
  rewrite port_receive_after by lia. eexists. split; [reflexivity|].
  assert (Same : project (iport k) (evs ++ [EData (iport k) m]) = project (iport k) evs ++ [EData (iport k) m]).
  { rewrite project_app. cbn. now rewrite String.eqb_refl. }
  assert (Other : forall j, j <> k -> project (iport j) (evs ++ [EData (iport k) m]) = project (iport j) evs).
  { intros j Hj. rewrite project_app. unfold project at 2. cbn [filter].
    destruct (String.eqb_spec (iport k) (iport j)) as [X|]; [apply iport_inj in X; congruence|apply app_nil_r]. }
  constructor; cbn [o_data o_toproc set_toproc set_data]; auto using swf_sset, ssorted_add.
  - intros j Hj. destruct (Nat.eq_dec j k) as [->|nj].
    + rewrite sfind_sset_same, Same, received_app. reflexivity.
    + rewrite sfind_sset_other by (intro X; apply iport_inj in X; congruence). rewrite Other; auto.
  - intros x. rewrite sset_add_In, HT. split.
    + intros [->|(j & Hj & -> & Pj)].
      * exists k. rewrite Same, pending_snoc. auto.
      * exists j. split; auto. split; auto. destruct (Nat.eq_dec j k) as [->|nj].
        -- now rewrite Same, pending_snoc.
        -- now rewrite Other.
    + intros (j & Hj & -> & Pj). destruct (Nat.eq_dec j k) as [->|nj]; auto. right.
      exists j. rewrite Other in Pj; auto.
Qed.

Lemma mk_output_state id n o : mk_output id n = Ok o ->
  exists b, o = Op b (KOutput (port_map iport n)) /\ output_state n [] b.
Proof.
  unfold mk_output.
  destruct (add_ports_spec (seq 1 n) 1 true (base0 id)) as (b & E & W & S & C & CN & T & I & O);
    auto using seq_NoDup; [apply swf_nil|].
  rewrite E. cbn [rbind]. intros H. injection H as <-. exists b. split; [reflexivity|].
  constructor; auto.
  - intros k Hk. rewrite S. unfold num_ports. rewrite find_from by (try apply iport_inj; apply in_seq; lia).
    reflexivity.
  - rewrite T. constructor.
  - rewrite T. cbn. split; [contradiction|]. intros (k & _ & _ & F). discriminate.
Qed.

Lemma run_output id n o evs : mk_output id n = Ok o -> data_on n evs ->
  exists outs o', run o evs = (Ok outs, o') /\
    (forall k, (1 <= k <= n)%nat -> on_port (oport k) outs = processed (project (iport k) evs)) /\
    (forall x, (forall k, (1 <= k <= n)%nat -> x <> oport k) -> on_port x outs = []).
Proof.
  intros Ho H. destruct (mk_output_state id n o Ho) as (b0 & -> & S0).
  enough (X : exists outs b, run (Op b0 (KOutput (port_map iport n))) evs = (Ok outs, Op b (KOutput (port_map iport n))) /\
    output_state n evs b /\
    (forall k, (1 <= k <= n)%nat -> on_port (oport k) outs = processed (project (iport k) evs)) /\
    (forall x, (forall k, (1 <= k <= n)%nat -> x <> oport k) -> on_port x outs = [])).
  { destruct X as (outs & b & R & _ & P). eauto. }
  induction evs as [|e evs IH] using rev_ind.
  - exists [], b0. repeat split; auto; apply S0.
  - unfold data_on in H. rewrite Forall_app in H. destruct H as [H He].
    destruct (IH H) as (outs & b & R & St & Out & Oth). clear IH.
    inversion He as [|? ? He' _]; subst. rewrite (run_snoc _ _ _ _ _ R).
    destruct e as [p m|p m| |]; try contradiction.
    + destruct He' as (k & Hk & ->). destruct (output_state_recv n evs b k m Hk St) as (b' & E & St').
      exists (outs ++ [[]]), b'. cbn [step]. rewrite E. split; auto. split; auto. split.
      * intros j Hj. rewrite on_port_app. cbn. rewrite app_nil_r, Out by auto.
        rewrite project_app. unfold project at 3. cbn [filter]. destruct (String.eqb (iport k) (iport j)).
        -- now rewrite processed_snoc.
        -- now rewrite app_nil_r.
      * intros x Hx. rewrite on_port_app, Oth by auto. reflexivity.
    + destruct (output_state_exec n evs b St) as (out & b' & E & Ho' & Hx' & St').
      exists (outs ++ [out]), b'. cbn [step]. rewrite E. split; auto. split; auto. split.
      * intros j Hj. rewrite on_port_app, Out by auto. rewrite project_app. cbn [project filter].
        rewrite processed_snoc. cbn. rewrite Ho', app_nil_r by auto.
        destruct (pending (project (iport j) evs)); cbn; [reflexivity|now rewrite app_nil_r].
      * intros x Hx. rewrite on_port_app, Oth by auto. cbn. rewrite Hx' by auto. reflexivity.
Qed.

End OutputP.
