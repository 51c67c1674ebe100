(** * Join, BinaryJoin and Linear when all inputs have the times of one of them *)

From Coq Require Import String ZArith Bool List Lia Sorted.
From Verif Require Import Base.StrMap Base.Num Model.Core Model.Ops Model.Make Model.Run.
From Verif Require Import Spec.Streams Spec.Operators Spec.Multi Spec.Join Spec.Rarest.
From Verif Require Import Proofs.Lists Proofs.Window Proofs.Ports Proofs.VariableP Proofs.JoinP Proofs.JoinRun Proofs.JoinKinds Proofs.Rounds.
Import ListNotations.
Open Scope string_scope.
Open Scope list_scope.
Open Scope Z_scope.
Open Scope rtbot_scope.

Section Rarest.
Context {NO : NumOps}.

Lemma increasing_after (l1 l2 : list msg) : increasing (times (l1 ++ l2)) -> forall x y, In x l1 -> In y l2 -> mtime x < mtime y.
Proof. intros I. apply increasing_app_inv in I as (_ & _ & B). intros x y Hx Hy. now apply B. Qed.

Lemma keeps_up_prefix (a x a' x' : list msg) : increasing (times (x ++ x')) -> keeps_up (a ++ a') (x ++ x') -> keeps_up a x.
Proof.
  unfold keeps_up. intros Inc K t Ht. unfold times in K, Ht |- *. destruct (K t) as [H|H].
  { rewrite map_app. apply in_or_app; auto. }
  - rewrite map_app in H. apply in_app_or in H as [H|H]; [auto|right].
    apply in_map_iff in H as (m & <- & Hm). apply Forall_forall. intros u Hu. apply in_map_iff in Hu as (y & <- & Hy).
    now apply (increasing_after x x' Inc).
  - right. rewrite map_app in H. now apply Forall_app in H as [H _].
Qed.

(** one execution: the front of queue [a] is the latest, and one queue holds at most one message *)
Lemma join_exec_rare (na : string) (pa : inport) b k out b' :
  o_data b <> [] -> swf (o_data b) -> In (na, pa) (o_data b) ->
  (forall n p, In (n, p) (o_data b) -> increasing (times (ip_data p))) ->
  (forall n p m r, In (n, p) (o_data b) -> ip_data pa = m :: r ->
     In (mtime m) (times (ip_data p)) \/ Forall (fun u => u < mtime m) (times (ip_data p))) ->
  (exists n p, In (n, p) (o_data b) /\ (length (ip_data p) <= 1)%nat) ->
  join_exec b k = (Ok out, (b', k)) -> some_empty (o_data b').
Proof.
  intros Ne W Ha Inc Cov (n0 & p0 & H0 & L0) J.
  destruct (join_exec_cases b k Ne W) as [[Se E]|(t & A & (n1 & p1 & m1 & r1 & H1 & D1 & T1) & C)].
  { rewrite E in J. injection J as _ <-. exact Se. }
  destruct (A na pa Ha) as (ma & ra & Da & La).
  assert (Et : t = mtime ma).
  { destruct (Cov n1 p1 ma ra H1 Da) as [Hi|Hf].
    - rewrite D1 in Hi. pose proof (Inc n1 p1 H1) as I. rewrite D1 in I. cbn in Hi, I. inversion I as [|? ? _ F]; subst. rewrite Forall_forall in F.
      destruct Hi as [Hi|Hi]; [lia|]. specialize (F _ Hi). lia.
    - rewrite D1 in Hf. inversion Hf; subst. lia. }
  clear T1. cbv zeta in C.
  assert (Q : forall n p, In (n, p) (trim t (o_data b)) -> ip_data p = [] \/ exists m r, ip_data p = m :: r /\ mtime m = t).
  { intros n p Hp. apply In_smapv in Hp as (q & Hq & ->). destruct (trim_data t q) as (dr & E & Lt & G).
    pose proof (Inc n q Hq) as I. destruct (Cov n q ma ra Hq Da) as [Hi|Hf]; rewrite <- Et in *.
    - rewrite E in Hi. unfold times in Hi. rewrite map_app in Hi. apply in_app_or in Hi as [Hi|Hi].
      + apply in_map_iff in Hi as (y & Ey & Hy). specialize (Lt y Hy). lia.
      + destruct (ip_data (port_trim t q)) as [|m r] eqn:Eq; [destruct Hi|]. right. exists m, r. split; auto.
        specialize (G m r eq_refl). rewrite E in I. apply increasing_app_inv in I as (_ & I & _). cbn in I, Hi. inversion I as [|? ? _ F]; subst.
        rewrite Forall_forall in F. destruct Hi as [Hi|Hi]; [auto|]. specialize (F _ Hi). lia.
    - left. destruct (ip_data (port_trim t q)) as [|m r] eqn:Eq; [reflexivity|exfalso].
      specialize (G m r eq_refl). rewrite Forall_forall in Hf. specialize (Hf (mtime m)).
      assert (X : In (mtime m) (times (ip_data q))) by (rewrite E; unfold times; rewrite map_app; apply in_or_app; cbn; auto).
      specialize (Hf X). lia. }
  destruct C as [[Al E]|[Na E]]; rewrite E in J.
  - destruct (join_process _ k) as [o| | | |]; try discriminate. injection J as _ <-. cbn [set_data o_data].
    exists n0, (pop1 (port_trim t p0)). split.
    + rewrite pop_all_smapv. apply In_smapv. exists (port_trim t p0). split; auto. apply In_smapv. eauto.
    + destruct (trim_data t p0) as (dr & Ed & _ & _). rewrite Ed, app_length in L0.
      unfold pop1, ip_pop. destruct (ip_data (port_trim t p0)) as [|m [|m' r]] eqn:D; [exact D|reflexivity|cbn in L0; lia].
  - injection J as _ <-. cbn [set_data o_data].
    assert (Dec : some_empty (trim t (o_data b)) \/ all_at t (trim t (o_data b))).
    { clear - Q. induction (trim t (o_data b)) as [|[n p] l IH]; [right; intros ? ? []|].
      destruct (Q n p) as [D|(m & r & D & Tm)]; [cbn; auto| |].
      { left. exists n, p. cbn; auto. }
      destruct IH as [(n' & p' & H' & D')|Al]; [intros; eapply Q; cbn; eauto| |].
      { left. exists n', p'. cbn; auto. }
      right. intros x q [[= <- <-]|Hx]; [exists m, r; auto|apply (Al x q Hx)]. }
    destruct Dec; [assumption|contradiction].
Qed.

Section General.
Variables (b0 : base) (k : kind) (names : list string) (g : list msg -> opmsg) (a : string).
Hypothesis Kj : is_join k.
Hypothesis Nn : names <> [].
Hypothesis Kn : skeys (o_data b0) = names.
Hypothesis W0 : swf (o_data b0).
Hypothesis Em : forall n p, In (n, p) (o_data b0) -> ip_data p = [].
Hypothesis Hg : forall ports1 t, skeys ports1 = names -> swf ports1 -> all_at t ports1 ->
  join_process (set_data b0 ports1) k = Ok (g (map (fun np => hd msg0 (ip_data (snd np))) ports1)).
Hypothesis Ia : In a names.

Let ok := run_ok b0 k names g.

(** one queue is empty, but for what arrived since the last execution *)
Definition short_queue (evs : list ev) (ports : smap inport) : Prop :=
  exists n q, In (n, q) ports /\ (length (ip_data q) <= if waits n false evs then 1 else 0)%nat.

Definition rare (evs : list ev) : Prop := forall n, In n names -> keeps_up (hist a evs) (hist n evs).

Lemma rare_snoc evs e : all_increasing names (fun n => hist n (evs ++ [e])) -> rare (evs ++ [e]) -> rare evs.
Proof.
  intros Inc R n Hn. specialize (R n Hn). specialize (Inc n Hn). cbn in Inc. rewrite !hist_app in *.
  eapply keeps_up_prefix; eauto.
Qed.

Lemma exec_rare evs outs ports ts outs' ports' ts' :
  all_increasing names (fun n => hist n evs) -> rare evs ->
  ok evs outs ports ts -> short_queue evs ports -> ok (evs ++ [EExec]) outs' ports' ts' -> some_empty ports'.
Proof.
  intros Inc Ra (R & W & I & _) (n0 & q0 & H0 & L0) (R' & _ & _ & _).
  rewrite (run_snoc _ _ _ _ _ R), step_exec in R' by auto.
  destruct (join_exec (set_data b0 ports) k) as [r [b1 k1]] eqn:J.
  destruct r as [out| | | |]; cbn in R'; try discriminate.
  assert (b1 = set_data b0 ports' /\ k1 = k) as [-> ->] by (injection R'; auto).
  destruct I as (K & _ & I).
  assert (Ka : In a (skeys ports)) by now rewrite K.
  apply In_skeys_sfind in Ka as (pa & Fa). apply sfind_In in Fa.
  destruct (I a pa Fa) as (da & Ea & EEa & _). cbn in Ea.
  pose proof (Inc a Ia) as Inca. cbn in Inca. rewrite Ea in Inca.
  refine (join_exec_rare a pa (set_data b0 ports) k out (set_data b0 ports') _ W Fa _ _ _ J).
  - cbn. intros ->. destruct Fa.
  - intros n p Hp. destruct (I n p Hp) as (dr & E & _). assert (Hn : In n names) by (rewrite <- K; eapply key_in; eauto).
    specialize (Inc n Hn). cbn in Inc. rewrite E in Inc. now apply increasing_app_inv in Inc as (_ & ? & _).
  - intros n p m r Hp D. destruct (I n p Hp) as (dr & E & _ & ED). cbn in E.
    assert (Hn : In n names) by (rewrite <- K; eapply key_in; eauto).
    assert (Hm : In (mtime m) (times (hist a evs))).
    { rewrite Ea, D. unfold times. rewrite map_app. apply in_or_app. cbn; auto. }
    destruct (Ra n Hn (mtime m) Hm) as [Hi|Hf].
    + rewrite E in Hi. unfold times in Hi. rewrite map_app in Hi. apply in_app_or in Hi as [Hi|Hi]; [exfalso|left; exact Hi].
      destruct (ED (mtime m) Hi) as [Hd|(n' & Hn' & Nt & x & Hx & Lx)].
      * specialize (EEa _ Hd). apply in_map_iff in EEa as (y & Ey & Hy).
        pose proof (increasing_after _ _ Inca y m Hy ltac:(rewrite D; cbn; auto)). lia.
      * destruct (Ra n' Hn' (mtime m) Hm) as [|Hf]; [contradiction|]. rewrite Forall_forall in Hf. specialize (Hf x Hx). lia.
    + right. rewrite E in Hf. unfold times in Hf. rewrite map_app in Hf. now apply Forall_app in Hf as [_ Hf].
  - exists n0, q0. split; [exact H0|]. destruct (waits n0 false evs); lia.
Qed.

Theorem rare_run evs : on_names names evs -> all_increasing names (fun n => hist n evs) -> rare evs ->
  (forall n, In n names -> spaced n false evs) ->
  exists outs ports ts, ok evs outs ports ts /\ short_queue evs ports.
Proof.
  induction evs as [|e evs IH] using rev_ind; intros On Inc Ra Sp.
  - exists [], (o_data b0), []. split; [now apply run_nil|].
    destruct (o_data b0) as [|[n q] l] eqn:D; [cbn in Kn; congruence|].
    exists n, q. split; [cbn; auto|]. rewrite (Em n q) by (cbn; auto). cbn. lia.
  - apply Forall_app in On as [On Oe]. pose proof (Forall_inv Oe) as He. cbn in He.
    assert (Sp0 : forall n, In n names -> spaced n false evs /\ spaced n (waits n false evs) [e]) by (intros n Hn; apply spaced_app; auto).
    destruct (IH On (all_increasing_snoc _ _ _ Inc) (rare_snoc _ _ Inc Ra)) as (outs & ports & ts & R & (x0 & q0 & Hx0 & L0)).
    { intros n Hn. now apply Sp0. }
    destruct e as [p m| | |]; try tauto.
    + destruct (data_step b0 k names g Kj evs outs ports ts p m) as (ports' & R' & _ & Q); try tauto.
      exists (outs ++ [[]]), ports', (ts ++ [None]). split; auto.
      assert (Hk : In x0 (skeys ports')).
      { destruct R' as (_ & _ & (-> & _) & _). destruct R as (_ & _ & (<- & _) & _). eapply key_in; eauto. }
      assert (Hn0 : In x0 names) by (destruct R as (_ & _ & (<- & _) & _); eapply key_in; eauto).
      apply In_skeys_sfind in Hk as (q' & Fq'). apply sfind_In in Fq'. exists x0, q'. split; auto.
      destruct (Q x0 q' Fq') as (q2 & Hq2 & E).
      assert (q2 = q0).
      { destruct R as (_ & W & _). apply (In_sfind _ _ _ W) in Hq2. apply (In_sfind _ _ _ W) in Hx0. congruence. }
      subst q2. destruct (Sp0 x0 Hn0) as (_ & Spe). rewrite E, app_length, waits_app. cbn in *.
      rewrite (String.eqb_sym p x0) in *. destruct (String.eqb x0 p); cbn in *.
      * destruct Spe as (Ew & _). rewrite Ew in L0. lia.
      * lia.
    + destruct (exec_step b0 k names g Kj Nn Kn Hg evs outs ports ts) as (out & ports' & t & R' & _); auto.
      { now apply all_increasing_snoc in Inc. }
      exists (outs ++ [out]), ports', (ts ++ [t]). split; auto.
      assert (Se : some_empty ports').
      { refine (exec_rare evs outs ports ts (outs ++ [out]) ports' (ts ++ [t]) _ (rare_snoc _ _ Inc Ra) R _ R'); [now apply all_increasing_snoc in Inc|].
        exists x0, q0. auto. }
      destruct Se as (x & q & Hx & Eq). exists x, q. split; auto. rewrite Eq. cbn. lia.
Qed.

End General.

Lemma rare_join n b k g a evs outs o' : (1 <= n)%nat -> fresh n b -> processes b k g -> (1 <= a <= n)%nat ->
  data_on n evs -> ordered_ports n evs ->
  (forall j, (1 <= j <= n)%nat -> keeps_up (hist (iport a) evs) (hist (iport j) evs)) ->
  (forall j, (1 <= j <= n)%nat -> spaced (iport j) false evs /\ waits (iport j) false evs = false) ->
  run (Op b k) evs = (Ok outs, o') ->
  exists ts, Forall2 (fun t out => match t with Some t => out = g (map (fun x => at_time (hist x evs) t) (skeys (o_data b))) | None => out = emits_nothing end) ts outs /\
    somes ts = common_times n evs.
Proof.
  intros Hn Fr Pr Ha On Inc Ku Sp R. pose proof (names_ne n b Hn Fr) as Nn. pose proof Fr as (W0 & Nu & Em). pose proof Pr as (Kj & Hg).
  destruct (rare_run b k (skeys (o_data b)) g (iport a) Kj Nn eq_refl W0 Em Hg) with (evs := evs) as (outs1 & ports & ts & Rk & (x & q & Hx & L)).
  { apply Nu. eauto. }
  { eapply numbered_data_on; eauto. }
  { eapply numbered_increasing; eauto. }
  { intros y Hy. apply Nu in Hy as (j & Hj & ->). now apply Ku. }
  { intros y Hy. apply Nu in Hy as (j & Hj & ->). now apply Sp. }
  destruct (run_ok_sync n b k g (fun t out => out = g (map (fun x => at_time (hist x evs) t) (skeys (o_data b)))) evs outs1 ports ts)
    as (pend & (ts' & F & E) & _ & Ep); auto.
  assert (Se : some_empty ports).
  { exists x, q. split; auto. assert (Hy : In x (skeys (o_data b))) by (destruct Rk as (_ & _ & (<- & _) & _); eapply key_in; eauto).
    apply Nu in Hy as (j & Hj & ->). destruct (Sp j Hj) as (_ & Wt). rewrite Wt in L. destruct (ip_data q); [auto|cbn in L; lia]. }
  rewrite (Ep Se), app_nil_r in E. destruct Rk as (R1 & _). rewrite R in R1. injection R1 as <- _.
  exists ts'. split; [|congruence]. exact F.
Qed.

End Rarest.
