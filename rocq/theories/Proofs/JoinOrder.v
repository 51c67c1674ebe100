(** * Join, BinaryJoin and Linear when the messages arrive in the order of their times *)

From Coq Require Import String ZArith Bool List Lia Sorted.
From Verif Require Import Base.StrMap Base.Num Model.Core Model.Ops Model.Make Model.Run.
From Verif Require Import Spec.Streams Spec.Operators Spec.Multi Spec.Join.
From Verif Require Import Proofs.Lists Proofs.Window Proofs.Ports Proofs.VariableP Proofs.JoinP Proofs.JoinRun Proofs.JoinKinds.
Import ListNotations.
Open Scope string_scope.
Open Scope list_scope.
Open Scope Z_scope.
Open Scope rtbot_scope.

Section JoinOrder.
Context {NO : NumOps}.

(** The messages arrive in the order of their times, whatever their ports, and a message
    that arrives while earlier ones were not executed yet has their time. *)
Definition orderly (evs : list ev) : Prop :=
  forall before p m after, evs = before ++ EData p m :: after ->
    Forall (fun m' => mtime m' <= mtime m) (received before) /\
    (pending before = true -> last_time (received before) = mtime m).

Lemma orderly_app evs rest : orderly (evs ++ rest) -> orderly evs.
Proof. intros H b p m a E. apply (H b p m (a ++ rest)). subst evs. now rewrite <- app_assoc. Qed.

Lemma orderly_le evs : orderly evs -> forall m, In m (received evs) -> mtime m <= last_time (received evs).
Proof.
  induction evs as [|e evs IH] using rev_ind; intros H m Hm; [destruct Hm|].
  rewrite received_app in *. destruct e as [p x| | |]; cbn in *; rewrite ?app_nil_r in *; try (apply IH; eauto using orderly_app).
  unfold last_time. rewrite last_last. destruct (H evs p x [] eq_refl) as (F & _). rewrite Forall_forall in F.
  apply in_app_or in Hm as [Hm|[<-|[]]]; auto. lia.
Qed.

Lemma last_time_snoc ms m : last_time (ms ++ [m]) = mtime m.
Proof. unfold last_time. now rewrite last_last. Qed.

(** one execution, when all that waits is at most [T] and one queue holds only [T] *)
Lemma join_exec_at (T : Z) b k out b' :
  o_data b <> [] -> swf (o_data b) ->
  (forall n p, In (n, p) (o_data b) -> increasing (times (ip_data p)) /\ forall m, In m (ip_data p) -> mtime m <= T) ->
  (exists n p, In (n, p) (o_data b) /\ forall m, In m (ip_data p) -> mtime m = T) ->
  join_exec b k = (Ok out, (b', k)) -> some_empty (o_data b').
Proof.
  intros Ne W Le (n0 & p0 & H0 & E0) J.
  destruct (join_exec_cases b k Ne W) as [[Se E]|(t & A & (n1 & p1 & m1 & r1 & H1 & D1 & T1) & C)].
  { rewrite E in J. injection J as _ <-. exact Se. }
  assert (Et : t = T).
  { destruct (A n0 p0 H0) as (m & r & D & L). rewrite (E0 m) in L by (rewrite D; cbn; auto).
    destruct (Le n1 p1 H1) as [_ L1]. specialize (L1 m1 ltac:(rewrite D1; cbn; auto)). lia. }
  clear T1. subst t. cbv zeta in C.
  assert (Q : forall n p, In (n, p) (trim T (o_data b)) -> ip_data p = [] \/ exists m, ip_data p = [m] /\ mtime m = T).
  { intros n p Hp. apply In_smapv in Hp as (q & Hq & ->). destruct (trim_data T q) as (dr & E & _ & G).
    destruct (Le n q Hq) as [I L]. rewrite E in I. apply increasing_app_inv in I as (_ & I & _).
    assert (L' : forall m, In m (ip_data (port_trim T q)) -> mtime m <= T) by (intros m Hm; apply L; rewrite E; apply in_or_app; auto).
    destruct (ip_data (port_trim T q)) as [|m r]; [auto|]. right. exists m.
    specialize (G m r eq_refl). pose proof (L' m ltac:(cbn; auto)). split; [|lia]. destruct r as [|m' r]; auto. exfalso.
    specialize (L' m' ltac:(cbn; auto)). cbn in I. inversion I as [|? ? _ F]; subst. inversion F; subst. lia. }
  destruct C as [[Al E]|[Na E]]; rewrite E in J.
  - destruct (join_process _ k) as [o| | | |]; try discriminate. injection J as _ <-. cbn [set_data o_data].
    exists n0, (pop1 (port_trim T p0)). split.
    + rewrite pop_all_smapv. apply In_smapv. exists (port_trim T p0). split; auto. apply In_smapv. eauto.
    + assert (Hp : In (n0, port_trim T p0) (trim T (o_data b))) by (apply In_smapv; eauto).
      unfold pop1, ip_pop. destruct (Q _ _ Hp) as [D|(m & D & _)]; rewrite D; [exact D|reflexivity].
  - injection J as _ <-. cbn [set_data o_data].
    assert (Dec : some_empty (trim T (o_data b)) \/ all_at T (trim T (o_data b))).
    { clear - Q. induction (trim T (o_data b)) as [|[n p] l IH]; [right; intros ? ? []|].
      destruct (Q n p) as [D|(m & D & Tm)]; [cbn; auto| |].
      { left. exists n, p. cbn; auto. }
      destruct IH as [(n' & p' & H' & D')|Al]; [intros; eapply Q; cbn; eauto| |].
      { left. exists n', p'. cbn; auto. }
      right. intros x q [[= <- <-]|Hx]; [exists m, []; auto|apply (Al x q Hx)]. }
    destruct Dec; [assumption|contradiction].
Qed.

Lemma received_hist names evs x m : on_names names evs -> In m (hist x evs) -> In m (received evs).
Proof.
  unfold hist, project. induction evs as [|e evs IH]; [auto|]. intros On H. inversion On as [|? ? O1 O2]; subst. cbn [filter received] in *.
  destruct e as [p y| | |]; cbn in *; auto; try tauto.
  destruct (String.eqb p x); cbn in *; [destruct H; auto|]; auto.
Qed.

Section General.
Variables (b0 : base) (k : kind) (names : list string) (g : list msg -> opmsg).
Hypothesis Kj : is_join k.
Hypothesis Nn : names <> [].
Hypothesis Kn : skeys (o_data b0) = names.
Hypothesis W0 : swf (o_data b0).
Hypothesis Em : forall n p, In (n, p) (o_data b0) -> ip_data p = [].
Hypothesis Hg : forall ports1 t, skeys ports1 = names -> swf ports1 -> all_at t ports1 ->
  join_process (set_data b0 ports1) k = Ok (g (map (fun np => hd msg0 (ip_data (snd np))) ports1)).

Let ok := run_ok b0 k names g.

Definition fresh_queue (evs : list ev) (ports : smap inport) : Prop :=
  exists n q, In (n, q) ports /\ forall m, In m (ip_data q) -> mtime m = last_time (received evs).

Lemma exec_order evs outs ports ts outs' ports' ts' :
  on_names names evs -> all_increasing names (fun n => hist n evs) -> orderly evs ->
  ok evs outs ports ts -> fresh_queue evs ports -> ok (evs ++ [EExec]) outs' ports' ts' -> some_empty ports'.
Proof.
  intros On Inc Or (R & W & I & _) Fq (R' & _ & _ & _).
  rewrite (run_snoc _ _ _ _ _ R), step_exec in R' by auto.
  destruct (join_exec (set_data b0 ports) k) as [r [b1 k1]] eqn:J.
  destruct r as [out| | | |]; cbn in R'; try discriminate.
  assert (b1 = set_data b0 ports' /\ k1 = k) as [-> ->] by (injection R'; auto).
  destruct I as (K & _ & I).
  refine (join_exec_at (last_time (received evs)) (set_data b0 ports) k out (set_data b0 ports') _ W _ Fq J).
  - cbn. intros ->. cbn in K. congruence.
  - intros n p Hp. destruct (I n p Hp) as (dr & E & _). assert (Hn : In n names) by (rewrite <- K; eapply key_in; eauto). split.
    + specialize (Inc n Hn). cbn in Inc. rewrite E in Inc. now apply increasing_app_inv in Inc as (_ & ? & _).
    + intros m Hm. apply orderly_le; auto. apply (received_hist names evs n m On). rewrite E. apply in_or_app. auto.
Qed.

Theorem order_run evs : on_names names evs -> all_increasing names (fun n => hist n evs) -> orderly evs ->
  exists outs ports ts, ok evs outs ports ts /\ fresh_queue evs ports /\ (pending evs = false -> some_empty ports).
Proof.
  induction evs as [|e evs IH] using rev_ind; intros On Inc Or.
  - exists [], (o_data b0), []. split; [now apply run_nil|].
    destruct (o_data b0) as [|[n q] l] eqn:D; [cbn in Kn; congruence|].
    assert (Eq : ip_data q = []) by (eapply Em; cbn; eauto). split.
    + exists n, q. split; [cbn; auto|]. rewrite Eq. intros ? [].
    + intros _. exists n, q. cbn; auto.
  - pose proof (orderly_app _ _ Or) as Or0. apply Forall_app in On as [On Oe]. pose proof (Forall_inv Oe) as He. cbn in He.
    destruct (IH On (all_increasing_snoc _ _ _ Inc) Or0) as (outs & ports & ts & R & (x0 & q0 & Hx0 & Eq0) & Pd).
    destruct e as [p m| | |]; try tauto.
    + destruct (data_step b0 k names g Kj evs outs ports ts p m) as (ports' & R' & _ & Q); try tauto.
      exists (outs ++ [[]]), ports', (ts ++ [None]). split; auto. split.
      2:{ rewrite pending_snoc. discriminate. }
      unfold fresh_queue. rewrite received_app. cbn [received]. rewrite last_time_snoc.
      destruct (Or evs p m [] eq_refl) as (_ & Op).
      assert (X : exists x q, In (x, q) ports /\ forall y, In y (ip_data q) -> mtime y = mtime m).
      { destruct (pending evs) eqn:Pe.
        - exists x0, q0. split; auto. intros y Hy. rewrite <- (Op eq_refl). auto.
        - destruct (Pd eq_refl) as (x & q & Hx & Eq). exists x, q. split; auto. rewrite Eq. intros ? []. }
      destruct X as (x & q & Hx & Eq).
      assert (Hk : In x (skeys ports')).
      { destruct R' as (_ & _ & (-> & _) & _). destruct R as (_ & _ & (<- & _) & _). eapply key_in; eauto. }
      apply In_skeys_sfind in Hk as (q' & Fq'). apply sfind_In in Fq'. exists x, q'. split; auto.
      destruct (Q x q' Fq') as (q2 & Hq2 & E). rewrite E. intros y Hy. apply in_app_or in Hy as [Hy|Hy].
      * apply Eq. destruct R as (_ & W & _). apply (In_sfind _ _ _ W) in Hq2. apply (In_sfind _ _ _ W) in Hx.
        assert (q2 = q) by congruence. now subst.
      * destruct (String.eqb x p); [destruct Hy as [<-|[]]; reflexivity|destruct Hy].
    + destruct (exec_step b0 k names g Kj Nn Kn Hg evs outs ports ts) as (out & ports' & t & R' & _); auto.
      { now apply all_increasing_snoc in Inc. }
      exists (outs ++ [out]), ports', (ts ++ [t]). split; auto.
      assert (Se : some_empty ports').
      { refine (exec_order evs outs ports ts (outs ++ [out]) ports' (ts ++ [t]) On _ Or0 R _ R'); [now apply all_increasing_snoc in Inc|]. exists x0, q0. auto. }
      split; auto. destruct Se as (x & q & Hx & Eq). exists x, q. split; auto. rewrite Eq. intros ? [].
Qed.

(** what an execution emits, it emits at the latest time *)
Theorem order_emits evs : on_names names evs -> all_increasing names (fun n => hist n evs) -> orderly evs ->
  exists outs o out o', run (Op b0 k) evs = (Ok outs, o) /\ step o EExec = (Ok out, o') /\
    (out = [] \/ (pending evs = true /\ out = g (map (fun n => at_time (hist n evs) (last_time (received evs))) names) /\
                  forall n, In n names -> In (last_time (received evs)) (times (hist n evs)))).
Proof.
  intros On Inc Or. destruct (order_run evs On Inc Or) as (outs & ports & ts & R & (x0 & q0 & Hx0 & Eq0) & Pd).
  destruct (exec_step b0 k names g Kj Nn Kn Hg evs outs ports ts Inc R) as (out & ports' & t & R' & _).
  pose proof R as (R1 & W1 & I1 & F1). pose proof R' as (R2 & W2 & I2 & F2).
  exists outs, (Op (set_data b0 ports) k), out, (Op (set_data b0 ports') k). split; auto.
  assert (S : step (Op (set_data b0 ports) k) EExec = (Ok out, Op (set_data b0 ports') k)).
  { rewrite (run_snoc _ _ _ _ _ R1) in R2. destruct (step (Op (set_data b0 ports) k) EExec) as [[o| | | |] o2]; cbn in R2; try discriminate.
    injection R2 as E2 ->. apply app_inv_head in E2. congruence. }
  split; auto.
  apply Forall2_app_inv_l in F2 as (o1 & o2 & F2 & F3 & Eo).
  inversion F3 as [|? y ? l Hy Fl]; inversion Fl; subst o2 l. apply app_inj_tail in Eo as [-> ->].
  destruct t as [t|]; cbn in Hy; [|now left]. right.
  destruct I2 as (K2 & IE & I2). rewrite somes_app in IE, I2. cbn [somes] in IE, I2.
  assert (Ht : forall n, In n names -> In t (times (hist n evs))).
  { intros n Hn. rewrite <- K2 in Hn. apply in_map_iff in Hn as ([n' p] & <- & Hp). cbn.
    destruct (I2 _ _ Hp) as (dr & Eh & EE & _). cbn in Eh. rewrite hist_exec in Eh. rewrite Eh. unfold times. rewrite map_app. apply in_or_app.
    left. apply EE. apply in_or_app. cbn; auto. }
  assert (Nt : ~ In t (somes ts)).
  { intros X. clear - IE X. induction (somes ts) as [|y l IH]; [destruct X|]. cbn in IE. inversion IE as [|? ? IE' F]; subst.
    destruct X as [->|X]; [|now apply IH]. rewrite Forall_forall in F. specialize (F t ltac:(apply in_or_app; cbn; auto)). lia. }
  assert (Et : t = last_time (received evs)).
  { destruct I1 as (K1 & _ & I1). assert (Hn0 : In x0 names) by (rewrite <- K1; eapply key_in; eauto).
    destruct (I1 x0 q0 Hx0) as (dr & Eh & _ & ED). cbn in Eh.
    specialize (Ht x0 Hn0) as Hx. rewrite Eh in Hx. unfold times in Hx. rewrite map_app in Hx. apply in_app_or in Hx as [Hx|Hx].
    - exfalso. destruct (ED t Hx) as [|(n & Hn & Nx & _)]; [contradiction|]. apply Nx. now apply Ht.
    - apply in_map_iff in Hx as (m & <- & Hm). now apply Eq0. }
  split.
  - destruct (pending evs) eqn:Pe; auto. exfalso. destruct (Pd eq_refl) as (z & q & Hz & Eqz).
    destruct I1 as (K1 & _ & I1). assert (Hn : In z names) by (rewrite <- K1; eapply key_in; eauto).
    destruct (I1 z q Hz) as (dr & Eh & _ & ED). cbn in Eh. rewrite Eqz, app_nil_r in Eh. specialize (Ht z Hn) as Hy0. rewrite Eh in Hy0.
    destruct (ED t Hy0) as [|(n & Hn' & Nx & _)]; [contradiction|]. apply Nx. now apply Ht.
  - split; [|intros n Hn; rewrite <- Et; now apply Ht].
    rewrite Hy. f_equal. apply map_ext. intros n. now rewrite hist_exec, Et.
Qed.

End General.

(** ** Every arrival followed by an execution *)

Lemma paced_pending arr : pending (paced arr) = false.
Proof.
  induction arr as [|km arr IH] using rev_ind; [reflexivity|]. unfold paced. rewrite flat_map_app. cbn [flat_map app].
  change [EData (iport (fst km)) (snd km); EExec] with ([EData (iport (fst km)) (snd km)] ++ [@EExec NO]).
  now rewrite app_assoc, pending_snoc.
Qed.
Lemma paced_received arr : received (paced arr) = map snd arr.
Proof. induction arr as [|km arr IH]; cbn; auto. f_equal. exact IH. Qed.

Lemma paced_orderly arr : StronglySorted Z.le (times (map snd arr)) -> orderly (paced arr).
Proof.
  induction arr as [|[j m] arr IH] using rev_ind; intros St b p x a E.
  - destruct b; discriminate.
  - unfold paced in E. rewrite flat_map_app in E. cbn [flat_map fst snd app] in E. fold (paced arr) in E.
    assert (Hs : StronglySorted Z.le (times (map snd arr)) /\ Forall (fun m' => mtime m' <= mtime m) (map snd arr)).
    { rewrite map_app in St. unfold times in *. rewrite map_app in St. cbn in St. clear - St. induction (map snd arr) as [|y l IH]; cbn in *.
      - repeat constructor.
      - inversion St as [|? ? A B]; subst. destruct (IH A). apply Forall_app in B as [B C]. inversion C; subst.
        split; constructor; auto. }
    destruct Hs as [Hs Hm].
    destruct a as [|e a] using rev_ind.
    { exfalso. change [EData (iport j) m; EExec] with ([EData (iport j) m] ++ [@EExec NO]) in E. rewrite app_assoc in E.
      apply app_inj_tail in E as [_ E]. discriminate. }
    clear IHa. change (b ++ EData p x :: a ++ [e]) with (b ++ (EData p x :: a) ++ [e]) in E.
    change [EData (iport j) m; EExec] with ([EData (iport j) m] ++ [@EExec NO]) in E. rewrite !app_assoc in E.
    apply app_inj_tail in E as [E <-].
    destruct a as [|e a] using rev_ind.
    + apply app_inj_tail in E as [<- E]. injection E as _ <-. rewrite paced_received, paced_pending. split; [exact Hm|discriminate].
    + clear IHa. change (b ++ EData p x :: a ++ [e]) with (b ++ (EData p x :: a) ++ [e]) in E. rewrite app_assoc in E.
      apply app_inj_tail in E as [E _]. now apply (IH Hs b p x a).
Qed.

Lemma ordered_run b0 k n g arrivals :
  (1 <= n)%nat -> fresh n b0 -> processes b0 k g ->
  Forall (fun km => (1 <= fst km <= n)%nat) arrivals -> ordered_ports n (paced arrivals) ->
  StronglySorted Z.le (times (map snd arrivals)) ->
  exists outs ports ts, run_ok b0 k (skeys (o_data b0)) g (paced arrivals) outs ports ts /\ some_empty ports.
Proof.
  intros Hn Fr (Kj & Hg) Ha Ho St. pose proof (names_ne n b0 Hn Fr) as Nn. pose proof Fr as (W0 & Nu & Em).
  destruct (order_run b0 k (skeys (o_data b0)) g Kj Nn eq_refl W0 Em Hg (paced arrivals)) as (outs & ports & ts & R & _ & Se).
  - apply (numbered_data_on n); auto. unfold data_on, paced. apply Forall_forall. intros e He. apply in_flat_map in He as ([j m] & Hj & He).
    rewrite Forall_forall in Ha. specialize (Ha _ Hj). cbn in *. destruct He as [<-|[<-|[]]]; auto. eauto.
  - now apply (numbered_increasing n).
  - now apply paced_orderly.
  - exists outs, ports, ts. split; auto. apply Se, paced_pending.
Qed.

End JoinOrder.
