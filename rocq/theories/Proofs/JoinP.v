(** * The synchronisation of Join, BinaryJoin and Linear *)

From Coq Require Import String ZArith Bool List Lia Sorted.
From Verif Require Import Base.StrMap Base.Num Model.Core Model.Ops Model.Make Model.Run.
From Verif Require Import Spec.Streams Spec.Multi Spec.Join Proofs.Lists Proofs.Ports Proofs.VariableP.
Import ListNotations.
Open Scope string_scope.
Open Scope list_scope.
Open Scope Z_scope.
Open Scope rtbot_scope.

(** ** Increasing lists *)

Lemma increasing_ext (l1 l2 : list Z) :
  increasing l1 -> increasing l2 -> (forall x, In x l1 <-> In x l2) -> l1 = l2.
Proof.
  intros H1. revert l2. induction H1 as [|x l1 H1 IH F1]; intros l2 H2 E.
  - destruct l2 as [|y l2]; auto. exfalso. apply (E y). cbn; auto.
  - destruct H2 as [|y l2 H2 F2]; [exfalso; apply (E x); cbn; auto|].
    rewrite Forall_forall in F1, F2.
    assert (x = y).
    { destruct (proj1 (E x)) as [->|X]; [cbn; auto|auto|].
      destruct (proj2 (E y)) as [->|Y]; [cbn; auto|auto|].
      specialize (F1 y Y). specialize (F2 x X). lia. }
    subst y. f_equal. apply IH; auto. intros z. split; intros Hz.
    + destruct (proj1 (E z)) as [->|X]; [cbn; auto| |auto]. specialize (F1 _ Hz). lia.
    + destruct (proj2 (E z)) as [->|X]; [cbn; auto| |auto]. specialize (F2 _ Hz). lia.
Qed.

Lemma increasing_filter (f : Z -> bool) l : increasing l -> increasing (filter f l).
Proof.
  induction 1 as [|x l H IH F]; cbn; [constructor|]. destruct (f x); auto. constructor; auto.
  rewrite Forall_forall in *. intros y Hy. apply F. now apply filter_In in Hy.
Qed.

Lemma increasing_app (l1 l2 : list Z) :
  increasing l1 -> increasing l2 -> (forall a b, In a l1 -> In b l2 -> a < b) -> increasing (l1 ++ l2).
Proof.
  induction 1 as [|x l H IH F]; cbn; intros H2 H3; auto. constructor.
  - apply IH; auto.
  - rewrite Forall_forall in *. intros y Hy. apply in_app_or in Hy as [Hy|Hy]; auto.
Qed.

(** an increasing part of an increasing list, below everything else of it, is a prefix *)
Lemma increasing_prefix (E C : list Z) :
  increasing E -> increasing C -> (forall e, In e E -> In e C) ->
  (forall c e, In c C -> ~ In c E -> In e E -> e < c) ->
  C = E ++ filter (fun c => negb (existsb (Z.eqb c) E)) C.
Proof.
  intros HE HC Sub Below. apply increasing_ext; auto.
  - apply increasing_app; auto using increasing_filter.
    intros a b Ha Hb. apply filter_In in Hb as [Hb Nb]. apply (Below b a); auto.
    intros I. apply negb_true_iff in Nb. enough (existsb (Z.eqb b) E = true) by congruence.
    apply existsb_exists. exists b. split; auto. apply Z.eqb_refl.
  - intros x. rewrite in_app_iff, filter_In. split.
    + intros Hx. destruct (existsb (Z.eqb x) E) eqn:B; auto.
      left. apply existsb_exists in B as (y & Hy & Ey). apply Z.eqb_eq in Ey. now subst.
    + intros [Hx|[Hx _]]; auto.
Qed.

Section JoinP.
Context {NO : NumOps}.

Lemma has_time_In t h : has_time t h = true <-> In t (times h).
Proof.
  unfold has_time, times. rewrite existsb_exists, in_map_iff. split.
  - intros (m & Hm & E). apply Z.eqb_eq in E. eauto.
  - intros (m & E & Hm). exists m. split; auto. now apply Z.eqb_eq.
Qed.

Lemma at_time_front (dr : list msg) m r : increasing (times (dr ++ m :: r)) -> at_time (dr ++ m :: r) (mtime m) = m.
Proof.
  intros H. apply increasing_app_inv in H as (_ & _ & H). unfold at_time. rewrite filter_app.
  replace (filter (fun x => mtime x =? mtime m) dr) with (@nil msg).
  - cbn. now rewrite Z.eqb_refl.
  - symmetry. induction dr as [|x dr IH]; cbn; auto.
    assert (mtime x < mtime m) by (apply H; cbn; auto). destruct (Z.eqb_spec (mtime x) (mtime m)); [lia|].
    apply IH. intros; apply H; cbn; auto.
Qed.

Lemma at_time_app h r t : In t (times h) -> at_time (h ++ r) t = at_time h t.
Proof.
  intros H. unfold at_time. rewrite filter_app. destruct (filter _ h) eqn:E; auto.
  exfalso. apply in_map_iff in H as (m & Em & Hm).
  assert (X : In m (filter (fun m => mtime m =? t) h)) by (apply filter_In; split; auto; now apply Z.eqb_eq).
  rewrite E in X. destruct X.
Qed.

(** ** One execution *)

Definition trim (t : Z) (ports : smap inport) : smap inport := smapv (port_trim t) ports.
Definition pop1 (p : inport) : inport := match ip_pop p with Some p' => p' | None => p end.

Lemma pop_all_smapv ports : pop_all ports = smapv pop1 ports.
Proof. unfold pop_all, smapv. apply map_ext. intros [n p]. reflexivity. Qed.

Lemma drop_older_spec t q : forall s,
  exists dr, q = dr ++ snd (drop_older t s q) /\ (forall d, In d dr -> mtime d < t) /\
    (forall m r, snd (drop_older t s q) = m :: r -> t <= mtime m).
Proof.
  induction q as [|m q IH]; intros s; cbn.
  - exists []. repeat split; auto. intros ? []. discriminate.
  - destruct (Z.ltb_spec (mtime m) t).
    + destruct (IH (vsub s (mval m))) as (dr & E & A & B). exists (m :: dr). cbn. split; [now rewrite E at 1|].
      split; auto. intros d [<-|Hd]; auto.
    + exists []. cbn. repeat split; auto. intros ? []. intros m' r [= <- <-]. auto.
Qed.

Lemma trim_data t p : exists dr, ip_data p = dr ++ ip_data (port_trim t p) /\ (forall d, In d dr -> mtime d < t) /\
    (forall m r, ip_data (port_trim t p) = m :: r -> t <= mtime m).
Proof.
  unfold port_trim. pose proof (drop_older_spec t (ip_data p) (ip_sum p)) as H.
  destruct (drop_older t (ip_sum p) (ip_data p)) as [s q]. exact H.
Qed.

Lemma trim_noop t p m r : ip_data p = m :: r -> t <= mtime m -> port_trim t p = p.
Proof.
  intros E H. unfold port_trim. rewrite E. cbn. destruct (Z.ltb_spec (mtime m) t); [lia|].
  rewrite <- E. now destruct p.
Qed.

Lemma join_latest_none ports : forall best t, join_latest ports best t = None <-> exists n p, In (n, p) ports /\ ip_data p = [].
Proof.
  induction ports as [|[n p] ports IH]; intros best t; cbn.
  - split; [discriminate|]. now intros (? & ? & [] & _).
  - destruct (ip_data p) as [|m r] eqn:E.
    + split; auto. intros _. exists n, p. auto.
    + assert (X : (exists n0 p0, In (n0, p0) ports /\ ip_data p0 = []) <->
                  (exists n0 p0, ((n, p) = (n0, p0) \/ In (n0, p0) ports) /\ ip_data p0 = [])).
      { split; intros (n0 & p0 & H & H0); exists n0, p0; split; auto. destruct H as [[= <- <-]|H]; auto. congruence. }
      rewrite <- X. destruct (t <? mtime m); apply IH.
Qed.

Lemma join_latest_some ports : forall best t best' t', join_latest ports best t = Some (best', t') ->
  t <= t' /\ (forall n p, In (n, p) ports -> exists m r, ip_data p = m :: r /\ mtime m <= t') /\
  ((best' = best /\ t' = t) \/ exists p m r, In (best', p) ports /\ ip_data p = m :: r /\ mtime m = t').
Proof.
  induction ports as [|[n p] ports IH]; intros best t best' t'; cbn.
  - intros [= <- <-]. split; [lia|]. split; auto. intros ? ? [].
  - destruct (ip_data p) as [|m r] eqn:E; [discriminate|].
    destruct (Z.ltb_spec t (mtime m)); intros H1; apply IH in H1 as (A & B & C); split; try lia; split.
    + intros n0 p0 [[= <- <-]|H2]; eauto.
    + right. destruct C as [[-> ->]|(p1 & m1 & r1 & H2 & H3 & H4)].
      * exists p, m, r. auto.
      * exists p1, m1, r1. auto.
    + intros n0 p0 [[= <- <-]|H2]; eauto. exists m, r. split; auto. lia.
    + destruct C as [[-> ->]|(p1 & m1 & r1 & H2 & H3 & H4)]; auto. right. exists p1, m1, r1. auto.
Qed.

Definition all_at (t : Z) (ports : smap inport) : Prop :=
  forall n p, In (n, p) ports -> exists m r, ip_data p = m :: r /\ mtime m = t.

Lemma join_ready_spec t ports : (forall n p m r, In (n, p) ports -> ip_data p = m :: r -> t <= mtime m) ->
  (join_ready t ports = true <-> all_at t ports).
Proof.
  intros H. unfold join_ready. rewrite forallb_forall. split.
  - intros F n p Hn. specialize (F _ Hn). cbn in F. destruct (ip_data p) as [|m r] eqn:E; [discriminate|].
    apply negb_true_iff, Z.ltb_ge in F. exists m, r. split; auto. specialize (H n p m r Hn E). lia.
  - intros F [n p] Hn. destruct (F n p Hn) as (m & r & -> & E). apply negb_true_iff, Z.ltb_ge. lia.
Qed.

Lemma In_smapv {A B} (f : A -> B) n y (m : smap A) : In (n, y) (smapv f m) <-> exists x, In (n, x) m /\ y = f x.
Proof.
  unfold smapv. rewrite in_map_iff. split.
  - intros ([k x] & [= <- <-] & H). eauto.
  - intros (x & H & ->). exists (n, x). auto.
Qed.

Lemma join_exec_cases b k :
  o_data b <> [] -> swf (o_data b) ->
  ((exists n p, In (n, p) (o_data b) /\ ip_data p = []) /\ join_exec b k = (Ok [], (b, k))) \/
  (exists t,
     (forall n p, In (n, p) (o_data b) -> exists m r, ip_data p = m :: r /\ mtime m <= t) /\
     (exists n p m r, In (n, p) (o_data b) /\ ip_data p = m :: r /\ mtime m = t) /\
     let ports1 := trim t (o_data b) in
     ((all_at t ports1 /\
       join_exec b k = match join_process (set_data b ports1) k with
                       | Ok out => (Ok out, (set_data b (pop_all ports1), k))
                       | Throw e => (Throw e, (set_data b ports1, k))
                       | _ => (UB, (set_data b ports1, k))
                       end) \/
      (~ all_at t ports1 /\ join_exec b k = (Ok [], (set_data b ports1, k))))).
Proof.
  intros Ne W. unfold join_exec. destruct (o_data b) as [|[n0 p0] rest] eqn:D; [congruence|].
  destruct (ip_data p0) as [|f0 r0] eqn:D0.
  { left. split; auto. exists n0, p0. cbn; auto. }
  destruct (join_latest ((n0, p0) :: rest) n0 (mtime f0)) as [[best t]|] eqn:J.
  2:{ left. split; auto. apply join_latest_none in J. exact J. }
  right. apply join_latest_some in J as (A & B & C). exists t. split; auto.
  assert (Cb : exists p m r, In (best, p) ((n0, p0) :: rest) /\ ip_data p = m :: r /\ mtime m = t).
  { destruct C as [[-> ->]|C]; auto. exists p0, f0, r0. cbn; auto. }
  destruct Cb as (pb & mb & rb & Hb & Db & Tb). split; [exists best, pb, mb, rb; auto|].
  assert (Tr : join_trim best t ((n0, p0) :: rest) = trim t ((n0, p0) :: rest)).
  { unfold join_trim, trim, smapv. apply map_ext_in. intros [n p] Hn. cbn [fst snd].
    destruct (String.eqb_spec n best) as [->|]; auto.
    assert (p = pb). { apply (In_sfind _ _ _ W) in Hn. apply (In_sfind _ _ _ W) in Hb. congruence. }
    subst p. now rewrite (trim_noop t pb mb rb) by (auto; lia). }
  rewrite Tr. set (ports1 := trim t ((n0, p0) :: rest)).
  assert (Ge : forall n p m r, In (n, p) ports1 -> ip_data p = m :: r -> t <= mtime m).
  { intros n p m r Hn E. apply In_smapv in Hn as (x & Hx & ->). destruct (trim_data t x) as (dr & _ & _ & G). eauto. }
  pose proof (join_ready_spec t ports1 Ge) as R.
  change (o_data (set_data b ports1)) with ports1.
  destruct (join_ready t ports1).
  - left. split; [now apply R|]. destruct (join_process _ k); reflexivity.
  - right. split; [|reflexivity]. intros X. apply R in X. discriminate.
Qed.

(** ** The invariant *)

Definition hopeless (names : list string) (H : string -> list msg) (d : Z) : Prop :=
  exists n, In n names /\ ~ In d (times (H n)) /\ exists x, In x (times (H n)) /\ d < x.

Definition join_inv (names : list string) (H : string -> list msg) (E : list Z) (ports : smap inport) : Prop :=
  skeys ports = names /\ increasing E /\
  forall n p, In (n, p) ports -> exists dr, H n = dr ++ ip_data p /\
    (forall e, In e E -> In e (times dr)) /\
    (forall d, In d (times dr) -> In d E \/ hopeless names H d).

Definition all_increasing (names : list string) (H : string -> list msg) : Prop :=
  forall n, In n names -> increasing (times (H n)).

Lemma key_in {A} n (p : A) (ports : smap A) : In (n, p) ports -> In n (skeys ports).
Proof. intros I. now apply (in_map fst) in I. Qed.

Lemma skeys_trim t ports : skeys (trim t ports) = skeys ports.
Proof. apply skeys_smapv. Qed.

Fixpoint total (ports : smap inport) : nat :=
  match ports with [] => 0%nat | (n, p) :: r => (length (ip_data p) + total r)%nat end.

Lemma total_smapv f ports : (forall p, length (ip_data (f p)) <= length (ip_data p))%nat -> (total (smapv f ports) <= total ports)%nat.
Proof.
  intros H. unfold smapv. induction ports as [|[n p] l IH]; cbn [map total fst snd]; auto.
  specialize (H p). lia.
Qed.

Lemma total_smapv_lt f ports n p :
  (forall p, length (ip_data (f p)) <= length (ip_data p))%nat ->
  In (n, p) ports -> (length (ip_data (f p)) < length (ip_data p))%nat -> (total (smapv f ports) < total ports)%nat.
Proof.
  intros H I L. induction ports as [|[n0 p0] l IH]; [destruct I|].
  unfold smapv in *. cbn [map total fst snd].
  destruct I as [[= -> ->]|I].
  - pose proof (total_smapv f l H) as X. unfold smapv in X. lia.
  - specialize (IH I). specialize (H p0). lia.
Qed.

Lemma trim_len t p : (length (ip_data (port_trim t p)) <= length (ip_data p))%nat.
Proof. destruct (trim_data t p) as (dr & -> & _). rewrite app_length. lia. Qed.
Lemma pop_len p : (length (ip_data (pop1 p)) <= length (ip_data p))%nat.
Proof. unfold pop1, ip_pop. destruct (ip_data p) eqn:E; [now rewrite E|]. cbn. lia. Qed.

(** one execution: nothing or one synchronised tuple *)
Lemma join_exec_step names H E b k (g : list msg -> opmsg) :
  names <> [] -> swf (o_data b) -> join_inv names H E (o_data b) -> all_increasing names H ->
  (forall ports1 t, skeys ports1 = names -> all_at t ports1 ->
     join_process (set_data b ports1) k = Ok (g (map (fun np => hd msg0 (ip_data (snd np))) ports1))) ->
  exists out ports', join_exec b k = (Ok out, (set_data b ports', k)) /\ swf ports' /\
    (((exists n p, In (n, p) ports' /\ ip_data p = []) /\ out = [] /\ ports' = o_data b /\ join_inv names H E ports') \/
     ((total ports' < total (o_data b))%nat /\
      ((out = [] /\ join_inv names H E ports') \/
       (exists t, out = g (map (fun n => at_time (H n) t) names) /\ (forall n, In n names -> In t (times (H n))) /\
          join_inv names H (E ++ [t]) ports')))).
Proof.
  intros Nn W (K & IE & I) Inc Hg.
  assert (Ne : o_data b <> []) by (intros X; rewrite X in K; cbn in K; congruence).
  destruct (join_exec_cases b k Ne W) as [[X J]|(t & A & (n0 & p0 & m0 & r0 & H0 & D0 & T0) & J)].
  { exists [], (o_data b). split; [rewrite J; now destruct b|]. split; auto. left. repeat split; auto. }
  assert (Hin : forall n p, In (n, p) (o_data b) -> In n names) by (intros n p Hn; rewrite <- K; eapply key_in; eauto).
  (* [E] is below [t] *)
  destruct (I _ _ H0) as (dr0 & Eh0 & EE0 & ED0).
  assert (Inc0 : increasing (times (dr0 ++ m0 :: r0))) by (rewrite <- D0, <- Eh0; eapply Inc, Hin; eauto).
  assert (Below : forall d, In d (times dr0) -> d < t).
  { intros d Hd. apply in_map_iff in Hd as (x & <- & Hx). apply increasing_app_inv in Inc0 as (_ & _ & B).
    rewrite <- T0. apply B; cbn; auto. }
  (* what is trimmed away cannot become common *)
  assert (Hop : forall d, d < t -> In d E \/ hopeless names H d).
  { intros d Hd. destruct (in_dec Z.eq_dec d (times dr0)) as [i|ni]; auto.
    right. exists n0. split; [eapply Hin; eauto|]. rewrite Eh0, D0. unfold times. rewrite map_app. split.
    - intros X. apply in_app_or in X as [X|X]; [contradiction|]. cbn in X. destruct X as [X|X]; [lia|].
      apply in_map_iff in X as (x & Ex & Hx). apply increasing_app_inv in Inc0 as (_ & B & _).
      assert (mtime m0 < mtime x) by (apply (inc_cons_lt m0 r0); auto). lia.
    - exists t. split; auto. apply in_or_app. right. cbn. auto. }
  cbn zeta in J. set (ports1 := trim t (o_data b)) in *.
  assert (I1 : join_inv names H E ports1).
  { split; [unfold ports1; now rewrite skeys_trim|]. split; auto.
    intros n p Hn. apply In_smapv in Hn as (x & Hx & ->). destruct (I _ _ Hx) as (dr & Eh & EE & ED).
    destruct (trim_data t x) as (dr' & Ed & Lt & _). exists (dr ++ dr'). split; [rewrite Eh, Ed; now rewrite app_assoc|].
    unfold times in *. rewrite map_app. split.
    - intros e He. apply in_or_app; auto.
    - intros d Hd. apply in_app_or in Hd as [Hd|Hd]; auto. apply in_map_iff in Hd as (y & <- & Hy). auto. }
  assert (W1 : swf ports1) by (now apply swf_smapv).
  assert (K1 : skeys ports1 = names) by apply I1.
  destruct J as [[Al J]|[NAl J]].
  - rewrite (Hg ports1 t K1 Al) in J. exists (g (map (fun np => hd msg0 (ip_data (snd np))) ports1)), (pop_all ports1).
    rewrite pop_all_smapv in *. split; auto. split; [now apply swf_smapv|]. right. split.
    + apply Nat.lt_le_trans with (m := total ports1); [|apply total_smapv; apply trim_len].
      assert (Hn1 : In (n0, port_trim t p0) ports1) by (apply In_smapv; eauto).
      destruct (Al _ _ Hn1) as (m & r & Em & _).
      apply (total_smapv_lt _ _ n0 (port_trim t p0)); auto using pop_len. unfold pop1, ip_pop. rewrite Em. cbn. lia.
    + right. exists t.
      assert (Fr : forall n p, In (n, p) ports1 -> hd msg0 (ip_data p) = at_time (H n) t /\ In t (times (H n))).
      { intros n p Hn. destruct I1 as (_ & _ & I1). destruct (I1 _ _ Hn) as (dr & Eh & _ & _).
        destruct (Al _ _ Hn) as (m & r & Em & <-). rewrite Em in Eh. split.
        - rewrite Em, Eh. cbn. symmetry. apply at_time_front. rewrite <- Eh. apply Inc. rewrite <- K1. eapply key_in; eauto.
        - rewrite Eh. unfold times. rewrite map_app. apply in_or_app. cbn; auto. }
      split; [|split].
      * f_equal. rewrite <- K1. unfold skeys. rewrite map_map. apply map_ext_in. intros [n p] Hn. apply (Fr n p Hn).
      * intros n Hn. rewrite <- K1 in Hn. apply in_map_iff in Hn as ([n' p] & <- & Hp). cbn. apply (Fr n' p Hp).
      * split; [now rewrite skeys_smapv|]. split.
        { apply increasing_app; auto; [repeat constructor|]. intros a c Ha [<-|[]]. auto. }
        intros n p Hn. apply In_smapv in Hn as (x & Hx & ->). destruct I1 as (_ & _ & I1).
        destruct (I1 _ _ Hx) as (dr & Eh & EE & ED). destruct (Al _ _ Hx) as (m & r & Em & Tm).
        exists (dr ++ [m]). unfold pop1, ip_pop. rewrite Em in *. cbn [ip_data]. split; [rewrite Eh; now rewrite <- app_assoc|].
        unfold times. rewrite map_app. cbn. split.
        -- intros e He. apply in_app_or in He as [He|[<-|[]]]; apply in_or_app; cbn; auto; left; now apply EE.
        -- intros d Hd. apply in_app_or in Hd as [Hd|[<-|[]]].
           ++ destruct (ED d Hd); auto. left. apply in_or_app; auto.
           ++ left. apply in_or_app. cbn. auto.
  - exists [], ports1. split; auto. split; auto. right. split; auto.
    (* something was trimmed *)
    assert (Sh : exists n p, In (n, p) (o_data b) /\ (length (ip_data (port_trim t p)) < length (ip_data p))%nat).
    { assert (D : forall l, (forall n p, In (n, p) l -> exists m r, ip_data p = m :: r /\ mtime m <= t) ->
        (exists n p, In (n, p) l /\ (length (ip_data (port_trim t p)) < length (ip_data p))%nat) \/ all_at t (trim t l)).
      { induction l as [|[n p] l IH]; intros Hl; [right; intros ? ? []|].
        destruct (Hl n p) as (m & r & Em & Lm); [cbn; auto|].
        destruct (Z.eq_dec (mtime m) t) as [Et|Nt].
        - destruct IH as [(n1 & p1 & Hn1 & L1)|Al]; [intros; eapply Hl; cbn; eauto|left; exists n1, p1; cbn; auto|].
          right. intros n1 p1 [[= <- <-]|H1]; [|apply (Al n1 p1 H1)].
          rewrite (trim_noop t p m r) by (auto; lia). eauto.
        - left. exists n, p. split; [cbn; auto|]. unfold port_trim. rewrite Em. cbn.
          destruct (Z.ltb_spec (mtime m) t); [|lia]. 
          pose proof (drop_older_spec t r (vsub (ip_sum p) (mval m))) as (dr & Ed & _).
          destruct (drop_older t (vsub (ip_sum p) (mval m)) r) as [s q]. cbn in *. rewrite Ed, app_length. lia. }
      destruct (D (o_data b) A) as [Y|Y]; auto. contradiction. }
    destruct Sh as (n & p & Hn & L). eapply (total_smapv_lt _ _ n p); eauto using trim_len.
Qed.

(** receiving a message *)
Definition upd (H : string -> list msg) (port : string) (m : msg) (n : string) : list msg :=
  if String.eqb n port then H n ++ [m] else H n.

Lemma join_recv_step names H E b port m :
  swf (o_data b) -> join_inv names H E (o_data b) -> In port names -> port <> "" ->
  all_increasing names (upd H port m) ->
  exists ports', recv_data_join b m port = (Ok tt, set_data b ports') /\ swf ports' /\
    join_inv names (upd H port m) E ports' /\ total ports' = S (total (o_data b)).
Proof.
  intros W (K & IE & I) Hp Ne Inc. unfold recv_data_join.
  destruct (String.eqb_spec port "") as [|_]; [congruence|]. rewrite <- K in Hp.
  destruct (In_skeys_sfind _ _ Hp) as (p & Fp). rewrite Fp.
  exists (sset port (ip_push p m) (o_data b)). split; auto. split; [now apply swf_sset|].
  assert (Hop : forall d, hopeless names H d -> hopeless names (upd H port m) d).
  { intros d (n & Hn & Nd & x & Hx & Lx). exists n. split; auto. unfold upd.
    destruct (String.eqb_spec n port) as [->|]; [|eauto].
    specialize (Inc port Hn). unfold upd in Inc. rewrite String.eqb_refl in Inc.
    apply increasing_app_inv in Inc as (_ & _ & B). apply in_map_iff in Hx as (y & <- & Hy).
    unfold times. rewrite map_app. split.
    - intros X. apply in_app_or in X as [X|X]; auto. cbn in X. destruct X as [X|[]].
      assert (mtime y < mtime m) by (apply B; cbn; auto). lia.
    - exists (mtime y). split; auto. apply in_or_app. left. now apply in_map. }
  split.
  - split; [rewrite skeys_sset_existing; auto; unfold shas; now rewrite Fp|]. split; auto.
    intros n q Hn. apply In_sfind in Hn; [|now apply swf_sset]. rewrite sfind_sset in Hn.
    destruct (String.eqb_spec n port) as [->|N].
    + injection Hn as <-. destruct (I port p (sfind_In _ _ _ Fp)) as (dr & Eh & EE & ED).
      exists dr. unfold upd. rewrite String.eqb_refl. cbn [ip_push ip_data].
      split; [rewrite Eh; now rewrite app_assoc|]. split; auto. intros d Hd. destruct (ED d Hd); auto.
    + destruct (I n q (sfind_In _ _ _ Hn)) as (dr & Eh & EE & ED). exists dr. unfold upd.
      destruct (String.eqb_spec n port) as [|_]; [contradiction|]. split; auto. split; auto. intros d Hd. destruct (ED d Hd); auto.
  - clear -W Fp. induction (o_data b) as [|[n0 p0] l IH]; [discriminate|].
    cbn in *. apply swf_cons_inv in W as [W F]. destruct (String.eqb_spec port n0) as [->|N].
    + injection Fp as ->. cbn. rewrite app_length. cbn. lia.
    + destruct (sltb port n0) eqn:L.
      * exfalso. apply sfind_In_key in Fp. rewrite Forall_forall in F. specialize (F _ Fp).
        pose proof (sltb_trans _ _ _ L F) as X. rewrite sltb_irrefl in X. discriminate.
      * cbn. rewrite IH; auto.
Qed.

(** what the emitted times are, in terms of the histories *)
Lemma join_inv_common names H E ports :
  swf ports -> join_inv names H E ports -> all_increasing names H ->
  forall C, increasing C -> (forall t, In t C <-> forall n, In n names -> In t (times (H n))) -> names <> [] ->
  C = E ++ filter (fun c => negb (existsb (Z.eqb c) E)) C /\
  ((exists n p, In (n, p) ports /\ ip_data p = []) -> C = E) /\
  (forall c, In c (filter (fun c => negb (existsb (Z.eqb c) E)) C) -> forall n p, In (n, p) ports -> In c (times (ip_data p))).
Proof.
  intros W (K & IE & I) Inc C HC Hc Nn.
  assert (Q : forall c, In c C -> ~ In c E -> forall n p, In (n, p) ports -> In c (times (ip_data p))).
  { intros c Hin NE n p Hn. destruct (I _ _ Hn) as (dr & Eh & EE & ED).
    assert (Hn' : In n names) by (rewrite <- K; eapply key_in; eauto).
    pose proof (proj1 (Hc c) Hin n Hn') as X. rewrite Eh in X. unfold times in X. rewrite map_app in X.
    apply in_app_or in X as [X|X]; auto. destruct (ED c X) as [Y|(n' & Hn'' & Nt & _)]; [contradiction|].
    exfalso. apply Nt. now apply (proj1 (Hc c)). }
  split; [|split].
  - apply increasing_prefix; auto.
    + intros e He. apply Hc. intros n Hn. rewrite <- K in Hn. apply in_map_iff in Hn as ([n' p] & <- & Hp). cbn.
      destruct (I _ _ Hp) as (dr & Eh & EE & _). rewrite Eh. unfold times. rewrite map_app. apply in_or_app. left. now apply EE.
    + intros c e Hin NE He. destruct ports as [|[n p] ports]; [cbn in K; congruence|].
      assert (Hp : In (n, p) ((n, p) :: ports)) by (cbn; auto).
      destruct (I _ _ Hp) as (dr & Eh & EE & _). specialize (Q c Hin NE n p Hp). specialize (EE e He).
      assert (Hi : increasing (times (dr ++ ip_data p))) by (rewrite <- Eh; apply Inc; rewrite <- K; cbn; auto).
      apply increasing_app_inv in Hi as (_ & _ & B).
      apply in_map_iff in Q as (x & <- & Hx). apply in_map_iff in EE as (y & <- & Hy). auto.
  - intros (n & p & Hn & Em). apply increasing_ext; auto. intros x. split.
    + intros Hx. destruct (in_dec Z.eq_dec x E) as [i|ni]; auto. specialize (Q x Hx ni n p Hn). rewrite Em in Q. destruct Q.
    + intros He. apply Hc. intros n' Hn'. rewrite <- K in Hn'. apply in_map_iff in Hn' as ([n2 p2] & <- & Hp). cbn.
      destruct (I _ _ Hp) as (dr & Eh & EE & _). rewrite Eh. unfold times. rewrite map_app. apply in_or_app. left. now apply EE.
  - intros c Hin. apply filter_In in Hin as [Hin Nb]. apply negb_true_iff in Nb. apply Q; auto.
    intros He. enough (existsb (Z.eqb c) E = true) by congruence. apply existsb_exists. exists c. split; auto. apply Z.eqb_refl.
Qed.

End JoinP.
