(** * Demultiplexer *)

From Coq Require Import String ZArith Bool List Lia Sorted FinFun.
From Verif Require Import Base.StrMap Base.Num Model.Core Model.Ops Model.Make Model.Run.
From Verif Require Import Spec.Streams Spec.Multi Spec.Join Spec.Demux.
From Verif Require Import Proofs.Lists Proofs.Ports Proofs.VariableP Proofs.JoinP Proofs.JoinRun.
Import ListNotations.
Open Scope string_scope.
Open Scope list_scope.
Open Scope Z_scope.
Open Scope rtbot_scope.

Section DemuxP.
Context {NO : NumOps}.

Lemma chist_app port e1 e2 : chist port (e1 ++ e2) = chist port e1 ++ chist port e2.
Proof. induction e1 as [|[p m|p m| |] e1 IH]; cbn; auto. destruct (String.eqb p port); cbn; now rewrite IH. Qed.

(** ** Instructions *)

Lemma instruct_trim dr q t : (forall d, In d dr -> mtime d < t) -> instruct (dr ++ q) t = instruct q t.
Proof.
  intros H. unfold instruct. replace (find (fun m => t <=? mtime m) (dr ++ q)) with (find (fun m => t <=? mtime m) q); auto.
  induction dr as [|d dr IH]; auto. cbn. destruct (Z.leb_spec t (mtime d)); [specialize (H d (or_introl eq_refl)); lia|].
  apply IH. intros; apply H; cbn; auto.
Qed.

Lemma instruct_app h r t : instruct h t <> Awaited -> instruct (h ++ r) t = instruct h t.
Proof.
  unfold instruct. intros H. destruct (find (fun m => t <=? mtime m) h) as [m|] eqn:F; [|congruence].
  replace (find (fun m => t <=? mtime m) (h ++ r)) with (Some m); auto.
  clear H. induction h as [|x h IH]; [discriminate|]. cbn in *. destruct (t <=? mtime x); auto.
Qed.

Definition head_says (q : list msg) (t : Z) : instruction :=
  match q with
  | [] => Awaited
  | m :: _ => if (mtime m =? t) && (veq (mval m) v1 || veq (mval m) v0) then Given (veq (mval m) v1) else Mismatch
  end.

Lemma instruct_head t q : (forall m r, q = m :: r -> t <= mtime m) -> instruct q t = head_says q t.
Proof.
  intros H. destruct q as [|m r]; auto. unfold instruct. cbn. specialize (H m r eq_refl).
  destruct (Z.leb_spec t (mtime m)); [auto|lia].
Qed.

Lemma trim_says t p dr : (forall d, In d dr -> mtime d < t) ->
  instruct (dr ++ ip_data p) t = head_says (ip_data (port_trim t p)) t.
Proof.
  intros H. rewrite instruct_trim by auto. destruct (trim_data t p) as (dr' & E & L & G).
  rewrite E, instruct_trim by auto. now apply instruct_head.
Qed.

(** ** The scan *)

Lemma demux_scan_ok t ctrls :
  (forall n p, In (n, p) ctrls -> head_says (ip_data (port_trim t p)) t <> Mismatch) ->
  demux_scan t ctrls =
    (Ok (Z.of_nat (length (filter (fun np => is_given (head_says (ip_data (port_trim t (snd np))) t)) ctrls))), trim t ctrls).
Proof.
  induction ctrls as [|[n p] l IH]; intros H; auto. cbn [demux_scan trim smapv map fst snd filter].
  specialize (IH (fun n p Hp => H n p (or_intror Hp))). specialize (H n p (or_introl eq_refl)).
  unfold head_says in *. rewrite IH. destruct (ip_data (port_trim t p)) as [|m r]; auto.
  destruct ((mtime m =? t) && (veq (mval m) v1 || veq (mval m) v0)); [|congruence].
  cbn [is_given rbind]. f_equal. f_equal. cbn [length]. lia.
Qed.

Lemma demux_scan_throw t ctrls :
  (exists n p, In (n, p) ctrls /\ head_says (ip_data (port_trim t p)) t = Mismatch) ->
  exists e c, demux_scan t ctrls = (Throw e, c).
Proof.
  induction ctrls as [|[n p] l IH]; intros (x & q & Hin & H); [destruct Hin|]. cbn [demux_scan].
  destruct Hin as [[= -> ->]|Hin].
  - unfold head_says in H. destruct (ip_data (port_trim t q)) as [|m r]; [discriminate|].
    destruct ((mtime m =? t) && (veq (mval m) v1 || veq (mval m) v0)); [discriminate|]. eauto.
  - destruct IH as (e & c & ->); [eauto|]. destruct (ip_data (port_trim t p)) as [|m r]; [eauto|].
    destruct ((mtime m =? t) && (veq (mval m) v1 || veq (mval m) v0)); cbn; eauto.
Qed.

Lemma demux_out_spec d cm ctrls : forall out,
  NoDup (skeys ctrls) -> (forall n p, In (n, p) ctrls -> is_given (head_says (ip_data p) (mtime d)) = true) ->
  (forall n, In n (skeys ctrls) -> exists k, n = cport k /\ sfind n cm = Some (oport k)) ->
  exists out', demux_out d ctrls cm out = Ok out' /\
    forall y, sfind y out' =
      match sfind y out with
      | Some v => Some v
      | None => match find (fun np => match head_says (ip_data (snd np)) (mtime d) with Given true => true | _ => false end &&
                                      match sfind (fst np) cm with Some o => String.eqb y o | None => false end) ctrls with
                | Some _ => Some [d]
                | None => None
                end
      end.
Proof.
  induction ctrls as [|[n p] l IH]; intros out ND G Hc.
  { exists out. split; auto. intros y. cbn. now destruct (sfind y out). }
  cbn [skeys map fst] in ND. inversion ND as [|? ? Hn ND']; subst.
  assert (G' : forall n p, In (n, p) l -> is_given (head_says (ip_data p) (mtime d)) = true) by (intros; eapply G; cbn; eauto).
  assert (Hc' : forall n, In n (skeys l) -> exists k, n = cport k /\ sfind n cm = Some (oport k)) by (intros; apply Hc; cbn; auto).
  destruct (Hc n) as (k & Ek & Fk); [cbn; auto|]. specialize (G n p (or_introl eq_refl)).
  cbn [demux_out find fst snd]. unfold head_says in G |- * at 1. destruct (ip_data p) as [|c r]; [discriminate|].
  destruct ((mtime c =? mtime d) && (veq (mval c) v1 || veq (mval c) v0)); [|discriminate]. cbn [is_given] in G.
  rewrite Fk. destruct (veq (mval c) v1).
  - destruct (IH (semplace (oport k) [d] out) ND' G' Hc') as (out' & E & S). exists out'. split; auto.
    intros y. rewrite S, sfind_semplace. destruct (sfind y out); auto. cbn [andb]. destruct (String.eqb y (oport k)); auto.
  - destruct (IH out ND' G' Hc') as (out' & E & S). exists out'. split; auto.
Qed.

(** ** The invariant *)

Definition demux_inv (n : nat) (evs : list ev) (waiting : list msg) (o : op) : Prop :=
  exists b sent p, o = Op b (KDemux (port_map cport n)) /\
    received evs = sent ++ waiting /\ o_data b = [("i1", p)] /\ ip_data p = waiting /\
    swf (o_ctrl b) /\ (forall x, In x (skeys (o_ctrl b)) <-> exists k, (1 <= k <= n)%nat /\ x = cport k) /\
    forall x c, In (x, c) (o_ctrl b) -> exists dr, chist x evs = dr ++ ip_data c /\
      forall d, In d dr -> (forall w, In w waiting -> mtime d < mtime w) /\ exists y, In y (received evs) /\ mtime d <= mtime y.

Lemma demux_start id n o : mk_demux id n = Ok o -> (1 <= n)%nat /\ demux_inv n [] [] o.
Proof.
  unfold mk_demux. destruct (Nat.ltb_spec n 1); [discriminate|].
  destruct (add_ctrls_spec (seq 1 n) (base0 id)) as (b & E & W & S & D & _ & T & _); auto using seq_NoDup; [constructor|].
  rewrite E. cbn [rbind]. unfold add_data. cbn [String.eqb].
  assert (X : shas "i1" (o_data b) || shas "i1" (o_ctrl b) = false).
  { rewrite D. unfold shas. rewrite S. cbn [base0 o_data o_ctrl sfind orb].
    unfold num_ports. destruct (find _ (seq 1 n)) as [j|] eqn:F; auto.
    apply find_some in F as [_ F]. apply String.eqb_eq in F. discriminate. }
  rewrite X. cbn [rbind]. intros [= <-]. split; auto.
  eexists _, [], (new_port "i1" 0). split; [reflexivity|]. split; [reflexivity|]. split; [cbn; now rewrite D|].
  split; [reflexivity|]. cbn [o_ctrl set_data]. split; auto. cbn [base0 o_ctrl sfind] in S. split.
  - intros x. split.
    + intros Hx. apply In_skeys_sfind in Hx as (c & Fc). rewrite S in Fc. unfold num_ports in Fc.
      destruct (find _ (seq 1 n)) as [j|] eqn:F; [|discriminate]. apply find_some in F as [F1 F2].
      apply in_seq in F1. apply String.eqb_eq in F2. exists j. split; auto. lia.
    + intros (k & Hk & ->). apply (sfind_In_key _ (new_port (cport k) 0)). rewrite S. unfold num_ports.
      rewrite find_from; auto using cport_inj. apply in_seq. lia.
  - intros x c Hc. exists []. split; [|intros ? []]. apply (In_sfind _ _ _ W) in Hc. rewrite S in Hc. unfold num_ports in Hc.
    destruct (find _ (seq 1 n)); [|discriminate]. injection Hc as <-. reflexivity.
Qed.

Lemma demux_exists id n : (1 <= n)%nat -> exists o, mk_demux id n = Ok o.
Proof.
  intros Hn. unfold mk_demux. destruct (Nat.ltb_spec n 1); [lia|].
  destruct (add_ctrls_spec (seq 1 n) (base0 id)) as (b & E & W & S & D & _ & T & _); auto using seq_NoDup; [constructor|].
  rewrite E. cbn [rbind]. unfold add_data. cbn [String.eqb].
  assert (X : shas "i1" (o_data b) || shas "i1" (o_ctrl b) = false).
  { rewrite D. unfold shas. rewrite S. cbn [base0 o_data o_ctrl sfind orb].
    unfold num_ports. destruct (find _ (seq 1 n)) as [j|] eqn:F; auto.
    apply find_some in F as [_ F]. apply String.eqb_eq in F. discriminate. }
  rewrite X. cbn [rbind]. eauto.
Qed.

Lemma demux_data n evs waiting o p m : (p = "i1" \/ p = "") ->
  increasing (times (received (evs ++ [EData p m]))) -> demux_inv n evs waiting o ->
  exists o', step o (EData p m) = (Ok [], o') /\ demux_inv n (evs ++ [EData p m]) (waiting ++ [m]) o'.
Proof.
  intros Hp Inc (b & sent & q & -> & R & D & Q & W & K & I).
  assert (St : step (Op b (KDemux (port_map cport n))) (EData p m) =
    (Ok [], Op (set_data b [("i1", ip_push q m)]) (KDemux (port_map cport n)))).
  { cbn [step recv_data_local recv_data_demux]. unfold recv_data_demux. rewrite D.
    destruct Hp as [->| ->]; cbn; reflexivity. }
  eexists. split; [exact St|]. exists (set_data b [("i1", ip_push q m)]), sent, (ip_push q m).
  rewrite received_app in *. cbn [received] in *.
  split; auto. split; [rewrite R; now rewrite app_assoc|]. split; auto. split; [cbn; now rewrite Q|]. split; auto. split; auto.
  intros x c Hc. destruct (I x c Hc) as (dr & Eh & Hd). exists dr. rewrite chist_app, app_nil_r. split; auto.
  intros d Hd'. destruct (Hd d Hd') as (A & y & Hy & L). apply increasing_app_inv in Inc as (_ & _ & B). split.
  - intros w Hw. apply in_app_or in Hw as [Hw|[<-|[]]]; auto. assert (mtime y < mtime m) by (apply B; cbn; auto). lia.
  - exists y. split; auto. apply in_or_app; auto.
Qed.

Lemma demux_ctrl n evs waiting o k m : (1 <= k <= n)%nat -> demux_inv n evs waiting o ->
  exists o', step o (ECtrl (cport k) m) = (Ok [], o') /\ demux_inv n (evs ++ [ECtrl (cport k) m]) waiting o'.
Proof.
  intros Hk (b & sent & q & -> & R & D & Q & W & K & I).
  assert (Hin : In (cport k) (skeys (o_ctrl b))) by (apply K; eauto).
  destruct (In_skeys_sfind _ _ Hin) as (c & Fc).
  assert (St : step (Op b (KDemux (port_map cport n))) (ECtrl (cport k) m) =
    (Ok [], Op (set_ctrl b (sset (cport k) (ip_push c m) (o_ctrl b))) (KDemux (port_map cport n)))).
  { cbn [step recv_ctrl_local]. unfold recv_ctrl_demux, resolve. change (String.eqb (cport k) "") with false. cbv iota.
    rewrite Fc. reflexivity. }
  eexists. split; [exact St|]. exists (set_ctrl b (sset (cport k) (ip_push c m) (o_ctrl b))), sent, q.
  rewrite received_app. cbn [received]. rewrite app_nil_r.
  split; auto. split; auto. split; auto. split; auto. cbn [o_ctrl set_ctrl]. split; [now apply swf_sset|]. split.
  - intros x. rewrite skeys_sset_existing; auto. unfold shas. now rewrite Fc.
  - intros x c' Hc. apply In_sfind in Hc; [|now apply swf_sset]. rewrite sfind_sset in Hc. rewrite chist_app. cbn [chist].
    destruct (String.eqb_spec x (cport k)) as [->|N].
    + injection Hc as <-. destruct (I _ c (sfind_In _ _ _ Fc)) as (dr & Eh & Hd). exists dr. rewrite String.eqb_refl.
      cbn [ip_push ip_data]. split; auto. rewrite Eh. now rewrite app_assoc.
    + destruct (String.eqb_spec (cport k) x); [congruence|]. rewrite app_nil_r. apply (I x c'). now apply sfind_In.
Qed.

(** the verdict of one execution *)
Lemma ctrl_says n evs d w b x c : (forall x, In x (skeys (o_ctrl b)) <-> exists k, (1 <= k <= n)%nat /\ x = cport k) ->
  (forall x c, In (x, c) (o_ctrl b) -> exists dr, chist x evs = dr ++ ip_data c /\
      forall d', In d' dr -> (forall w', In w' (d :: w) -> mtime d' < mtime w') /\ exists y, In y (received evs) /\ mtime d' <= mtime y) ->
  In (x, c) (o_ctrl b) -> instruct (chist x evs) (mtime d) = head_says (ip_data (port_trim (mtime d) c)) (mtime d).
Proof.
  intros K I Hc. destruct (I x c Hc) as (dr & -> & H). apply trim_says. intros d' Hd. apply (H d' Hd). cbn; auto.
Qed.

Lemma filter_all {A} (f : A -> bool) l : length (filter f l) = length l <-> forallb f l = true.
Proof.
  induction l as [|x l IH]; cbn; [tauto|]. destruct (f x); cbn; [rewrite <- IH; split; lia|].
  split; [|discriminate]. intros H. exfalso. clear IH.
  assert (X : (length (filter f l) <= length l)%nat) by (clear; induction l as [|y l IH]; cbn; auto; destruct (f y); cbn; lia). lia.
Qed.

Definition is_exec (e : ev) : Prop := e = EExec \/ e = EExecC.

Lemma demux_exec n evs waiting o e : is_exec e -> increasing (times (received evs)) -> demux_inv n evs waiting o ->
  match waiting with
  | [] => exists o', step o e = (Ok [], o') /\ demux_inv n (evs ++ [e]) waiting o'
  | d :: w =>
      if existsb (fun k => is_mismatch (says evs (mtime d) k)) (seq 1 n) then exists x o', step o e = (Throw x, o')
      else if forallb (fun k => is_given (says evs (mtime d) k)) (seq 1 n)
      then exists out o', step o e = (Ok out, o') /\ routed n evs d out /\ demux_inv n (evs ++ [e]) w o'
      else exists o', step o e = (Ok [], o') /\ demux_inv n (evs ++ [e]) waiting o'
  end.
Proof.
  intros He Inc (b & sent & q & -> & R & D & Q & W & K & I).
  set (kd := KDemux (port_map cport n)).
  assert (St : step (Op b kd) e = let '(r, (b', k')) := demux_join b kd (port_map cport n) in (r, Op b' k'))
    by (destruct He as [-> | ->]; reflexivity).
  assert (He' : forall x, chist x (evs ++ [e]) = chist x evs).
  { intros x. rewrite chist_app. destruct He as [-> | ->]; cbn; apply app_nil_r. }
  assert (Hr : received (evs ++ [e]) = received evs).
  { rewrite received_app. destruct He as [-> | ->]; cbn; apply app_nil_r. }
  rewrite St. clear St. unfold demux_join. rewrite D.
  destruct waiting as [|d w].
  - rewrite Q. eexists. split; [reflexivity|]. exists b, sent, q. rewrite Hr. repeat split; auto; try apply K.
    intros x c Hc. rewrite He'. apply I; auto.
  - rewrite Q.
    assert (Sy : forall x c, In (x, c) (o_ctrl b) -> instruct (chist x evs) (mtime d) = head_says (ip_data (port_trim (mtime d) c)) (mtime d)).
    { intros x c Hc. eapply ctrl_says; eauto. }
    destruct (existsb _ (seq 1 n)) eqn:Mi.
    { apply existsb_exists in Mi as (k & Hk & M). apply in_seq in Hk.
      assert (Hin : In (cport k) (skeys (o_ctrl b))) by (apply K; exists k; split; auto; lia).
      apply In_skeys_sfind in Hin as (c & Fc). apply sfind_In in Fc.
      destruct (demux_scan_throw (mtime d) (o_ctrl b)) as (x & cs & ->); [|eauto].
      exists (cport k), c. split; auto. rewrite <- (Sy _ _ Fc). unfold says in M. now destruct (instruct _ _). }
    assert (NM : forall x c, In (x, c) (o_ctrl b) -> head_says (ip_data (port_trim (mtime d) c)) (mtime d) <> Mismatch).
    { intros x c Hc M. rewrite <- (Sy x c Hc) in M. assert (Hx : In x (skeys (o_ctrl b))) by (eapply key_in; eauto).
      apply K in Hx as (k & Hk & ->). enough (existsb (fun k => is_mismatch (says evs (mtime d) k)) (seq 1 n) = true) by congruence.
      apply existsb_exists. exists k. split; [apply in_seq; lia|]. unfold says. now rewrite M. }
    rewrite (demux_scan_ok _ _ NM). cbv beta iota zeta.
    set (ctrls := trim (mtime d) (o_ctrl b)).
    assert (Wc : swf ctrls) by now apply swf_smapv.
    assert (Kc : skeys ctrls = skeys (o_ctrl b)) by apply skeys_smapv.
    assert (Le : length ctrls = length (o_ctrl b)) by apply map_length.
    assert (Ic : forall x c, In (x, c) ctrls -> exists dr, chist x evs = dr ++ ip_data c /\
      forall d', In d' dr -> mtime d' < mtime d).
    { intros x c Hc. apply In_smapv in Hc as (c0 & Hc & ->). destruct (I x c0 Hc) as (dr & Eh & Hd).
      destruct (trim_data (mtime d) c0) as (dr' & E & L & _). exists (dr ++ dr'). rewrite Eh, E, app_assoc. split; auto.
      intros d' Hd'. apply in_app_or in Hd' as [Hd'|Hd']; auto. apply (Hd d' Hd'). cbn; auto. }
    assert (Hdw : forall w', In w' w -> mtime d < mtime w').
    { rewrite R in Inc. apply increasing_app_inv in Inc as (_ & Inc & _). intros w' Hw. now apply (inc_cons_lt d w). }
    assert (Hdr : In d (received evs)) by (rewrite R; apply in_or_app; cbn; auto).
    assert (All : (Z.of_nat (length (filter (fun np => is_given (head_says (ip_data (port_trim (mtime d) (snd np))) (mtime d))) (o_ctrl b)))
                   =? Z.of_nat (length ctrls)) = forallb (fun k => is_given (says evs (mtime d) k)) (seq 1 n)).
    { rewrite Le. apply eq_true_iff_eq. rewrite Z.eqb_eq, Nat2Z.inj_iff, filter_all, !forallb_forall. split.
      - intros H k Hk. apply in_seq in Hk. assert (Hin : In (cport k) (skeys (o_ctrl b))) by (apply K; exists k; split; auto; lia).
        apply In_skeys_sfind in Hin as (c & Fc). apply sfind_In in Fc. specialize (H _ Fc). cbn in H.
        unfold says. now rewrite (Sy _ _ Fc).
      - intros H [x c] Hc. cbn. assert (Hx : In x (skeys (o_ctrl b))) by (eapply key_in; eauto).
        apply K in Hx as (k & Hk & ->). rewrite <- (Sy _ _ Hc). apply H, in_seq. lia. }
    rewrite All. destruct (forallb _ (seq 1 n)) eqn:Gi.
    + assert (G : forall x c, In (x, c) ctrls -> is_given (head_says (ip_data c) (mtime d)) = true).
      { intros x c Hc. apply In_smapv in Hc as (c0 & Hc & ->). rewrite <- (Sy x c0 Hc).
        assert (Hx : In x (skeys (o_ctrl b))) by (eapply key_in; eauto). apply K in Hx as (k & Hk & ->).
        rewrite forallb_forall in Gi. apply Gi, in_seq. lia. }
      assert (Hcm : forall x, In x (skeys ctrls) -> exists k, x = cport k /\ sfind x (port_map cport n) = Some (oport k)).
      { intros x Hx. rewrite Kc in Hx. apply K in Hx as (k & Hk & ->). exists k. split; auto. apply port_map_find; auto using cport_inj. }
      destruct (demux_out_spec d (port_map cport n) ctrls [] (swf_NoDup _ Wc) G Hcm) as (out & Eo & So). rewrite Eo.
      eexists out, _. split; [reflexivity|]. split.
      * split.
        -- intros k Hk. rewrite So. cbn [sfind].
           assert (Hin : In (cport k) (skeys (o_ctrl b))) by (apply K; eauto).
           apply In_skeys_sfind in Hin as (c & Fc). apply sfind_In in Fc.
           assert (Hc' : In (cport k, port_trim (mtime d) c) ctrls) by (apply In_smapv; eauto).
           assert (Pk : sfind (cport k) (port_map cport n) = Some (oport k)) by (apply port_map_find; auto using cport_inj).
           unfold says. rewrite (Sy _ _ Fc).
           destruct (find _ ctrls) as [[x c1]|] eqn:F.
           ++ apply find_some in F as [F1 F2]. cbn [fst snd] in F2. apply andb_prop in F2 as [F2 F3].
              destruct (Hcm x) as (j & -> & Pj); [eapply key_in; eauto|]. rewrite Pj in F3. apply String.eqb_eq, oport_inj in F3. subst j.
              assert (c1 = port_trim (mtime d) c).
              { apply (In_sfind _ _ _ Wc) in F1. apply (In_sfind _ _ _ Wc) in Hc'. congruence. }
              subst c1. destruct (head_says _ _) as [|[]|]; auto; discriminate.
           ++ pose proof (find_none _ _ F _ Hc') as X. cbn [fst snd] in X. rewrite Pk, String.eqb_refl, andb_true_r in X.
              destruct (head_says _ _) as [|[]|]; auto; discriminate.
        -- intros y ms. rewrite So. cbn [sfind]. destruct (find _ ctrls) as [[x c1]|] eqn:F; [|discriminate]. intros _.
           apply find_some in F as [F1 F2]. cbn [fst snd] in F2. apply andb_prop in F2 as [_ F3].
           assert (Hx : In x (skeys (o_ctrl b))) by (rewrite <- Kc; eapply key_in; eauto).
           apply K in Hx as (k & Hk & ->). rewrite port_map_find in F3; auto using cport_inj. apply String.eqb_eq in F3. eauto.
      * eexists _, (sent ++ [d]), (pop1 q). split; [reflexivity|]. rewrite Hr. split; [rewrite R; now rewrite <- app_assoc|].
        cbn [set_ctrl set_data o_data o_ctrl]. rewrite D, !pop_all_smapv. split; [reflexivity|].
        split; [unfold pop1, ip_pop; rewrite Q; reflexivity|]. split; [now apply swf_smapv|].
        split; [rewrite skeys_smapv, Kc; apply K|].
        intros x c Hc. apply In_smapv in Hc as (c1 & Hc & ->). destruct (Ic x c1 Hc) as (dr & Eh & Hd). specialize (G x c1 Hc).
        unfold pop1, ip_pop. unfold head_says in G. destruct (ip_data c1) as [|m r]; [discriminate|]. cbn [ip_data].
        exists (dr ++ [m]). rewrite He', <- app_assoc. split; auto.
        destruct ((mtime m =? mtime d) && (veq (mval m) v1 || veq (mval m) v0)) eqn:Tm; [|discriminate].
        apply andb_prop in Tm as [Tm _]. apply Z.eqb_eq in Tm.
        intros d' Hd'. assert (mtime d' <= mtime d) by (apply in_app_or in Hd' as [Hd'|[<-|[]]]; [specialize (Hd d' Hd')|]; lia).
        split; [intros w' Hw; specialize (Hdw w' Hw); lia|]. exists d. auto.
    + eexists. split; [reflexivity|]. exists (set_ctrl b ctrls), sent, q. rewrite Hr. split; auto. split; auto. split; auto. split; auto.
      split; auto. split; [cbn [o_ctrl set_ctrl]; rewrite Kc; apply K|].
      intros x c Hc. rewrite He'. destruct (Ic x c Hc) as (dr & Eh & Hd). exists dr. split; auto.
      intros d' Hd'. specialize (Hd d' Hd'). split; [|exists d; split; auto; lia].
      intros w' [<-|Hw]; auto. specialize (Hdw w' Hw). lia.
Qed.

Lemma received_inc_app e1 e2 : increasing (times (received (e1 ++ e2))) -> increasing (times (received e1)).
Proof. rewrite received_app. intros H. now apply increasing_app_inv in H as (? & _). Qed.

Lemma routed_more n evs more d out :
  forallb (fun k => is_given (says evs (mtime d) k)) (seq 1 n) = true -> routed n evs d out -> routed n (evs ++ more) d out.
Proof.
  intros G (A & B). split; auto. intros k Hk. rewrite A by auto.
  rewrite forallb_forall in G. specialize (G k). unfold says in *. rewrite chist_app, instruct_app; auto.
  intros E. rewrite E in G. assert (X : is_given Awaited = true) by (apply G, in_seq; lia). discriminate.
Qed.

Theorem run_demux n evs : forall before waiting o,
  demux_calls n evs -> increasing (times (received (before ++ evs))) -> demux_inv n before waiting o ->
  match demux_spec n before waiting evs with
  | Some ds => exists outs o' w, run o evs = (Ok outs, o') /\ Forall2 (routes n (before ++ evs)) ds outs /\
                 demux_inv n (before ++ evs) w o' /\ somes ds ++ w = waiting ++ received evs
  | None => exists x o', run o evs = (Throw x, o')
  end.
Proof.
  induction evs as [|e evs IH]; intros before waiting o Hc Inc Inv.
  - cbn. exists [], o, waiting. rewrite app_nil_r. repeat split; auto. now rewrite app_nil_r.
  - inversion Hc as [|? ? He Hc']; subst.
    assert (Eb : before ++ e :: evs = (before ++ [e]) ++ evs) by (now rewrite <- app_assoc).
    assert (Inc1 : increasing (times (received (before ++ [e])))) by (rewrite Eb in Inc; now apply received_inc_app in Inc).
    assert (Inc0 : increasing (times (received before))) by (now apply received_inc_app in Inc1).
    rewrite Eb in Inc |- *.
    assert (Sil : forall w o1, step o e = (Ok [], o1) -> demux_inv n (before ++ [e]) w o1 ->
      w ++ received evs = waiting ++ received (e :: evs) ->
      match option_map (cons None) (demux_spec n (before ++ [e]) w evs) with
      | Some ds => exists outs o' w, run o (e :: evs) = (Ok outs, o') /\ Forall2 (routes n ((before ++ [e]) ++ evs)) ds outs /\
                     demux_inv n ((before ++ [e]) ++ evs) w o' /\ somes ds ++ w = waiting ++ received (e :: evs)
      | None => exists x o', run o (e :: evs) = (Throw x, o')
      end).
    { intros w o1 S1 I1 Ew. specialize (IH (before ++ [e]) w o1 Hc' Inc I1).
      destruct (demux_spec n (before ++ [e]) w evs) as [ds|]; cbn [option_map].
      - destruct IH as (outs & o' & w' & R & F & I2 & E). exists ([] :: outs), o', w'. cbn [run]. rewrite S1.
        cbv beta iota zeta delta [bind sbind]. rewrite R. repeat split; auto; [constructor; auto; reflexivity|].
        cbn [somes]. now rewrite E, Ew.
      - destruct IH as (x & o' & R). exists x, o'. cbn [run]. rewrite S1. cbv beta iota zeta delta [bind sbind]. now rewrite R. }
    destruct e as [p m|p m| |].
    + destruct (demux_data n before waiting o p m He Inc1 Inv) as (o1 & S1 & I1). cbn [demux_spec].
      apply (Sil _ o1); auto. cbn [received]. now rewrite <- app_assoc.
    + destruct He as (k & Hk & ->). destruct (demux_ctrl n before waiting o k m Hk Inv) as (o1 & S1 & I1). cbn [demux_spec].
      apply (Sil _ o1); auto.
    + pose proof (demux_exec n before waiting o EExec (or_introl eq_refl) Inc0 Inv) as X. cbn [demux_spec].
      destruct waiting as [|d w]; [destruct X as (o1 & S1 & I1); apply (Sil _ o1); auto|].
      destruct (existsb _ _); [destruct X as (x & o1 & S1); exists x, o1; cbn [run]; rewrite S1; reflexivity|].
      destruct (forallb _ _) eqn:G; [|destruct X as (o1 & S1 & I1); apply (Sil _ o1); auto].
      destruct X as (out & o1 & S1 & Ro & I1). specialize (IH _ w o1 Hc' Inc I1).
      destruct (demux_spec n (before ++ [EExec]) w evs) as [ds|]; cbn [option_map].
      * destruct IH as (outs & o' & w' & R & F & I2 & E). exists (out :: outs), o', w'. cbn [run]. rewrite S1.
        cbv beta iota zeta delta [bind sbind]. rewrite R. repeat split; auto.
        -- constructor; auto. cbn [routes]. rewrite <- app_assoc. now apply routed_more.
        -- cbn [somes received app]. now rewrite E.
      * destruct IH as (x & o' & R). exists x, o'. cbn [run]. rewrite S1. cbv beta iota zeta delta [bind sbind]. now rewrite R.
    + pose proof (demux_exec n before waiting o EExecC (or_intror eq_refl) Inc0 Inv) as X. cbn [demux_spec].
      destruct waiting as [|d w]; [destruct X as (o1 & S1 & I1); apply (Sil _ o1); auto|].
      destruct (existsb _ _); [destruct X as (x & o1 & S1); exists x, o1; cbn [run]; rewrite S1; reflexivity|].
      destruct (forallb _ _) eqn:G; [|destruct X as (o1 & S1 & I1); apply (Sil _ o1); auto].
      destruct X as (out & o1 & S1 & Ro & I1). specialize (IH _ w o1 Hc' Inc I1).
      destruct (demux_spec n (before ++ [EExecC]) w evs) as [ds|]; cbn [option_map].
      * destruct IH as (outs & o' & w' & R & F & I2 & E). exists (out :: outs), o', w'. cbn [run]. rewrite S1.
        cbv beta iota zeta delta [bind sbind]. rewrite R. repeat split; auto.
        -- constructor; auto. cbn [routes]. rewrite <- app_assoc. now apply routed_more.
        -- cbn [somes received app]. now rewrite E.
      * destruct IH as (x & o' & R). exists x, o'. cbn [run]. rewrite S1. cbv beta iota zeta delta [bind sbind]. now rewrite R.
Qed.

End DemuxP.
