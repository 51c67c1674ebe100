(** * Increasing times: Input, Identity, PeakDetector, joins, Demultiplexer, Variable *)

From Coq Require Import String ZArith Bool List Lia Sorted.
From Verif Require Import Base.StrMap Base.Num Model.Core Model.Ops Model.Make Model.Run Model.Graph.
From Verif Require Import Spec.Shape Spec.Log Spec.Preserving Spec.Streams Spec.Operators Spec.Multi Spec.Join Spec.Demux Spec.Variable.
From Verif Require Import Proofs.Lists Proofs.Ports Proofs.Window Proofs.Basic Proofs.InputP Proofs.JoinP Proofs.JoinRun Proofs.JoinKinds Proofs.DemuxP Proofs.LogP Proofs.LogRun Proofs.Conns Proofs.Monotone.
Import ListNotations.
Open Scope string_scope.
Open Scope list_scope.
Open Scope Z_scope.
Open Scope rtbot_scope.

Section Monotone.
Context {NO : NumOps}.

Lemma port_map_inv from n x y : (forall a b, from a = from b -> a = b) ->
  sfind x (port_map from n) = Some y -> exists k, (1 <= k <= n)%nat /\ x = from k /\ y = oport k.
Proof.
  intros Hi H. unfold port_map in H. rewrite port_map_gen in H; auto using seq_NoDup.
  destruct (find _ _) as [k|] eqn:F; [|discriminate H]. injection H as <-.
  apply find_some in F as [F1 F2]. apply in_seq in F1. apply String.eqb_eq in F2. exists k. split; [lia|auto].
Qed.

(** ** Input *)

Definition sent_below (pm : smap string) (ls : smap msg) (E : string -> list Z) : Prop :=
  (forall y, increasing (E y)) /\
  (forall x y e, sfind x pm = Some y -> In e (E y) -> exists l, sfind x ls = Some l /\ e <= mtime l).

Lemma input_loop_increasing b pm :
  (forall x x' y, sfind x pm = Some y -> sfind x' pm = Some y -> x = x') ->
  forall tp ls out0 out b' k' E, NoDup tp ->
  (forall x y, In x tp -> sfind x pm = Some y -> sfind y out0 = None) ->
  sent_below pm ls (fun y => E y ++ times (odefault [] (sfind y out0))) ->
  input_loop tp b pm ls out0 = (Ok out, (b', k')) ->
  exists ls', k' = KInput pm ls' /\ o_toproc b' = [] /\ sent_below pm ls' (fun y => E y ++ times (odefault [] (sfind y out))).
Proof.
  intros U. induction tp as [|x tp IH]; intros ls out0 out b' k' E ND Hout Hs X; cbn [input_loop] in X.
  - injection X as <- <- <-. eauto.
  - inversion ND as [|? ? Nx ND']; subst.
    destruct (d_msg b x 0) as [m0| | | |]; try discriminate X.
    destruct (match sfind x ls with Some l => mtime l <? mtime m0 | None => true end) eqn:Fw.
    + destruct (sfind x pm) as [y|] eqn:Fy; [|discriminate X].
      eapply IH in X; eauto.
      * intros x' y' Ix Fx'. rewrite sfind_semplace. rewrite (Hout x' y'); cbn; auto.
        destruct (String.eqb_spec y' y) as [->|]; auto. exfalso. assert (x' = x) by (eapply U; eauto). congruence.
      * destruct Hs as (I & B). assert (N0 : sfind y out0 = None) by (apply (Hout x); cbn; auto). split.
        -- intros z. specialize (I z). rewrite sfind_semplace. destruct (sfind z out0) eqn:Z0; auto.
           destruct (String.eqb_spec z y) as [->|]; auto. cbn in *. rewrite app_nil_r in I. apply increasing_snoc; auto.
           intros e He. destruct (B x y e Fy) as (l & Fl & Le). { rewrite Z0. cbn. now rewrite app_nil_r. }
           rewrite Fl in Fw. apply Z.ltb_lt in Fw. lia.
        -- intros z y' e Fz He. rewrite sfind_semplace in He. rewrite sfind_sset.
           destruct (String.eqb_spec z x) as [->|Nz].
           ++ assert (y' = y) by congruence. subst y'. rewrite N0, String.eqb_refl in He. cbn in He. eexists. split; [reflexivity|].
              apply in_app_or in He as [He|[<-|[]]]; [|lia].
              destruct (B x y e Fy) as (l & Fl & Le). { apply in_or_app. auto. }
              rewrite Fl in Fw. apply Z.ltb_lt in Fw. lia.
           ++ assert (Ny : y' <> y) by (intros ->; apply Nz; eapply U; eauto).
              apply (B z y' e Fz). destruct (sfind y' out0); auto. destruct (String.eqb_spec y' y); congruence.
    + eapply IH in X; eauto. intros x' y' Ix. apply Hout. cbn; auto.
Qed.

Lemma ready_ports_NoDup b : forall tp tp', ready_ports b tp = Ok tp' -> NoDup tp -> NoDup tp'.
Proof.
  induction tp as [|x tp IH]; intros tp' E ND; cbn [ready_ports] in E.
  - injection E as <-. constructor.
  - inversion ND as [|? ? Nx ND']; subst. destruct (d_max b x); try discriminate E. cbn [rbind] in E.
    destruct (d_size b x); try discriminate E. cbn [rbind] in E.
    destruct (ready_ports b tp) as [r| | | |] eqn:R; try discriminate E. cbn [rbind] in E. injection E as <-.
    destruct (_ <? _); eauto. constructor; eauto. intros Hx. apply Nx. eapply ready_ports_In; eauto.
Qed.

Lemma input_increasing b0 pm : o_toproc b0 = [] ->
  (forall x x' y, sfind x pm = Some y -> sfind x' pm = Some y -> x = x') ->
  always_increasing (Op b0 (KInput pm [])).
Proof.
  intros Ht U evs outs o' R.
  enough (exists b ls, o' = Op b (KInput pm ls) /\ ssorted (o_toproc b) /\ sent_below pm ls (fun y => times (on_port y outs)))
    as (b & ls & _ & _ & I & _) by exact I.
  revert outs o' R. induction evs as [|e evs IH] using rev_ind; intros outs o' R.
  - injection R as <- <-. exists b0, []. split; auto. rewrite Ht. split; [constructor|]. split; [intros; constructor|intros ? ? ? ? []].
  - apply run_ok_snoc in R as (outs1 & o1 & out & R & St & ->).
    destruct (IH outs1 o1 R) as (b & ls & -> & Ss & I). clear IH.
    assert (Nil : out = [] -> sent_below pm ls (fun y => times (on_port y (outs1 ++ [out])))).
    { intros ->. destruct I as (I1 & I2). split.
      - intros y. rewrite times_on_port_snoc. cbn. rewrite app_nil_r. auto.
      - intros x y t Fx He. rewrite times_on_port_snoc in He. cbn in He. rewrite app_nil_r in He. eauto. }
    destruct e as [p m|p m| |]; cbn [step] in St.
    + unfold recv_data_local in St. destruct (recv_data_base b m p) as [[[]| | | |] b'] eqn:Q; try discriminate St.
      injection St as <- <-. exists b', ls. split; auto. split; auto.
      unfold recv_data_base in Q. cbv zeta in Q. destruct (sfind _ _); [|discriminate Q].
      destruct (port_receive _ _); try discriminate Q. injection Q as <-. cbn. now apply ssorted_add.
    + unfold recv_ctrl_local in St. destruct (recv_ctrl_base b m p) as [[[]| | | |] b'] eqn:Q; try discriminate St.
      injection St as <- <-. exists b', ls. split; auto. split; auto.
      unfold recv_ctrl_base in Q. cbv zeta in Q. destruct (sfind _ _); [|discriminate Q].
      destruct (port_receive _ _); try discriminate Q. injection Q as <-. exact Ss.
    + unfold exec_data_local in St. destruct (exec_base b (KInput pm ls)) as [r [b' k']] eqn:Q. injection St as -> <-.
      unfold exec_base in Q. destruct (ready_ports b (o_toproc b)) as [tp| | | |] eqn:Rd; try discriminate Q.
      destruct tp as [|x0 tp].
      * injection Q as <- <- <-. eexists _, ls. split; [reflexivity|]. split; [constructor|auto].
      * pose proof (ready_ports_NoDup _ _ _ Rd (ssorted_NoDup _ Ss)) as ND. cbn [process_data set_toproc o_toproc] in Q.
        destruct (input_loop (x0 :: tp) _ pm ls []) as [[o2| | | |] [b1 k1]] eqn:P; try discriminate Q.
        injection Q as -> <- <-.
        eapply (input_loop_increasing _ pm U) with (E := fun y => times (on_port y outs1)) in P as (ls' & -> & _ & S2); auto.
        -- exists (set_toproc b1 []), ls'. split; auto. split; [constructor|]. destruct S2 as (S1 & S2). split.
           ++ intros y. rewrite times_on_port_snoc. apply S1.
           ++ intros x y e Fx He. rewrite times_on_port_snoc in He. eauto.
        -- destruct I as (I1 & I2). split; intros; cbn in *; rewrite ?app_nil_r in *; eauto.
    + injection St as <- <-. exists b, ls. auto.
Qed.

(** ** Operators described by [answers] *)

Lemma answers_increasing (f : list msg -> opmsg) (P : list msg -> Prop) (g : list msg -> Z) :
  (forall h y, times (odefault [] (sfind y (f h))) = [] \/ times (odefault [] (sfind y (f h))) = [g h] /\ P h) ->
  (forall h h2, h2 <> [] -> P h -> P (h ++ h2) -> increasing (times (h ++ h2)) -> g h < g (h ++ h2)) ->
  forall evs y, increasing (times (received evs)) -> increasing (times (on_port y (answers f evs))).
Proof.
  intros Hf Hg evs y.
  enough (increasing (times (received evs)) -> increasing (times (on_port y (answers f evs))) /\
    forall e, In e (times (on_port y (answers f evs))) ->
      exists h h2, received evs = h ++ h2 /\ P h /\ e = g h /\ (pending evs = true -> h2 <> [])) by tauto.
  induction evs as [|e evs IH] using rev_ind; intros Inc; [split; [constructor|intros ? []]|].
  rewrite received_app in Inc. unfold times in Inc. rewrite map_app in Inc. pose proof (increasing_app_l _ _ Inc) as Inc1.
  destruct (IH Inc1) as [I B]. clear IH.
  rewrite answers_snoc, times_on_port_snoc, answer_snoc, pending_snoc, received_app.
  destruct e as [p m|p m| |]; cbn [sfind odefault times map received]; rewrite ?app_nil_r.
  - split; [auto|]. intros e He. destruct (B e He) as (h & h2 & E1 & Ph & -> & _). exists h, (h2 ++ [m]).
    rewrite E1, app_assoc. repeat split; auto. intros _. destruct h2; discriminate.
  - split; auto.
  - destruct (pending evs) eqn:Pe; cbn [sfind odefault times map]; rewrite ?app_nil_r.
    + destruct (Hf (received evs) y) as [->|[-> Pr]]; rewrite ?app_nil_r.
      * split; [auto|]. intros e He. destruct (B e He) as (h & h2 & E1 & Ph & -> & _). exists h, h2. repeat split; auto; discriminate.
      * split.
        -- apply increasing_snoc; auto. intros e He. destruct (B e He) as (h & h2 & E1 & Ph & -> & Ne).
           rewrite E1 in *. apply Hg; auto.
        -- intros e He. apply in_app_or in He as [He|[<-|[]]].
           ++ destruct (B e He) as (h & h2 & E1 & Ph & -> & _). exists h, h2. repeat split; auto; discriminate.
           ++ exists (received evs), []. rewrite app_nil_r. repeat split; auto; discriminate.
    + split; [auto|]. intros e He. destruct (B e He) as (h & h2 & E1 & Ph & -> & _). exists h, h2. repeat split; auto; discriminate.
  - split; auto.
Qed.

(** ** Operators with the single input [i1] *)

Lemma monotone_conns cs o : monotone o -> monotone (with_conns cs o).
Proof.
  intros M evs outs o' Pe R Hi Hc y. rewrite run_conns in R.
  destruct (run o evs) as [r o1] eqn:R1. cbn [fst snd] in R. injection R as -> _.
  eapply M; eauto.
Qed.
Lemma always_conns cs o : always_increasing o -> always_increasing (with_conns cs o).
Proof.
  intros M evs outs o' R y. rewrite run_conns in R.
  destruct (run o evs) as [r o1] eqn:R1. cbn [fst snd] in R. injection R as -> _.
  eapply M; eauto.
Qed.

Lemma nth_skipn (l : list msg) : forall i j d, nth i (skipn j l) d = nth (j + i) l d.
Proof.
  induction l as [|a l IH]; intros i [|j] d; cbn; auto. now destruct i.
Qed.

Definition named_input (evs : list ev) : Prop :=
  Forall (fun e => match e with EData p _ => p = "i1" | _ => True end) evs.

Lemma hist_named evs : named_input evs -> hist "i1" evs = received evs.
Proof.
  unfold hist, project. induction 1 as [|e evs He _ IH]; [reflexivity|].
  destruct e; cbn in *; auto. subst port. cbn. now rewrite IH.
Qed.

Lemma single_answers id k n (f : list msg -> opmsg) P g evs outs o' :
  ports_exist (sop id ["o1"] [] (new_port "i1" n) false k) evs ->
  (forall evs, one_input evs -> exists o', run (sop id ["o1"] [] (new_port "i1" n) false k) evs = (Ok (answers f evs), o')) ->
  (forall h y, times (odefault [] (sfind y (f h))) = [] \/ times (odefault [] (sfind y (f h))) = [g h] /\ P h) ->
  (forall h h2, h2 <> [] -> P h -> P (h ++ h2) -> increasing (times (h ++ h2)) -> g h < g (h ++ h2)) ->
  run (sop id ["o1"] [] (new_port "i1" n) false k) evs = (Ok outs, o') ->
  increasing (times (hist "i1" evs)) ->
  forall y, increasing (times (on_port y outs)).
Proof.
  intros Pe Run Hf Hg R Inc y.
  assert (Pi : Forall (fun e => match e with EData p _ => p = "i1" | ECtrl _ _ => False | _ => True end) evs).
  { eapply Forall_impl; [|exact Pe]. intros [p m|p m| |]; auto; cbn; unfold is_data_input, is_control_input, shas; cbn.
    - destruct (String.eqb_spec p "i1"); [auto|discriminate].
    - discriminate. }
  destruct (Run evs) as (o1 & R1).
  { eapply Forall_impl; [|exact Pi]. intros [p m|p m| |]; cbn; auto. }
  rewrite R in R1. injection R1 as -> _. eapply answers_increasing; eauto.
  rewrite hist_named in Inc; auto. eapply Forall_impl; [|exact Pi]. now intros [p m|p m| |].
Qed.

Lemma increasing_last_lt (h h2 : list msg) : h <> [] -> h2 <> [] -> increasing (times (h ++ h2)) -> last_time h < last_time (h ++ h2).
Proof.
  intros H1 H2 Inc. destruct h2 as [|x h2 _] using rev_ind; [congruence|]. unfold last_time.
  rewrite app_assoc, last_last. rewrite app_assoc in Inc. unfold times in Inc. rewrite map_app in Inc.
  apply increasing_snoc_inv in Inc as [_ Inc]. apply Inc. apply in_map. apply in_or_app. left.
  destruct h as [|a h _] using rev_ind; [congruence|]. rewrite last_last. apply in_or_app. cbn. auto.
Qed.

Lemma identity_monotone id o : mk_identity id = Ok o -> monotone o.
Proof.
  intros Ho evs outs o' Pe R Hi Hc y. unfold mk_identity in Ho. rewrite mk_simple_sop in Ho. injection Ho as <-.
  eapply (single_answers id KIdentity 1 (mapping (apply_value (fun x => x))) (fun h => h <> []) last_time); eauto.
  - intros evs' H'. eexists. apply run_map; auto.
  - intros h z. unfold mapping, when_full. destruct (Z.ltb_spec (Z.of_nat (length h)) 1) as [L|L]; [left; reflexivity|].
    destruct (String.eqb_spec z "o1") as [->|Ne].
    + right. split; [|intros ->; cbn in L; lia]. cbn. change (Pos.to_nat 1) with 1%nat. rewrite lastn_last by lia. reflexivity.
    + left. unfold apply_value, emits. cbn [sfind]. destruct (String.eqb_spec z "o1"); [congruence|]. reflexivity.
  - intros h h2 N2 N1 _ Inc. now apply increasing_last_lt.
Qed.

Lemma increasing_nth l : increasing l -> forall i j, (i < j < length l)%nat -> nth i l 0 < nth j l 0.
Proof.
  intros H. induction H as [|a l H IH F]; intros i j Hij; cbn in Hij; [lia|].
  destruct j as [|j]; [lia|]. destruct i as [|i]; cbn.
  - rewrite Forall_forall in F. apply F, nth_In. lia.
  - apply IH. lia.
Qed.
Lemma times_nth h i : mtime (nth i h msg0) = nth i (times h) 0.
Proof. unfold times. rewrite <- (map_nth mtime). reflexivity. Qed.

Lemma peak_monotone id n o : 0 < n -> mk_peak id n = Ok o -> monotone o.
Proof.
  intros Hn Ho evs outs o' Pe R Hi Hc y. unfold mk_peak in Ho. rewrite mk_simple_sop in Ho. injection Ho as <-.
  set (N := Z.to_nat n).
  eapply (single_answers id KPeak n (peak n) (fun h => (N <= length h)%nat)
            (fun h => mtime (nth (length h - N + N / 2) h msg0))); eauto.
  - intros evs' H'. eexists. apply run_peak; auto.
  - intros h z. unfold peak, when_full. destruct (Z.ltb_spec (Z.of_nat (length h)) n) as [L|L]; [left; reflexivity|]. cbv zeta.
    fold N. assert (LN : (N <= length h)%nat) by lia.
    assert (Lw : length (lastn N h) = N) by (rewrite lastn_length; lia). rewrite Lw.
    destruct (forallb _ _); [|left; reflexivity].
    destruct (String.eqb_spec z "o1") as [->|Ne].
    + right. split; [|lia]. cbn [emits sfind String.eqb Ascii.eqb Bool.eqb odefault times map]. f_equal. f_equal.
      unfold lastn. rewrite nth_skipn. reflexivity.
    + left. unfold emits. cbn [sfind]. destruct (String.eqb_spec z "o1"); [congruence|]. reflexivity.
  - intros h h2 N2 P1 P2 Inc. rewrite !times_nth. rewrite app_length in *.
    assert (LN : (N / 2 < N)%nat) by (apply Nat.div_lt; lia).
    assert (L2 : (1 <= length h2)%nat) by (destruct h2; [congruence|cbn; lia]).
    replace (nth (length h - N + N / 2) (times h) 0) with (nth (length h - N + N / 2) (times (h ++ h2)) 0).
    + apply increasing_nth; auto. unfold times. rewrite map_length, app_length. lia.
    + unfold times. rewrite map_app. apply app_nth1. rewrite map_length. lia.
Qed.

(** ** Joins *)

Definition no_execc (e : ev) : bool := match e with EExecC => false | _ => true end.

Lemma run_drop k evs : is_join k -> forall b outs o', run (Op b k) evs = (Ok outs, o') ->
  exists outs', run (Op b k) (filter no_execc evs) = (Ok outs', o') /\ forall y, on_port y outs = on_port y outs'.
Proof.
  intros Kj. induction evs as [|e evs IH]; intros b outs o' R; [injection R as <- <-; exists []; auto|].
  cbn [run] in R. apply bind_ok in R as (out & o1 & St & R). apply bind_ok in R as (xs & o2 & R & E). injection E as <- <-.
  assert (K1 : exists b1, o1 = Op b1 k).
  { destruct e; cbn [step] in St.
    - apply bind_ok in St as (u & o3 & St & E). injection E as <- <-. unfold recv_data_local in St.
      destruct (match k with KJoin _ | KBinary _ | KLinear _ => recv_data_join b m port | KDemux _ => recv_data_demux b m port
        | KAutoReg _ => recv_data_ar b m port | _ => recv_data_base b m port end) as [r b']. injection St as _ <-. eauto.
    - apply bind_ok in St as (u & o3 & St & E). injection E as <- <-. unfold recv_ctrl_local in St.
      destruct (match k with KDemux _ => recv_ctrl_demux b m port | _ => recv_ctrl_base b m port end) as [r b']. injection St as _ <-. eauto.
    - assert (J : (let '(r, (b', k')) := join_exec b k in (r, Op b' k')) = (Ok out, o1)) by (destruct k; try contradiction; exact St).
      unfold join_exec in J. destruct (o_data b) as [|[n0 p0] ports]; [discriminate J|].
      destruct (ip_data p0); [injection J as _ <-; eauto|]. destruct (join_latest _ _ _) as [[best t]|]; [|injection J as _ <-; eauto].
      cbv zeta in J. destruct (join_ready _ _); [|injection J as _ <-; eauto]. destruct (join_process _ k); try discriminate J; injection J as _ <-; eauto.
    - exists b. destruct k; try contradiction; now injection St as _ <-. }
  destruct K1 as (b1 & ->). destruct (IH b1 xs o2 R) as (outs' & R' & O'). cbn [filter].
  destruct e; cbn [no_execc]; try (exists (out :: outs'); cbn [run]; rewrite St; cbn [bind sbind]; unfold bind, sbind; rewrite R'; split; auto;
    intros y; cbn; f_equal; apply O').
  exists outs'. assert (X : (Ok (@nil (string * portmsg)), Op b k) = (Ok out, Op b1 k)) by (destruct k; try contradiction; exact St).
  injection X as <- <-. split; auto.
Qed.

Lemma hist_filter x evs : hist x (filter no_execc evs) = hist x evs.
Proof.
  unfold hist, project. induction evs as [|e evs IH]; [reflexivity|]. destruct e; cbn in *; auto. destruct (String.eqb port x); cbn; auto. now rewrite IH.
Qed.


Lemma pick_increasing y ts outs :
  Forall2 (fun t out => times (odefault [] (sfind y out)) = [] \/ exists t', t = Some t' /\ times (odefault [] (sfind y out)) = [t']) ts outs ->
  increasing (somes ts) ->
  increasing (times (on_port y outs)) /\ forall e, In e (times (on_port y outs)) -> In e (somes ts).
Proof.
  induction 1 as [|t out ts outs Hto F IH]; intros Inc; [split; [constructor|intros ? []]|].
  change (on_port y (out :: outs)) with (odefault [] (sfind y out) ++ on_port y outs). unfold times. rewrite map_app.
  fold (times (odefault [] (sfind y out))). fold (times (on_port y outs)).
  destruct IH as (I1 & I2); [destruct t; auto; cbn [somes] in Inc; now inversion Inc|].
  destruct Hto as [-> | (t' & -> & ->)].
  - split; [exact I1|]. intros e He. destruct t; cbn; auto.
  - cbn [somes app] in *. inversion Inc as [|? ? A B]; subst. split.
    + constructor; auto. rewrite Forall_forall in *. auto.
    + intros e [<-|He]; cbn; auto.
Qed.

Lemma join_monotone n b k g :
  (1 <= n)%nat -> fresh n b -> o_ctrl b = [] -> processes b k g ->
  (forall evs t y, In t (common_times n evs) -> let out := g (map (fun x => at_time (hist x evs) t) (skeys (o_data b))) in
     times (odefault [] (sfind y out)) = [] \/ times (odefault [] (sfind y out)) = [t]) ->
  monotone (Op b k).
Proof.
  intros Hn Fr Nc Pr Hf evs outs o' Pe R Hi _ y.
  destruct (run_drop k evs (proj1 Pr) b outs o' R) as (outs' & R' & ->).
  assert (Ord : ordered_ports n (filter no_execc evs)) by (intros j Hj; rewrite hist_filter; apply Hi).
  assert (On : data_on n (filter no_execc evs)).
  { apply Forall_forall. intros e He. apply filter_In in He as [He Ne]. unfold ports_exist in Pe. rewrite Forall_forall in Pe. specialize (Pe e He).
    destruct e as [p m|p m| |]; auto; [|unfold is_control_input in Pe; cbn in Pe; rewrite Nc in Pe; discriminate Pe|discriminate Ne].
    unfold is_data_input in Pe. cbn in Pe. destruct Fr as (_ & Nu & _). apply Nu.
    unfold shas in Pe. destruct (sfind p (o_data b)) eqn:F; [|discriminate]. eapply sfind_In_key; eauto. }
  destruct (join_sync n b k g (fun _ t out => times (odefault [] (sfind y out)) = [] \/ times (odefault [] (sfind y out)) = [t])
     _ Hn Fr Pr On Ord) as (outs2 & o2 & pend & R2 & (ts & F & C) & _).
  { intros t Ht. now apply Hf. }
  rewrite R2 in R'. injection R' as -> _.
  pose proof (common_times_increasing n _ Hn Ord) as Inc. rewrite C in Inc. apply increasing_app_l in Inc.
  eapply pick_increasing; [|exact Inc].
  clear -F. induction F as [|t out ts outs H F IH]; constructor; auto. destruct t as [t|].
  - destruct H; eauto.
  - rewrite H. left. reflexivity.
Qed.

Lemma mk_noctrl_join id n b k : mk_join id n = Ok (Op b k) -> o_ctrl b = [].
Proof.
  unfold mk_join. destruct (Nat.ltb n 2); [discriminate|]. destruct (add_ports (seq 1 n) 0 true (base0 id)) as [b1| | | |] eqn:A; try discriminate.
  cbn. intros [= <- _]. now apply fresh_ports in A.
Qed.
Lemma mk_noctrl_linear id c b k : mk_linear id c = Ok (Op b k) -> o_ctrl b = [].
Proof.
  unfold mk_linear. destruct (Nat.ltb _ 2); [discriminate|]. destruct (add_ports _ 0 false (base0 id)) as [b1| | | |] eqn:A; try discriminate.
  cbn. intros [= <- _]. now apply fresh_ports in A.
Qed.
Lemma mk_noctrl_binary id f b k : mk_binary id f = Ok (Op b k) -> o_ctrl b = [].
Proof.
  unfold mk_binary. destruct (add_ports (seq 1 2) 0 false (base0 id)) as [b1| | | |] eqn:A; try discriminate.
  change (rbind (Ok b1) (fun b => Ok (Op (add_out b "o1") (KBinary f)))) with (@Ok op (Op (add_out b1 "o1") (KBinary f))).
  intros H. assert (E : add_out b1 "o1" = b) by congruence. subst b. now apply fresh_ports in A.
Qed.

Lemma out1_times y m : times (odefault [] (sfind y (out1 m))) = [] \/ times (odefault [] (sfind y (out1 m))) = [mtime m].
Proof. cbn [out1 sfind]. destruct (String.eqb y "o1"); auto. Qed.

Lemma mk_join_monotone id n o : mk_join id n = Ok o -> monotone o.
Proof.
  intros Ho. destruct (mk_join_fresh id n o Ho) as (b & -> & Hn & Fr & Pr).
  eapply (join_monotone n b _ _ ltac:(lia) Fr (mk_noctrl_join _ _ _ _ Ho) Pr). intros evs t y Ht. cbv zeta.
  destruct Fr as (W & Nu & _).
  destruct (join_one_per_port n (skeys (o_data b)) evs t ltac:(lia)) as (A & B); auto using swf_NoDup.
  destruct (sfind y _) as [ms|] eqn:F; [|left; reflexivity]. right. destruct (B _ _ F) as (k & Hk & ->).
  rewrite A in F by auto. injection F as <-. cbn. f_equal. apply at_time_spec.
  apply (proj1 (common_times_spec n _ evs t ltac:(lia) Nu) Ht). apply Nu. eauto.
Qed.

Lemma mk_binary_monotone id f o : mk_binary id f = Ok o -> monotone o.
Proof.
  intros Ho. destruct (mk_binary_fresh id f o Ho) as (b & -> & Fr & K & Pr).
  eapply (join_monotone 2 b _ _ ltac:(lia) Fr (mk_noctrl_binary _ _ _ _ Ho) Pr). intros evs t y Ht. cbv zeta. rewrite K.
  cbn [map]. destruct (bin_apply _ _ _); [|left; reflexivity].
  replace (mtime (at_time (hist "i1" evs) t)) with t; [apply (out1_times y (mkMsg t v))|].
  symmetry. apply at_time_spec. destruct Fr as (_ & Nu & _). apply (proj1 (common_times_spec 2 _ evs t ltac:(lia) Nu) Ht). rewrite K. cbn. auto.
Qed.

Lemma mk_linear_monotone id c o : mk_linear id c = Ok o -> monotone o.
Proof.
  intros Ho. destruct (mk_linear_fresh id c o Ho) as (b & -> & Hn & Fr & L & Pr).
  eapply (join_monotone (length c) b _ _ ltac:(lia) Fr (mk_noctrl_linear _ _ _ _ Ho) Pr). intros evs t y Ht. cbv zeta.
  destruct (skeys (o_data b)) as [|x0 names] eqn:K.
  { exfalso. unfold skeys in K. apply map_eq_nil in K. rewrite K in L. cbn in L. lia. }
  cbn [map hd]. replace (mtime (at_time (hist x0 evs) t)) with t; [apply (out1_times y (mkMsg t _))|].
  symmetry. apply at_time_spec. destruct Fr as (_ & Nu & _). apply (proj1 (common_times_spec (length c) _ evs t ltac:(lia) Nu) Ht). rewrite K. cbn. auto.
Qed.

(** ** Demultiplexer *)

Lemma mk_demux_monotone id n o : mk_demux id n = Ok o -> monotone o.
Proof.
  intros Ho evs outs o' Pe R Hi _ y. destruct (demux_start id n o Ho) as (Hn & Inv).
  assert (Hc : demux_calls n evs /\ named_input evs).
  { destruct Inv as (b & sent & p & -> & _ & D & _ & _ & K & _). split; (eapply Forall_impl; [|exact Pe]);
      (intros [q m|q m| |]; auto); unfold is_data_input, is_control_input; cbn [op_base]; rewrite ?D.
    - unfold shas. cbn. destruct (String.eqb_spec q "i1"); [auto|discriminate].
    - intros H. apply K. unfold shas in H. destruct (sfind q (o_ctrl b)) eqn:F; [|discriminate]. eapply sfind_In_key; eauto.
    - unfold shas. cbn. destruct (String.eqb_spec q "i1"); [auto|discriminate]. }
  destruct Hc as (Hc & Hni). assert (Inc : increasing (times (received evs))) by (rewrite <- hist_named; auto).
  pose proof (run_demux n evs [] [] o Hc Inc Inv) as X. destruct (demux_spec n [] [] evs) as [ds|].
  2: { destruct X as (x & o1 & X). rewrite R in X. discriminate X. }
  destruct X as (outs1 & o1 & w & R1 & F & _ & E). rewrite R in R1. injection R1 as <- _. cbn [app] in *.
  rewrite <- E in Inc. unfold times in Inc. rewrite map_app in Inc. apply increasing_app_l in Inc.
  apply (pick_increasing y (map (option_map mtime) ds)).
  - clear -F. induction F as [|d out ds outs H F IH]; cbn [map]; constructor; auto. destruct d as [d|]; cbn [routes option_map] in *.
    + destruct H as (A & B). unfold opmsg, portmsg in *. destruct (sfind y out) as [ms|] eqn:Fy; [|left; reflexivity]. destruct (B _ _ Fy) as (k & Hk & ->).
      rewrite A in Fy by auto. destruct (says evs (mtime d) k) as [|[|]|]; try discriminate Fy. injection Fy as <-. right. exists (mtime d). auto.
    + rewrite H. left. reflexivity.
  - replace (somes (map (option_map mtime) ds)) with (map mtime (somes ds)); auto. clear. induction ds as [|[d|] ds IH]; cbn; auto. now rewrite IH.
Qed.

(** ** Variable *)

Definition var_ok (o : op) (cs : list Z) (E : string -> list Z) : Prop :=
  exists b v i dp cp, o = Op b (KVariable v i) /\ o_data b = [("i1", dp)] /\ o_ctrl b = [("c1", cp)] /\
    (exists dr, cs = dr ++ times (ip_data cp) /\ forall y e, In e (E y) -> In e dr) /\
    forall y, increasing (E y).

Lemma var_query_ok b v i cs E out b' k' :
  increasing cs -> var_ok (Op b (KVariable v i)) cs E -> var_query b v i = (Ok out, (b', k')) ->
  var_ok (Op b' k') cs (fun y => E y ++ times (odefault [] (sfind y out))).
Proof.
  intros Inc (b0 & v0' & i0 & dp & cp & Eo & D & C & (dr & Ec & Hd) & He) Q. injection Eo as <- <- <-.
  unfold var_query in Q. rewrite D, C in Q. cbv zeta in Q.
  assert (Stay : forall b1 v1 i1 dp1, o_data b1 = [("i1", dp1)] -> o_ctrl b1 = [("c1", cp)] ->
    var_ok (Op b1 (KVariable v1 i1)) cs (fun y => E y ++ times (odefault [] (sfind y (@nil (string * portmsg)))))).
  { intros b1 v1' i1 dp1 D1 C1. exists b1, v1', i1, dp1, cp. split; auto. split; auto. split; auto. split.
    - exists dr. split; auto. intros y e. cbn. rewrite app_nil_r. apply Hd.
    - intros y. cbn. rewrite app_nil_r. apply He. }
  assert (Emit : forall b1 v1 i1 dp1 c0 crest w, ip_data cp = c0 :: crest -> o_data b1 = [("i1", dp1)] -> o_ctrl b1 = [("c1", set_q cp crest)] ->
    var_ok (Op b1 (KVariable v1 i1)) cs (fun y => E y ++ times (odefault [] (sfind y (out1 (mkMsg (mtime c0) w)))))).
  { intros b1 v1' i1 dp1 c0 crest w Ecp D1 C1. exists b1, v1', i1, dp1, (set_q cp crest). split; auto. split; auto. split; auto.
    rewrite Ecp in Ec. cbn [times map] in Ec. fold (times crest) in Ec. split.
    - exists (dr ++ [mtime c0]). split; [rewrite <- app_assoc; exact Ec|].
      intros y e He'. apply in_or_app. apply in_app_or in He' as [He'|He']; [left; eauto|right].
      destruct (out1_times y (mkMsg (mtime c0) w)) as [X|X]; rewrite X in He'; [destruct He'|exact He'].
    - intros y. destruct (out1_times y (mkMsg (mtime c0) w)) as [X|X]; rewrite X; [rewrite app_nil_r; auto|].
      cbn [mtime]. apply increasing_snoc; auto. intros z Hz. apply Hd in Hz. subst cs.
      clear -Inc Hz. induction dr as [|a dr IH]; [destruct Hz|]. cbn in Inc. inversion Inc as [|? ? A B]; subst.
      destruct Hz as [->|Hz]; [|auto]. rewrite Forall_forall in B. apply B. apply in_or_app. cbn. auto. }
  destruct (ip_data dp) as [|d0 dq] eqn:Ed; [injection Q as <- <- <-; eauto|].
  destruct (ip_data cp) as [|c0 crest] eqn:Ecp; [injection Q as <- <- <-; eauto|].
  destruct ((mtime c0 <? mtime d0) && negb i); [injection Q as <- <- <-; eapply Emit; eauto; cbn; reflexivity|].
  destruct (mtime d0 <=? mtime c0); [|discriminate Q].
  destruct (mtime c0 =? mtime d0); [injection Q as <- <- <-; eapply Emit; eauto; cbn; reflexivity|].
  destruct (var_loop _ _) as [[w|] q']; injection Q as <- <- <-.
  - eapply Emit; eauto; cbn; reflexivity.
  - eapply Stay; cbn; eauto.
Qed.

Lemma var_ok_ext o cs E E' : (forall y, E y = E' y) -> var_ok o cs E -> var_ok o cs E'.
Proof.
  intros H (b & v & i & dp & cp & Eo & D & C & (dr & Ec & Hd) & He). exists b, v, i, dp, cp. repeat (split; auto).
  - exists dr. split; auto. intros y e Hy. rewrite <- H in Hy. eauto.
  - intros y. rewrite <- H. auto.
Qed.

Lemma port_receive_suffix p m p' : port_receive p m = Ok p' -> exists dr, ip_data p ++ [m] = dr ++ ip_data p'.
Proof.
  unfold port_receive. destruct (ip_max p =? ip_size p).
  - unfold ip_pop. destruct (ip_data p) as [|x l] eqn:D; [discriminate|]. intros [= <-]. exists [x]. reflexivity.
  - destruct (ip_max p <? ip_size p); [discriminate|]. intros [= <-]. exists []. reflexivity.
Qed.

Lemma mk_variable_monotone id v o : mk_variable id v = Ok o -> monotone o.
Proof.
  intros Ho evs outs o' Pe R _ Hc.
  enough (var_ok o' (times (chist "c1" evs)) (fun y => times (on_port y outs))) as (b & ? & ? & ? & ? & _ & _ & _ & _ & X) by exact X.
  specialize (Hc "c1").
  assert (Pc : Forall (fun e => match e with EData p _ => p = "i1" | ECtrl p _ => p = "c1" | _ => True end) evs).
  { cbn in Ho. injection Ho as <-. eapply Forall_impl; [|exact Pe]. intros [p m|p m| |]; auto; cbn; unfold is_data_input, is_control_input, shas; cbn.
    - destruct (String.eqb_spec p "i1"); [auto|discriminate].
    - destruct (String.eqb_spec p "c1"); [auto|discriminate]. }
  clear Pe. revert outs o' R. induction evs as [|e evs IH] using rev_ind; intros outs o' R.
  - injection R as <- <-. cbn in Ho. injection Ho as <-. do 5 eexists. split; [reflexivity|]. split; [reflexivity|]. split; [reflexivity|].
    split; [exists []; split; [reflexivity|intros ? ? []]|intros; constructor].
  - apply run_ok_snoc in R as (outs1 & o1 & out & R & St & ->). apply Forall_app in Pc as [Pc Pl].
    rewrite chist_app in Hc. unfold times in Hc. rewrite map_app in Hc. pose proof (increasing_app_l _ _ Hc) as Hc1.
    specialize (IH Hc1 Pc outs1 o1 R). inversion Pl as [|? ? Pe _]; subst. clear Pl Pc.
    assert (Ext : forall o2 cs, var_ok o2 cs (fun y => times (on_port y outs1)) -> out = [] -> var_ok o2 cs (fun y => times (on_port y (outs1 ++ [out])))).
    { intros o2 cs V ->. eapply var_ok_ext; [|exact V]. intros y. cbv beta. rewrite times_on_port_snoc. cbn. now rewrite app_nil_r. }
    pose proof IH as (b & w & i & dp & cp & -> & D & C & (dr & Ec & Hd) & He).
    destruct e as [p m|p m| |].
    + subst p. cbn [step] in St. unfold recv_data_local, recv_data_base in St. cbv zeta in St.
      replace (chist "c1" (evs ++ [EData "i1" m])) with (chist "c1" evs) by (rewrite chist_app; cbn; now rewrite app_nil_r).
      rewrite D in St. cbn in St.
      destruct (port_receive dp m) as [p'| | | |]; try discriminate St. cbn in St. injection St as <- <-. apply Ext; auto.
      do 3 eexists. exists p', cp. split; [reflexivity|]. split; [reflexivity|]. split; [exact C|]. eauto.
    + subst p. cbn [step] in St. unfold recv_ctrl_local, recv_ctrl_base in St. cbv zeta in St. rewrite C in St.
      cbn in St.
      destruct (port_receive cp m) as [p'| | | |] eqn:P; try discriminate St. cbn in St. injection St as <- <-. apply Ext; auto.
      do 3 eexists. exists dp, p'. split; [reflexivity|]. split; [exact D|]. split; [reflexivity|]. split; auto.
      destruct (port_receive_suffix _ _ _ P) as (dr' & E'). exists (dr ++ times dr'). split.
      * rewrite chist_app. unfold times in *. rewrite map_app, Ec, <- !app_assoc. f_equal. cbn [chist String.eqb Ascii.eqb Bool.eqb].
        apply (f_equal (map mtime)) in E'. rewrite !map_app in E'. exact E'.
      * intros y e Hy. apply in_or_app. left. eauto.
    + rewrite chist_app. cbn [chist]. rewrite app_nil_r.
      cbn [step] in St. unfold exec_data_local in St. destruct (var_query b w i) as [r [b' k']] eqn:Q. injection St as -> <-.
      eapply var_ok_ext; [|eapply var_query_ok; [exact Hc1|exact IH|exact Q]]. intros y. cbv beta. now rewrite times_on_port_snoc.
    + rewrite chist_app. cbn [chist]. rewrite app_nil_r.
      cbn [step] in St. unfold exec_ctrl_local in St. destruct (var_query b w i) as [r [b' k']] eqn:Q. injection St as -> <-.
      eapply var_ok_ext; [|eapply var_query_ok; [exact Hc1|exact IH|exact Q]]. intros y. cbv beta. now rewrite times_on_port_snoc.
Qed.

End Monotone.
