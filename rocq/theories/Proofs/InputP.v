(** * The Input operator. *)

From Coq Require Import String ZArith Bool List Lia Sorted.
From Verif Require Import Base.StrMap Base.Num Model.Core Model.Ops Model.Make Model.Run.
From Verif Require Import Spec.Streams Spec.Operators Spec.Multi Proofs.Lists Proofs.Window Proofs.Ports.
Import ListNotations.
Open Scope string_scope.
Open Scope list_scope.
Open Scope Z_scope.
Open Scope rtbot_scope.

Section InputP.
Context {NO : NumOps}.

(** ** Records *)

Definition last_opt {A} (l : list A) : option A :=
  match rev l with [] => None | x :: _ => Some x end.

Lemma last_opt_snoc {A} (l : list A) x : last_opt (l ++ [x]) = Some x.
Proof. unfold last_opt. now rewrite rev_app_distr. Qed.

Definition later_than (o : option msg) (m : msg) : bool :=
  match o with Some l => mtime l <? mtime m | None => true end.

Lemma records_snoc0 ms m :
  records (ms ++ [m]) = records ms ++ (if forallb (fun x => mtime x <? mtime m) ms then [m] else []).
Proof.
  unfold records. rewrite prefixes_snoc, filter_app, map_app. f_equal. cbn [filter].
  unfold is_record, last_time. rewrite removelast_last, last_last.
  destruct (forallb _ ms); cbn; [now rewrite last_last|reflexivity].
Qed.

Lemma records_later ms m :
  forallb (fun x => mtime x <? mtime m) ms = later_than (last_opt (records ms)) m.
Proof.
  revert m. induction ms as [|a ms IH] using rev_ind; intros m; [reflexivity|].
  rewrite records_snoc0, forallb_app. cbn [forallb]. rewrite andb_true_r.
  destruct (forallb (fun x => mtime x <? mtime a) ms) eqn:E.
  - rewrite last_opt_snoc. cbn. destruct (mtime a <? mtime m) eqn:E2; [|apply andb_false_r].
    rewrite andb_true_r. apply forallb_forall. intros x Hx. rewrite forallb_forall in E.
    specialize (E x Hx). apply Z.ltb_lt in E, E2. apply Z.ltb_lt. lia.
  - rewrite app_nil_r, IH. unfold later_than. rewrite (IH a) in E. unfold later_than in E.
    destruct (last_opt (records ms)) as [l|]; [|discriminate].
    destruct (mtime l <? mtime m) eqn:E2; [|reflexivity]. cbn.
    apply Z.ltb_ge in E. apply Z.ltb_lt in E2. apply Z.ltb_lt. lia.
Qed.

Lemma records_snoc ms m :
  records (ms ++ [m]) = records ms ++ (if later_than (last_opt (records ms)) m then [m] else []).
Proof. now rewrite records_snoc0, records_later. Qed.

Lemma records_increasing ms : increasing (times (records ms)).
Proof.
  assert (G : increasing (times (records ms)) /\
              forall x, In x (records ms) -> forall l, last_opt (records ms) = Some l -> mtime x <= mtime l).
  { induction ms as [|m ms [IH1 IH2]] using rev_ind.
    - split; [constructor|cbn; tauto].
    - rewrite records_snoc. destruct (later_than (last_opt (records ms)) m) eqn:E.
      + split.
        * unfold times, increasing. rewrite map_app. cbn.
          assert (F : Forall (fun t => t < mtime m) (map mtime (records ms))).
          { apply Forall_forall. intros t Ht. apply in_map_iff in Ht as (x & <- & Hx).
            destruct (last_opt (records ms)) as [l|] eqn:L.
            - specialize (IH2 x Hx l eq_refl). cbn in E. apply Z.ltb_lt in E. lia.
            - exfalso. unfold last_opt in L. destruct (rev (records ms)) eqn:R; [|discriminate].
              apply (f_equal (@rev _)) in R. rewrite rev_involutive in R. rewrite R in Hx. destruct Hx. }
          unfold times, increasing in IH1. clear - IH1 F. induction IH1 as [|t l H IH HF]; cbn.
          { repeat constructor. }
          inversion F; subst. constructor; auto. apply Forall_app. split; auto.
        * intros x Hx l Hl. rewrite last_opt_snoc in Hl. injection Hl as <-.
          apply in_app_or in Hx as [Hx|[<-|[]]]; [|lia].
          destruct (last_opt (records ms)) as [l|] eqn:L.
          -- specialize (IH2 x Hx l eq_refl). cbn in E. apply Z.ltb_lt in E. lia.
          -- exfalso. unfold last_opt in L. destruct (rev (records ms)) eqn:R; [|discriminate].
             apply (f_equal (@rev _)) in R. rewrite rev_involutive in R. rewrite R in Hx. destruct Hx.
      + rewrite app_nil_r. auto. }
  apply G.
Qed.

(** ** The loop *)

Lemma input_loop_spec b pm (M : string -> msg) (O : string -> string) :
  forall tp ls out,
  NoDup tp ->
  (forall p, In p tp -> d_msg b p 0 = Ok (M p)) ->
  (forall p, In p tp -> sfind p pm = Some (O p)) ->
  (forall p q, In p tp -> In q tp -> O p = O q -> p = q) ->
  (forall p, In p tp -> sfind (O p) out = None) ->
  swf ls -> swf out ->
  exists ls' out',
    input_loop tp b pm ls out = (Ok out', (set_toproc b [], KInput pm ls')) /\
    swf ls' /\ swf out' /\
    (forall p, In p tp ->
       sfind (O p) out' = (if later_than (sfind p ls) (M p) then Some [M p] else None) /\
       sfind p ls' = (if later_than (sfind p ls) (M p) then Some (M p) else sfind p ls)) /\
    (forall x, (forall p, In p tp -> x <> O p) -> sfind x out' = sfind x out) /\
    (forall x, ~ In x tp -> sfind x ls' = sfind x ls).
Proof.
  induction tp as [|p tp IH]; intros ls out ND HM HO Hinj Hout Wl Wo.
  - exists ls, out. cbn. repeat split; auto; contradiction.
  - inversion ND as [|? ? Hp ND']; subst. cbn [input_loop]. rewrite (HM p) by (cbn; auto).
    rewrite (HO p) by (cbn; auto).
    change (match sfind p ls with Some l => mtime l <? mtime (M p) | None => true end)
      with (later_than (sfind p ls) (M p)).
    destruct (later_than (sfind p ls) (M p)) eqn:F.
    + destruct (IH (sset p (M p) ls) (semplace (O p) [M p] out)) as (ls' & out' & E & W1 & W2 & H1 & H2 & H3);
        auto using swf_sset, swf_semplace.
      * intros q Hq. apply HM. cbn; auto.
      * intros q Hq. apply HO. cbn; auto.
      * intros q r Hq Hr. apply Hinj; cbn; auto.
      * intros q Hq. rewrite sfind_semplace, (Hout q) by (cbn; auto).
        destruct (String.eqb_spec (O q) (O p)) as [Eq|]; auto.
        apply Hinj in Eq; cbn; auto. subst. contradiction.
      * exists ls', out'. split; [exact E|]. split; [auto|]. split; [auto|]. split; [|split].
        -- intros q [<-|Hq].
           ++ rewrite F. split.
              ** rewrite H2.
                 --- rewrite sfind_semplace, (Hout p) by (cbn; auto). now rewrite String.eqb_refl.
                 --- intros q Hq Eq. apply Hinj in Eq; cbn; auto. subst. contradiction.
              ** rewrite H3 by auto. apply sfind_sset_same.
           ++ destruct (H1 q Hq) as [A1 A2].
              rewrite sfind_sset_other in A1, A2 by (intro; subst; contradiction). auto.
        -- intros x Hx. rewrite H2 by (intros; apply Hx; cbn; auto).
           rewrite sfind_semplace. destruct (String.eqb_spec x (O p)) as [Ex|].
           ++ exfalso. apply (Hx p); cbn; auto.
           ++ now destruct (sfind x out).
        -- intros x Hx. rewrite H3 by (intro; apply Hx; cbn; auto).
           apply sfind_sset_other. intro; subst. apply Hx. cbn; auto.
    + destruct (IH ls out) as (ls' & out' & E & W1 & W2 & H1 & H2 & H3); auto.
      * intros q Hq. apply HM. cbn; auto.
      * intros q Hq. apply HO. cbn; auto.
      * intros q r Hq Hr. apply Hinj; cbn; auto.
      * intros q Hq. apply Hout. cbn; auto.
      * exists ls', out'. split; [exact E|]. split; [auto|]. split; [auto|]. split; [|split].
        -- intros q [<-|Hq]; [|auto]. rewrite F. split.
           ++ rewrite H2. { apply Hout. cbn; auto. }
              intros q Hq Eq. apply Hinj in Eq; cbn; auto. subst. contradiction.
           ++ now rewrite H3.
        -- intros x Hx. apply H2. intros q Hq. apply Hx. cbn; auto.
        -- intros x Hx. apply H3. intro. apply Hx. cbn; auto.
Qed.

(** ** The state of an Input after a history *)

Lemma project_app p e1 e2 : project p (e1 ++ e2) = project p e1 ++ project p e2.
Proof. unfold project. apply filter_app. Qed.

Record input_state (n : nat) (evs : list ev) (b : base) (ls : smap msg) : Prop := {
  is_wf : swf (o_data b);
  is_port : forall k, (1 <= k <= n)%nat ->
    sfind (iport k) (o_data b) = Some (port_after (iport k) 1 (received (project (iport k) evs)));
  is_tp_sorted : ssorted (o_toproc b);
  is_tp : forall x, In x (o_toproc b) <->
    exists k, (1 <= k <= n)%nat /\ x = iport k /\ pending (project (iport k) evs) = true;
  is_ls_wf : swf ls;
  is_ls : forall k, (1 <= k <= n)%nat ->
    sfind (iport k) ls = last_opt (records (processed (project (iport k) evs)))
}.

Lemma ready_all b tp :
  (forall p, In p tp -> p <> "" /\ exists q, sfind p (o_data b) = Some q /\ (ip_size q <? ip_max q) = false) ->
  ready_ports b tp = Ok tp.
Proof.
  induction tp as [|p tp IH]; intros H; [reflexivity|]. cbn [ready_ports].
  destruct (H p) as (Hp & q & Hq & Hf); [cbn; auto|].
  assert (R : resolve p (o_data b) = p).
  { unfold resolve. destruct (String.eqb_spec p ""); [contradiction|reflexivity]. }
  unfold d_max, d_size. rewrite R, Hq. cbn [rbind]. rewrite IH by (intros; apply H; cbn; auto).
  cbn. now rewrite Hf.
Qed.

Lemma set_toproc_id b : set_toproc b (o_toproc b) = b.
Proof. now destruct b. Qed.

Lemma ssorted_eq_nil s : (forall x : string, ~ In x s) -> s = [].
Proof. destruct s as [|x s]; auto. intros H. exfalso. apply (H x). cbn; auto. Qed.

Lemma input_state_exec n evs b ls :
  input_state n evs b ls ->
  exists out b' ls',
    exec_data_local (Op b (KInput (port_map iport n) ls)) = (Ok out, Op b' (KInput (port_map iport n) ls')) /\
    swf out /\
    (forall k, (1 <= k <= n)%nat ->
       sfind (oport k) out =
       if pending (project (iport k) evs) &&
          later_than (last_opt (records (processed (project (iport k) evs))))
                     (last (received (project (iport k) evs)) msg0)
       then Some [last (received (project (iport k) evs)) msg0] else None) /\
    (forall x, (forall k, (1 <= k <= n)%nat -> x <> oport k) -> sfind x out = None) /\
    input_state n (evs ++ [EExec]) b' ls'.
Proof.
  intros [W HP TS HT LW HL].
  assert (One : forall k, pending (project (iport k) evs) = true ->
     ip_data (port_after (iport k) 1 (received (project (iport k) evs))) =
     [last (received (project (iport k) evs)) msg0]).
  { intros k Pk. rewrite port_after_data by lia. change (Z.to_nat (eff 1)) with 1%nat.
    apply pending_received in Pk. destruct (received (project (iport k) evs)) as [|m h] using rev_ind; [congruence|].
    now rewrite lastn_snoc, lastn_0, last_last. }
  assert (R : ready_ports b (o_toproc b) = Ok (o_toproc b)).
  { apply ready_all. intros p Hp. apply HT in Hp as (k & Hk & -> & Pk). split; [apply iport_ne|].
    eexists. split; [apply HP; auto|]. rewrite port_after_full by lia. change (eff 1) with 1.
    apply pending_received in Pk. apply Z.ltb_ge. destruct (received _); [congruence|cbn [length]; lia]. }
  cbn [exec_data_local]. unfold exec_base. rewrite R.
  set (M := fun p => last (received (project p evs)) msg0).
  set (O := fun p => match sfind p (port_map iport n) with Some o => o | None => "" end).
  destruct (input_loop_spec b (port_map iport n) M O (o_toproc b) ls []) as
    (ls' & out & E & W1 & W2 & H1 & H2 & H3); auto using swf_nil, ssorted_NoDup.
  { intros p Hp. apply HT in Hp as (k & Hk & -> & Pk). unfold d_msg. rewrite HP by auto.
    rewrite One by auto. reflexivity. }
  { intros p Hp. apply HT in Hp as (k & Hk & -> & Pk). unfold O.
    rewrite port_map_find by (auto; apply iport_inj). reflexivity. }
  { intros p q Hp Hq. apply HT in Hp as (k & Hk & -> & Pk). apply HT in Hq as (j & Hj & -> & Pj).
    unfold O. rewrite !port_map_find by (auto; apply iport_inj). intros X. apply oport_inj in X. now subst. }
  assert (E' : process_data (set_toproc b (o_toproc b)) (KInput (port_map iport n) ls) =
               (Ok out, (set_toproc b [], KInput (port_map iport n) ls'))).
  { rewrite set_toproc_id. exact E. }
  assert (ExecE : exists b', (let '(r, (b', k')) := match o_toproc b with
           | [] => (Ok [], (set_toproc b [], KInput (port_map iport n) ls))
           | _ :: _ => match process_data (set_toproc b (o_toproc b)) (KInput (port_map iport n) ls) with
                 | (Ok out, (b', k')) => (Ok out, (set_toproc b' [], k'))
                 | r => r
                 end
           end in (r, Op b' k')) = (Ok out, Op b' (KInput (port_map iport n) ls')) /\ b' = set_toproc b []).
  { exists (set_toproc b []). split; [|reflexivity]. destruct (o_toproc b) eqn:TP.
    - cbn in E. injection E as <- <-. reflexivity.
    - rewrite E'. reflexivity. }
  destruct ExecE as (b' & EE & Eb'). exists out, b', ls'. split; [exact EE|]. split; [auto|].
  assert (HO : forall k, (1 <= k <= n)%nat -> O (iport k) = oport k).
  { intros k Hk. unfold O. rewrite port_map_find by (auto; apply iport_inj). reflexivity. }
  split.
  - intros k Hk. destruct (pending (project (iport k) evs)) eqn:Pk; cbn [andb].
    + assert (Ik : In (iport k) (o_toproc b)) by (apply HT; eauto).
      destruct (H1 _ Ik) as [A _]. rewrite HO in A by auto. rewrite A, HL by auto. reflexivity.
    + rewrite H2; [reflexivity|]. intros p Hp X. apply HT in Hp as (j & Hj & -> & Pj).
      rewrite HO in X by auto. apply oport_inj in X. subst. congruence.
  - split; [intros x Hx; apply H2; intros p Hp; apply HT in Hp as (j & Hj & -> & Pj); rewrite HO by auto; auto|].
    subst b'. constructor; cbn [o_data o_toproc set_toproc]; auto.
    + intros k Hk. rewrite project_app, received_app. cbn. rewrite app_nil_r. auto.
    + constructor.
    + intros x. split; [intros []|]. intros (k & Hk & -> & Pk). exfalso.
      rewrite project_app in Pk. cbn in Pk. rewrite pending_snoc in Pk. discriminate.
    + intros k Hk. rewrite project_app. cbn [project filter]. rewrite processed_snoc.
      destruct (pending (project (iport k) evs)) eqn:Pk.
      * assert (Ik : In (iport k) (o_toproc b)) by (apply HT; eauto).
        destruct (H1 _ Ik) as [_ A]. rewrite A, HL by auto. rewrite records_snoc. unfold M.
        match goal with |- context [later_than ?a ?b] => destruct (later_than a b) end;
          [symmetry; apply last_opt_snoc|now rewrite app_nil_r].
      * rewrite H3; [auto|]. intros Ik. apply HT in Ik as (j & Hj & X & Pj). apply iport_inj in X. subst.
        congruence.
Qed.

Lemma input_state_recv n evs b ls k m :
  (1 <= k <= n)%nat -> input_state n evs b ls ->
  exists b', recv_data_local (Op b (KInput (port_map iport n) ls)) m (iport k) =
             (Ok tt, Op b' (KInput (port_map iport n) ls)) /\
             input_state n (evs ++ [EData (iport k) m]) b' ls.
Proof.
  intros Hk [W HP TS HT LW HL]. cbn [recv_data_local]. unfold recv_data_base.
  assert (R : resolve (iport k) (o_data b) = iport k) by reflexivity. rewrite R, HP by auto.
  rewrite port_receive_after by lia. eexists. split; [reflexivity|].
  assert (Same : project (iport k) (evs ++ [EData (iport k) m]) = project (iport k) evs ++ [EData (iport k) m]).
  { rewrite project_app. cbn. now rewrite String.eqb_refl. }
  assert (Other : forall j, j <> k -> project (iport j) (evs ++ [EData (iport k) m]) = project (iport j) evs).
  { intros j Hj. rewrite project_app. unfold project at 2. cbn [filter].
    destruct (String.eqb_spec (iport k) (iport j)) as [X|]; [apply iport_inj in X; congruence|apply app_nil_r]. }
  constructor; cbn [o_data o_toproc set_toproc set_data]; auto using swf_sset, ssorted_add.
  - intros j Hj. destruct (Nat.eq_dec j k) as [->|nj].
    + rewrite sfind_sset_same, Same, received_app. reflexivity.
    + rewrite sfind_sset_other by (intro X; apply iport_inj in X; congruence). rewrite Other; auto.
  - intros x. rewrite sset_add_In, HT. split.
    + intros [->|(j & Hj & -> & Pj)].
      * exists k. rewrite Same, pending_snoc. auto.
      * exists j. split; auto. split; auto. destruct (Nat.eq_dec j k) as [->|nj].
        -- now rewrite Same, pending_snoc.
        -- now rewrite Other.
    + intros (j & Hj & -> & Pj). destruct (Nat.eq_dec j k) as [->|nj]; auto. right.
      exists j. rewrite Other in Pj; auto.
  - intros j Hj. rewrite HL by auto. destruct (Nat.eq_dec j k) as [->|nj].
    + rewrite Same, processed_snoc. reflexivity.
    + now rewrite Other.
Qed.

Lemma mk_input_state id n :
  exists b, mk_input id n = Ok (Op b (KInput (port_map iport n) [])) /\ input_state n [] b [] /\
    (forall k, (1 <= k <= n)%nat -> In (oport k) (o_outs b)).
Proof.
  unfold mk_input.
  destruct (add_ports_spec (seq 1 n) 1 true (base0 id)) as (b & E & W & S & C & CN & T & I & O);
    auto using seq_NoDup; [apply swf_nil|].
  rewrite E. cbn [rbind]. exists b. split; [reflexivity|]. split.
  - constructor; auto.
    + intros k Hk. rewrite S. unfold num_ports. rewrite find_from by (try apply iport_inj; apply in_seq; lia).
      reflexivity.
    + rewrite T. constructor.
    + rewrite T. cbn. split; [contradiction|]. intros (k & _ & _ & F). discriminate.
    + constructor.
  - intros k Hk. rewrite O. apply fold_add_In. right. exists k. split; auto. apply in_seq. lia.
Qed.

Lemma on_port_app p (l1 l2 : list opmsg) : on_port p (l1 ++ l2) = on_port p l1 ++ on_port p l2.
Proof. unfold on_port. apply flat_map_app. Qed.

Lemma run_input id n evs :
  data_on n evs ->
  exists o outs b ls,
    mk_input id n = Ok o /\
    run o evs = (Ok outs, Op b (KInput (port_map iport n) ls)) /\
    input_state n evs b ls /\
    (forall k, (1 <= k <= n)%nat ->
       on_port (oport k) outs = records (processed (project (iport k) evs))) /\
    (forall x, (forall k, (1 <= k <= n)%nat -> x <> oport k) -> on_port x outs = []).
Proof.
  destruct (mk_input_state id n) as (b0 & E0 & S0 & _). intros H.
  exists (Op b0 (KInput (port_map iport n) [])).
  induction evs as [|e evs IH] using rev_ind.
  - exists [], b0, []. repeat split; auto; apply S0.
  - unfold data_on in H. rewrite Forall_app in H. destruct H as [H He].
    destruct (IH H) as (outs & b & ls & _ & R & St & Out & Oth). clear IH.
    inversion He as [|? ? He' _]; subst. rewrite (run_snoc _ _ _ _ _ R).
    destruct e as [p m|p m| |]; try contradiction.
    + destruct He' as (k & Hk & ->). destruct (input_state_recv n evs b ls k m Hk St) as (b' & E & St').
      exists (outs ++ [[]]), b', ls. cbn [step]. rewrite E. split; auto. split; auto. split; auto.
      split; [|intros x Hx; rewrite on_port_app, Oth by auto; reflexivity].
      intros j Hj. rewrite on_port_app. cbn. rewrite app_nil_r, Out by auto. f_equal.
      rewrite project_app. unfold project at 3. cbn [filter]. destruct (String.eqb (iport k) (iport j)).
      * now rewrite processed_snoc.
      * now rewrite app_nil_r.
    + destruct (input_state_exec n evs b ls St) as (out & b' & ls' & E & Wo & Ho & Hx' & St').
      exists (outs ++ [out]), b', ls'. cbn [step]. rewrite E. split; auto. split; auto. split; auto.
      split; [|intros x Hx; rewrite on_port_app, Oth by auto; cbn; rewrite Hx' by auto; reflexivity].
      intros j Hj. rewrite on_port_app, Out by auto. rewrite project_app. cbn [project filter].
      rewrite processed_snoc. cbn. rewrite Ho, app_nil_r by auto.
      destruct (pending (project (iport j) evs)); cbn [andb]; [|now rewrite app_nil_r].
      rewrite records_snoc. destruct (later_than _ _); reflexivity.
Qed.

Lemma records_all ms : increasing (times ms) -> records ms = ms.
Proof.
  induction ms as [|m ms IH] using rev_ind; [reflexivity|]. intros H. unfold times in H. rewrite map_app in H.
  assert (X : increasing (map mtime ms) /\ forall x, In x (map mtime ms) -> x < mtime m).
  { clear - H. induction (map mtime ms) as [|a l IH]; cbn in *; [split; [constructor|intros ? []]|].
    inversion H as [|? ? A B]; subst. destruct (IH A) as (I1 & I2). rewrite Forall_forall in B. split.
    - constructor; auto. apply Forall_forall. intros x Hx. apply B, in_or_app; auto.
    - intros x [<-|Hx]; auto. apply B, in_or_app. cbn; auto. }
  destruct X as (X1 & X2). rewrite records_snoc0, IH by exact X1.
  replace (forallb _ ms) with true; [reflexivity|]. symmetry. apply forallb_forall. intros x Hx. apply Z.ltb_lt, X2. now apply in_map.
Qed.

End InputP.
