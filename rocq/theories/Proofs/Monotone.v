(** * Operators emit times in increasing order when they receive them so *)

From Coq Require Import String ZArith Bool List Lia Sorted.
From Verif Require Import Base.StrMap Base.Num Model.Core Model.Ops Model.Make Model.Run Model.Graph.
From Verif Require Import Spec.Shape Spec.Log Spec.Preserving Spec.Streams Spec.Operators Spec.Multi Spec.Join Spec.Demux Spec.Variable.
From Verif Require Import Proofs.Lists Proofs.Ports Proofs.Window Proofs.InputP Proofs.JoinP Proofs.JoinRun Proofs.JoinKinds Proofs.LogP Proofs.LogRun Proofs.Conns.
Import ListNotations.
Open Scope string_scope.
Open Scope list_scope.
Open Scope Z_scope.
Open Scope rtbot_scope.

Section Latest.
Context {NO : NumOps}.

(** ** The operators that answer with the time of the latest message of a port *)

Definition latest_kind (k : kind) : bool :=
  match k with
  | KOutput _ | KCollector | KFilter _ _ | KAdd _ | KScale _ | KPower _ | KConstant _ | KMovAvg | KStdDev
  | KFIR _ | KCount _ | KCumSum _ | KFunction _ _ | KRSI _ _ _ _ _ => true
  | _ => false
  end.

(** the output port of an input port *)
Definition out_of (k : kind) (x : string) : option string :=
  match k with KOutput pm => sfind x pm | _ => Some "o1" end.

Lemma output_loop_latest b pm : forall tp out0 out b' k',
  output_loop tp b pm out0 = (Ok out, (b', k')) ->
  b' = set_toproc b [] /\ k' = KOutput pm /\
  forall y ms, sfind y out = Some ms -> sfind y out0 = Some ms \/
    exists x p, In x tp /\ sfind x (o_data b) = Some p /\ sfind x pm = Some y /\ ms = [last (ip_data p) msg0].
Proof.
  induction tp as [|x tp IH]; intros out0 out b' k' E; cbn [output_loop] in E.
  - injection E as <- <- <-. auto.
  - unfold d_last in E. destruct (sfind x (o_data b)) as [p|] eqn:Fx; [|discriminate E].
    destruct (sfind x pm) as [o|] eqn:Fo; [|discriminate E].
    apply IH in E as (-> & -> & Q). split; auto. split; auto. intros y ms Hy.
    destruct (Q y ms Hy) as [H|(x' & p' & A & B & C & D)].
    + rewrite sfind_semplace in H. destruct (sfind y out0) eqn:Y; [auto|].
      destruct (String.eqb_spec y o) as [->|]; [|discriminate]. injection H as <-. right. exists x, p. cbn. auto.
    + right. exists x', p'. cbn. auto.
Qed.

Lemma process_latest b k out b' k' :
  latest_kind k = true -> o_toproc b <> [] -> (forall x, In x (o_toproc b) -> shas x (o_data b) = true) ->
  process_data b k = (Ok out, (b', k')) ->
  o_data b' = o_data b /\ o_ctrl b' = o_ctrl b /\ latest_kind k' = true /\ (forall x, out_of k' x = out_of k x) /\
  forall y ms, sfind y out = Some ms ->
    exists x p m, In x (o_toproc b) /\ sfind x (o_data b) = Some p /\ out_of k x = Some y /\ ms = [m] /\
      mtime m = mtime (last (ip_data p) msg0).
Proof.
  intros Hk Hne Hin E.
  assert (One : forall x, single_port b = Ok x -> exists p, o_data b = [(x, p)] /\ In x (o_toproc b)).
  { intros x Hx. unfold single_port in Hx. destruct (o_data b) as [|[x0 p0] [|]] eqn:D; try discriminate Hx.
    injection Hx as ->. exists p0. split; auto. destruct (o_toproc b) as [|t tp]; [congruence|].
    specialize (Hin t (or_introl eq_refl)). unfold shas in Hin. cbn in Hin.
    destruct (String.eqb_spec t x) as [->|]; [left; auto|discriminate]. }
  assert (Simple : forall x m m0, single_port b = Ok x -> d_last b x = Ok m0 -> mtime m = mtime m0 ->
    forall y ms, sfind y (out1 m) = Some ms ->
    exists x p m, In x (o_toproc b) /\ sfind x (o_data b) = Some p /\ Some "o1" = Some y /\ ms = [m] /\
      mtime m = mtime (last (ip_data p) msg0)).
  { intros x m m0 Hx Hm Ht y ms Hy. destruct (One x Hx) as (p & D & I).
    unfold d_last in Hm. rewrite D in Hm. cbn in Hm. rewrite String.eqb_refl in Hm. injection Hm as <-.
    cbn in Hy. destruct (String.eqb_spec y "o1") as [->|]; [|discriminate]. injection Hy as <-.
    exists x, p, m. rewrite D. cbn. rewrite String.eqb_refl. auto 6. }
  destruct k; try discriminate Hk; cbn [process_data] in E.
  - apply output_loop_latest in E as (-> & -> & Q). cbn. split; auto. split; auto. split; auto. split; auto.
    intros y ms Hy. destruct (Q y ms Hy) as [H|(x & p & A & B & C & D)]; [discriminate H|].
    exists x, p, (last (ip_data p) msg0). auto 6.
  - unfold keep in E. injection E as <- <- <-. cbn. repeat split; auto. discriminate.
  - unfold keep, map_last in E. destruct (single_port b) as [x| | | |] eqn:Sp; try discriminate E. cbn [rbind] in E.
    destruct (d_last b x) as [m| | | |] eqn:Dl; try discriminate E. cbn [rbind] in E. injection E as <- <- <-.
    cbn [out_of]. repeat split; auto. intros y ms Hy. destruct (filter_test f value (mval m)); [|discriminate Hy]. refine (Simple x _ m eq_refl Dl _ y ms Hy); reflexivity.
  - unfold keep, map_last in E. destruct (single_port b) as [x| | | |] eqn:Sp; try discriminate E. cbn [rbind] in E.
    destruct (d_last b x) as [m| | | |] eqn:Dl; try discriminate E. cbn [rbind] in E. injection E as <- <- <-.
    cbn [out_of]. repeat split; auto. intros y ms Hy. refine (Simple x _ m eq_refl Dl _ y ms Hy); reflexivity.
  - unfold keep, map_last in E. destruct (single_port b) as [x| | | |] eqn:Sp; try discriminate E. cbn [rbind] in E.
    destruct (d_last b x) as [m| | | |] eqn:Dl; try discriminate E. cbn [rbind] in E. injection E as <- <- <-.
    cbn [out_of]. repeat split; auto. intros y ms Hy. refine (Simple x _ m eq_refl Dl _ y ms Hy); reflexivity.
  - unfold keep, map_last in E. destruct (single_port b) as [x| | | |] eqn:Sp; try discriminate E. cbn [rbind] in E.
    destruct (d_last b x) as [m| | | |] eqn:Dl; try discriminate E. cbn [rbind] in E. injection E as <- <- <-.
    cbn [out_of]. repeat split; auto. intros y ms Hy. refine (Simple x _ m eq_refl Dl _ y ms Hy); reflexivity.
  - unfold keep, map_last in E. destruct (single_port b) as [x| | | |] eqn:Sp; try discriminate E. cbn [rbind] in E.
    destruct (d_last b x) as [m| | | |] eqn:Dl; try discriminate E. cbn [rbind] in E. injection E as <- <- <-.
    cbn [out_of]. repeat split; auto. intros y ms Hy. refine (Simple x _ m eq_refl Dl _ y ms Hy); reflexivity.
  - unfold keep in E. destruct (single_port b) as [x| | | |] eqn:Sp; try discriminate E. cbn [rbind] in E.
    destruct (d_last b x) as [m| | | |] eqn:Dl; try discriminate E. cbn [rbind] in E.
    destruct (d_sum b x); try discriminate E. cbn [rbind] in E. destruct (d_size b x); try discriminate E. cbn [rbind] in E.
    injection E as <- <- <-.
    cbn [out_of]. repeat split; auto. intros y ms Hy. refine (Simple x _ m eq_refl Dl _ y ms Hy); reflexivity.
  - unfold keep in E. destruct (single_port b) as [x| | | |] eqn:Sp; try discriminate E. cbn [rbind] in E.
    destruct (d_sum b x); try discriminate E. cbn [rbind] in E.
    destruct (d_last b x) as [m| | | |] eqn:Dl; try discriminate E. cbn [rbind] in E.
    injection E as <- <- <-.
    cbn [out_of]. repeat split; auto. intros y ms Hy. refine (Simple x _ m eq_refl Dl _ y ms Hy); reflexivity.
  - unfold keep in E. destruct (single_port b) as [x| | | |] eqn:Sp; try discriminate E. cbn [rbind] in E.
    destruct (d_last b x) as [m| | | |] eqn:Dl; try discriminate E. cbn [rbind] in E.
    destruct (fir_loop _ _ _); try discriminate E. cbn [rbind] in E.
    injection E as <- <- <-.
    cbn [out_of]. repeat split; auto. intros y ms Hy. refine (Simple x _ m eq_refl Dl _ y ms Hy); reflexivity.
  - destruct (single_port b) as [x| | | |] eqn:Sp; try discriminate E. cbn [rbind] in E.
    destruct (d_last b x) as [m| | | |] eqn:Dl; try discriminate E. 
    injection E as <- <- <-.
    cbn [out_of]. repeat split; auto. intros y ms Hy. refine (Simple x _ m eq_refl Dl _ y ms Hy); reflexivity.
  - destruct (single_port b) as [x| | | |] eqn:Sp; try discriminate E. cbn [rbind] in E.
    destruct (d_last b x) as [m| | | |] eqn:Dl; try discriminate E. 
    injection E as <- <- <-.
    cbn [out_of]. repeat split; auto. intros y ms Hy. refine (Simple x _ m eq_refl Dl _ y ms Hy); reflexivity.
  - unfold keep in E. destruct (single_port b) as [x| | | |] eqn:Sp; try discriminate E. cbn [rbind] in E.
    destruct (d_last b x) as [m| | | |] eqn:Dl; try discriminate E. cbn [rbind] in E.
    destruct (function_value _ _ _); try discriminate E. cbn [rbind] in E.
    injection E as <- <- <-.
    cbn [out_of]. repeat split; auto. intros y ms Hy. refine (Simple x _ m eq_refl Dl _ y ms Hy); reflexivity.
  - destruct (single_port b) as [x| | | |] eqn:Sp; try discriminate E. cbn [rbind] in E.
    destruct (d_last b x) as [m| | | |] eqn:Dl; try discriminate E. cbn [rbind] in E.
    destruct (rsi_averages _ _ _ _) as [[g l]| | | |]; try discriminate E. cbn [rbind] in E.
    injection E as <- <- <-.
    cbn [out_of]. repeat split; auto. intros y ms Hy. refine (Simple x _ m eq_refl Dl _ y ms Hy); reflexivity.
Qed.

Lemma ready_ports_In b : forall tp tp', ready_ports b tp = Ok tp' -> forall x, In x tp' -> In x tp.
Proof.
  induction tp as [|x tp IH]; intros tp' E y Hy; cbn [ready_ports] in E.
  - injection E as <-. destruct Hy.
  - destruct (d_max b x); try discriminate E. cbn [rbind] in E.
    destruct (d_size b x); try discriminate E. cbn [rbind] in E.
    destruct (ready_ports b tp) as [r| | | |] eqn:R; try discriminate E. cbn [rbind] in E. injection E as <-.
    destruct (_ <? _); [right; eapply IH; eauto|]. destruct Hy as [->|Hy]; cbn; eauto.
Qed.

Definition inv (b : base) (k : kind) (H E : string -> list Z) : Prop :=
  latest_kind k = true /\
  (forall x x' y, shas x (o_data b) = true -> shas x' (o_data b) = true -> out_of k x = Some y -> out_of k x' = Some y -> x = x') /\
  (forall x, In x (o_toproc b) -> shas x (o_data b) = true) /\
  (forall x p, In x (o_toproc b) -> sfind x (o_data b) = Some p ->
     exists h, H x = h ++ [mtime (last (ip_data p) msg0)]) /\
  (forall y, increasing (E y)) /\
  (forall x y e, shas x (o_data b) = true -> out_of k x = Some y -> In e (E y) ->
     (exists t, In t (H x) /\ e <= t) /\ (In x (o_toproc b) -> forall h t, H x = h ++ [t] -> e < t)).

Lemma increasing_snoc l x : increasing l -> (forall y, In y l -> y < x) -> increasing (l ++ [x]).
Proof.
  intros H1 H2. induction l as [|a l IH]; cbn; [repeat constructor|].
  inversion H1 as [|? ? A B]; subst. constructor.
  - apply IH; auto. intros y Hy. apply H2. cbn; auto.
  - rewrite Forall_forall in *. intros y Hy. apply in_app_or in Hy as [Hy|[<-|[]]]; auto. apply H2. cbn; auto.
Qed.
Lemma increasing_snoc_inv l x : increasing (l ++ [x]) -> increasing l /\ forall y, In y l -> y < x.
Proof.
  induction l as [|a l IH]; cbn; intros H; [split; [constructor|intros ? []]|].
  inversion H as [|? ? A B]; subst. apply IH in A as [A1 A2]. rewrite Forall_forall in B. split.
  - constructor; auto. rewrite Forall_forall. intros y Hy. apply B, in_or_app. auto.
  - intros y [<-|Hy]; auto. apply B, in_or_app. cbn. auto.
Qed.

Lemma inv_exec b k H E out b' k' :
  inv b k H E -> exec_base b k = (Ok out, (b', k')) ->
  inv b' k' H (fun y => E y ++ times (odefault [] (sfind y out))).
Proof.
  intros (Hk & U & T & L & I & B) X. unfold exec_base in X.
  destruct (ready_ports b (o_toproc b)) as [tp| | | |] eqn:R; try discriminate X.
  pose proof (ready_ports_In _ _ _ R) as Rin.
  destruct tp as [|x0 tp].
  - injection X as <- <- <-. split; [auto|]. cbn [o_data set_toproc o_toproc sfind odefault times map].
    split; [exact U|]. split; [intros ? Hin; destruct Hin|]. split; [intros ? ? Hin; destruct Hin|]. split; [intros y; now rewrite app_nil_r|].
    intros x y e Hx Hy He. rewrite app_nil_r in He. split; [eapply B; eauto|intros Hin; destruct Hin].
  - set (tp1 := x0 :: tp) in *.
    destruct (process_data (set_toproc b tp1) k) as [[out1| | | |] [b1 k1]] eqn:P; try discriminate X.
    injection X as -> <- <-.
    destruct (process_latest (set_toproc b tp1) k out b1 k1 Hk) as (D & _ & K1 & O1 & Q); [discriminate| |exact P|].
    { intros x Hx. apply T. now apply Rin. }
    cbn [o_data set_toproc o_toproc] in D, Q. cbv beta.
    split; [auto|]. cbn [o_data set_toproc o_toproc]. rewrite D.
    split; [intros x x' y A1 A2 A3 A4; rewrite O1 in A3, A4; eapply U; eauto|].
    split; [intros ? Hin; destruct Hin|]. split; [intros ? ? Hin; destruct Hin|]. split.
    + intros y. destruct (sfind y out) as [ms|] eqn:Fy; [|cbn; now rewrite app_nil_r].
      destruct (Q y ms Fy) as (x & p & m & Ix & Fx & Oy & -> & Tm). cbn.
      apply increasing_snoc; auto. intros e He. rewrite Tm.
      assert (In x (o_toproc b)) by (now apply Rin). destruct (L x p) as (h & Eh); auto.
      assert (Sx : shas x (o_data b) = true) by (unfold shas; now rewrite Fx).
      destruct (B x y e Sx Oy He) as (_ & B2); auto. eapply B2; eauto.
    + intros x y e Sx Oy He. rewrite O1 in Oy. split; [|intros Hin; destruct Hin].
      apply in_app_or in He as [He|He]; [eapply B; eauto|].
      destruct (sfind y out) as [ms|] eqn:Fy; [|destruct He].
      destruct (Q y ms Fy) as (x' & p & m & Ix & Fx & Oy' & -> & Tm). cbn in He. destruct He as [<-|[]].
      assert (x' = x). { apply (U x' x y); auto. } subst x'.
      assert (In x (o_toproc b)) by (now apply Rin). destruct (L x p) as (h & Eh); auto.
      exists (mtime m). split; [|lia]. rewrite Eh, Tm. apply in_or_app. cbn. auto.
Qed.

Lemma inv_recv b k H E x m b' :
  inv b k H E -> shas x (o_data b) = true -> x <> "" -> increasing (H x ++ [mtime m]) ->
  recv_data_base b m x = (Ok tt, b') ->
  inv b' k (fun y => if String.eqb y x then H y ++ [mtime m] else H y) E.
Proof.
  intros (Hk & U & T & L & I & B) Sx Nx Inc X. unfold recv_data_base in X.
  replace (resolve x (o_data b)) with x in X by (unfold resolve; destruct (String.eqb_spec x ""); congruence).
  unfold shas in Sx. destruct (sfind x (o_data b)) as [p|] eqn:F; [|discriminate]. 
  destruct (port_receive p m) as [p'| | | |] eqn:P; try discriminate X. injection X as <-.
  assert (Lp : last (ip_data p') msg0 = m).
  { unfold port_receive in P. destruct (_ =? _).
    - destruct (ip_pop p); [|discriminate]. injection P as <-. cbn. apply last_last.
    - destruct (_ <? _); [discriminate|]. injection P as <-. cbn. apply last_last. }
  assert (Sh : forall y, shas y (sset x p' (o_data b)) = shas y (o_data b)).
  { intros y. unfold shas. rewrite sfind_sset. destruct (String.eqb_spec y x) as [->|]; auto. now rewrite F. }
  apply increasing_snoc_inv in Inc as [_ Inc].
  split; [auto|]. cbn [o_data set_toproc o_toproc set_data].
  split; [intros y y' z; rewrite !Sh; apply U|].
  split; [intros y Hy; rewrite Sh; apply sset_add_In in Hy as [->|Hy]; auto; unfold shas; now rewrite F|].
  split.
  - intros y q Hy Fq. rewrite sfind_sset in Fq. destruct (String.eqb_spec y x) as [->|Ne].
    + injection Fq as <-. rewrite Lp. eauto.
    + apply L; auto. apply sset_add_In in Hy as [->|Hy]; congruence.
  - split; [exact I|]. intros y z e Sy Oz He. rewrite Sh in Sy. destruct (B y z e Sy Oz He) as ((t & Ht & Le) & B2).
    destruct (String.eqb_spec y x) as [->|Ne].
    + split; [exists t; split; auto; apply in_or_app; auto|]. intros _ h t' Eh.
      apply app_inj_tail in Eh as [<- <-]. specialize (Inc _ Ht). lia.
    + split; [eauto|]. intros Hy. apply B2. apply sset_add_In in Hy as [->|Hy]; congruence.
Qed.

Lemma run_ok_snoc o evs e outs o2 : run o (evs ++ [e]) = (Ok outs, o2) ->
  exists outs1 o1 out, run o evs = (Ok outs1, o1) /\ step o1 e = (Ok out, o2) /\ outs = outs1 ++ [out].
Proof.
  rewrite run_app. destruct (run o evs) as [[outs1| | | |] o1]; try discriminate. cbn [run].
  unfold bind, sbind. destruct (step o1 e) as [[out| | | |] o3] eqn:X; try discriminate. intros [= <- <-].
  exists outs1, o1, out. auto.
Qed.

Lemma times_on_port_snoc y outs out :
  times (on_port y (outs ++ [out])) = times (on_port y outs) ++ times (odefault [] (sfind y out)).
Proof.
  rewrite on_port_app. unfold times. rewrite map_app. f_equal. cbn. rewrite app_nil_r. reflexivity.
Qed.

Lemma inv_ext b k H H' E E' : (forall x, H x = H' x) -> (forall y, E y = E' y) -> inv b k H E -> inv b k H' E'.
Proof.
  intros Hh He (Hk & U & T & L & I & B). split; auto. split; auto. split; auto. split; [|split].
  - intros x p Hx Fx. rewrite <- Hh. auto.
  - intros y. rewrite <- He. auto.
  - intros x y e. rewrite <- Hh, <- He. intros A1 A2 A3. destruct (B x y e A1 A2 A3) as [B1 B2]. split; auto.
Qed.

(** keys of the data ports, which no call changes *)
Definition keys_as (b0 b : base) : Prop := forall x, shas x (o_data b) = shas x (o_data b0).

Lemma latest_monotone b0 k0 :
  latest_kind k0 = true -> o_toproc b0 = [] -> shas "" (o_data b0) = false -> o_ctrl b0 = [] ->
  (forall x x' y, shas x (o_data b0) = true -> shas x' (o_data b0) = true -> out_of k0 x = Some y -> out_of k0 x' = Some y -> x = x') ->
  monotone (Op b0 k0).
Proof.
  intros Hk Ht He Hc U evs outs o' Pe R Inc _.
  enough (exists b k, o' = Op b k /\ inv b k (fun x => times (hist x evs)) (fun y => times (on_port y outs)) /\
    o_ctrl b = [] /\ keys_as b0 b) as (b & k & -> & I & _) by apply I.
  revert outs o' Pe R Inc. induction evs as [|e evs IH] using rev_ind; intros outs o' Pe R Inc.
  - injection R as <- <-. exists b0, k0. split; auto. split; [|split; [exact Hc|intros x; reflexivity]].
    split; auto. split; auto. rewrite Ht. split; [intros ? []|]. split; [intros ? ? []|]. split; [intros; constructor|intros ? ? ? ? ? []].
  - apply run_ok_snoc in R as (outs1 & o1 & out & R & St & ->). apply Forall_app in Pe as [Pe Pl].
    assert (Inc1 : forall x, increasing (times (hist x evs))).
    { intros x. specialize (Inc x). rewrite hist_app in Inc. unfold times in Inc. rewrite map_app in Inc. now apply increasing_app_l in Inc. }
    destruct (IH outs1 o1 Pe R Inc1) as (b & k & -> & I & C & K). clear IH.
    inversion Pl as [|? ? He1 _]; subst.
    destruct e as [p m|p m| |].
    + cbn in He1. unfold is_data_input in He1. cbn [op_base] in He1.
      assert (Np : p <> "") by (intros ->; congruence).
      destruct I as (Hk' & I). assert (I' := conj Hk' I). fold (inv b k (fun x => times (hist x evs)) (fun y => times (on_port y outs1))) in I'. clear I.
      cbn [step] in St. unfold recv_data_local in St.
      assert (Q : exists b', recv_data_base b m p = (Ok tt, b') /\ o' = Op b' k /\ out = []).
      { destruct (recv_data_base b m p) as [[[]| | | |] b'] eqn:Q; destruct k; try discriminate Hk'; try discriminate St; injection St as <- <-; eauto. }
      destruct Q as (b' & Q & -> & ->). exists b', k. split; auto.
      split; [|unfold recv_data_base in Q; cbv zeta in Q; destruct (sfind (resolve p (o_data b)) (o_data b)) as [q|] eqn:F; [|discriminate Q];
               destruct (port_receive q m) eqn:P; try discriminate Q; injection Q as <-; cbn; split; [exact C|];
               intros x; cbn; rewrite shas_sset, <- (K x); destruct (String.eqb_spec x (resolve p (o_data b))) as [->|]; auto; unfold shas; now rewrite F].
      eapply inv_ext; [| |eapply inv_recv; [exact I'| |exact Np| |exact Q]].
      * intros x. cbv beta. rewrite hist_data. unfold upd. rewrite String.eqb_sym. destruct (String.eqb p x) eqn:Ex; auto.
        unfold times. rewrite map_app. apply String.eqb_eq in Ex as ->. reflexivity.
      * intros y. rewrite times_on_port_snoc. cbn. now rewrite app_nil_r.
      * rewrite K. exact He1.
      * specialize (Inc p). rewrite hist_data in Inc. unfold upd in Inc. rewrite String.eqb_refl in Inc.
        unfold times in Inc. rewrite map_app in Inc. exact Inc.
    + exfalso. cbn [step] in St. unfold recv_ctrl_local in St. destruct I as (Hk' & _).
      assert (Q : recv_ctrl_base b m p = (no_port, b)) by (unfold recv_ctrl_base; rewrite C; reflexivity).
      destruct k; try discriminate Hk'; rewrite Q in St; discriminate St.
    + cbn [step] in St. unfold exec_data_local in St. pose proof I as (Hk' & _).
      assert (Q : exists b' k', exec_base b k = (Ok out, (b', k')) /\ o' = Op b' k').
      { destruct (exec_base b k) as [r [b' k']] eqn:Q; destruct k; try discriminate Hk'; injection St as -> <-; eauto. }
      destruct Q as (b' & k' & Q & ->). exists b', k'. split; auto.
      pose proof (inv_exec b k _ _ out b' k' I Q) as I2. split.
      * eapply inv_ext; [| |exact I2].
        -- intros x. now rewrite hist_exec.
        -- intros y. cbv beta. now rewrite times_on_port_snoc.
      * unfold exec_base in Q. destruct (ready_ports b (o_toproc b)) as [tp| | | |] eqn:Rd; try discriminate Q.
        assert (X : o_ctrl b' = o_ctrl b /\ o_data b' = o_data b).
        { destruct tp as [|x0 tp]; [injection Q as <- <- <-; auto|].
          destruct (process_data (set_toproc b (x0 :: tp)) k) as [[o2| | | |] [b1 k1]] eqn:P; try discriminate Q.
          injection Q as -> <- <-. cbn.
          destruct (process_latest (set_toproc b (x0 :: tp)) k out b1 k1 Hk') as (D & Dc & _); [discriminate| |exact P|auto].
          intros x Hx. apply I. eapply ready_ports_In; eauto. }
        destruct X as [-> X]. split; auto. intros x. rewrite X. apply K.
    + cbn [step] in St. unfold exec_ctrl_local in St. pose proof I as (Hk' & _). exists b, k.
      assert (Q : (Ok (@nil (string * portmsg)), Op b k) = (Ok out, o')) by (destruct k; try discriminate Hk'; exact St).
      injection Q as <- <-. split; auto. split; auto. eapply inv_ext; [| |exact I].
      * intros x. rewrite hist_app. cbn. now rewrite app_nil_r.
      * intros y. rewrite times_on_port_snoc. cbn. now rewrite app_nil_r.
Qed.

End Latest.
