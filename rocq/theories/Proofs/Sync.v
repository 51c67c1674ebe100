(** * Messages sent in order of time: every operator answers at the time of the message sent *)

From Coq Require Import String ZArith Bool List Lia Sorted Arith.
From Verif Require Import Base.StrMap Base.Num Model.Core Model.Ops Model.Make Model.Run Model.Graph.
From Verif Require Import Spec.Shape Spec.Log Spec.Preserving Spec.Streams Spec.Operators Spec.Multi Spec.Demux Spec.Join Spec.Log Spec.Synchronous.
From Verif Require Import Proofs.Lists Proofs.Window Proofs.JoinP Proofs.JoinRun Proofs.JoinKinds Proofs.JoinOrder Proofs.LogP Proofs.LogRun Proofs.LogProg.
From Verif Require Import Spec.Log Proofs.ShapeP Proofs.Conns Proofs.Monotone Proofs.Monotone2 Proofs.Increasing Proofs.Rounds Proofs.Prompt.
Import ListNotations.
Open Scope string_scope.
Open Scope list_scope.
Open Scope Z_scope.
Open Scope rtbot_scope.

Section Sync.
Context {NO : NumOps}.

(** ** The log of a sequence of messages *)

Definition head (ep port : string) (m : msg) : list entry := [LSend port m; LCall ep (EData port m) []].

Inductive rounds (h : heap) (ep : string) : list (string * msg) -> list entry -> Prop :=
| rounds_nil : rounds h ep [] []
| rounds_snoc ms l port m t : rounds h ep ms l -> tree h false ep t ->
    rounds h ep (ms ++ [(port, m)]) (l ++ head ep port m ++ t).

Lemma rounds_cons h ep port m t ms l : tree h false ep t -> rounds h ep ms l ->
  rounds h ep ((port, m) :: ms) ((head ep port m ++ t) ++ l).
Proof.
  intros T R. induction R as [|ms l port' m' t' R IH T'].
  - rewrite app_nil_r. exact (rounds_snoc h ep [] [] port m t (rounds_nil h ep) T).
  - rewrite app_assoc. exact (rounds_snoc h ep ((port, m) :: ms) _ port' m' t' IH T').
Qed.

Lemma lsend_all_rounds h0 n ep ms : forall h l h', wf_heap h -> named h -> erase_heap h = erase_heap h0 ->
  lsend_all n ep ms h = (Ok l, h') -> rounds h0 ep ms l.
Proof.
  induction ms as [|[port m] ms IH]; intros h l h' W N K E; cbn [lsend_all] in E.
  - injection E as <- <-. constructor.
  - apply bind_ok in E as (l1 & h1 & E1 & E). apply bind_ok in E as (l2 & h2 & E2 & E). injection E as <- <-.
    pose proof (lsend1_keeps _ _ _ _ _ _ _ W E1) as K1.
    destruct (lsend1_ok _ _ _ _ _ _ _ W E1) as (o & u & o' & l' & Ho & R & E3 & -> & K').
    apply rounds_cons.
    + eapply lexec_tree; [| | |exact E3]; [eapply wf_heap_same; eauto|eapply named_same; eauto|congruence].
    + eapply IH; [| | |exact E2]; [eapply wf_heap_same; eauto|eapply named_same; eauto|congruence].
Qed.

(** ** Lists of calls *)

Lemma pending_app e1 e2 : pending (e1 ++ e2) = true -> pending e1 = false -> received e2 <> [].
Proof.
  induction e2 as [|e e2 IH] using rev_ind; intros P Q; [rewrite app_nil_r in P; congruence|].
  rewrite app_assoc, pending_snoc in P. rewrite received_app.
  destruct e as [p m|p m| |]; cbn; try discriminate P; rewrite ?app_nil_r; auto.
  destruct (received e2); discriminate.
Qed.
Lemma last_time_app x y : y <> [] -> last_time (x ++ y) = last_time y.
Proof. intros H. destruct y as [|m y _] using rev_ind; [congruence|]. rewrite app_assoc. now rewrite !last_time_snoc. Qed.
Lemma last_time_all T (l : list msg) : l <> [] -> (forall m, In m l -> mtime m = T) -> last_time l = T.
Proof.
  intros H A. destruct l as [|m l _] using rev_ind; [congruence|]. rewrite last_time_snoc. apply A, in_or_app. cbn; auto.
Qed.
Lemma received_In m evs : In m (received evs) <-> exists p, In (EData p m) evs.
Proof.
  induction evs as [|e evs IH]; cbn; [split; [intros []|intros (p & [])]|].
  destruct e as [p x|p x| |]; cbn; rewrite ?IH.
  - split.
    + intros [<-|(q & H)]; [exists p; auto|exists q; auto].
    + intros (q & [[= <- <-]|H]); eauto.
  - split; intros (q & H); exists q; [auto|destruct H as [[=]|H]; auto].
  - split; intros (q & H); exists q; [auto|destruct H as [[=]|H]; auto].
  - split; intros (q & H); exists q; [auto|destruct H as [[=]|H]; auto].
Qed.

Lemma orderly_round evs r T : orderly evs -> pending evs = false -> (forall m, In m (received evs) -> mtime m <= T) ->
  (forall m, In m (received r) -> mtime m = T) -> orderly (evs ++ r).
Proof.
  intros Or Pe Le Eq before p m after E.
  assert (X : (exists w, evs = before ++ EData p m :: w) \/ exists r1, before = evs ++ r1 /\ r = r1 ++ EData p m :: after).
  { clear - E. revert before E. induction evs as [|e evs IH]; intros before E; [right; exists before; auto|].
    destruct before as [|e' bf]; cbn in E; injection E as Ee E; subst e; [left; exists evs; reflexivity|].
    destruct (IH bf E) as [(w & ->)|(r1 & -> & ->)]; [left; exists w; auto|right; exists r1; auto]. }
  destruct X as [(w & ->)|(r1 & -> & ->)]; [now apply (Or before p m w)|].
  assert (Em : mtime m = T). { apply Eq. rewrite received_app. apply in_or_app. cbn; auto. }
  assert (E1 : forall x, In x (received r1) -> mtime x = T). { intros x Hx. apply Eq. rewrite received_app. apply in_or_app. auto. }
  rewrite received_app. split.
  - apply Forall_app. split; apply Forall_forall; intros x Hx; [specialize (Le x Hx)|specialize (E1 x Hx)]; lia.
  - intros P. pose proof (pending_app _ _ P Pe) as Ne. rewrite last_time_app by auto. rewrite Em. now apply last_time_all.
Qed.

Lemma waits_pending evs : pending evs = true -> exists p m, In (EData p m) evs /\ waits p false evs = true.
Proof.
  induction evs as [|e evs IH] using rev_ind; [discriminate|]. rewrite pending_snoc. intros P.
  destruct e as [p m|p m| |].
  - exists p, m. split; [apply in_or_app; cbn; auto|]. rewrite waits_app. cbn. now rewrite String.eqb_refl.
  - destruct (IH P) as (q & m' & H & Wt). exists q, m'. split; [apply in_or_app; auto|]. now rewrite waits_app.
  - discriminate.
  - destruct (IH P) as (q & m' & H & Wt). exists q, m'. split; [apply in_or_app; auto|]. now rewrite waits_app.
Qed.

(** ** Shapes of the calls *)

Section Shapes.
Variable h : heap.
Variable rank : string -> nat.
Hypothesis Rk : ranked rank h.
Variable ep : string.

(** operators without control inputs get no control calls *)
Section NoControl.
Variable id : string.
Hypothesis Nc : forall p, port_class h (id, p) <> Some true.

Lemma tree_ctrl_all :
  (forall ctl i l, tree h ctl i l -> (i = id -> ctl = false) -> no_control (calls id l)) /\
  (forall i ms l, emissions h i ms l -> no_control (calls id l)) /\
  (forall cs l, trees h cs l -> (forall b, In (b, id) cs -> b = false) -> no_control (calls id l)).
Proof.
  apply tree_all.
  - intros ctl i out l _ IH Hi. cbn [calls flat_map]. fold (calls id l). apply Forall_app. split; [|exact IH].
    destruct (String.eqb_spec id i) as [->|]; [|constructor]. rewrite Hi by auto. repeat constructor.
  - intros. constructor.
  - intros i port m ms x l _ IHx _ IHl. rewrite !calls_app. apply Forall_app. split; [|apply Forall_app; split; auto].
    + change (calls id (LEmit i port m :: delivered h m (wires h i port))) with (calls id (delivered h m (wires h i port))).
      apply Forall_forall. intros e He. apply calls_In in He as (out & He). apply delivered_In in He as (j & p & _ & [[E _]|[E C]]).
      * injection E as <- -> _. exact I.
      * injection E as <- -> _. now apply Nc in C.
    + apply IHx. intros b Hb. apply executed_In in Hb as (p & _ & C). destruct b; auto. now apply Nc in C.
  - intros _. constructor.
  - intros ctl i cs l1 l2 _ IH1 _ IH2 Hb. rewrite calls_app. apply Forall_app. split.
    + apply IH1. intros ->. apply Hb. cbn; auto.
    + apply IH2. intros b H. apply Hb. cbn; auto.
Qed.

Lemma rounds_no_control ms l : rounds h ep ms l -> no_control (calls id l).
Proof.
  induction 1 as [|ms l port m t R IH T]; [constructor|]. rewrite !calls_app. apply Forall_app. split; auto. apply Forall_app. split.
  - cbn. destruct (String.eqb id ep); repeat constructor.
  - now apply (proj1 tree_ctrl_all _ _ _ T).
Qed.
End NoControl.

Lemma rounds_entry ms l : rounds h ep ms l -> calls ep l = flat_map (fun pm => [EData (fst pm) (snd pm); EExec]) ms.
Proof.
  induction 1 as [|ms l port m t R IH T]; [reflexivity|]. rewrite calls_app, calls_app, flat_map_app, IH. f_equal. cbn.
  rewrite String.eqb_refl. cbn. f_equal. inversion T as [? ? out l' Em]; subst. cbn. rewrite String.eqb_refl. cbn. f_equal.
  destruct (proj1 (proj2 (tree_below_all h rank Rk)) _ _ _ Em) as (_ & No).
  destruct (calls ep l') as [|e r] eqn:E; auto. exfalso.
  assert (X : In e (calls ep l')) by (rewrite E; cbn; auto). apply calls_In in X as (o & X). eapply No; eauto.
Qed.

(** an operator with exactly one connection to it *)
Lemma rounds_single id p a q ms l : rounds h ep ms l -> id <> ep ->
  (forall a' q' p', In (id, p') (wires h a' q') -> port_class h (id, p') <> None -> (a', q', p') = (a, q, p)) ->
  port_class h (id, p) = Some false -> NoDup (wires h a q) -> In (id, p) (wires h a q) ->
  calls id l = feed p (emitted a q l).
Proof.
  intros R Ne Only Cls Nd Hin. induction R as [|ms l port m t R IH T]; [reflexivity|].
  rewrite !calls_app, !emitted_app, !feed_app, IH. f_equal.
  assert (E : calls id (head ep port m) = []). { cbn. destruct (String.eqb_spec id ep); [congruence|reflexivity]. }
  rewrite E. change (emitted a q (head ep port m)) with (@nil msg). cbn [feed flat_map app].
  pose proof (proj1 (tree_feed_all h rank Rk id p a q Only Cls Nd Hin) _ _ _ T) as X.
  destruct (String.eqb_spec id ep); [congruence|]. exact X.
Qed.

(** an operator no connection leads to *)
Lemma rounds_caused ms l : rounds h ep ms l -> forall id p m out, id <> ep -> In (LCall id (EData p m) out) l ->
  exists a q, In (id, p) (wires h a q).
Proof.
  induction 1 as [|ms l port m t R IH T]; intros id p x out Ne H; [destruct H|].
  apply in_app_or in H as [H|H]; [eauto|]. apply in_app_or in H as [H|H].
  - destruct H as [[=]|[[= <- _ _ _]|[]]]. congruence.
  - apply in_split in H as (t1 & t2 & ->). pose proof (proj1 (tree_caused_all h) _ _ _ T) as C. apply caused_split in C.
    destruct C as (a & q & _ & C). eauto.
Qed.

Lemma rounds_spaced id p a q ms l : rounds h ep ms l -> id <> ep ->
  (forall a' q', In (id, p) (wires h a' q') -> (a', q') = (a, q)) -> NoDup (wires h a q) ->
  spaced p false (calls id l) /\ waits p false (calls id l) = false.
Proof.
  intros R Ne Src Nd. induction R as [|ms l port m t R (I1 & I2) T]; [cbn; auto|].
  assert (E : calls id (head ep port m) = []). { cbn. destruct (String.eqb_spec id ep); [congruence|reflexivity]. }
  rewrite !calls_app, E. cbn [app]. rewrite spaced_app, waits_app, I2.
  destruct (proj1 (tree_spaced_all h rank Rk id p a q Src Nd) _ _ _ T) as (A & B & _). auto.
Qed.

Lemma rounds_settled id ms l : one_feed h -> rounds h ep ms l -> pending (calls id l) = false.
Proof.
  intros (Of1 & Of2) R. destruct (string_dec id ep) as [->|Ne].
  - rewrite (rounds_entry ms l R). clear. induction ms as [|pm ms IH] using rev_ind; [reflexivity|]. rewrite flat_map_app. cbn.
    change [EData (fst pm) (snd pm); EExec] with ([EData (fst pm) (snd pm)] ++ [@EExec NO]). now rewrite app_assoc, pending_snoc.
  - destruct (pending (calls id l)) eqn:P; auto. exfalso. apply waits_pending in P as (p & m & Hm & Wt).
    apply calls_In in Hm as (out & Hm). destruct (rounds_caused _ _ R id p m out Ne Hm) as (a & q & Hc).
    destruct (rounds_spaced id p a q ms l R Ne) as (_ & Wf); auto; [|congruence].
    intros a' q' H. now apply (Of1 id p (a', q') (a, q)).
Qed.

(** ** Times *)

Section Times.
Hypothesis Of : one_feed h.
Variable U : string -> Prop.
Hypothesis Up : forall a b, wired h a b -> U b -> U a.
Variables (L : list entry) (h' : heap).
Hypothesis Rep : replays h L h'.
Hypothesis Pr : proper h ep L.
Hypothesis Nctl : forall id p, U id -> port_class h (id, p) <> Some true.
Hypothesis Good : forall id o, U id -> sfind id h = Some o -> is_pipeline o = false /\
  (if String.eqb id ep then prompt_always o
   else prompt o /\ ports_exist o (calls id L) /\ forall x, increasing (times (hist x (calls id L)))).

Definition stamped (T : Z) (l : list entry) : Prop :=
  (forall id p m out, U id -> In (LCall id (EData p m) out) l -> mtime m = T) /\
  (forall id q m, U id -> In (LEmit id q m) l -> mtime m = T).

Lemma returned_calls id l : length (returned id l) = length (calls id l).
Proof.
  unfold returned, calls. induction l as [|x l IH]; auto. cbn [flat_map]. rewrite !app_length, IH. f_equal.
  destruct x; auto. now destruct (String.eqb id id0).
Qed.

Lemma run_prefix o e1 : forall e2 outs o2, run o (e1 ++ e2) = (Ok outs, o2) -> exists o1, run o e1 = (Ok (firstn (length e1) outs), o1).
Proof.
  revert o. induction e1 as [|e e1 IH]; intros o e2 outs o2 R; [exists o; reflexivity|].
  cbn [app run] in R. destruct (step o e) as [[x| | | |] o1] eqn:S; try discriminate R. cbn [bind sbind] in R. unfold sbind in R.
  destruct (run o1 (e1 ++ e2)) as [[xs| | | |] o3] eqn:R1; try discriminate R. injection R as <- <-.
  destruct (IH o1 e2 xs o3 R1) as (o4 & R4). exists o4. cbn [run]. rewrite S. cbn [bind sbind]. unfold sbind. rewrite R4. reflexivity.
Qed.

Lemma run_call l1 id e out l2 o : L = l1 ++ LCall id e out :: l2 -> sfind id h = Some o -> is_pipeline o = false ->
  exists o', run o (calls id l1 ++ [e]) = (Ok (returned id l1 ++ [out]), o').
Proof.
  intros E Ho Np. destruct Rep as (_ & Rp). destruct (Rp id o Ho Np) as (o' & _ & _ & R).
  assert (Ec : calls id L = (calls id l1 ++ [e]) ++ calls id l2).
  { rewrite E, calls_app, <- app_assoc. f_equal. cbn. now rewrite String.eqb_refl. }
  assert (Er : returned id L = (returned id l1 ++ [out]) ++ returned id l2).
  { rewrite E, returned_app, <- app_assoc. f_equal. cbn. now rewrite String.eqb_refl. }
  rewrite Ec, Er in R. apply run_prefix in R as (o1 & R). exists o1. rewrite R. f_equal. f_equal.
  rewrite firstn_app, app_length, app_length, returned_calls. cbn. rewrite Nat.sub_diag. cbn. rewrite app_nil_r.
  apply firstn_all2. rewrite app_length, returned_calls. cbn. lia.
Qed.

(** up to here everything is in order *)
Definition in_order (T : Z) (l : list entry) : Prop :=
  forall id, U id -> orderly (calls id l) /\ forall m, In m (received (calls id l)) -> mtime m <= T.

Lemma stamped_received T l id m : U id -> stamped T l -> In m (received (calls id l)) -> mtime m = T.
Proof.
  intros Ui (S1 & _) H. apply received_In in H as (p & H). apply calls_In in H as (out & H). eauto.
Qed.

Lemma increasing_hist_prefix x e1 e2 : increasing (times (hist x (e1 ++ e2))) -> increasing (times (hist x e1)).
Proof. rewrite hist_app. unfold times. rewrite map_app. apply increasing_app_l. Qed.

Lemma round_stamped ms l port m t rest : L = l ++ head ep port m ++ t ++ rest ->
  rounds h ep ms l -> tree h false ep t -> no_control (calls ep L) -> (forall id, U id -> no_control (calls id L)) ->
  in_order (mtime m) l -> stamped (mtime m) (head ep port m ++ t).
Proof.
  intros EL R T _ NcL Io. set (T0 := mtime m) in *.
  pose proof (proj1 (tree_caused_all h) _ _ _ T) as Ca.
  assert (Main : forall t1 t2, t = t1 ++ t2 -> stamped T0 (head ep port m ++ t1)).
  { induction t1 as [|x t1 IH] using rev_ind; intros t2 Et.
    - rewrite app_nil_r. split.
      + intros id p m' out _ [[=]|[[= _ _ <- _]|[]]]. reflexivity.
      + intros id q m' _ [[=]|[[=]|[]]].
    - rewrite <- app_assoc in Et. cbn in Et. pose proof (IH _ Et) as (S1 & S2).
      assert (Jx : justified h t1 x). { rewrite Et in Ca. now apply (caused_split h [] t1 x t2) in Ca. }
      assert (New : match x with
                    | LCall id (EData p m') _ => U id -> mtime m' = T0
                    | LEmit id q m' => U id -> mtime m' = T0
                    | _ => True end).
      { destruct x as [q m'|id e out|id q m']; auto.
        - destruct e as [p m'|p m'| |]; auto. intros Ui. destruct Jx as (a & q & Ha & Hw).
          apply (S2 a q m'); [|apply in_or_app; auto]. apply (Up a id); auto. exists q, p. exact Hw.
        - intros Ui. destruct Jx as (ctl & out & ms' & Hc & Hq & Hm).
          apply in_split in Hc as (u1 & u2 & Eu).
          assert (ES : L = (l ++ head ep port m ++ u1) ++ LCall id (if ctl then EExecC else EExec) out :: (u2 ++ LEmit id q m' :: t2 ++ rest)).
          { rewrite EL, Et, Eu. repeat (rewrite <- ?app_assoc; cbn [app head]). reflexivity. }
          assert (ctl = false) as ->.
          { destruct ctl; auto. exfalso. specialize (NcL id Ui). unfold no_control in NcL. rewrite Forall_forall in NcL.
            apply (NcL EExecC). rewrite ES, calls_app. apply in_or_app. right. cbn. rewrite String.eqb_refl. cbn. auto. }
          assert (Hop : exists o, sfind id h = Some o).
          { unfold proper in Pr. rewrite Forall_forall in Pr. destruct (Pr (LCall id EExec out)) as (o & Ho & _); eauto.
            rewrite ES. apply in_or_app. cbn. auto. }
          destruct Hop as (o & Ho). destruct (Good id o Ui Ho) as (Np & Gd).
          destruct (run_call _ _ _ _ _ o ES Ho Np) as (o' & Rn).
          set (evs := calls id (l ++ head ep port m ++ u1)) in *.
          assert (Nce : no_control evs).
          { specialize (NcL id Ui). rewrite ES, calls_app in NcL. apply Forall_app in NcL. apply NcL. }
          assert (St : stamped T0 (head ep port m ++ u1)).
          { split.
            - intros i p y o2 Ui' Hy. apply (S1 i p y o2 Ui'). rewrite Eu, app_assoc. apply in_or_app. auto.
            - intros i p y Ui' Hy. apply (S2 i p y Ui'). rewrite Eu, app_assoc. apply in_or_app. auto. }
          assert (Ev : evs = calls id l ++ calls id (head ep port m ++ u1)) by (unfold evs; apply calls_app).
          pose proof (rounds_settled id ms l Of R) as Pl.
          assert (Ore : orderly evs).
          { rewrite Ev. destruct (Io id Ui) as (O1 & O2). apply (orderly_round _ _ T0); auto. intros y Hy. eapply stamped_received; eauto. }
          assert (AL : at_last evs out).
          { destruct (String.eqb id ep); [eapply Gd; eauto|]. destruct Gd as (P1 & P2 & P3). eapply P1; eauto.
            - rewrite ES, calls_app in P2. apply Forall_app in P2. apply P2.
            - intros x. specialize (P3 x). rewrite ES, calls_app in P3. eapply increasing_hist_prefix; eauto. }
          destruct (AL q ms' m' Hq Hm) as (Pe & ->). rewrite Ev in Pe |- *. pose proof (pending_app _ _ Pe Pl) as Nr.
          rewrite received_app, last_time_app by auto. apply last_time_all; auto. intros y Hy. eapply stamped_received; eauto. }
      split.
      + intros id p m' out Ui H. rewrite app_assoc in H. apply in_app_or in H as [H|[->|[]]]; [eauto|]. now apply New.
      + intros id q m' Ui H. rewrite app_assoc in H. apply in_app_or in H as [H|[->|[]]]; [eauto|]. now apply New. }
  apply (Main t []). now rewrite app_nil_r.
Qed.

Lemma sorted_snoc l (x : Z) : StronglySorted Z.le (l ++ [x]) -> StronglySorted Z.le l /\ forall y, In y l -> y <= x.
Proof.
  induction l as [|a l IH]; cbn; intros S; [split; [constructor|intros ? []]|].
  inversion S as [|? ? A B]; subst. destruct (IH A) as (I1 & I2). apply Forall_app in B as (B & C). split.
  - constructor; auto.
  - intros y [<-|H]; auto. now inversion C.
Qed.

Lemma rounds_in_order ms l rest : rounds h ep ms l -> L = l ++ rest ->
  no_control (calls ep L) -> (forall id, U id -> no_control (calls id L)) ->
  StronglySorted Z.le (times (map snd ms)) ->
  forall T, (forall t, In t (times (map snd ms)) -> t <= T) -> in_order T l.
Proof.
  intros R. revert rest. induction R as [|ms l port m t R IH T0]; intros rest EL Nc1 Nc2 S T HT id Ui.
  - split; [intros b p x a E; destruct b; discriminate|intros ? []].
  - unfold times in S, HT. rewrite map_app, map_app in S, HT. cbn in S, HT. apply sorted_snoc in S as (S & Le).
    assert (I1 : in_order (mtime m) l). { eapply IH; eauto. rewrite EL, <- !app_assoc. reflexivity. }
    assert (St : stamped (mtime m) (head ep port m ++ t)).
    { eapply (round_stamped ms l port m t rest); eauto. rewrite EL, <- !app_assoc. reflexivity. }
    destruct (I1 id Ui) as (O1 & O2). rewrite calls_app. split.
    + apply (orderly_round _ _ (mtime m)); auto.
      * now apply (rounds_settled id ms l).
      * intros y Hy. eapply stamped_received; eauto.
    + intros y Hy. rewrite received_app in Hy. assert (mtime m <= T) by (apply HT, in_or_app; cbn; auto).
      apply in_app_or in Hy as [Hy|Hy]; [specialize (O2 y Hy); lia|]. rewrite (stamped_received _ _ _ _ Ui St Hy). auto.
Qed.

End Times.
End Shapes.
End Sync.
