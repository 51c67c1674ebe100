(** * The structure of the log of one message *)

From Coq Require Import String ZArith Bool List Lia.
From Verif Require Import Base.StrMap Base.Num Model.Core Model.Ops Model.Graph Model.Run.
From Verif Require Import Spec.Streams Spec.Shape Spec.Log Spec.Preserving Spec.Multi Spec.Join.
From Verif Require Import Proofs.Lists Proofs.ShapeP Proofs.Merge Proofs.LogP Proofs.LogRun.
Import ListNotations.
Open Scope string_scope.
Open Scope list_scope.
Open Scope Z_scope.
Open Scope rtbot_scope.

Section Rounds.
Context {NO : NumOps}.

(** ** Executions as trees *)

Section Tree.
Variable h : heap.

(** what a connection leads to: [Some false] a data input, [Some true] a control input *)
Definition port_class (c : string * string) : option bool :=
  match sfind (fst c) h with
  | Some o => if is_data_input o (snd c) then Some false else if is_control_input o (snd c) then Some true else None
  | None => None
  end.

Definition delivered (m : msg) (cs : list (string * string)) : list entry :=
  flat_map (fun c => match port_class c with
                     | Some false => [LCall (fst c) (EData (snd c) m) []]
                     | Some true => [LCall (fst c) (ECtrl (snd c) m) []]
                     | None => []
                     end) cs.
Definition executed (cs : list (string * string)) : list (bool * string) :=
  flat_map (fun c => match port_class c with Some b => [(b, fst c)] | None => [] end) cs.

Inductive tree : bool -> string -> list entry -> Prop :=
| tree_exec ctl id out l : emissions id (batch_messages out) l ->
    tree ctl id (LCall id (if ctl then EExecC else EExec) out :: l)
with emissions : string -> list (string * msg) -> list entry -> Prop :=
| em_nil id : emissions id [] []
| em_cons id port m ms x l : trees (executed (wires h id port)) x -> emissions id ms l ->
    emissions id ((port, m) :: ms) ((LEmit id port m :: delivered m (wires h id port)) ++ x ++ l)
with trees : list (bool * string) -> list entry -> Prop :=
| ts_nil : trees [] []
| ts_cons ctl id cs l1 l2 : tree ctl id l1 -> trees cs l2 -> trees ((ctl, id) :: cs) (l1 ++ l2).

Scheme tree_mut := Minimality for tree Sort Prop
with emissions_mut := Minimality for emissions Sort Prop
with trees_mut := Minimality for trees Sort Prop.
Combined Scheme tree_all from tree_mut, emissions_mut, trees_mut.

Lemma trees_app cs1 l1 : trees cs1 l1 -> forall cs2 l2, trees cs2 l2 -> trees (cs1 ++ cs2) (l1 ++ l2).
Proof.
  intros T. enough (G : forall cs l, trees cs l -> forall cs2 l2, trees cs2 l2 -> trees (cs ++ cs2) (l ++ l2)) by (eapply G; eauto).
  clear. induction cs as [|[b i] cs IH]; intros l T; inversion T; subst; intros; [assumption|].
  cbn. rewrite <- app_assoc. constructor; auto.
Qed.

Lemma emissions_app id ms1 : forall l1, emissions id ms1 l1 -> forall ms2 l2, emissions id ms2 l2 -> emissions id (ms1 ++ ms2) (l1 ++ l2).
Proof.
  induction ms1 as [|[p m] ms1 IH]; intros l1 E; inversion E; subst; intros; [assumption|].
  rewrite <- !app_assoc. change (((p, m) :: ms1) ++ ms2) with ((p, m) :: (ms1 ++ ms2)). constructor; auto.
Qed.
End Tree.

Lemma port_class_same h h' c : erase_heap h' = erase_heap h -> port_class h' c = port_class h c.
Proof.
  intros E. unfold port_class. pose proof (sfind_erase h (fst c)) as A. pose proof (sfind_erase h' (fst c)) as B.
  rewrite E, A in B. destruct (sfind (fst c) h) as [o|], (sfind (fst c) h') as [o'|]; cbn in B; try discriminate; auto.
  injection B as B. rewrite <- (erase_is_data o'), <- (erase_is_ctrl o'), <- B, erase_is_data, erase_is_ctrl. reflexivity.
Qed.

Lemma ldeliver_delivered h0 n m cs : forall h l h', wf_heap h -> erase_heap h = erase_heap h0 ->
  ldeliver n m cs h = (Ok l, h') -> l = delivered h0 m cs.
Proof.
  induction cs as [|c cs IH]; intros h l h' W K E; cbn [ldeliver] in E; [now injection E as <- <-|].
  apply bind_ok in E as (l1 & h1 & E1 & E). apply bind_ok in E as (l2 & h2 & E2 & E). injection E as <- <-.
  assert (K1 : erase_heap h1 = erase_heap h) by (eapply ldeliver1_keeps; eauto).
  unfold delivered. cbn [flat_map]. fold (delivered h0 m cs). f_equal.
  - rewrite <- (port_class_same h0 h c K). destruct c as [dst port]. unfold ldeliver1 in E1. unfold port_class. cbn [fst snd].
    destruct (sfind dst h) as [o|]; [|discriminate E1].
    destruct (is_data_input o port).
    + destruct (recv_data n o m port) as [[u| | | |] o']; try discriminate E1. now injection E1 as <- <-.
    + destruct (is_control_input o port).
      * destruct (recv_ctrl_local o m port) as [[u| | | |] o']; try discriminate E1. now injection E1 as <- <-.
      * now injection E1 as <- <-.
  - eapply (IH h1); [eapply wf_heap_same; eauto|congruence|exact E2].
Qed.

Lemma lexec_tree h0 n : forall ctl id h l h', wf_heap h -> named h -> erase_heap h = erase_heap h0 ->
  lexec n ctl id h = (Ok l, h') -> tree h0 ctl id l.
Proof.
  induction n as [|n IH]; intros ctl id h l h' W N K E; [discriminate E|]. cbn [lexec] in E.
  destruct (sfind id h) as [o|] eqn:Ho; [|discriminate E].
  destruct (exec_local (exec n) ctl o) as [[out| | | |] o'] eqn:X; try discriminate E.
  apply bind_ok in E as (l1 & h1 & E1 & E). injection E as <- <-. constructor.
  destruct (ok_exec (erase_heap h) n ctl h id o out o') as ((K' & W' & N') & _ & Hi & Hw); auto.
  { repeat split; auto; apply W. }
  assert (Hw0 : forall port, odefault [] (sfind port (o_conns (op_base o'))) = wires h0 id port).
  { intros port. rewrite Hw. apply wires_same. congruence. }
  assert (K2 : erase_heap (sset id o' h) = erase_heap h0) by congruence.
  clear X Hw Ho K K'. set (b := op_base o') in *. clearbody b. revert W' N' K2 E1. generalize (sset id o' h).
  clear o o' h W N.
  assert (Ts : forall cs h l h', wf_heap h -> named h -> erase_heap h = erase_heap h0 ->
    lexecute_all (lexec n) cs h = (Ok l, h') -> trees h0 (executed h0 cs) l).
  { induction cs as [|c cs IHc]; intros h l h' W N K E; cbn [lexecute_all] in E; [injection E as <- <-; constructor|].
    apply bind_ok in E as (l2 & h2 & E2 & E). apply bind_ok in E as (l3 & h3 & E3 & E). injection E as <- <-.
    assert (K3 : erase_heap h2 = erase_heap h) by (eapply lexecute1_keeps; eauto).
    unfold executed. cbn [flat_map]. fold (executed h0 cs). apply trees_app.
    - rewrite <- (port_class_same h0 h c K). destruct c as [dst port]. unfold lexecute1 in E2. unfold port_class. cbn [fst snd].
      destruct (sfind dst h) as [o|]; [|discriminate E2].
      destruct (is_data_input o port); [rewrite <- (app_nil_r l2); constructor; [eapply IH; eauto|constructor]|].
      destruct (is_control_input o port); [rewrite <- (app_nil_r l2); constructor; [eapply IH; eauto|constructor]|].
      injection E2 as <- <-. constructor.
    - eapply (IHc h2); [eapply wf_heap_same; eauto|eapply named_same; eauto|congruence|exact E3]. }
  assert (Em : forall port m h l h', wf_heap h -> named h -> erase_heap h = erase_heap h0 ->
    lemit_msg (lexec n) n b port m h = (Ok l, h') -> emissions h0 id [(port, m)] l).
  { intros port m h l h' W N K E. unfold lemit_msg in E. rewrite Hi in E. specialize (Hw0 port).
    destruct (sfind port (o_conns b)) as [cs|]; cbn [odefault] in Hw0.
    - apply bind_ok in E as (l2 & h2 & E2 & E). apply bind_ok in E as (l3 & h3 & E3 & E). injection E as <- <-.
      assert (K3 : erase_heap h2 = erase_heap h) by (eapply ldeliver_keeps; eauto).
      rewrite (ldeliver_delivered h0 n m cs h l2 h2 W K E2), Hw0.
      assert (X : emissions h0 id [(port, m)] ((LEmit id port m :: delivered h0 m (wires h0 id port)) ++ l3 ++ [])).
      { constructor; [|constructor]. rewrite <- Hw0.
        eapply (Ts cs h2); [eapply wf_heap_same; eauto|eapply named_same; eauto|congruence|exact E3]. }
      rewrite app_nil_r in X. exact X.
    - injection E as <- <-.
      assert (X : emissions h0 id [(port, m)] ((LEmit id port m :: delivered h0 m (wires h0 id port)) ++ [] ++ [])).
      { constructor; [|constructor]. rewrite <- Hw0. constructor. }
      rewrite <- Hw0 in X. exact X. }
  assert (Ep : forall port ms h l h', wf_heap h -> named h -> erase_heap h = erase_heap h0 ->
    lemit_port (lexec n) n b port ms h = (Ok l, h') -> emissions h0 id (map (pair port) ms) l).
  { intros port. induction ms as [|m ms IHm]; intros h l h' W N K E; cbn [lemit_port] in E; [injection E as <- <-; constructor|].
    apply bind_ok in E as (l2 & h2 & E2 & E). apply bind_ok in E as (l3 & h3 & E3 & E). injection E as <- <-.
    assert (K3 : erase_heap h2 = erase_heap h) by (eapply lemit_msg_keeps; eauto).
    change (map (pair port) (m :: ms)) with ([(port, m)] ++ map (pair port) ms). apply emissions_app; [eapply Em; eauto|].
    eapply (IHm h2); [eapply wf_heap_same; eauto|eapply named_same; eauto|congruence|exact E3]. }
  revert l1 h1. unfold batch_messages. induction out as [|[port ms] out IHo]; intros l h1 h W N K E; cbn [lemit_op] in E; [injection E as <- <-; constructor|].
  destruct (sset_mem port (o_outs b)); [|discriminate E].
  apply bind_ok in E as (l2 & h2 & E2 & E). apply bind_ok in E as (l3 & h3 & E3 & E). injection E as <- <-.
  assert (K3 : erase_heap h2 = erase_heap h) by (eapply lemit_port_keeps; eauto).
  cbn [flat_map fst snd]. apply emissions_app; [eapply Ep; eauto|].
  eapply (IHo l3 h3 h2); [eapply wf_heap_same; eauto|eapply named_same; eauto|congruence|exact E3].
Qed.

(** ** Facts about trees *)

Section Facts.
Variable h : heap.
Variable rank : string -> nat.
Hypothesis Rk : ranked rank h.

Lemma executed_In cs b i : In (b, i) (executed h cs) -> exists p, In (i, p) cs /\ port_class h (i, p) = Some b.
Proof.
  unfold executed. rewrite in_flat_map. intros ([d p] & Hc & H). destruct (port_class h (d, p)) as [c|] eqn:E; [|destruct H].
  destruct H as [[= <- <-]|[]]. exists p. auto.
Qed.
Lemma In_executed cs b i p : In (i, p) cs -> port_class h (i, p) = Some b -> In (b, i) (executed h cs).
Proof. intros H E. unfold executed. apply in_flat_map. exists (i, p). split; auto. rewrite E. cbn; auto. Qed.

Lemma executed_rank a q b i : In (b, i) (executed h (wires h a q)) -> (rank i < rank a)%nat.
Proof. intros H. apply executed_In in H as (p & H & _). apply Rk. exists q, p. exact H. Qed.

Lemma delivered_In m cs x : In x (delivered h m cs) -> exists i p, In (i, p) cs /\
  ((x = LCall i (EData p m) [] /\ port_class h (i, p) = Some false) \/ (x = LCall i (ECtrl p m) [] /\ port_class h (i, p) = Some true)).
Proof.
  unfold delivered. rewrite in_flat_map. intros ([i p] & Hc & H). exists i, p. split; auto.
  destruct (port_class h (i, p)) as [[|]|]; [destruct H as [<-|[]]; auto|destruct H as [<-|[]]; auto|destruct H].
Qed.

(** F1: ranks *)
Definition below (r : nat) (l : list entry) : Prop :=
  forall x, In x l -> match x with LCall i _ _ => (rank i < r)%nat | LEmit i _ _ => (rank i < r)%nat | LSend _ _ => False end.

Lemma below_app r l1 l2 : below r l1 -> below r l2 -> below r (l1 ++ l2).
Proof. intros A B x H. apply in_app_or in H as [H|H]; [exact (A x H)|exact (B x H)]. Qed.

Lemma below_le r r' l : (r <= r')%nat -> below r l -> below r' l.
Proof. intros L B x H. specialize (B x H). destruct x; auto; lia. Qed.

Lemma tree_below_all :
  (forall ctl id l, tree h ctl id l -> below (S (rank id)) l) /\
  (forall id ms l, emissions h id ms l -> below (S (rank id)) l /\ forall e out, ~ In (LCall id e out) l) /\
  (forall cs l, trees h cs l -> forall r, (forall b i, In (b, i) cs -> (rank i < r)%nat) -> below r l).
Proof.
  apply tree_all.
  - intros ctl id out l _ [IH _] x [<-|H]; [lia|]. now apply IH.
  - intros id. split; [intros x []|intros e out []].
  - intros id port m ms x l _ IHx _ (IH1 & IH2).
    assert (Bx : below (rank id) x) by (apply IHx; intros b i; apply executed_rank).
    assert (Bd : below (rank id) (delivered h m (wires h id port))).
    { intros y Hy. apply delivered_In in Hy as (i & p & Hi & [[-> _]|[-> _]]); apply Rk; exists port, p; exact Hi. }
    split.
    + apply below_app; [|apply below_app; auto].
      * intros y [<-|Hy]; [lia|]. eapply below_le; [|exact Bd|exact Hy]. lia.
      * eapply below_le; [|exact Bx]. lia.
    + intros e out Hi. cbn [app] in Hi. destruct Hi as [Hi|Hi]; [discriminate|].
      apply in_app_or in Hi as [Hi|Hi]; [specialize (Bd _ Hi); cbn in Bd; lia|].
      apply in_app_or in Hi as [Hi|Hi]; [specialize (Bx _ Hi); cbn in Bx; lia|]. eapply IH2; eauto.
  - intros r _ x [].
  - intros ctl id cs l1 l2 _ IH1 _ IH2 r Hr. apply below_app.
    + eapply below_le; [|exact IH1]. apply (Hr ctl id). cbn; auto.
    + apply IH2. intros b i Hi. apply (Hr b i). cbn; auto.
Qed.

Lemma below_calls r l id : below r l -> (r <= rank id)%nat -> calls id l = [].
Proof.
  intros B L. unfold calls. induction l as [|x l IH]; auto. cbn. rewrite IH by (intros y Hy; apply B; cbn; auto).
  specialize (B x (or_introl eq_refl)). destruct x as [q m|i e out|i q m]; auto.
  destruct (String.eqb_spec id i) as [<-|]; auto. lia.
Qed.
Lemma below_emitted r l id q : below r l -> (r <= rank id)%nat -> emitted id q l = [].
Proof.
  intros B L. unfold emitted. induction l as [|x l IH]; auto. cbn. rewrite IH by (intros y Hy; apply B; cbn; auto).
  specialize (B x (or_introl eq_refl)). destruct x as [p m|i e out|i p m]; auto.
  destruct (String.eqb_spec id i) as [<-|]; auto. lia.
Qed.

(** F2: everything has a cause *)
Definition justified (before : list entry) (x : entry) : Prop :=
  match x with
  | LEmit id q m => exists ctl out ms, In (LCall id (if ctl : bool then EExecC else EExec) out) before /\ In (q, ms) out /\ In m ms
  | LCall id (EData p m) _ | LCall id (ECtrl p m) _ => exists a q, In (LEmit a q m) before /\ In (id, p) (wires h a q)
  | LCall _ _ _ => True
  | LSend _ _ => False
  end.

Fixpoint caused (before l : list entry) : Prop :=
  match l with [] => True | x :: r => justified before x /\ caused (before ++ [x]) r end.

Lemma justified_incl b1 b2 x : incl b1 b2 -> justified b1 x -> justified b2 x.
Proof.
  intros I. destruct x as [p m|i [p m|p m| |] out|i p m]; cbn; auto.
  - intros (a & q & A & B). eauto.
  - intros (a & q & A & B). eauto.
  - intros (c & o & ms & A & B & C). exists c, o, ms. auto.
Qed.
Lemma caused_incl l : forall b1 b2, incl b1 b2 -> caused b1 l -> caused b2 l.
Proof.
  induction l as [|x l IH]; intros b1 b2 I; cbn; auto. intros [A B]. split; [eapply justified_incl; eauto|].
  eapply IH; [|exact B]. intros y Hy. apply in_app_or in Hy as [Hy|Hy]; apply in_or_app; auto.
Qed.
Lemma caused_app l1 : forall b l2, caused b (l1 ++ l2) <-> caused b l1 /\ caused (b ++ l1) l2.
Proof.
  induction l1 as [|x l1 IH]; intros b l2; cbn; [rewrite app_nil_r; tauto|]. rewrite IH, <- app_assoc. cbn. tauto.
Qed.
Lemma caused_split b pre x post : caused b (pre ++ x :: post) -> justified (b ++ pre) x.
Proof. rewrite caused_app. intros [_ [A _]]. exact A. Qed.

Lemma caused_delivered m cs : forall b a q, In (LEmit a q m) b -> (forall c, In c cs -> In c (wires h a q)) -> caused b (delivered h m cs).
Proof.
  induction cs as [|[i p] cs IH]; intros b a q Hb Hc; cbn; auto.
  assert (Hc' : forall c, In c cs -> In c (wires h a q)) by (intros; apply Hc; cbn; auto).
  destruct (port_class h (i, p)) as [[|]|]; cbn; [| |now apply (IH b a q)].
  - split; [exists a, q; split; auto; apply Hc; cbn; auto|]. apply (IH _ a q); auto. apply in_or_app; auto.
  - split; [exists a, q; split; auto; apply Hc; cbn; auto|]. apply (IH _ a q); auto. apply in_or_app; auto.
Qed.

Lemma tree_caused_all :
  (forall ctl id l, tree h ctl id l -> caused [] l) /\
  (forall id ms l, emissions h id ms l -> forall b,
     (forall q m, In (q, m) ms -> exists ctl out ms', In (LCall id (if ctl : bool then EExecC else EExec) out) b /\ In (q, ms') out /\ In m ms') -> caused b l) /\
  (forall cs l, trees h cs l -> caused [] l).
Proof.
  apply tree_all.
  - intros ctl id out l _ IH. cbn. split; [destruct ctl; exact I|]. apply IH. intros q m Hm.
    unfold batch_messages in Hm. apply in_flat_map in Hm as ([q' ms] & H1 & H2). cbn in H2. apply in_map_iff in H2 as (m' & [= <- <-] & H2).
    exists ctl, out, ms. cbn; auto.
  - intros id b _. exact I.
  - intros id port m ms x l _ IHx _ IH b Hb.
    change ((LEmit id port m :: delivered h m (wires h id port)) ++ x ++ l) with ([LEmit id port m] ++ delivered h m (wires h id port) ++ x ++ l).
    rewrite !caused_app. repeat split.
    + apply Hb. cbn; auto.
    + eapply caused_delivered; [apply in_or_app; right; cbn; auto|auto].
    + eapply caused_incl; [|exact IHx]. intros ? [].
    + apply IH. intros q' m' H'. destruct (Hb q' m') as (c & o & ms' & A & B & C); [cbn; auto|].
      exists c, o, ms'. split; auto. do 3 (apply in_or_app; left). exact A.
  - exact I.
  - intros ctl id cs l1 l2 _ IH1 _ IH2. apply caused_app. split; auto. eapply caused_incl; [|exact IH2]. intros ? [].
Qed.

(** F3: what is delivered to a port is executed before the next message arrives there *)
Definition waits (p : string) (w : bool) (evs : list ev) : bool :=
  fold_left (fun w e => match e with EData q _ => String.eqb q p || w | EExec => false | _ => w end) evs w.
Fixpoint spaced (p : string) (w : bool) (evs : list ev) : Prop :=
  match evs with
  | [] => True
  | EData q _ :: r => if String.eqb q p then w = false /\ spaced p true r else spaced p w r
  | EExec :: r => spaced p false r
  | _ :: r => spaced p w r
  end.

Lemma waits_app p w e1 e2 : waits p w (e1 ++ e2) = waits p (waits p w e1) e2.
Proof. apply fold_left_app. Qed.
Lemma spaced_app p e1 : forall w e2, spaced p w (e1 ++ e2) <-> spaced p w e1 /\ spaced p (waits p w e1) e2.
Proof.
  induction e1 as [|e e1 IH]; intros w e2; cbn; [tauto|]. destruct e as [q m| | |]; cbn; try apply IH.
  destruct (String.eqb q p); cbn; rewrite IH; tauto.
Qed.
Lemma waits_false p evs : waits p true evs = false -> waits p false evs = false.
Proof.
  unfold waits. assert (G : forall b, fold_left (fun w e => match e with EData q _ => String.eqb q p || w | EExec => false | _ => w end) evs true = false ->
    fold_left (fun w e => match e with EData q _ => String.eqb q p || w | EExec => false | _ => w end) evs b = false).
  { induction evs as [|e evs IH]; intros b; cbn; [discriminate|]. destruct e as [q m| | |]; auto. rewrite orb_true_r. apply IH. }
  apply G.
Qed.

(** no message for port [p] of [id] *)
Definition quiet (p : string) (evs : list ev) : Prop := forall q m, In (EData q m) evs -> q <> p.
Lemma quiet_spaced p evs : forall w, quiet p evs -> spaced p w evs.
Proof.
  induction evs as [|e evs IH]; intros w Q; cbn; auto. assert (Q' : quiet p evs) by (intros q m H; apply (Q q m); cbn; auto).
  destruct e as [q m| | |]; auto. destruct (String.eqb_spec q p) as [->|]; auto. exfalso. eapply Q; cbn; eauto.
Qed.
Lemma quiet_waits p evs : forall w, quiet p evs -> waits p w evs = false \/ waits p w evs = w.
Proof.
  unfold waits. induction evs as [|e evs IH]; intros w Q; cbn; auto.
  assert (Q' : quiet p evs) by (intros q m H; apply (Q q m); cbn; auto).
  destruct e as [q m| | |]; auto.
  - destruct (String.eqb_spec q p) as [->|]; [exfalso; eapply Q; cbn; eauto|]. apply IH; auto.
  - destruct (IH false Q') as [E|E]; left; exact E.
Qed.

Lemma calls_In id e l : In e (calls id l) -> exists out, In (LCall id e out) l.
Proof.
  unfold calls. rewrite in_flat_map. intros (x & Hx & H). destruct x as [q m|i e' out|i q m]; try destruct H.
  destruct (String.eqb_spec id i) as [<-|]; [|destruct H]. destruct H as [<-|[]]. eauto.
Qed.

Section OnePort.
Variables (id p a q : string).
Hypothesis Src : forall a' q', In (id, p) (wires h a' q') -> (a', q') = (a, q).
Hypothesis Nd : NoDup (wires h a q).

Lemma pair_dec (x y : string * string) : {x = y} + {x <> y}.
Proof. destruct x as [x1 x2], y as [y1 y2]. destruct (string_dec x1 y1), (string_dec x2 y2); [left|right|right|right]; congruence. Qed.

Lemma quiet_below l : below (rank a) l -> caused [] l -> quiet p (calls id l).
Proof.
  intros B C x m Hm ->. apply calls_In in Hm as (out & Hm).
  apply in_split in Hm as (l1 & l2 & ->). apply caused_split in C. cbn in C. destruct C as (a' & q' & C1 & C2).
  apply Src in C2. injection C2 as -> ->. assert (In (LEmit a q m) (l1 ++ LCall id (EData p m) out :: l2)) by (apply in_or_app; auto).
  specialize (B _ H). cbn in B. lia.
Qed.

Lemma delivered_quiet m cs : ~ In (id, p) cs -> quiet p (calls id (delivered h m cs)).
Proof.
  intros H x m' Hm ->. apply calls_In in Hm as (out & Hm). apply delivered_In in Hm as (i & p' & Hi & [[E _]|[E _]]); [|discriminate].
  injection E as <- <- _. contradiction.
Qed.
Lemma delivered_one m cs : NoDup cs -> spaced p false (calls id (delivered h m cs)).
Proof.
  induction 1 as [|[i p'] cs N ND IH]; [exact I|]. unfold delivered. cbn [flat_map]. fold (delivered h m cs). rewrite calls_app, spaced_app.
  destruct (string_dec i id) as [->|Ni].
  - destruct (string_dec p' p) as [->|Np].
    + split; [|now apply quiet_spaced, delivered_quiet].
      destruct (port_class h (id, p)) as [[|]|]; cbn; auto; rewrite ?String.eqb_refl; cbn; rewrite ?String.eqb_refl; auto.
    + assert (X : forall w, spaced p w (calls id (match port_class h (id, p') with
         | Some false => [LCall (fst (id, p')) (EData (snd (id, p')) m) []] | Some true => [LCall (fst (id, p')) (ECtrl (snd (id, p')) m) []] | None => [] end))
         /\ waits p w (calls id (match port_class h (id, p') with
         | Some false => [LCall (fst (id, p')) (EData (snd (id, p')) m) []] | Some true => [LCall (fst (id, p')) (ECtrl (snd (id, p')) m) []] | None => [] end)) = w).
      { intros w. destruct (port_class h (id, p')) as [[|]|]; cbn; rewrite ?String.eqb_refl; cbn; auto.
        destruct (String.eqb_spec p' p); [contradiction|]. auto. }
      destruct (X false) as [X1 X2]. rewrite X2. auto.
  - replace (calls id _) with (@nil ev); [split; [exact I|exact IH]|].
    destruct (port_class h (i, p')) as [[|]|]; cbn; auto; destruct (String.eqb_spec id i) as [E|]; try reflexivity; exfalso; apply Ni; now rewrite E.
Qed.

Lemma tree_spaced_all :
  (forall ctl i l, tree h ctl i l -> spaced p false (calls id l) /\ waits p false (calls id l) = false /\
     (ctl = false -> i = id -> waits p true (calls id l) = false)) /\
  (forall i ms l, emissions h i ms l -> spaced p false (calls id l) /\ waits p false (calls id l) = false) /\
  (forall cs l, trees h cs l -> spaced p false (calls id l) /\ waits p false (calls id l) = false /\
     (In (false, id) cs -> waits p true (calls id l) = false)).
Proof.
  apply tree_all.
  - intros ctl i out l _ (A & B). cbn [calls flat_map]. fold (calls id l). destruct (String.eqb_spec id i) as [<-|N].
    + destruct ctl; cbn; split; auto; split; auto. discriminate.
    + cbn. split; auto. split; auto. intros _ E. congruence.
  - intros i. cbn. auto.
  - intros i port m ms x l Tx (A1 & A2 & A3) _ (B1 & B2).
    assert (Ec : calls id ((LEmit i port m :: delivered h m (wires h i port)) ++ x ++ l) =
                 calls id (delivered h m (wires h i port)) ++ calls id x ++ calls id l).
    { rewrite !calls_app. reflexivity. }
    rewrite Ec. clear Ec. set (d := calls id (delivered h m (wires h i port))).
    destruct (in_dec pair_dec (id, p) (wires h i port)) as [Hin|Hin].
    + pose proof (Src _ _ Hin) as E. injection E as -> ->.
      assert (Bx : below (rank a) x) by (apply (proj2 (proj2 tree_below_all) _ _ Tx); intros b j; apply executed_rank).
      assert (Qx : quiet p (calls id x)) by (apply quiet_below; auto; apply (proj2 (proj2 tree_caused_all) _ _ Tx)).
      assert (Sd : spaced p false d) by (apply delivered_one; auto).
      assert (Wx : waits p (waits p false d) (calls id x) = false).
      { destruct (waits p false d) eqn:Wd; auto. apply A3. unfold d in Wd.
        destruct (port_class h (id, p)) as [[|]|] eqn:Pc.
        - exfalso. assert (Q : quiet p (calls id (delivered h m (wires h a q)))).
          { intros z m' Hm ->. apply calls_In in Hm as (out & Hm). apply delivered_In in Hm as (i & p' & Hi & [[E E']|[E _]]); [|discriminate].
            injection E as <- <- _. congruence. }
          destruct (quiet_waits p _ false Q); congruence.
        - eapply In_executed; eauto.
        - exfalso. assert (Q : quiet p (calls id (delivered h m (wires h a q)))).
          { intros z m' Hm ->. apply calls_In in Hm as (out & Hm). apply delivered_In in Hm as (i & p' & Hi & [[E E']|[E _]]); [|discriminate].
            injection E as <- <- _. congruence. }
          destruct (quiet_waits p _ false Q); congruence. }
      rewrite !spaced_app, !waits_app, Wx. repeat split; auto. now apply quiet_spaced.
    + assert (Qd : quiet p d) by now apply delivered_quiet.
      assert (Wd : waits p false d = false) by (destruct (quiet_waits p d false Qd); auto).
      rewrite !spaced_app, !waits_app, Wd, A2. repeat split; auto. now apply quiet_spaced.
  - cbn. split; auto. split; auto. intros [].
  - intros ctl i cs l1 l2 _ (A1 & A2 & A3) _ (B1 & B2 & B3). rewrite calls_app, spaced_app, !waits_app, A2.
    split; auto. split; auto. intros [[= -> ->]|H].
    + rewrite (A3 eq_refl eq_refl). exact B2.
    + destruct (waits p true (calls id l1)); auto.
Qed.
End OnePort.

(** F4: an operator with one connection *)
Section OneFeed.
Variables (id p a q : string).
Hypothesis Only : forall a' q' p', In (id, p') (wires h a' q') -> port_class h (id, p') <> None -> (a', q', p') = (a, q, p).
Hypothesis Cls : port_class h (id, p) = Some false.
Hypothesis Nd : NoDup (wires h a q).

Definition times_executed (cs : list (bool * string)) : nat := length (filter (fun c => String.eqb id (snd c)) cs).

Lemma executed_other a' q' : (a', q') <> (a, q) -> forall b, ~ In (b, id) (executed h (wires h a' q')).
Proof.
  intros N b H. apply executed_In in H as (p' & H & C). specialize (Only a' q' p' H ltac:(congruence)). congruence.
Qed.
Lemma delivered_other a' q' m : (a', q') <> (a, q) -> calls id (delivered h m (wires h a' q')) = [].
Proof.
  intros N. destruct (calls id _) as [|e r] eqn:E; auto. exfalso.
  assert (X : In e (calls id (delivered h m (wires h a' q')))) by (rewrite E; cbn; auto).
  apply calls_In in X as (out & X). apply delivered_In in X as (i & p' & Hi & [[X C]|[X C]]); injection X as <- _ _;
    specialize (Only a' q' p' Hi ltac:(congruence)); congruence.
Qed.

Lemma once_list m cs : NoDup cs -> In (id, p) cs -> (forall p', In (id, p') cs -> port_class h (id, p') <> None -> p' = p) ->
  calls id (delivered h m cs) = [EData p m] /\ times_executed (executed h cs) = 1%nat /\ (forall b, In (b, id) (executed h cs) -> b = false).
Proof.
  intros ND Hin U.
  assert (Z : forall cs, ~ In (id, p) cs -> (forall p', In (id, p') cs -> port_class h (id, p') <> None -> p' = p) ->
    calls id (delivered h m cs) = [] /\ times_executed (executed h cs) = 0%nat /\ (forall b, ~ In (b, id) (executed h cs))).
  { clear - Cls. intros cs H U. assert (N : forall b, ~ In (b, id) (executed h cs)).
    { intros b Hb. apply executed_In in Hb as (p' & Hp & C). specialize (U p' Hp ltac:(congruence)). subst. contradiction. }
    split; [|split; auto].
    - destruct (calls id _) as [|e r] eqn:E; auto. exfalso.
      assert (X : In e (calls id (delivered h m cs))) by (rewrite E; cbn; auto).
      apply calls_In in X as (out & X). apply delivered_In in X as (i & p' & Hi & [[X C]|[X C]]); injection X as <- _ _;
        specialize (U p' Hi ltac:(congruence)); subst; contradiction.
    - unfold times_executed. destruct (filter _ _) as [|[b i] r] eqn:E; auto. exfalso.
      assert (X : In (b, i) (filter (fun c => String.eqb id (snd c)) (executed h cs))) by (rewrite E; cbn; auto).
      apply filter_In in X as [X Y]. apply String.eqb_eq in Y. cbn in Y. subst. eapply N; eauto. }
  induction ND as [|[i p'] cs N ND IH]; [destruct Hin|].
  assert (U' : forall p', In (id, p') cs -> port_class h (id, p') <> None -> p' = p) by (intros; apply U; cbn; auto).
  unfold delivered, executed. cbn [flat_map]. fold (delivered h m cs) (executed h cs). rewrite calls_app.
  destruct (string_dec i id) as [->|Ni].
  - destruct (string_dec p' p) as [->|Np].
    + destruct (Z cs N U') as (Z1 & Z2 & Z3). rewrite Cls. cbn. rewrite !String.eqb_refl, Z1. cbn.
      split; [reflexivity|]. unfold times_executed in *. cbn. rewrite ?String.eqb_refl. cbn. split; [congruence|].
      intros b [[= <-]|H]; auto. exfalso. eapply Z3; eauto.
    + destruct (port_class h (id, p')) eqn:C; [exfalso; apply Np, U; [cbn; auto|congruence]|].
      destruct Hin as [[= ->]|Hin]; [contradiction|]. now apply IH.
  - destruct Hin as [[= -> ->]|Hin]; [contradiction|]. destruct (IH Hin U') as (I1 & I2 & I3). rewrite I1.
    split; [|split].
    + destruct (port_class h (i, p')) as [[|]|]; cbn; auto; destruct (String.eqb_spec id i) as [E|]; try reflexivity; exfalso; apply Ni; now rewrite E.
    + unfold times_executed in *. rewrite filter_app, app_length, I2. destruct (port_class h (i, p')) as [b|]; cbn; auto.
      destruct (String.eqb_spec id i); cbn; auto. congruence.
    + intros b H. apply in_app_or in H as [H|H]; auto. destruct (port_class h (i, p')); [|destruct H]. destruct H as [[= <- <-]|[]]. contradiction.
Qed.

Lemma emitted_app i r l1 l2 : emitted i r (l1 ++ l2) = emitted i r l1 ++ emitted i r l2.
Proof. apply flat_map_app. Qed.
Lemma emitted_delivered i r m cs : emitted i r (delivered h m cs) = [].
Proof.
  unfold delivered, emitted. induction cs as [|c cs IH]; auto. cbn [flat_map]. rewrite flat_map_app, IH, app_nil_r.
  destruct (port_class h c) as [[|]|]; reflexivity.
Qed.
Lemma feed_app ms1 ms2 : feed p (ms1 ++ ms2) = feed p ms1 ++ feed p ms2.
Proof. apply flat_map_app. Qed.

Lemma tree_feed_all :
  (In (id, p) (wires h a q)) ->
  (forall ctl i l, tree h ctl i l -> if String.eqb id i then ctl = false -> calls id l = [EExec] /\ emitted a q l = []
                                     else calls id l = feed p (emitted a q l)) /\
  (forall i ms l, emissions h i ms l -> calls id l = feed p (emitted a q l)) /\
  (forall cs l, trees h cs l -> 
     ((forall b, ~ In (b, id) cs) -> calls id l = feed p (emitted a q l)) /\
     ((forall b i, In (b, i) cs -> (rank i < rank a)%nat) -> (forall b, In (b, id) cs -> b = false) ->
        calls id l = repeat EExec (times_executed cs) /\ emitted a q l = [])).
Proof.
  intros Hin. assert (Ra : (rank id < rank a)%nat) by (apply Rk; exists q, p; exact Hin).
  apply tree_all.
  - intros ctl i out l El IH. cbn [calls flat_map emitted]. fold (calls id l) (emitted a q l). destruct (String.eqb_spec id i) as [<-|N].
    + intros ->. destruct (proj1 (proj2 tree_below_all) _ _ _ El) as [B _].
      assert (Ee : emitted a q l = []) by (apply (below_emitted _ _ _ _ B); lia). rewrite Ee in IH. rewrite IH. auto.
    + exact IH.
  - reflexivity.
  - intros i port m ms x l Tx (A1 & A2) _ IH.
    assert (Ec : calls id ((LEmit i port m :: delivered h m (wires h i port)) ++ x ++ l) =
                 calls id (delivered h m (wires h i port)) ++ calls id x ++ calls id l).
    { rewrite !calls_app. reflexivity. }
    assert (Ee : emitted a q ((LEmit i port m :: delivered h m (wires h i port)) ++ x ++ l) =
                 (if String.eqb a i && String.eqb q port then [m] else []) ++ emitted a q x ++ emitted a q l).
    { change (LEmit i port m :: delivered h m (wires h i port)) with ([LEmit i port m] ++ delivered h m (wires h i port)).
      rewrite !emitted_app, emitted_delivered, app_nil_r. cbn. now rewrite app_nil_r. }
    rewrite Ec, Ee. clear Ec Ee. rewrite !feed_app, <- IH.
    destruct (String.eqb_spec a i) as [<-|Na]; cbn [andb]; [destruct (String.eqb_spec q port) as [<-|Nq]|].
    + destruct (once_list m (wires h a q) Nd Hin) as (D1 & D2 & D3).
      { intros p' Hp C. specialize (Only a q p' Hp C). congruence. }
      destruct A2 as (B1 & B2); [intros b i; apply executed_rank|exact D3|]. rewrite D1, B1, B2, D2. reflexivity.
    + assert (Ne : (a, port) <> (a, q)) by congruence. rewrite delivered_other by exact Ne. cbn. f_equal. apply A1. now apply executed_other.
    + assert (Ne : (i, port) <> (a, q)) by congruence. rewrite delivered_other by exact Ne. cbn. f_equal. apply A1. now apply executed_other.
  - split; intros; cbn; auto.
  - intros ctl i cs l1 l2 T1 A _ (B1 & B2). rewrite calls_app, emitted_app, feed_app. split.
    + intros N. destruct (String.eqb_spec id i) as [<-|Ni]; [exfalso; apply (N ctl); cbn; auto|].
      rewrite A, B1; auto. intros b H. apply (N b). cbn; auto.
    + intros R F. destruct B2 as (B2 & B3); [intros b j Hj; apply (R b j); cbn; auto|intros b Hb; apply F; cbn; auto|].
      unfold times_executed in *. cbn [filter snd]. destruct (String.eqb_spec id i) as [<-|Ni].
      * destruct (A (F ctl (or_introl eq_refl))) as [-> ->]. rewrite B2, B3. auto.
      * assert (Be : emitted a q l1 = []).
        { apply (below_emitted (rank a)); auto. eapply below_le; [|apply (proj1 tree_below_all _ _ _ T1)]. apply (R ctl i). cbn; auto. }
        rewrite A, Be, B2, B3. auto.
Qed.

End OneFeed.

End Facts.

End Rounds.
