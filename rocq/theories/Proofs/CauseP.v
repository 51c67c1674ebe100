(** * A program fails only where one of its operators fails by itself *)

From Coq Require Import String ZArith Bool List Lia.
From Verif Require Import Base.StrMap Base.Num Model.Core Model.Ops Model.Graph Model.Run.
From Verif Require Import Spec.Streams Spec.Shape Spec.Preserving Spec.Multi Spec.Join Spec.Cause Spec.Build Spec.Synchronous Spec.Log.
From Verif Require Import Proofs.Lists Proofs.ShapeP Proofs.Merge Proofs.LogP Proofs.LogRun Proofs.LogBal Proofs.LogProg Proofs.Increasing Proofs.Rounds Proofs.Sync Proofs.FailP.
Import ListNotations.
Open Scope string_scope.
Open Scope list_scope.
Open Scope Z_scope.
Open Scope rtbot_scope.

Section CauseP.
Context {NO : NumOps}.

Lemma initial_refl {A} (x : list A) : initial x x.
Proof. exists []. now rewrite app_nil_r. Qed.
Lemma initial_app {A} (x y z : list A) : initial x y -> initial x (y ++ z).
Proof. intros (w & ->). exists (w ++ z). now rewrite app_assoc. Qed.
Lemma initial_trans {A} (x y z : list A) : initial x y -> initial y z -> initial x z.
Proof. intros (a & ->) (b & ->). exists (a ++ b). now rewrite app_assoc. Qed.

(** ** Trees are balanced *)
Section Bal.
Variable h : heap.
Variable rank : string -> nat.
Hypothesis Rk : ranked rank h.

Definition select (ms : list (string * msg)) (p : string) : list msg :=
  flat_map (fun x => one_at (fst x) [snd x] p) ms.

Lemma select_batch out p : select (batch_messages out) p = all_at out p.
Proof.
  unfold select, batch_messages, all_at. induction out as [|[port ms] out IH]; [reflexivity|].
  cbn [flat_map fst snd]. rewrite flat_map_app, IH. f_equal. unfold one_at.
  induction ms as [|m ms IHm]; cbn; [now destruct (String.eqb p port)|]. rewrite IHm. now destruct (String.eqb p port).
Qed.

Lemma below_returned r l id : below rank r l -> (r <= rank id)%nat -> returned id l = [].
Proof.
  intros B L. unfold returned. induction l as [|x l IH]; auto. cbn. rewrite IH by (intros y Hy; apply B; cbn; auto).
  specialize (B x (or_introl eq_refl)). destruct x as [q m|i e out|i q m]; auto.
  destruct (String.eqb_spec id i) as [<-|]; auto. lia.
Qed.

Lemma delivered_balanced m cs : balanced (delivered h m cs).
Proof.
  induction cs as [|c cs IH]; [intros i p; reflexivity|]. unfold delivered. cbn [flat_map]. fold (delivered h m cs).
  apply balanced_app; auto. destruct (port_class h c) as [[|]|]; intros i p; cbn; auto; destruct (String.eqb i (fst c)); reflexivity.
Qed.

Lemma tree_balanced_all :
  (forall ctl id l, tree h ctl id l -> kept l -> balanced l) /\
  (forall id ms l, emissions h id ms l -> kept l -> emits_out id (select ms) l) /\
  (forall cs l, trees h cs l -> kept l -> balanced l).
Proof.
  assert (Kl : forall l1 l2, kept (l1 ++ l2) -> kept l1) by (intros l1 l2 K i e out H; apply (K i e); apply in_or_app; auto).
  assert (Kr : forall l1 l2, kept (l1 ++ l2) -> kept l2) by (intros l1 l2 K i e out H; apply (K i e); apply in_or_app; auto).
  apply tree_all.
  - intros ctl id out l Em IH K. destruct (IH (Kr [_] _ K)) as (A & B & C).
    assert (Wo : swf out) by (apply (K id (if ctl then EExecC else EExec)); cbn; auto).
    intros i port. cbn [emitted returned flat_map]. fold (emitted i port l) (returned i l). rewrite on_port_app.
    destruct (String.eqb_spec i id) as [->|Ni].
    + rewrite B, C, select_batch, all_at_swf by auto. cbn. rewrite !app_nil_r. unfold odefault, opmsg, portmsg in *. now destruct (sfind port out).
    + cbn. now apply A.
  - intros id _. split; [|split]; reflexivity.
  - intros id port m ms x l Tx IHx _ IH K.
    assert (Bx : below rank (rank id) x) by (apply (proj2 (proj2 (tree_below_all h rank Rk)) _ _ Tx); intros b i; apply (executed_rank h rank Rk)).
    assert (Bd : below rank (rank id) (delivered h m (wires h id port))).
    { intros y Hy. apply delivered_In in Hy as (i & p & Hi & [[-> _]|[-> _]]); apply Rk; exists port, p; exact Hi. }
    assert (Low : forall y, below rank (rank id) y -> balanced y -> emits_out id (fun _ => []) y).
    { intros y By Ba. split; [intros; apply Ba|]. split; [intros p; eapply below_emitted; eauto|eapply below_returned; eauto]. }
    apply (emits_out_app id (one_at port [m]) (select ms)); [| |intros p; reflexivity].
    + change (LEmit id port m :: delivered h m (wires h id port)) with ([LEmit id port m] ++ delivered h m (wires h id port)).
      apply (emits_out_app id (one_at port [m]) (fun _ => [])); [| |intros p; apply app_nil_r].
      * split; [|split; [|reflexivity]].
        -- intros i p Ni. cbn. destruct (String.eqb_spec i id); [contradiction|reflexivity].
        -- intros p. cbn. rewrite String.eqb_refl. unfold one_at. cbn. destruct (String.eqb p port); reflexivity.
      * apply Low; [exact Bd|apply delivered_balanced].
    + apply (emits_out_app id (fun _ => []) (select ms)); [| |intros p; reflexivity].
      * apply Low; [exact Bx|]. apply IHx. eapply Kl, Kr, K.
      * apply IH. eapply Kr, Kr, K.
  - intros _ i p. reflexivity.
  - intros ctl id cs l1 l2 _ IH1 _ IH2 K. apply balanced_app; eauto.
Qed.

Lemma rounds_balanced ep ms l : rounds h ep ms l -> kept l -> balanced l.
Proof.
  induction 1 as [|ms l port m t R IH T]; intros K; [intros i p; reflexivity|].
  apply balanced_app; [apply IH; intros i e out H; apply (K i e); apply in_or_app; auto|]. apply balanced_app.
  - intros i p. cbn. destruct (String.eqb i ep); reflexivity.
  - apply (proj1 tree_balanced_all _ _ _ T). intros i e out H. apply (K i e). apply in_or_app. right. apply in_or_app. auto.
Qed.
End Bal.

(** ** What arrives at an input *)
Section Hist.
Variable h : heap.
Variables (id p a q : string).
Hypothesis Src : forall a' q', In (id, p) (wires h a' q') -> (a', q') = (a, q).
Hypothesis Nd : NoDup (wires h a q).
Hypothesis Hin : In (id, p) (wires h a q).
Hypothesis Cls : port_class h (id, p) = Some false.

Lemma hist_app x y : hist p (x ++ y) = hist p x ++ hist p y.
Proof. unfold hist, project. rewrite filter_app. apply received_app. Qed.

Lemma hist_other m cs : ~ In (id, p) cs -> hist p (calls id (delivered h m cs)) = [].
Proof.
  clear - Cls. induction cs as [|[i p'] cs IH]; intros N; [reflexivity|]. unfold delivered. cbn [flat_map]. fold (delivered h m cs).
  rewrite calls_app, hist_app, IH by (intros X; apply N; cbn; auto). rewrite app_nil_r.
  destruct (string_dec i id) as [->|Ni].
  - assert (Np : p' <> p) by (intros ->; apply N; cbn; auto).
    destruct (port_class h (id, p')) as [[|]|]; cbn; rewrite ?String.eqb_refl; cbn; auto.
    unfold hist, project. cbn. destruct (String.eqb_spec p' p); [congruence|].
    destruct (String.eqb_spec p p'); [congruence|]. reflexivity.
  - destruct (port_class h (i, p')) as [[|]|]; cbn; auto; destruct (String.eqb_spec id i); try reflexivity; congruence.
Qed.
Lemma delivered_hist m cs : NoDup cs -> hist p (calls id (delivered h m cs)) = if in_dec pair_dec (id, p) cs then [m] else [].
Proof.
  assert (No : forall cs, ~ In (id, p) cs -> hist p (calls id (delivered h m cs)) = []) by (intros; now apply hist_other).
  induction 1 as [|[i p'] cs N ND IH]; [reflexivity|].
  destruct (in_dec pair_dec (id, p) ((i, p') :: cs)) as [I|I]; [|now apply No].
  unfold delivered. cbn [flat_map]. fold (delivered h m cs). rewrite calls_app, hist_app.
  destruct (pair_dec (i, p') (id, p)) as [[= -> ->]|D].
  - rewrite No by auto. rewrite app_nil_r, Cls. cbn. rewrite String.eqb_refl. unfold hist, project. cbn. rewrite String.eqb_refl. reflexivity.
  - destruct I as [I|I]; [contradiction|]. rewrite IH. destruct (in_dec pair_dec (id, p) cs); [|contradiction].
    replace (hist p (calls id _)) with (@nil msg); [reflexivity|]. symmetry.
    specialize (No [(i, p')]). unfold delivered in No. cbn [flat_map] in No. rewrite app_nil_r in No. apply No. intros [X|[]]. contradiction.
Qed.

Lemma tree_hist_all :
  (forall ctl i l, tree h ctl i l -> hist p (calls id l) = emitted a q l) /\
  (forall i ms l, emissions h i ms l -> hist p (calls id l) = emitted a q l) /\
  (forall cs l, trees h cs l -> hist p (calls id l) = emitted a q l).
Proof.
  apply tree_all.
  - intros ctl i out l _ IH. change (LCall i (if ctl then EExecC else EExec) out :: l) with ([LCall i (if ctl then EExecC else EExec) out] ++ l).
    rewrite calls_app, hist_app, emitted_app, IH. f_equal. cbn. destruct (String.eqb id i); [|reflexivity]. destruct ctl; reflexivity.
  - reflexivity.
  - intros i port m ms x l _ IHx _ IH.
    change (LEmit i port m :: delivered h m (wires h i port)) with ([LEmit i port m] ++ delivered h m (wires h i port)).
    rewrite !calls_app, !hist_app, !emitted_app, IHx, IH, emitted_delivered, app_nil_r. f_equal. cbn [calls flat_map app].
    change (hist p []) with (@nil msg). cbn [app emitted flat_map].
    destruct (String.eqb_spec a i) as [<-|Na]; cbn [andb]; [destruct (String.eqb_spec q port) as [<-|Nq]|].
    + rewrite delivered_hist by exact Nd. destruct (in_dec pair_dec (id, p) (wires h a q)); [reflexivity|contradiction].
    + apply hist_other. intros X. apply Src in X. congruence.
    + apply hist_other. intros X. apply Src in X. congruence.
  - reflexivity.
  - intros ctl i cs l1 l2 _ IH1 _ IH2. rewrite calls_app, hist_app, emitted_app. congruence.
Qed.

Lemma rounds_hist ep ms l : rounds h ep ms l -> id <> ep -> hist p (calls id l) = emitted a q l.
Proof.
  intros R Ne. induction R as [|ms l port m t R IH T]; [reflexivity|].
  rewrite !calls_app, !hist_app, !emitted_app, IH, (proj1 tree_hist_all _ _ _ T). f_equal.
  cbn. destruct (String.eqb_spec id ep); [congruence|reflexivity].
Qed.
End Hist.

(** ** Events are for existing inputs *)
Section Inputs.
Variable h : heap.
Variables (id : string) (o : op).
Hypothesis Ho : sfind id h = Some o.

Lemma tree_inputs_all :
  (forall ctl i l, tree h ctl i l -> (i = id -> ctl = true -> exists port, is_control_input o port = true) -> Forall (for_inputs o) (calls id l)) /\
  (forall i ms l, emissions h i ms l -> Forall (for_inputs o) (calls id l)) /\
  (forall cs l, trees h cs l -> (In (true, id) cs -> exists port, is_control_input o port = true) -> Forall (for_inputs o) (calls id l)).
Proof.
  assert (Cls : forall p b, port_class h (id, p) = Some b -> if b : bool then is_control_input o p = true else is_data_input o p = true).
  { intros p b. unfold port_class. cbn [fst snd]. rewrite Ho. destruct (is_data_input o p) eqn:D; [intros [= <-]; reflexivity|].
    destruct (is_control_input o p) eqn:C; [intros [= <-]; reflexivity|discriminate]. }
  apply tree_all.
  - intros ctl i out l _ IH Hc. change (LCall i (if ctl then EExecC else EExec) out :: l) with ([LCall i (if ctl then EExecC else EExec) out] ++ l).
    rewrite calls_app. apply Forall_app. split; [|exact IH]. cbn. destruct (String.eqb_spec id i) as [->|]; repeat constructor.
    destruct ctl; cbn; auto.
  - intros. constructor.
  - intros i port m ms x l _ IHx _ IHl. rewrite !calls_app. apply Forall_app. split; [|apply Forall_app; split; auto].
    + change (calls id (LEmit i port m :: delivered h m (wires h i port))) with (calls id (delivered h m (wires h i port))).
      apply Forall_forall. intros e He. apply calls_In in He as (out & He).
      apply delivered_In in He as (j & p & _ & [[E C]|[E C]]); injection E as <- -> _; exact (Cls _ _ C).
    + apply IHx. intros Hb. apply executed_In in Hb as (p & _ & C). exists p. exact (Cls _ _ C).
  - intros _. constructor.
  - intros ctl i cs l1 l2 _ IH1 _ IH2 Hc. rewrite calls_app. apply Forall_app. split; [apply IH1|apply IH2].
    + intros -> ->. apply Hc. cbn; auto.
    + intros X. apply Hc. cbn; auto.
Qed.

Lemma rounds_inputs ep ms l : rounds h ep ms l -> id <> ep -> Forall (for_inputs o) (calls id l).
Proof.
  intros R Ne. induction R as [|ms l port m t R IH T]; [constructor|].
  rewrite !calls_app. apply Forall_app. split; auto. apply Forall_app. split.
  - cbn. destruct (String.eqb_spec id ep); [congruence|constructor].
  - apply (proj1 tree_inputs_all _ _ _ T). discriminate.
Qed.
End Inputs.

(** ** From the log of a failing call to its cause *)

Lemma on_port_hushed q (outs : list opmsg) : (forall out, In out outs -> out = []) -> on_port q outs = [].
Proof.
  induction outs as [|x outs IH]; intros H; [reflexivity|]. change (x :: outs) with ([x] ++ outs). rewrite on_port_app, IH by (intros; apply H; cbn; auto).
  rewrite (H x) by (cbn; auto). reflexivity.
Qed.
Lemma returned_In id out l : In out (returned id l) -> exists e, In (LCall id e out) l.
Proof.
  unfold returned. rewrite in_flat_map. intros (x & Hx & H). destruct x as [q m|i e' out'|i q m]; try destruct H.
  destruct (String.eqb_spec id i) as [<-|]; [|destruct H]. destruct H as [<-|[]]. eauto.
Qed.

Section Final.
Variable h : heap.
Variable rank : string -> nat.
Variable ep : string.
Hypothesis Rk : ranked rank h.
Hypothesis Of : one_feed h.

Lemma given_of_log ms1 ms L R : rounds h ep ms1 (L ++ R) -> balanced (L ++ R) -> hushed R -> initial ms1 ms ->
  forall id evs, initial evs (calls id (L ++ R)) -> given h ep ms (fun a => returned a L) id evs.
Proof.
  intros Ro Ba Hu Im id evs Ie.
  assert (Em : forall a q, emitted a q (L ++ R) = on_port q (returned a L)).
  { intros a q. rewrite Ba, returned_app, on_port_app, (on_port_hushed q (returned a R)), app_nil_r; auto.
    intros out H. apply returned_In in H as (e & H). eapply Hu; eauto. }
  assert (Cl : forall port, listens h id port -> port_class h (id, port) = Some false).
  { intros port (o & Ho & D). unfold port_class. cbn [fst snd]. now rewrite Ho, D. }
  split; [|intros Ne; split; [|split]].
  - intros ->. rewrite (rounds_entry h rank Rk ep ms1 _ Ro) in Ie. eapply initial_trans; [exact Ie|].
    destruct Im as (z & ->). rewrite flat_map_app. eexists; reflexivity.
  - intros o Ho. pose proof (rounds_inputs h id o Ho ep ms1 _ Ro Ne) as F. destruct Ie as (z & Ez). rewrite Ez in F.
    now apply Forall_app in F as [F _].
  - intros port a q Fb Li. rewrite <- Em, <- (rounds_hist h id port a q) with (ep := ep) (ms := ms1); auto.
    + destruct Ie as (z & ->). rewrite hist_app. eexists; reflexivity.
    + intros a' q' X. now apply (proj1 Of id port (a', q') (a, q)).
    + apply Of.
  - intros port a q (Fb & Li & On). rewrite <- Em, <- (rounds_single h rank Rk ep id port a q ms1); auto.
    + intros a' q' p' X C. unfold port_class in C. cbn [fst snd] in C. destruct (sfind id h) as [o|] eqn:Ho; [|congruence].
      assert (Ep : p' = port).
      { apply (On p' (a', q') o X eq_refl). destruct (is_data_input o p'); [reflexivity|]. destruct (is_control_input o p'); [reflexivity|congruence]. }
      subst p'. pose proof (proj1 Of id port (a, q) (a', q') Fb X) as E. congruence.
    + apply Of.
Qed.
End Final.

Lemma receive_all_fail n batches : forall p r p' f, wf_heap (p_ops p) -> (exists o, sfind (p_entry p) (p_ops p) = Some o) ->
  receive_all n p batches = (r, p') -> ending r = f -> f <> Ok tt ->
  exists rl h', lsend_all n (p_entry p) (all_messages batches) (p_ops p) = (rl, h') /\ ending rl = f.
Proof.
  induction batches as [|b batches IH]; intros p r p' f W Th E F N; cbn [receive_all] in E.
  { apply pair_equal_spec in E as [<- _]. cbn in F. congruence. }
  unfold all_messages. cbn [flat_map]. fold (all_messages batches). rewrite lsend_all_app.
  assert (Sh : shas (p_entry p) (p_ops p) = true) by (destruct Th as (o & Ho); unfold shas; now rewrite Ho).
  assert (Ed : receive_debug n p b = let '(x, h) := rmap collate (lsend_all n (p_entry p) (batch_messages b) (p_ops p)) in (x, set_ops p h)).
  { unfold receive_debug. rewrite Sh. pose proof (lsend_batch_spec n (p_entry p) b [] (p_ops p)) as X.
    change (collate []) with (@nil (string * opmsg)) in X. now rewrite X. }
  rewrite Ed in E. clear Ed.
  destruct (lsend_all n (p_entry p) (batch_messages b) (p_ops p)) as [rl h1] eqn:El.
  destruct (bind_fail _ _ _ _ _ E F N) as [(r0 & E0 & F0)|(a & p1 & E1 & E2)].
  - exists (match rl with Ok l => UB | Throw e => Throw e | UB => UB | Diverges => Diverges | OutOfFuel => OutOfFuel end), h1.
    destruct rl; cbn in *; apply pair_equal_spec in E0 as [<- _]; cbn in F0; auto. congruence.
  - destruct rl as [l| | | |]; cbn in E1; try discriminate E1. apply pair_equal_spec in E1 as [E1 <-]. cbn [bind sbind].
    destruct (bind_fail _ _ _ _ _ E2 F N) as [(r0 & E0 & F0)|(rs & p2 & E3 & E4)];
      [|apply pair_equal_spec in E4 as [<- _]; cbn in F; congruence].
    pose proof (lsend_all_keeps _ _ _ _ _ _ W El) as K.
    destruct (IH (set_ops p h1) r0 p' f) as (rl2 & h2 & E5 & F5); auto.
    + cbn. eapply wf_heap_same; eauto.
    + cbn. destruct Th as (o & Ho). destruct (erase_find (p_ops p) h1 _ o K Ho) as (o1 & H1 & _). eauto.
    + cbn [set_ops p_ops p_entry] in E5. rewrite E5. destruct rl2 as [l2|e2| | |]; cbn in *; try congruence; eexists _, _; (split; [reflexivity|exact F5]).
Qed.

Lemma run_snoc_ok o evs outs o1 e : run o evs = (Ok outs, o1) -> forall r o2, step o1 e = (r, o2) ->
  run o (evs ++ [e]) = (match r with Ok out => Ok (outs ++ [out]) | Throw x => Throw x | UB => UB | Diverges => Diverges | OutOfFuel => OutOfFuel end, o2).
Proof.
  intros R r o2 St. rewrite run_app, R. cbn [run]. rewrite St. destruct r; reflexivity.
Qed.

Theorem program_fails rank n p batches r p' f :
  wf_heap (p_ops p) -> named (p_ops p) -> ranked rank (p_ops p) -> one_feed (p_ops p) ->
  (forall id o, sfind id (p_ops p) = Some o -> is_pipeline o = false) ->
  (forall a q c, In c (wires (p_ops p) a q) -> exists o, sfind (fst c) (p_ops p) = Some o) ->
  (exists o, sfind (p_entry p) (p_ops p) = Some o) ->
  receive_all n p batches = (r, p') -> ending r = f -> f <> Ok tt -> f <> OutOfFuel ->
  exists (did : string -> list ev) (made : string -> list opmsg) (id : string) (o : op) (e : ev),
    (forall a oa, sfind a (p_ops p) = Some oa ->
       given (p_ops p) (p_entry p) (all_messages batches) made a (did a) /\ exists oa', run oa (did a) = (Ok (made a), oa')) /\
    sfind id (p_ops p) = Some o /\
    given (p_ops p) (p_entry p) (all_messages batches) made id (did id ++ [e]) /\ breaks o (did id ++ [e]) f.
Proof.
  intros W Nm Rk Of Si Cl Th E F N Nf.
  destruct (receive_all_fail n batches p r p' f W Th E F N) as (rl & h' & El & Fl).
  destruct (lsend_all_fail (p_ops p) Si Cl n (p_entry p) (all_messages batches) (p_ops p) rl h' f) as (ms1 & ms2 & Em & B); auto.
  { split; [exact W|]. split; [exact Nm|reflexivity]. }
  destruct B as (L & id & e & L' & h1 & o1 & Ro & (_ & Rp) & K & Ho1 & St & Kp & Hu).
  set (R := LCall id e [] :: L') in *.
  assert (HR : hushed R) by (intros i e' out [[= _ _ <-]|H]; [reflexivity|eapply Hu; eauto]).
  assert (Ba : balanced (L ++ R)).
  { eapply rounds_balanced; eauto. apply kept_app; [exact Kp|now apply hushed_kept]. }
  assert (Gv : forall a evs, initial evs (calls a (L ++ R)) -> given (p_ops p) (p_entry p) (all_messages batches) (fun a => returned a L) a evs).
  { eapply given_of_log; eauto. exists ms2. exact Em. }
  destruct (erase_find h1 (p_ops p) id o1 (eq_sym K) Ho1) as (o & Ho & Eo).
  exists (fun a => calls a L), (fun a => returned a L), id, o, e. split; [|split; [exact Ho|split]].
  - intros a oa Ha. split.
    + apply Gv. rewrite calls_app. eexists; reflexivity.
    + destruct (Rp a oa Ha (Si _ _ Ha)) as (oa' & _ & _ & X). eauto.
  - apply Gv. rewrite calls_app. unfold R. cbn [calls flat_map]. rewrite String.eqb_refl. exists (calls id L'). now rewrite <- app_assoc.
  - destruct (Rp id o Ho (Si _ _ Ho)) as (o1' & Ho1' & _ & X). rewrite Ho1 in Ho1'. injection Ho1' as <-.
    destruct St as [St|(out & o2 & port & ms & St & H1 & H2 & H3)].
    + left. split; [|exact N]. destruct (step o1 e) as [rs o2] eqn:Es. rewrite (run_snoc_ok _ _ _ _ _ X _ _ Es). cbn [fst] in *.
      destruct rs; cbn in *; exact St.
    + right. exists (returned id L ++ [out]), out, o2, port, ms. rewrite (run_snoc_ok _ _ _ _ _ X _ _ St). repeat split; auto.
      * apply in_or_app. cbn; auto.
      * rewrite <- erase_outs, Eo, erase_outs. exact H2.
Qed.
End CauseP.
