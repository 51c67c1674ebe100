(** * Properties of Demultiplexer (C26). *)

From Coq Require Import String ZArith QArith Qcanon Bool List Lia Sorted.
From Verif Require Import Base.StrMap Base.Num Base.NumQc Model.Core Model.Ops Model.Make Model.Run.
From Verif Require Import Spec.Streams Spec.Show Spec.Join Spec.Demux.
From Verif Require Import Proofs.Lists Proofs.Ports Proofs.JoinRun Proofs.DemuxP.
Import ListNotations.
Open Scope string_scope.
Open Scope list_scope.
Open Scope Z_scope.

(** For every number of outputs and every interleaving of data (in time order), controls
    and executions, the calls do exactly what the specification says: they route the waiting
    messages in order, each as soon as it is first in line, all instructions for its time
    are there and the operator is executed; an exception is thrown exactly when the first
    message in line has an impossible instruction. *)
Theorem C26_demultiplexer_partial {NO : NumOps} (id : string) (n : nat) (o : op) (evs : list ev) :
  mk_demux id n = Ok o -> demux_calls n evs -> increasing (times (received evs)) ->
  match demux_spec n [] [] evs with
  | Some ds => exists outs o', run o evs = (Ok outs, o') /\ Forall2 (routes n evs) ds outs
  | None => exists x o', run o evs = (Throw x, o')
  end.
Proof.
  intros Ho Hc Inc. destruct (demux_start id n o Ho) as (Hn & Inv).
  pose proof (run_demux n evs [] [] o Hc Inc Inv) as X. destruct (demux_spec n [] [] evs) as [ds|]; auto.
  destruct X as (outs & o' & w & R & F & _). eauto.
Qed.
Print Assumptions C26_demultiplexer_partial.

Theorem C26_exists {NO : NumOps} (id : string) (n : nat) : (1 <= n)%nat <-> exists o, mk_demux id n = Ok o.
Proof.
  split; [apply demux_exists|]. intros (o & Ho). now apply demux_start in Ho.
Qed.

(** ** Consequences *)

(** what the calls after a given one route *)
Lemma demux_spec_sound {NO : NumOps} n evs : forall before waiting ds,
  demux_spec n before waiting evs = Some ds ->
  length ds = length evs /\
  (exists w, waiting ++ received evs = somes ds ++ w) /\
  forall j d, nth_error ds j = Some (Some d) ->
    (exists e, nth_error evs j = Some e /\ is_exec e) /\
    forall k, (1 <= k <= n)%nat -> exists v, says (before ++ firstn j evs) (mtime d) k = Given v.
Proof.
  induction evs as [|e evs IH]; intros before waiting ds H.
  - cbn in H. injection H as <-. split; auto. split; [exists waiting; cbn; now rewrite app_nil_r|]. intros [|j] d; discriminate.
  - assert (Sil : forall w, option_map (cons None) (demux_spec n (before ++ [e]) w evs) = Some ds ->
      w ++ received evs = waiting ++ received (e :: evs) ->
      length ds = length (e :: evs) /\ (exists w, waiting ++ received (e :: evs) = somes ds ++ w) /\
      forall j d, nth_error ds j = Some (Some d) -> (exists e', nth_error (e :: evs) j = Some e' /\ is_exec e') /\
        forall k, (1 <= k <= n)%nat -> exists v, says (before ++ firstn j (e :: evs)) (mtime d) k = Given v).
    { intros w E Ew. destruct (demux_spec n (before ++ [e]) w evs) as [ds'|] eqn:D; [|discriminate]. injection E as <-.
      destruct (IH _ _ _ D) as (L & (w' & Eq) & J). split; [cbn; lia|]. split; [exists w'; cbn [somes]; now rewrite <- Ew|].
      intros [|j] d Hj; [discriminate|]. cbn [nth_error] in Hj. destruct (J j d Hj) as (A & B). split; auto.
      intros k Hk. destruct (B k Hk) as (v & Ev). exists v. rewrite <- Ev. unfold says. cbn [firstn]. now rewrite <- app_assoc. }
    assert (Ro : forall d w, is_exec e -> waiting = d :: w ->
      forallb (fun k => is_given (says before (mtime d) k)) (seq 1 n) = true ->
      option_map (cons (Some d)) (demux_spec n (before ++ [e]) w evs) = Some ds ->
      length ds = length (e :: evs) /\ (exists w, waiting ++ received (e :: evs) = somes ds ++ w) /\
      forall j d, nth_error ds j = Some (Some d) -> (exists e', nth_error (e :: evs) j = Some e' /\ is_exec e') /\
        forall k, (1 <= k <= n)%nat -> exists v, says (before ++ firstn j (e :: evs)) (mtime d) k = Given v).
    { intros d w Ie Ew G E. destruct (demux_spec n (before ++ [e]) w evs) as [ds'|] eqn:D; [|discriminate]. injection E as <-.
      destruct (IH _ _ _ D) as (L & (w' & Eq) & J). split; [cbn; lia|].
      split; [exists w'; cbn [somes]; rewrite Ew; replace (received (e :: evs)) with (received evs) by (destruct Ie as [-> | ->]; auto); cbn; now rewrite Eq|].
      intros [|j] d' Hj.
      - injection Hj as <-. split; [exists e; auto|]. intros k Hk. rewrite forallb_forall in G. specialize (G k).
        cbn [firstn]. rewrite app_nil_r. destruct (says before (mtime d) k) as [|v|].
        + discriminate G. apply in_seq. lia.
        + eauto.
        + discriminate G. apply in_seq. lia.
      - cbn [nth_error] in Hj. destruct (J j d' Hj) as (A & B). split; auto.
        intros k Hk. destruct (B k Hk) as (v & Ev). exists v. rewrite <- Ev. unfold says. cbn [firstn]. now rewrite <- app_assoc. }
    destruct e as [p m|p m| |]; cbn [demux_spec] in H.
    + apply (Sil _ H). cbn [received]. now rewrite <- app_assoc.
    + apply (Sil _ H). reflexivity.
    + destruct waiting as [|d w]; [apply (Sil _ H); reflexivity|].
      destruct (existsb _ _); [discriminate|]. destruct (forallb _ _) eqn:G; [|apply (Sil _ H); reflexivity].
      apply (Ro d w); auto. now left.
    + destruct waiting as [|d w]; [apply (Sil _ H); reflexivity|].
      destruct (existsb _ _); [discriminate|]. destruct (forallb _ _) eqn:G; [|apply (Sil _ H); reflexivity].
      apply (Ro d w); auto. now right.
Qed.

(** Every message is routed at most once, in order, only by an execution, only after all its
    instructions (0 or 1, at its time) have arrived, and exactly to the outputs opened. *)
Theorem C26_routing_partial {NO : NumOps} (id : string) (n : nat) (o o' : op) (evs : list ev) (outs : list opmsg) :
  mk_demux id n = Ok o -> demux_calls n evs -> increasing (times (received evs)) -> run o evs = (Ok outs, o') ->
  exists ds, Forall2 (routes n evs) ds outs /\ (exists waiting, received evs = somes ds ++ waiting) /\
    forall j d, nth_error ds j = Some (Some d) ->
      (exists e, nth_error evs j = Some e /\ (e = EExec \/ e = EExecC)) /\
      forall k, (1 <= k <= n)%nat -> exists v, says (firstn j evs) (mtime d) k = Given v.
Proof.
  intros Ho Hc Inc R. pose proof (C26_demultiplexer_partial id n o evs Ho Hc Inc) as X.
  destruct (demux_spec n [] [] evs) as [ds|] eqn:D; [|destruct X as (x & o2 & R2); congruence].
  destruct X as (outs2 & o2 & R2 & F). assert (outs2 = outs) by congruence. subst outs2.
  destruct (demux_spec_sound n evs [] [] ds D) as (L & (w & Eq) & J). exists ds. split; auto. split; eauto.
Qed.
Print Assumptions C26_routing_partial.

(** the meaning of [Given v]: the control received exactly one message at that time, whose
    value is 1 (open) or 0 (closed) *)
Theorem C26_given {NO : NumOps} (h : list msg) (t : Z) (v : bool) :
  increasing (times h) ->
  (instruct h t = Given v <->
   exists m, In m h /\ mtime m = t /\ (veq (mval m) v1 || veq (mval m) v0 = true) /\ v = veq (mval m) v1).
Proof.
  intros Inc. unfold instruct. split.
  - destruct (find _ h) as [m|] eqn:F; [|discriminate]. apply find_some in F as [F1 F2].
    destruct ((mtime m =? t) && (veq (mval m) v1 || veq (mval m) v0)) eqn:E; [|discriminate]. intros [= <-].
    apply andb_prop in E as [E1 E2]. apply Z.eqb_eq in E1. exists m. auto.
  - intros (m & Hm & Tm & B & ->). replace (find (fun m => t <=? mtime m) h) with (Some m).
    + rewrite B. destruct (Z.eqb_spec (mtime m) t); [reflexivity|contradiction].
    + induction h as [|x h IH]; [destruct Hm|]. cbn. cbn in Inc. inversion Inc as [|? ? I1 I2]; subst. rewrite Forall_forall in I2.
      destruct Hm as [->|Hm]; [now rewrite Z.leb_refl|].
      assert (mtime x < mtime m) by (apply I2, in_map; auto). destruct (Z.leb_spec (mtime m) (mtime x)); [lia|]. auto.
Qed.
Print Assumptions C26_given.

(** [Mismatch]: the control went past [t] without a 0 or 1 at [t] *)
Definition never_mismatched {NO : NumOps} (n : nat) (evs : list ev) : Prop :=
  forall d k, In d (received evs) -> (1 <= k <= n)%nat -> says evs (mtime d) k <> Mismatch.

Lemma demux_spec_no_mismatch {NO : NumOps} n all evs : forall before waiting,
  before ++ evs = all -> never_mismatched n all -> (forall d, In d waiting -> In d (received all)) ->
  exists ds, demux_spec n before waiting evs = Some ds.
Proof.
  induction evs as [|e evs IH]; intros before waiting Eb NM Hw; [cbn; eauto|].
  assert (Eb' : (before ++ [e]) ++ evs = all) by (now rewrite <- app_assoc).
  assert (NMk : forall d, In d waiting -> existsb (fun k => is_mismatch (says before (mtime d) k)) (seq 1 n) = false).
  { intros d Hd. destruct (existsb _ _) eqn:X; auto. apply existsb_exists in X as (k & Hk & M). apply in_seq in Hk.
    exfalso. apply (NM d k); auto; [lia|]. unfold says in *. rewrite <- Eb, chist_app, instruct_app; destruct (instruct _ _); try discriminate; auto. }
  destruct e as [p m|p m| |]; cbn [demux_spec].
  - destruct (IH (before ++ [EData p m]) (waiting ++ [m])) as (ds & ->); auto; [|cbn; eauto].
    intros d Hd. apply in_app_or in Hd as [Hd|[<-|[]]]; auto. rewrite <- Eb, received_app. apply in_or_app. right. cbn; auto.
  - destruct (IH (before ++ [ECtrl p m]) waiting) as (ds & ->); auto. cbn; eauto.
  - destruct waiting as [|d w]; [destruct (IH (before ++ [EExec]) []) as (ds & ->); cbn; eauto|].
    rewrite NMk by (cbn; auto). destruct (forallb _ _).
    + destruct (IH (before ++ [EExec]) w) as (ds & ->); cbn in *; eauto.
    + destruct (IH (before ++ [EExec]) (d :: w)) as (ds & ->); cbn in *; eauto.
  - destruct waiting as [|d w]; [destruct (IH (before ++ [EExecC]) []) as (ds & ->); cbn; eauto|].
    rewrite NMk by (cbn; auto). destruct (forallb _ _).
    + destruct (IH (before ++ [EExecC]) w) as (ds & ->); cbn in *; eauto.
    + destruct (IH (before ++ [EExecC]) (d :: w)) as (ds & ->); cbn in *; eauto.
Qed.

(** With matching instructions nothing ever fails. *)
Theorem C26_never_fails_partial {NO : NumOps} (id : string) (n : nat) (o : op) (evs : list ev) :
  mk_demux id n = Ok o -> demux_calls n evs -> increasing (times (received evs)) -> never_mismatched n evs ->
  exists ds outs o', run o evs = (Ok outs, o') /\ Forall2 (routes n evs) ds outs /\ exists waiting, received evs = somes ds ++ waiting.
Proof.
  intros Ho Hc Inc NM. pose proof (C26_demultiplexer_partial id n o evs Ho Hc Inc) as X.
  destruct (demux_spec_no_mismatch n evs evs [] []) as (ds & D); auto; [intros d []|]. rewrite D in X.
  destruct X as (outs & o' & R & F). destruct (demux_spec_sound n evs [] [] ds D) as (_ & E & _). exists ds, outs, o'. auto.
Qed.
Print Assumptions C26_never_fails_partial.

Lemma received_execs {NO : NumOps} N : received (repeat EExec N) = [].
Proof. induction N; cbn; auto. Qed.
Lemma says_execs {NO : NumOps} evs N t k : says (evs ++ repeat EExec N) t k = says evs t k.
Proof. unfold says. rewrite chist_app. replace (chist (cport k) (repeat EExec N)) with (@nil msg); [now rewrite app_nil_r|]. induction N; cbn; auto. Qed.

Definition complete {NO : NumOps} (n : nat) (evs : list ev) (d : msg) : bool :=
  forallb (fun k => is_given (says evs (mtime d) k)) (seq 1 n).

Lemma complete_exec {NO : NumOps} n b d : complete n (b ++ [EExec]) d = complete n b d.
Proof. unfold complete. induction (seq 1 n) as [|k l IH]; cbn; auto. now rewrite (says_execs b 1), IH. Qed.

Lemma demux_spec_app {NO : NumOps} n e1 : forall before waiting e2 ds1,
  demux_spec n before waiting e1 = Some ds1 ->
  exists w, waiting ++ received e1 = somes ds1 ++ w /\
    demux_spec n before waiting (e1 ++ e2) = option_map (app ds1) (demux_spec n (before ++ e1) w e2).
Proof.
  induction e1 as [|e e1 IH]; intros before waiting e2 ds1 H.
  - cbn in H. injection H as <-. exists waiting. cbn. rewrite !app_nil_r. split; auto. now destruct (demux_spec n before waiting e2).
  - assert (Sil : forall w x, option_map (cons x) (demux_spec n (before ++ [e]) w e1) = Some ds1 ->
      exists w', w ++ received e1 = somes (tl ds1) ++ w' /\ ds1 = x :: tl ds1 /\
       option_map (cons x) (demux_spec n (before ++ [e]) w (e1 ++ e2)) = option_map (app ds1) (demux_spec n (before ++ e :: e1) w' e2)).
    { intros w x E. destruct (demux_spec n (before ++ [e]) w e1) as [ds'|] eqn:D; [|discriminate]. injection E as <-.
      destruct (IH _ _ e2 _ D) as (w' & Ew & Eq). exists w'. cbn [tl]. split; auto. split; auto. rewrite Eq, <- app_assoc. cbn [app].
      now destruct (demux_spec n (before ++ e :: e1) w' e2). }
    cbn [app]. destruct e as [p m|p m| |]; cbn [demux_spec] in *.
    + destruct (Sil _ _ H) as (w' & Ew & -> & Eq). exists w'. split; auto. cbn [received somes tl] in *. now rewrite <- Ew, <- app_assoc.
    + destruct (Sil _ _ H) as (w' & Ew & -> & Eq). exists w'. split; auto.
    + destruct waiting as [|d w]; [destruct (Sil _ _ H) as (w' & Ew & -> & Eq); exists w'; split; auto|].
      destruct (existsb _ _); [discriminate|]. destruct (forallb _ _); destruct (Sil _ _ H) as (w' & Ew & -> & Eq); exists w'; split; auto.
      cbn [received somes tl app] in *. now rewrite <- Ew.
    + destruct waiting as [|d w]; [destruct (Sil _ _ H) as (w' & Ew & -> & Eq); exists w'; split; auto|].
      destruct (existsb _ _); [discriminate|]. destruct (forallb _ _); destruct (Sil _ _ H) as (w' & Ew & -> & Eq); exists w'; split; auto.
      cbn [received somes tl app] in *. now rewrite <- Ew.
Qed.

Lemma demux_spec_flush {NO : NumOps} n N : forall before waiting ds,
  (length waiting <= N)%nat -> demux_spec n before waiting (repeat EExec N) = Some ds ->
  exists w, waiting = somes ds ++ w /\ match w with d :: _ => complete n before d = false | [] => True end.
Proof.
  induction N as [|N IH]; intros before waiting ds L H.
  - destruct waiting; [|cbn in L; lia]. cbn in H. injection H as <-. exists []. auto.
  - cbn [repeat demux_spec] in H. destruct waiting as [|d w].
    + destruct (demux_spec n (before ++ [EExec]) [] (repeat EExec N)) as [ds'|] eqn:D; [|discriminate]. injection H as <-.
      destruct (IH (before ++ [EExec]) [] ds') as (w & E & C); [cbn; lia|auto|]. exists w. split; auto.
      destruct w; auto. destruct (somes ds'); discriminate.
    + destruct (existsb _ _); [discriminate|]. destruct (forallb _ _) eqn:G.
      * destruct (demux_spec n (before ++ [EExec]) w (repeat EExec N)) as [ds'|] eqn:D; [|discriminate]. injection H as <-.
        destruct (IH (before ++ [EExec]) w ds') as (w' & E & C); [cbn in L; lia|auto|]. exists w'. cbn [somes app]. split; [now rewrite E at 1|].
        destruct w'; auto. now rewrite complete_exec in C.
      * exists (d :: w). split; [|exact G]. enough (somes ds = []) by (rewrite H0; reflexivity).
        destruct (demux_spec n (before ++ [EExec]) (d :: w) (repeat EExec N)) as [ds'|] eqn:D; [|discriminate]. injection H as <-.
        cbn [somes].
        assert (G1 : complete n (before ++ [EExec]) d = false).
        { now rewrite complete_exec. }
        clear -D G1. revert D G1. generalize (before ++ [EExec]). revert ds'. induction N as [|N IH]; intros ds' b D G1; cbn in D; [injection D as <-; auto|].
        destruct (existsb _ _); [discriminate|]. unfold complete in G1. rewrite G1 in D.
        destruct (demux_spec n (b ++ [EExec]) (d :: w) (repeat EExec N)) as [ds2|] eqn:D2; [|discriminate]. injection D as <-.
        cbn [somes]. apply (IH _ _ D2). now rewrite complete_exec.
Qed.

(** With matching instructions, as many executions as messages were received route every
    message up to the first one that still lacks an instruction. *)
Theorem C26_complete_partial {NO : NumOps} (id : string) (n : nat) (o : op) (evs : list ev) (N : nat) :
  mk_demux id n = Ok o -> demux_calls n evs -> increasing (times (received evs)) -> never_mismatched n evs ->
  (length (received evs) <= N)%nat ->
  exists ds outs o' waiting, run o (evs ++ repeat EExec N) = (Ok outs, o') /\
    Forall2 (routes n (evs ++ repeat EExec N)) ds outs /\ received evs = somes ds ++ waiting /\
    match waiting with
    | d :: _ => exists k, (1 <= k <= n)%nat /\ says evs (mtime d) k = Awaited
    | [] => True
    end.
Proof.
  intros Ho Hc Inc NM HN.
  destruct (demux_spec_no_mismatch n evs evs [] []) as (ds1 & D1); auto; [intros d []|].
  destruct (demux_spec_app n evs [] [] (repeat EExec N) ds1 D1) as (w & Ew & Eq). cbn [app] in Ew, Eq.
  assert (NM' : never_mismatched n (evs ++ repeat EExec N)).
  { intros d k Hd Hk. rewrite received_app, received_execs, app_nil_r in Hd. rewrite says_execs. now apply NM. }
  assert (Hw : forall d, In d w -> In d (received evs)) by (intros d Hd; rewrite Ew; apply in_or_app; auto).
  destruct (demux_spec_no_mismatch n (evs ++ repeat EExec N) (repeat EExec N) evs w) as (ds2 & D2); auto.
  { intros d Hd. rewrite received_app. apply in_or_app; auto. }
  rewrite D2 in Eq. cbn [option_map] in Eq.
  pose proof (C26_demultiplexer_partial id n o (evs ++ repeat EExec N) Ho) as X. rewrite Eq in X.
  destruct X as (outs & o' & R & F).
  { apply Forall_app. split; auto. apply Forall_forall. intros e He. apply repeat_spec in He. now subst. }
  { now rewrite received_app, received_execs, app_nil_r. }
  destruct (demux_spec_flush n N evs w ds2) as (w' & E' & C); auto.
  { rewrite Ew, app_length in HN. lia. }
  exists (ds1 ++ ds2), outs, o', w'. split; auto. split; auto. split.
  - rewrite somes_app, <- app_assoc, <- E'. exact Ew.
  - destruct w' as [|d w']; auto. unfold complete in C.
    assert (Y : exists k, In k (seq 1 n) /\ is_given (says evs (mtime d) k) = false).
    { clear -C. induction (seq 1 n) as [|k l IH]; [discriminate|]. cbn in C. destruct (is_given _) eqn:G.
      - destruct (IH C) as (j & Hj & Gj). exists j. cbn. auto.
      - exists k. cbn. auto. }
    destruct Y as (k & Hk & G). apply in_seq in Hk. exists k. split; [lia|].
    specialize (NM d k). destruct (says evs (mtime d) k); try discriminate; auto.
    exfalso. apply NM; auto; [|lia]. apply Hw. rewrite E'. apply in_or_app. cbn. auto.
Qed.
Print Assumptions C26_complete_partial.

(** ** Examples *)

Definition gates : list (@ev QcOps) :=
  [EData "i1" (im 1 10); EExec; ECtrl "c1" (im 1 1); EExecC; ECtrl "c2" (im 1 0); EExecC;
   ECtrl "c2" (im 2 1); ECtrl "c1" (im 2 1); EData "i1" (im 2 20); EData "i1" (im 5 50); EExec;
   ECtrl "c1" (im 5 0); ECtrl "c2" (im 5 1); EExecC].
Example C26_example :
  @demux_calls QcOps 2 gates /\ increasing (times (@received QcOps gates)) /\ @never_mismatched QcOps 2 gates /\
  match mk_demux "d" 2 with
  | Ok o => let r := fst (@run QcOps o gates) in (show_port "o1" r, show_port "o2" r)
  | _ => ([], [])
  end = ([(1, (10 # 1)%Q); (2, (20 # 1)%Q)], [(2, (20 # 1)%Q); (5, (50 # 1)%Q)]).
Proof.
  split; [|split; [|split]].
  - unfold gates. repeat constructor; first [exists 1%nat; split; [lia|reflexivity] | exists 2%nat; split; [lia|reflexivity]].
  - vm_compute. repeat constructor.
  - intros d k Hd Hk. assert (E : k = 1%nat \/ k = 2%nat) by lia.
    destruct Hd as [<-|[<-|[<-|[]]]]; destruct E as [->| ->]; intros X; vm_compute in X; discriminate X.
  - vm_compute. reflexivity.
Qed.

(** A control that skips the time of a message blocks everything: data at 1 and 2, the
    control only at 2 (value 1).  The message at 2 has its instruction, but the execution
    throws instead of emitting it. *)
Definition skipped : list (@ev QcOps) := [EData "i1" (im 1 10); EData "i1" (im 2 20); ECtrl "c1" (im 2 1); EExec].
Theorem C26_skipped_time_refuted :
  exists (o o' : @op QcOps) e, mk_demux "d" 1 = Ok o /\ @demux_calls QcOps 1 skipped /\
    increasing (times (received skipped)) /\ @ordered_controls QcOps 1 skipped /\
    @says QcOps skipped 2 1 = Given true /\ run o skipped = (Throw e, o').
Proof.
  destruct (demux_exists (NO := QcOps) "d" 1) as (o & Ho); [lia|].
  pose proof (C26_demultiplexer_partial (NO := QcOps) "d" 1 o skipped Ho) as X.
  assert (Hc : @demux_calls QcOps 1 skipped).
  { unfold skipped. repeat constructor; exists 1%nat; split; [lia|reflexivity]. }
  assert (Hi : increasing (times (@received QcOps skipped))) by (vm_compute; repeat constructor).
  specialize (X Hc Hi).
  assert (D : (match @demux_spec QcOps 1 [] [] skipped with Some _ => true | None => false end) = false) by (vm_compute; reflexivity).
  destruct (demux_spec 1 [] [] skipped); [discriminate|]. destruct X as (e & o' & R). exists o, o', e. split; auto. split; auto. split; auto.
  split; [|split; auto].
  - intros k Hk. replace k with 1%nat by lia. vm_compute. repeat constructor.
Qed.
Print Assumptions C26_skipped_time_refuted.
