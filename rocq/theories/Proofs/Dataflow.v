(** * Programs of operators that answer at once, fed in order of time *)

From Coq Require Import String ZArith Bool List Lia Sorted Arith.
From Verif Require Import Base.StrMap Base.Num Model.Core Model.Ops Model.Make Model.Run Model.Graph.
From Verif Require Import Spec.Shape Spec.Preserving Spec.Streams Spec.Operators Spec.Multi Spec.Demux Spec.Join Spec.Synchronous.
From Verif Require Import Proofs.Lists Proofs.Ports Proofs.Window Proofs.VariableP Proofs.InputP Proofs.OutputP Proofs.JoinP Proofs.JoinRun Proofs.JoinKinds Proofs.JoinOrder Proofs.LogP Proofs.LogRun Proofs.LogProg.
From Verif Require Import Spec.Log Proofs.ShapeP Proofs.Conns Proofs.Monotone Proofs.Monotone2 Proofs.Increasing Proofs.Rounds Proofs.Prompt Proofs.Sync Proofs.Settled.
Import ListNotations.
Open Scope string_scope.
Open Scope list_scope.
Open Scope Z_scope.
Open Scope rtbot_scope.

Section Dataflow.
Context {NO : NumOps}.

Lemma input_immediate o : an_input o -> immediate o.
Proof.
  intros (id & k & o0 & cs & H & ->). split; [exists o0, cs; split; auto; eapply C_input; eauto|].
  unfold mk_input in H. destruct (add_ports _ _ _ _); try discriminate H. injection H as <-. exact I.
Qed.

Definition list_max_Z (l : list Z) : Z := fold_right Z.max 0 l.
Lemma list_max_Z_le l t : In t l -> t <= list_max_Z l.
Proof. induction l as [|x l IH]; intros H; [destruct H|]. destruct H as [->|H]; cbn; [lia|]. specialize (IH H). unfold list_max_Z in IH. lia. Qed.

Section Flow.
Variables (h : heap) (rank : string -> nat) (ep : string).
Hypothesis W : wf_heap h.
Hypothesis N : named h.
Hypothesis Rk : ranked rank h.
Hypothesis Of : one_feed h.
Variable oe : op.
Hypothesis Ein : sfind ep h = Some oe.
Hypothesis Inp : an_input oe.
Variable U : string -> Prop.
Hypothesis Up : forall a b, wired h a b -> U b -> U a.
Hypothesis Im : forall id o, U id -> sfind id h = Some o -> id <> ep -> immediate o.
Variables (n : nat) (ms : list (string * msg)) (L : list entry) (h' : heap).
Hypothesis E : lsend_all n ep ms h = (Ok L, h').
Hypothesis St : StronglySorted Z.le (times (map snd ms)).

Let ImU id o : U id -> sfind id h = Some o -> immediate o.
Proof.
  intros Ui Ho. destruct (string_dec id ep) as [->|Ne]; [|now apply (Im id o)].
  rewrite Ein in Ho. injection Ho as <-. now apply input_immediate.
Qed.

Lemma flow_emitted id o : sfind id h = Some o -> is_pipeline o = false ->
  exists outs o', run o (calls id L) = (Ok outs, o') /\ forall port, emitted id port L = on_port port outs.
Proof.
  intros Ho Np. destruct (lsend_all_replays _ _ _ _ _ _ W N E) as (_ & Rep). destruct (Rep id o Ho Np) as (o' & _ & _ & R).
  exists (returned id L), o'. split; auto. intros port. apply (lsend_all_balanced rank _ _ _ _ _ _ W N Rk E).
Qed.

Lemma up_increasing id port : U id -> increasing (times (emitted id port L)).
Proof.
  pose proof (lsend_all_proper _ _ _ _ _ _ W N E) as Pr. pose proof (lsend_all_routed _ _ _ _ _ _ W N E) as Ro.
  pose proof (lsend_all_balanced rank _ _ _ _ _ _ W N Rk E) as Bal.
  set (M := list_max (map (fun x => match x with LEmit i _ _ => rank i | _ => 0%nat end) L)).
  assert (HM : forall id port, emitted id port L <> [] -> (rank id <= M)%nat).
  { intros i p Hne. destruct (emitted i p L) as [|m r] eqn:Em; [congruence|].
    assert (In (LEmit i p m) L) as Hin by (apply emitted_In; rewrite Em; cbn; auto).
    pose proof (proj1 (list_max_le (map (fun x => match x with LEmit i _ _ => rank i | _ => 0%nat end) L) M) (Nat.le_refl _)) as F.
    rewrite Forall_forall in F. apply F. apply in_map_iff. exists (LEmit i p m). auto. }
  assert (Main : forall k id port, (S M - rank id < k)%nat -> U id -> increasing (times (emitted id port L))).
  { clear id port. induction k as [|k IH]; intros id port Hk Ui; [lia|].
    destruct (emitted id port L) as [|m0 r0] eqn:Em; [constructor|]. rewrite <- Em.
    destruct (sfind id h) as [o|] eqn:Hid.
    2: { exfalso. rewrite Bal in Em. destruct (returned id L) as [|out rr] eqn:Rt; [discriminate Em|].
         assert (Hin : In out (returned id L)) by (rewrite Rt; cbn; auto). unfold returned in Hin. apply in_flat_map in Hin as (x & Hx & Hy).
         destruct x as [q m|i e out'|a q m]; try destruct Hy. destruct (String.eqb_spec id i) as [<-|]; [|destruct Hy].
         unfold proper in Pr. rewrite Forall_forall in Pr. destruct (Pr _ Hx) as (o & Ho' & _). congruence. }
    pose proof (ImU id o Ui Hid) as (Tp & _). destruct (flow_emitted id o Hid (time_preserving_simple o Tp)) as (outs & o' & R & Eq). rewrite Eq.
    destruct (string_dec id ep) as [->|Ne].
    { rewrite Ein in Hid. injection Hid as <-. destruct Inp as (i & j & o0 & cs & Hi & ->). eapply mk_input_always; eauto. }
    destruct (into_calls h ep id L o Pr Ne Hid) as (Pe & Hh).
    assert (Inc : forall p, increasing (times (into id p L))).
    { intros p. destruct (into_source h ep id p L Ro Ne Of) as [->|(a & q & Fb & ->)]; [constructor|].
      assert (Wr : wired h a id) by (exists q, p; exact Fb).
      apply IH; [|now apply (Up a id)]. pose proof (Rk a id Wr).
      assert (rank id <= M)%nat by (apply (HM id port); congruence). lia. }
    eapply (time_preserving_monotone o Tp); eauto; intros p; destruct (Hh p) as ([Hd|Hd] & [Hc|Hc]); rewrite ?Hc, ?Hd; auto; constructor. }
  intros Ui. apply (Main (S (S M - rank id))); auto.
Qed.

Lemma flow_hist id o p : U id -> id <> ep -> sfind id h = Some o -> increasing (times (hist p (calls id L))).
Proof.
  intros Ui Ne Ho. pose proof (lsend_all_proper _ _ _ _ _ _ W N E) as Pr. pose proof (lsend_all_routed _ _ _ _ _ _ W N E) as Ro.
  destruct (into_calls h ep id L o Pr Ne Ho) as (_ & Hh). destruct (Hh p) as ([->| ->] & _); [|constructor].
  destruct (into_source h ep id p L Ro Ne Of) as [->|(a & q & Fb & ->)]; [constructor|].
  apply up_increasing. apply (Up a id); auto. exists q, p. exact Fb.
Qed.

Lemma flow_rounds : rounds h ep ms L.
Proof. now apply (lsend_all_rounds h n ep ms h L h' W N eq_refl). Qed.

Lemma no_ctrl_class id p : U id -> port_class h (id, p) <> Some true.
Proof.
  intros Ui. unfold port_class. cbn [fst snd]. destruct (sfind id h) as [o|] eqn:Ho; [|discriminate].
  destruct (is_data_input o p); [discriminate|]. rewrite (immediate_no_ctrl o p (ImU id o Ui Ho)). discriminate.
Qed.

Theorem flow_tidy id o : U id -> id <> ep -> sfind id h = Some o -> tidy o (calls id L).
Proof.
  intros Ui Ne Ho. pose proof flow_rounds as R.
  pose proof (lsend_all_proper _ _ _ _ _ _ W N E) as Pr. pose proof (lsend_all_routed _ _ _ _ _ _ W N E) as Ro.
  pose proof (lsend_all_replays _ _ _ _ _ _ W N E) as Rep.
  assert (Nc : forall i, U i -> no_control (calls i L)).
  { intros i Hi. apply (rounds_no_control h ep i) with (ms := ms); auto. intros p. now apply no_ctrl_class. }
  assert (Nce : no_control (calls ep L)).
  { rewrite (rounds_entry h rank Rk ep ms L R). unfold no_control. apply Forall_forall. intros e He. apply in_flat_map in He as (pm & _ & [<-|[<-|[]]]); exact I. }
  assert (Io : in_order U (list_max_Z (times (map snd ms))) L).
  { eapply (rounds_in_order h rank Rk ep Of U Up L h' Rep Pr) with (ms := ms) (rest := []); auto.
    - intros i o1 Hi Ho1. destruct (ImU i o1 Hi Ho1) as (Tp & _). split; [now apply time_preserving_simple|].
      destruct (String.eqb_spec i ep) as [->|Ni].
      + rewrite Ein in Ho1. injection Ho1 as <-. destruct Inp as (i0 & j & o0 & cs & Hi0 & ->). eapply input_prompt; eauto.
      + split; [apply immediate_prompt; eauto|]. split; [apply (into_calls h ep i L o1 Pr Ni Ho1)|].
        intros x. now apply (flow_hist i o1 x).
    - now rewrite app_nil_r.
    - apply list_max_Z_le. }
  destruct (Io id Ui) as (Or & _).
  split; [apply (into_calls h ep id L o Pr Ne Ho)|]. split; [auto|]. split; [auto|].
  split; [eapply rounds_settled; eauto|]. split; [intros x; now apply (flow_hist id o x)|].
  intros p. destruct (into_calls h ep id L o Pr Ne Ho) as (_ & Hh). destruct (Hh p) as ([Eh|Eh] & _); [|now apply unfed_spaced].
  destruct (into_source h ep id p L Ro Ne Of) as [Ei|(a & q & Fb & Ei)]; [apply unfed_spaced; congruence|].
  apply (rounds_spaced h rank Rk ep id p a q ms L R Ne).
  - intros a' q' Hin. destruct Of as (O1 & _). exact (eq_sym (O1 id p (a, q) (a', q') Fb Hin)).
  - apply Of.
Qed.

(** what a port received *)
Definition carried_log (id p : string) (s : list msg) : Prop :=
  (exists a q, fed_by h id p (a, q) /\ s = emitted a q L) \/ ((forall src, ~ fed_by h id p src) /\ s = []).

Lemma flow_carried id o p s : id <> ep -> sfind id h = Some o -> is_data_input o p = true -> carried_log id p s ->
  hist p (calls id L) = s.
Proof.
  intros Ne Ho Dp C. pose proof (lsend_all_proper _ _ _ _ _ _ W N E) as Pr. pose proof (lsend_all_routed _ _ _ _ _ _ W N E) as Ro.
  destruct (into_calls_eq h ep id L o Pr Ne Ho) as (_ & Hh). destruct (Hh p) as (-> & _). rewrite Dp.
  destruct C as [(a & q & Fb & ->)|(Nf & ->)].
  - apply (into_fed h ep id p L a q Ro Ne Of); auto. unfold has_input. cbn [fst snd]. rewrite Ho, Dp. reflexivity.
  - destruct (into_source h ep id p L Ro Ne Of) as [->|(a & q & Fb & _)]; [reflexivity|]. exfalso. exact (Nf _ Fb).
Qed.

End Flow.

(** ** Two runs *)

Lemma emitted_known n ep ms h L h' id port o : wf_heap h -> named h -> ranked o h -> lsend_all n ep ms h = (Ok L, h') ->
  emitted id port L <> [] -> sfind id h <> None.
Proof.
  intros W N Rk E Ne F. pose proof (lsend_all_proper _ _ _ _ _ _ W N E) as Pr.
  pose proof (lsend_all_balanced o _ _ _ _ _ _ W N Rk E) as Bal. rewrite Bal in Ne.
  destruct (returned id L) as [|out rr] eqn:Rt; [apply Ne; reflexivity|].
  assert (Hin : In out (returned id L)) by (rewrite Rt; cbn; auto). unfold returned in Hin. apply in_flat_map in Hin as (x & Hx & Hy).
  destruct x as [q m|i e out'|a q m]; try destruct Hy. destruct (String.eqb_spec id i) as [<-|]; [|destruct Hy].
  unfold proper in Pr. rewrite Forall_forall in Pr. destruct (Pr _ Hx) as (o' & Ho' & _). congruence.
Qed.

Definition emit_ranks (rank : string -> nat) (L : list entry) : nat :=
  list_max (map (fun x => match x with LEmit i _ _ => rank i | _ => 0%nat end) L).
Lemma emit_ranks_le rank L id port : emitted id port L <> [] -> (rank id <= emit_ranks rank L)%nat.
Proof.
  intros Hne. destruct (emitted id port L) as [|m r] eqn:Em; [congruence|].
  assert (In (LEmit id port m) L) as Hin by (apply emitted_In; rewrite Em; cbn; auto).
  pose proof (proj1 (list_max_le (map (fun x => match x with LEmit i _ _ => rank i | _ => 0%nat end) L) _) (Nat.le_refl _)) as F.
  rewrite Forall_forall in F. apply F. apply in_map_iff. exists (LEmit id port m). auto.
Qed.

Section Two.
Variables (h1 h2 : heap) (rank : string -> nat) (ep : string).
Hypothesis W1 : wf_heap h1.
Hypothesis N1 : named h1.
Hypothesis Rk1 : ranked rank h1.
Hypothesis Of1 : one_feed h1.
Hypothesis W2 : wf_heap h2.
Hypothesis N2 : named h2.
Hypothesis Rk2 : ranked rank h2.
Hypothesis Of2 : one_feed h2.
Variables oe1 oe2 : op.
Hypothesis Ein1 : sfind ep h1 = Some oe1.
Hypothesis Ein2 : sfind ep h2 = Some oe2.
Hypothesis Inp1 : an_input oe1.
Hypothesis Inp2 : an_input oe2.
Hypothesis Im1 : forall id o, sfind id h1 = Some o -> id <> ep -> immediate o.
Hypothesis Same : forall id, match sfind id h1, sfind id h2 with
  | Some o1, Some o2 => exists cs1 cs2 o, o1 = with_conns cs1 o /\ o2 = with_conns cs2 o
  | None, None => True
  | _, _ => False
  end.
Hypothesis Fed : forall id p src, fed_by h1 id p src <-> fed_by h2 id p src.
Variables (n1 n2 : nat) (ms1 ms2 : list (string * msg)) (L1 L2 : list entry) (h1' h2' : heap).
Hypothesis E1 : lsend_all n1 ep ms1 h1 = (Ok L1, h1').
Hypothesis E2 : lsend_all n2 ep ms2 h2 = (Ok L2, h2').
Hypothesis St1 : StronglySorted Z.le (times (map snd ms1)).
Hypothesis St2 : StronglySorted Z.le (times (map snd ms2)).
Hypothesis Entry : forall port, emitted ep port L1 = emitted ep port L2.

Lemma immediate_conns cs1 cs2 o : immediate (with_conns cs1 o) -> immediate (with_conns cs2 o).
Proof.
  intros ((o0 & cs & C & E) & I). split; [|exact I]. exists o0, cs2. split; auto.
  destruct o as [[] ?], o0 as [[] ?]. cbn in E. injection E as <- <- <- <- <- <- <-. reflexivity.
Qed.

Theorem two_streams id port : emitted id port L1 = emitted id port L2.
Proof.
  set (M := Nat.max (emit_ranks rank L1) (emit_ranks rank L2)).
  assert (Im2 : forall id o, sfind id h2 = Some o -> id <> ep -> immediate o).
  { intros i o Ho Ne. specialize (Same i). rewrite Ho in Same. destruct (sfind i h1) as [o1|] eqn:Ho1; [|contradiction].
    destruct Same as (cs1 & cs2 & o0 & -> & ->). eapply immediate_conns. eapply Im1; eauto. }
  assert (Main : forall k id port, (S M - rank id < k)%nat -> emitted id port L1 = emitted id port L2).
  { clear id port. induction k as [|k IH]; intros id port Hk; [lia|].
    destruct (string_dec id ep) as [->|Ne]; [apply Entry|].
    destruct (sfind id h1) as [o1|] eqn:Ho1.
    2: { specialize (Same id). rewrite Ho1 in Same. destruct (sfind id h2) eqn:Ho2; [contradiction|].
         destruct (emitted id port L1) eqn:X1, (emitted id port L2) eqn:X2; auto; exfalso;
           first [apply (emitted_known _ _ _ _ _ _ id port rank W1 N1 Rk1 E1) in Ho1; [exact Ho1|congruence]
                 |apply (emitted_known _ _ _ _ _ _ id port rank W2 N2 Rk2 E2) in Ho2; [exact Ho2|congruence]]. }
    pose proof (Same id) as Sm. rewrite Ho1 in Sm. destruct (sfind id h2) as [o2|] eqn:Ho2; [|contradiction].
    destruct Sm as (cs1 & cs2 & o & -> & ->).
    assert (Dec : (rank id <= M)%nat \/ (M < rank id)%nat) by lia. destruct Dec as [Le|Gt].
    2: { destruct (emitted id port L1) eqn:X1; [|exfalso; assert (rank id <= emit_ranks rank L1)%nat by (apply (emit_ranks_le rank L1 id port); congruence); lia].
         destruct (emitted id port L2) eqn:X2; [auto|exfalso; assert (rank id <= emit_ranks rank L2)%nat by (apply (emit_ranks_le rank L2 id port); congruence); lia]. }
    assert (T1 : tidy (with_conns cs1 o) (calls id L1)).
    { eapply (flow_tidy h1 rank ep W1 N1 Rk1 Of1 oe1 Ein1 Inp1 (fun _ => True)); eauto. }
    assert (T2 : tidy (with_conns cs2 o) (calls id L2)).
    { eapply (flow_tidy h2 rank ep W2 N2 Rk2 Of2 oe2 Ein2 Inp2 (fun _ => True)); eauto. }
    pose proof (Im1 id _ Ho1 Ne) as I1. pose proof (Im2 id _ Ho2 Ne) as I2.
    destruct (flow_emitted h1 rank ep W1 N1 Rk1 n1 ms1 L1 h1' E1 id _ Ho1 (time_preserving_simple _ (proj1 I1))) as (outs1 & o1' & R1 & Q1).
    destruct (flow_emitted h2 rank ep W2 N2 Rk2 n2 ms2 L2 h2' E2 id _ Ho2 (time_preserving_simple _ (proj1 I2))) as (outs2 & o2' & R2 & Q2).
    rewrite Q1, Q2. apply (immediate_determined o cs1 cs2 (calls id L1) (calls id L2) outs1 o1' outs2 o2'); auto.
    intros p. destruct (is_data_input (with_conns cs1 o) p) eqn:D.
    - assert (D2 : is_data_input (with_conns cs2 o) p = true) by exact D.
      pose proof (lsend_all_routed _ _ _ _ _ _ W1 N1 E1) as Ro1. pose proof (lsend_all_routed _ _ _ _ _ _ W2 N2 E2) as Ro2.
      assert (Src : forall a q, fed_by h1 id p (a, q) -> hist p (calls id L1) = hist p (calls id L2)).
      { intros a q Fb.
        rewrite (flow_carried h1 ep W1 N1 Of1 n1 ms1 L1 h1' E1 id _ p (emitted a q L1) Ne Ho1 D) by (left; eauto).
        rewrite (flow_carried h2 ep W2 N2 Of2 n2 ms2 L2 h2' E2 id _ p (emitted a q L2) Ne Ho2 D2) by (left; exists a, q; split; [now apply Fed|auto]).
        apply IH. pose proof (Rk1 a id ltac:(exists q, p; exact Fb)). lia. }
      pose proof (lsend_all_proper _ _ _ _ _ _ W1 N1 E1) as Pr1. pose proof (lsend_all_proper _ _ _ _ _ _ W2 N2 E2) as Pr2.
      destruct (into_calls_eq h1 ep id L1 _ Pr1 Ne Ho1) as (_ & Hh1). destruct (into_calls_eq h2 ep id L2 _ Pr2 Ne Ho2) as (_ & Hh2).
      destruct (into_source h1 ep id p L1 Ro1 Ne Of1) as [X1|(a & q & Fb & _)]; [|eauto].
      destruct (into_source h2 ep id p L2 Ro2 Ne Of2) as [X2|(a & q & Fb & _)]; [|apply Fed in Fb; eauto].
      destruct (Hh1 p) as (-> & _), (Hh2 p) as (-> & _). rewrite D, D2, X1, X2. reflexivity.
    - pose proof (lsend_all_proper _ _ _ _ _ _ W1 N1 E1) as Pr1. pose proof (lsend_all_proper _ _ _ _ _ _ W2 N2 E2) as Pr2.
      destruct (into_calls_eq h1 ep id L1 _ Pr1 Ne Ho1) as (_ & Hh1). destruct (into_calls_eq h2 ep id L2 _ Pr2 Ne Ho2) as (_ & Hh2).
      destruct (Hh1 p) as (-> & _), (Hh2 p) as (-> & _). rewrite D.
      assert (D2 : is_data_input (with_conns cs2 o) p = false) by exact D. rewrite D2. reflexivity. }
  apply (Main (S (S M - rank id))). lia.
Qed.

End Two.
End Dataflow.
