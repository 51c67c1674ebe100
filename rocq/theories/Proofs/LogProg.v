(** * The log of whole batches *)

From Coq Require Import String ZArith Bool List Lia.
From Verif Require Import Base.StrMap Base.Num Model.Core Model.Ops Model.Graph Model.Run.
From Verif Require Import Spec.Streams Spec.Shape Spec.Log Proofs.Lists Proofs.ShapeP Proofs.Merge Proofs.LogP.
From Verif Require Import Proofs.LogRun Proofs.LogBal.
Import ListNotations.
Open Scope string_scope.
Open Scope list_scope.
Open Scope Z_scope.
Open Scope rtbot_scope.

Section LogProg.
Context {NO : NumOps}.

(** one message: the pieces *)
Lemma lsend1_ok n ep port m h l h' : wf_heap h -> lsend1 n ep port m h = (Ok l, h') ->
  exists o u o' l', sfind ep h = Some o /\ recv_data n o m port = (Ok u, o') /\
    lexec n false ep (sset ep o' h) = (Ok l', h') /\
    l = [LSend port m; LCall ep (EData port m) []] ++ l' /\ erase_heap (sset ep o' h) = erase_heap h.
Proof.
  intros W E. unfold lsend1 in E. destruct (sfind ep h) as [o|] eqn:Ho; [|discriminate E].
  pose proof (recv_data_erase n o m port (proj2 W _ _ Ho)) as X.
  apply bind_ok in E as (u & h1 & E1 & E). apply bind_ok in E as (l' & h2 & E2 & E). injection E as <- <-.
  destruct (recv_data n o m port) as [r o'] eqn:R. injection E1 as -> <-. cbn [snd] in X.
  exists o, u, o', l'. repeat split; auto. eapply erase_heap_sset; eauto.
Qed.

Lemma lsend1_keeps n ep port m h l h' : wf_heap h -> lsend1 n ep port m h = (Ok l, h') -> erase_heap h' = erase_heap h.
Proof.
  intros W E. destruct (lsend1_ok _ _ _ _ _ _ _ W E) as (o & u & o' & l' & Ho & R & E2 & -> & K).
  rewrite <- K. eapply lexec_keeps; [|exact E2]. eapply wf_heap_same; eauto.
Qed.

Lemma lsend_all_keeps n ep ms : forall h l h', wf_heap h -> lsend_all n ep ms h = (Ok l, h') -> erase_heap h' = erase_heap h.
Proof.
  induction ms as [|[port m] ms IH]; intros h l h' W E; cbn [lsend_all] in E; [now injection E as _ <-|].
  apply bind_ok in E as (l1 & h1 & E1 & E). apply bind_ok in E as (l2 & h2 & E2 & E). injection E as _ <-.
  apply lsend1_keeps in E1; auto. rewrite <- E1. eapply (IH h1); eauto. eapply wf_heap_same; eauto.
Qed.

(** induction over the messages sent *)
Lemma lsend_all_ind n ep (Q : heap -> list (string * msg) -> list entry -> heap -> Prop) :
  (forall h, Q h [] [] h) ->
  (forall h port m l1 h1 ms l2 h2, wf_heap h -> named h -> wf_heap h1 -> named h1 -> erase_heap h1 = erase_heap h ->
     lsend1 n ep port m h = (Ok l1, h1) -> Q h1 ms l2 h2 -> Q h ((port, m) :: ms) (l1 ++ l2) h2) ->
  forall ms h l h', wf_heap h -> named h -> lsend_all n ep ms h = (Ok l, h') -> Q h ms l h'.
Proof.
  intros Q0 Q1. induction ms as [|[port m] ms IH]; intros h l h' W N E; cbn [lsend_all] in E.
  - injection E as <- <-. apply Q0.
  - apply bind_ok in E as (l1 & h1 & E1 & E). apply bind_ok in E as (l2 & h2 & E2 & E). injection E as <- <-.
    pose proof (lsend1_keeps _ _ _ _ _ _ _ W E1) as K.
    assert (W1 : wf_heap h1) by (eapply wf_heap_same; eauto).
    assert (N1 : named h1) by (eapply named_same; eauto).
    eapply Q1; eauto.
Qed.

Lemma lsend1_replays n ep port m h l h' : wf_heap h -> named h -> lsend1 n ep port m h = (Ok l, h') -> replays h l h'.
Proof.
  intros W N E. destruct (lsend1_ok _ _ _ _ _ _ _ W E) as (o & u & o' & l' & Ho & R & E2 & -> & K).
  change ([LSend port m; LCall ep (EData port m) []] ++ l') with ([LSend port m] ++ [LCall ep (EData port m) []] ++ l').
  apply replays_app with h. { split; auto. intros id o0 H0 P0. exists o0. auto. }
  apply replays_app with (sset ep o' h); [eapply replays_recv; eauto|].
  eapply log_replays; [eapply wf_heap_same; eauto|eapply named_same; eauto|exact E2].
Qed.

Lemma lsend_all_replays n ep ms h l h' : wf_heap h -> named h -> lsend_all n ep ms h = (Ok l, h') -> replays h l h'.
Proof.
  revert ms h l h'. apply (lsend_all_ind n ep (fun h _ l h' => replays h l h')).
  - apply replays_nil.
  - intros. eapply replays_app; eauto. eapply lsend1_replays; eauto.
Qed.

Lemma lsend_all_routed n ep ms h l h' : wf_heap h -> named h -> lsend_all n ep ms h = (Ok l, h') ->
  deliveries l = routed h ep l.
Proof.
  intros W N E. revert ms h l h' W N E. apply (lsend_all_ind n ep (fun h _ l _ => deliveries l = routed h ep l)).
  - reflexivity.
  - intros h port m l1 h1 ms l2 h2 W N W1 N1 K E1 E2.
    rewrite deliveries_app, routed_app. rewrite E2, (routed_same h h1 ep l2 K). f_equal.
    destruct (lsend1_ok _ _ _ _ _ _ _ W E1) as (o & u & o' & l' & Ho & R & E & -> & K').
    rewrite deliveries_app, routed_app. f_equal.
    rewrite <- (routed_same h _ ep l' K'). eapply log_routed; [eapply wf_heap_same; eauto|eapply named_same; eauto|exact E].
Qed.

Lemma lsend_all_mentions n ep ms h l h' : wf_heap h -> named h -> lsend_all n ep ms h = (Ok l, h') ->
  mentions (reachable h ep) l.
Proof.
  intros W N E. revert ms h l h' W N E. apply (lsend_all_ind n ep (fun h _ l _ => mentions (reachable h ep) l)).
  - constructor.
  - intros h port m l1 h1 ms l2 h2 W N W1 N1 K E1 E2. apply Forall_app. split.
    + destruct (lsend1_ok _ _ _ _ _ _ _ W E1) as (o & u & o' & l' & Ho & R & E & -> & K').
      apply Forall_app. split; [repeat constructor|].
      eapply (log_mentions (reachable h ep) n false ep); [eapply wf_heap_same; eauto|eapply named_same; eauto| | |exact E].
      * intros a b Ha Hw. econstructor; eauto. eapply wired_same; eauto.
      * constructor.
    + eapply Forall_impl; [|exact E2]. intros x Hx. destruct x; auto; eapply reachable_same; eauto.
Qed.

Lemma lsend_all_balanced rank n ep ms h l h' : wf_heap h -> named h -> ranked rank h -> lsend_all n ep ms h = (Ok l, h') ->
  balanced l.
Proof.
  intros W N R E. revert ms h l h' W N E R.
  apply (lsend_all_ind n ep (fun h _ l _ => ranked rank h -> balanced l)).
  - intros h _ i p. reflexivity.
  - intros h port m l1 h1 ms l2 h2 W N W1 N1 K E1 E2 Rk. apply balanced_app.
    + destruct (lsend1_ok _ _ _ _ _ _ _ W E1) as (o & u & o' & l' & Ho & Rd & E & -> & K').
      apply balanced_app.
      * intros i p. cbn. destruct (String.eqb i ep); reflexivity.
      * eapply (log_balanced rank (erase_heap h)); [| | | |exact E].
        -- intros a b Hw. apply Rk. now apply wired_erase.
        -- eapply wf_heap_same; eauto.
        -- eapply named_same; eauto.
        -- exact K'.
    + apply E2. intros a b Hw. apply Rk. eapply wired_same; eauto.
Qed.

(** the messages the user sent, in order *)
Lemma sent_app l1 l2 : sent (l1 ++ l2) = sent l1 ++ sent l2.
Proof. apply flat_map_app. Qed.

Lemma ldeliver_sent n m cs : forall h l h', ldeliver n m cs h = (Ok l, h') -> sent l = [].
Proof.
  induction cs as [|c cs IH]; intros h l h' E; cbn [ldeliver] in E; [injection E as <- <-; reflexivity|].
  apply bind_ok in E as (l1 & h1 & E1 & E). apply bind_ok in E as (l2 & h2 & E2 & E). injection E as <- <-.
  rewrite sent_app, (IH _ _ _ E2), app_nil_r.
  destruct c as [dst port]. unfold ldeliver1 in E1. destruct (sfind dst h) as [o|]; [|discriminate E1].
  destruct (is_data_input o port).
  - destruct (recv_data n o m port) as [[u| | | |] o'] eqn:R; try discriminate E1. now injection E1 as <- <-.
  - destruct (is_control_input o port).
    + destruct (recv_ctrl_local o m port) as [[u| | | |] o'] eqn:R; try discriminate E1. now injection E1 as <- <-.
    + now injection E1 as <- <-.
Qed.

Lemma log_sent n ctl id h l h' : wf_heap h -> named h -> lexec n ctl id h = (Ok l, h') -> sent l = [].
Proof.
  intros W N E.
  pose proof (log_principle (erase_heap h) (fun _ => True) (fun _ l _ => sent l = [])) as X.
  eapply X; clear X; eauto.
  - intros h0 l1 h1 l2 h2 E1 E2. now rewrite sent_app, E1, E2.
  - intros k i port m h0 l0 h1 _ _ Ed. cbn. eapply ldeliver_sent; eauto.
  - repeat split; auto; apply W.
Qed.

Lemma lsend_all_sent n ep ms h l h' : wf_heap h -> named h -> lsend_all n ep ms h = (Ok l, h') -> sent l = ms.
Proof.
  intros W N E. revert ms h l h' W N E. apply (lsend_all_ind n ep (fun _ ms l _ => sent l = ms)).
  - reflexivity.
  - intros h port m l1 h1 ms l2 h2 W N W1 N1 K E1 E2.
    destruct (lsend1_ok _ _ _ _ _ _ _ W E1) as (o & u & o' & l' & Ho & R & E & -> & K').
    rewrite !sent_app, E2. rewrite (log_sent n false ep (sset ep o' h) l' h1).
    + reflexivity.
    + eapply wf_heap_same; eauto.
    + eapply named_same; eauto.
    + exact E.
Qed.

End LogProg.
