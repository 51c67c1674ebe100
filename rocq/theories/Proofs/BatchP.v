(** * Batches and single messages *)

From Coq Require Import String ZArith Bool List Lia.
From Verif Require Import Base.StrMap Base.Num Model.Core Model.Ops Model.Graph Model.Run.
From Verif Require Import Spec.Shape Spec.Log Spec.Build Proofs.ShapeP Proofs.Merge Proofs.LogP Proofs.LogRun.
Import ListNotations.
Open Scope string_scope.
Open Scope list_scope.
Open Scope rtbot_scope.

Section BatchP.
Context {NO : NumOps}.

(** all results, merged *)
Definition merge_all (rs : list progmsg) : progmsg := fold_left merge_pm rs [].

Definition on_program {A} (p : program) (x : sres heap A) : sres program A :=
  let '(r, h) := x in (r, set_ops p h).

Lemma on_program_bind {A B} p (x : sres heap A) (k : A -> heap -> sres heap B) :
  on_program p (bind x k) = bind (on_program p x) (fun a q => on_program p (k a (p_ops q))).
Proof. destruct x as [[] h]; reflexivity. Qed.

Lemma send_batch_shape n p batch :
  shas (p_entry p) (p_ops p) = true ->
  receive_debug n p batch = on_program p (send_batch n (p_entry p) batch [] (p_ops p)).
Proof. intros E. unfold receive_debug. now rewrite E. Qed.

Lemma entry_kept {A} (p : program) (x : sres heap A) :
  wf_heap (p_ops p) -> keeps (p_ops p) x -> shas (p_entry p) (p_ops p) = true ->
  let q := snd (on_program p x) in
  wf_heap (p_ops q) /\ shas (p_entry q) (p_ops q) = true.
Proof.
  intros W K E. destruct x as [r h]. change (erase_heap h = erase_heap (p_ops p)) in K. cbn [on_program snd p_ops p_entry set_ops]. split; [eapply wf_heap_same; eauto|].
  unfold shas in *. pose proof (sfind_erase h (p_entry p)) as X. rewrite K, sfind_erase in X.
  destruct (sfind (p_entry p) (p_ops p)); [|discriminate E]. destruct (sfind (p_entry p) h); [reflexivity|discriminate X].
Qed.

Lemma one_by_one_spec n : forall ms p, wf_heap (p_ops p) -> shas (p_entry p) (p_ops p) = true ->
  rmap merge_all (one_by_one n p ms) = on_program p (rmap collate (lsend_all n (p_entry p) ms (p_ops p))).
Proof.
  assert (G : forall ms p l0, wf_heap (p_ops p) -> shas (p_entry p) (p_ops p) = true ->
    rmap (fun rs => fold_left merge_pm rs (collate l0)) (one_by_one n p ms) =
    on_program p (rmap (fun l => collate (l0 ++ l)) (lsend_all n (p_entry p) ms (p_ops p)))).
  { induction ms as [|[port m] ms IH]; intros p l0 W E; cbn [one_by_one lsend_all].
    - cbn. rewrite app_nil_r. destruct p; reflexivity.
    - rewrite send_batch_shape by auto. cbn [send_batch send_port].
      change (@nil (string * opmsg)) with (collate []) at 1.
      pose proof (lsend1_spec n (p_entry p) port m (p_ops p)) as S1.
      pose proof (send1_keeps n (p_entry p) port m (p_ops p) W) as K.
      rewrite !rmap_bind, on_program_bind.
      pose proof (entry_kept p _ W K E) as (W1 & E1). rewrite S1 in W1, E1. rewrite S1.
      destruct (lsend1 n (p_entry p) port m (p_ops p)) as [[l1| | | |] h1]; try reflexivity.
      cbn [rmap bind sbind on_program snd] in *.
      specialize (IH (set_ops p h1) (l0 ++ l1) W1 E1). cbn [p_entry p_ops set_ops] in IH.
      rewrite rmap_bind. cbn [rmap]. unfold rmap in IH |- *.
      rewrite <- collate_app. cbn [app].
      etransitivity; [|etransitivity; [exact IH|]].
      + cbn [p_ops set_ops]. unfold set_ops at 1. cbn [p_text p_entry p_filter].
        change (mkProgram (p_text p) h1 (p_entry p) (p_filter p)) with (set_ops p h1).
        destruct (one_by_one n (set_ops p h1) ms) as [[rs| | | |] q]; cbn [bind sbind fold_left]; try reflexivity.
        now rewrite <- collate_app.
      + destruct (lsend_all n (p_entry p) ms h1) as [[l2| | | |] h2]; cbn [bind sbind on_program]; try reflexivity.
        now rewrite <- app_assoc. }
  intros ms p W E. apply (G ms p [] W E).
Qed.

Lemma batch_one_by_one n p batch : wf_heap (p_ops p) -> shas (p_entry p) (p_ops p) = true ->
  receive_debug n p batch = rmap merge_all (one_by_one n p (batch_messages batch)).
Proof.
  intros W E. rewrite one_by_one_spec, send_batch_shape by auto. f_equal.
  apply (lsend_batch_spec n (p_entry p) batch []).
Qed.

Lemma one_by_one_app n : forall a b p, one_by_one n p (a ++ b) =
  do! (ra, p1) <- one_by_one n p a; do! (rb, p2) <- one_by_one n p1 b; (Ok (ra ++ rb), p2).
Proof.
  induction a as [|[port m] a IH]; intros b p; cbn [one_by_one app].
  - cbn [bind sbind app]. destruct (one_by_one n p b) as [[] ?]; reflexivity.
  - destruct (receive_debug n p [(port, [m])]) as [[r| | | |] p1]; try reflexivity. cbn [bind sbind].
    rewrite IH. destruct (one_by_one n p1 a) as [[ra| | | |] p2]; try reflexivity. cbn [bind sbind].
    destruct (one_by_one n p2 b) as [[rb| | | |] p3]; reflexivity.
Qed.

Lemma receive_all_app n : forall a b p, receive_all n p (a ++ b) =
  do! (ra, p1) <- receive_all n p a; do! (rb, p2) <- receive_all n p1 b; (Ok (ra ++ rb), p2).
Proof.
  induction a as [|x a IH]; intros b p; cbn [receive_all app].
  - cbn [bind sbind app]. destruct (receive_all n p b) as [[] ?]; reflexivity.
  - destruct (receive_debug n p x) as [[r| | | |] p1]; try reflexivity. cbn [bind sbind].
    rewrite IH. destruct (receive_all n p1 a) as [[ra| | | |] p2]; try reflexivity. cbn [bind sbind].
    destruct (receive_all n p2 b) as [[rb| | | |] p3]; reflexivity.
Qed.

End BatchP.
