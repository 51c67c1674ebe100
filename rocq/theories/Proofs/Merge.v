(** * The algebra of result maps *)

From Coq Require Import String ZArith Bool List Lia.
From Verif Require Import Base.StrMap Base.Num Model.Core Model.Graph.
Import ListNotations.
Open Scope string_scope.
Open Scope list_scope.

Section Merge.
Context {NO : NumOps}.

(** union of optional values *)
Definition ojoin {A} (f : A -> A -> A) (a b : option A) : option A :=
  match a, b with
  | Some x, Some y => Some (f x y)
  | Some x, None => Some x
  | None, y => y
  end.

Lemma sfind_cons {A} k k' (v : A) m : sfind k ((k', v) :: m) = if String.eqb k k' then Some v else sfind k m.
Proof. reflexivity. Qed.

Lemma sfind_notin {A} k (m : smap A) : ~ In k (skeys m) -> sfind k m = None.
Proof. apply sfind_None. Qed.

Lemma merge_op_find x : NoDup (skeys x) -> forall out port,
  sfind port (merge_op out x) = ojoin (@app msg) (sfind port out) (sfind port x).
Proof.
  induction x as [|[p ms] x IH]; intros ND out port; cbn [merge_op].
  - destruct (sfind port out); reflexivity.
  - inversion ND as [|? ? N1 N2]; subst. rewrite IH by auto. rewrite sfind_sset, sfind_cons.
    destruct (String.eqb_spec port p) as [->|N]; [|reflexivity].
    rewrite (sfind_notin p x N1). destruct (sfind p out); reflexivity.
Qed.

Lemma merge_op_swf x : forall out, swf out -> swf (merge_op out x).
Proof. induction x as [|[p ms] x IH]; intros out H; cbn; auto. apply IH. now apply swf_sset. Qed.

Definition wf_pm (r : progmsg) : Prop := swf r /\ forall id om, sfind id r = Some om -> swf om.

Lemma merge_op_nil_l x : swf x -> merge_op [] x = x.
Proof.
  intros H. apply swf_ext; auto. { apply merge_op_swf. constructor. }
  intros k. rewrite merge_op_find by now apply swf_NoDup. reflexivity.
Qed.

Lemma merge_pm_find x : wf_pm x -> forall out id,
  sfind id (merge_pm out x) = ojoin merge_op (sfind id out) (sfind id x).
Proof.
  induction x as [|[i om] x IH]; intros [W1 W2] out id; cbn [merge_pm].
  - destruct (sfind id out); reflexivity.
  - pose proof (swf_NoDup _ W1) as ND. inversion ND as [|? ? N1 N2]; subst.
    assert (Wx : wf_pm x).
    { split; [now apply swf_cons_inv in W1|]. intros id' om' H. apply (W2 id').
      rewrite sfind_cons. destruct (String.eqb_spec id' i) as [->|]; auto.
      exfalso. apply N1. eapply sfind_In_key; eauto. }
    rewrite IH by auto. rewrite sfind_sset, sfind_cons.
    destruct (String.eqb_spec id i) as [->|N]; [|reflexivity].
    rewrite (sfind_notin i x N1). destruct (sfind i out); cbn [ojoin odefault]; [reflexivity|].
    rewrite merge_op_nil_l; auto. apply (W2 i). rewrite sfind_cons. now rewrite String.eqb_refl.
Qed.

Lemma merge_pm_wf x : forall out, wf_pm out -> wf_pm (merge_pm out x).
Proof.
  induction x as [|[i om] x IH]; intros out [W1 W2]; cbn [merge_pm]; [now split|].
  apply IH. split; [now apply swf_sset|]. intros id o H. rewrite sfind_sset in H.
  destruct (String.eqb_spec id i) as [->|N]; [|eauto]. injection H as <-. apply merge_op_swf.
  destruct (sfind i out) eqn:E; cbn; [eauto|constructor].
Qed.

Lemma wf_pm_nil : wf_pm [].
Proof. split; [constructor|discriminate]. Qed.

Lemma wf_pm_one id port m : wf_pm [(id, [(port, [m])])].
Proof.
  split; [repeat constructor|]. intros i om H. cbn in H. destruct (String.eqb i id); [|discriminate H].
  injection H as <-. repeat constructor.
Qed.

Lemma merge_op_assoc a b c : swf a -> swf b -> swf c -> merge_op (merge_op a b) c = merge_op a (merge_op b c).
Proof.
  intros Ha Hb Hc. apply swf_ext.
  - now apply merge_op_swf, merge_op_swf.
  - now apply merge_op_swf.
  - intros k. rewrite !merge_op_find by (auto using swf_NoDup, merge_op_swf).
    destruct (sfind k a), (sfind k b), (sfind k c); cbn; auto. now rewrite app_assoc.
Qed.

Lemma merge_pm_assoc a b c : wf_pm a -> wf_pm b -> wf_pm c ->
  merge_pm (merge_pm a b) c = merge_pm a (merge_pm b c).
Proof.
  intros Ha Hb Hc. apply swf_ext.
  - now apply merge_pm_wf, merge_pm_wf.
  - now apply merge_pm_wf.
  - intros k. rewrite !merge_pm_find by (auto using merge_pm_wf).
    destruct (sfind k a) eqn:Ea, (sfind k b) eqn:Eb, (sfind k c) eqn:Ec; cbn; auto.
    f_equal. apply merge_op_assoc; [eapply (proj2 Ha)|eapply (proj2 Hb)|eapply (proj2 Hc)]; eauto.
Qed.

Lemma merge_pm_nil_r a : merge_pm a [] = a.
Proof. reflexivity. Qed.

Lemma merge_pm_nil_l a : wf_pm a -> merge_pm [] a = a.
Proof.
  intros H. apply swf_ext; [apply merge_pm_wf, wf_pm_nil|apply H|].
  intros k. rewrite merge_pm_find by auto. reflexivity.
Qed.

End Merge.
