(** * The log and the result map agree *)

From Coq Require Import String ZArith Bool List Lia.
From Verif Require Import Base.StrMap Base.Num Model.Core Model.Ops Model.Graph Model.Run.
From Verif Require Import Spec.Shape Spec.Log Proofs.ShapeP Proofs.Merge.
Import ListNotations.
Open Scope string_scope.
Open Scope list_scope.
Open Scope Z_scope.
Open Scope rtbot_scope.

Section Log.
Context {NO : NumOps}.

(** the result map of a log *)
Definition record (r : progmsg) (x : entry) : progmsg :=
  match x with LEmit id port m => merge_pm r [(id, [(port, [m])])] | _ => r end.
Definition collate (l : list entry) : progmsg := fold_left record l [].

Lemma record_wf l : forall r, wf_pm r -> wf_pm (fold_left record l r).
Proof.
  induction l as [|x l IH]; intros r H; auto. cbn. apply IH. destruct x; auto. now apply merge_pm_wf.
Qed.
Lemma collate_wf l : wf_pm (collate l).
Proof. apply record_wf, wf_pm_nil. Qed.

Lemma record_merge l : forall r, wf_pm r -> fold_left record l r = merge_pm r (collate l).
Proof.
  induction l as [|x l IH] using rev_ind; intros r H; [reflexivity|].
  unfold collate. rewrite !fold_left_app. cbn [fold_left]. rewrite IH by auto.
  fold (collate l). destruct x; cbn [record]; auto.
  apply merge_pm_assoc; auto using collate_wf, wf_pm_one.
Qed.

Lemma collate_app l1 l2 : collate (l1 ++ l2) = merge_pm (collate l1) (collate l2).
Proof. unfold collate at 1. rewrite fold_left_app. apply record_merge, collate_wf. Qed.

(** post-process a successful outcome *)
Definition rmap {S A B} (f : A -> B) (x : sres S A) : sres S B := do! (a, s) <- x; (Ok (f a), s).

Lemma rmap_bind {S A B C} (f : B -> C) (x : sres S A) (k : A -> S -> sres S B) :
  rmap f (bind x k) = bind x (fun a s => rmap f (k a s)).
Proof. destruct x as [[] ?]; reflexivity. Qed.

Lemma bind_rmap {S A B C} (f : A -> B) (x : sres S A) (k : B -> S -> sres S C) :
  bind (rmap f x) k = bind x (fun a s => k (f a) s).
Proof. destruct x as [[] ?]; reflexivity. Qed.

Lemma bind_ext {S A B} (x : sres S A) (k k' : A -> S -> sres S B) :
  (forall a s, k a s = k' a s) -> bind x k = bind x k'.
Proof. intros H. destruct x as [[] ?]; cbn; auto. Qed.

Lemma bind_bind {S A B C} (x : sres S A) (k : A -> S -> sres S B) (k' : B -> S -> sres S C) :
  bind (bind x k) k' = bind x (fun a s => bind (k a s) k').
Proof. destruct x as [[] ?]; reflexivity. Qed.

(** deliveries: nothing is emitted *)
Lemma ldeliver1_spec n m c h :
  deliver1 n m c h = rmap (fun _ => tt) (ldeliver1 n m c h) /\
  forall l h', ldeliver1 n m c h = (Ok l, h') -> collate l = [].
Proof.
  destruct c as [dst port]. unfold deliver1, ldeliver1. destruct (sfind dst h) as [o|]; [|split; [reflexivity|discriminate]].
  destruct (is_data_input o port).
  - destruct (recv_data n o m port) as [[[]| | | |] o']; (split; [reflexivity|]); intros l h' E; try discriminate E.
    now injection E as <- _.
  - destruct (is_control_input o port).
    + destruct (recv_ctrl_local o m port) as [[[]| | | |] o']; (split; [reflexivity|]); intros l h' E; try discriminate E.
      now injection E as <- _.
    + split; [reflexivity|]. intros l h' E. now injection E as <- _.
Qed.

Lemma ldeliver_spec n m cs : forall h,
  deliver n m cs h = rmap (fun _ => tt) (ldeliver n m cs h) /\
  forall l h', ldeliver n m cs h = (Ok l, h') -> collate l = [].
Proof.
  induction cs as [|c cs IH]; intros h; cbn [deliver ldeliver].
  - split; [reflexivity|]. intros l h' E. now injection E as <- _.
  - destruct (ldeliver1_spec n m c h) as [-> E1]. rewrite bind_rmap, rmap_bind.
    split.
    + apply bind_ext. intros l1 h1. destruct (IH h1) as [-> _]. rewrite rmap_bind. reflexivity.
    + intros l h' E. destruct (ldeliver1 n m c h) as [[l1| | | |] h1]; try discriminate E. cbn in E.
      destruct (IH h1) as [_ E2]. destruct (ldeliver n m cs h1) as [[l2| | | |] h2]; try discriminate E.
      injection E as <- <-. rewrite collate_app. rewrite (E1 l1 h1 eq_refl), (E2 l2 h2 eq_refl). reflexivity.
Qed.

Section Emit.
Variable rec : bool -> string -> heap -> sres heap progmsg.
Variable lrec : bool -> string -> heap -> sres heap (list entry).
Variable n : nat.
Hypothesis rec_spec : forall ctl id h, rec ctl id h = rmap collate (lrec ctl id h).

Lemma lexecute1_spec c h : execute1 rec c h = rmap collate (lexecute1 lrec c h).
Proof.
  destruct c as [dst port]. unfold execute1, lexecute1. destruct (sfind dst h); [|reflexivity].
  destruct (is_data_input o port); auto. destruct (is_control_input o port); auto.
Qed.

Lemma lexecute_all_spec cs : forall l0 h,
  execute_all rec cs (collate l0) h = rmap (fun l => collate (l0 ++ l)) (lexecute_all lrec cs h).
Proof.
  induction cs as [|c cs IH]; intros l0 h; cbn [execute_all lexecute_all].
  - unfold rmap. cbn. now rewrite app_nil_r.
  - rewrite lexecute1_spec, bind_rmap, rmap_bind. apply bind_ext. intros l1 h1.
    rewrite <- collate_app, IH, rmap_bind. apply bind_ext. intros l2 h2. unfold rmap. cbn. now rewrite app_assoc.
Qed.

Lemma lemit_msg_spec b port m h :
  emit_msg rec n b port m h = rmap collate (lemit_msg lrec n b port m h).
Proof.
  unfold emit_msg, lemit_msg. destruct (sfind port (o_conns b)) as [cs|]; [|reflexivity].
  destruct (ldeliver_spec n m cs h) as [-> E]. rewrite bind_rmap, rmap_bind.
  destruct (ldeliver n m cs h) as [[l1| | | |] h1]; try reflexivity. cbn [bind sbind].
  specialize (E l1 h1 eq_refl).
  change [(o_id b, [(port, [m])])] with (collate [LEmit (o_id b) port m]).
  replace (collate [LEmit (o_id b) port m]) with (collate (LEmit (o_id b) port m :: l1)).
  - rewrite lexecute_all_spec, rmap_bind. apply bind_ext. reflexivity.
  - change (LEmit (o_id b) port m :: l1) with ([LEmit (o_id b) port m] ++ l1).
    rewrite collate_app, E. reflexivity.
Qed.

Lemma lemit_port_spec b port ms : forall l0 h,
  emit_port rec n b port ms (collate l0) h = rmap (fun l => collate (l0 ++ l)) (lemit_port lrec n b port ms h).
Proof.
  induction ms as [|m ms IH]; intros l0 h; cbn [emit_port lemit_port].
  - unfold rmap. cbn. now rewrite app_nil_r.
  - rewrite lemit_msg_spec, bind_rmap, rmap_bind. apply bind_ext. intros l1 h1.
    rewrite <- collate_app, IH, rmap_bind. apply bind_ext. intros l2 h2. unfold rmap. cbn. now rewrite app_assoc.
Qed.

Lemma lemit_op_spec b oms : forall l0 h,
  emit_op rec n b oms (collate l0) h = rmap (fun l => collate (l0 ++ l)) (lemit_op lrec n b oms h).
Proof.
  induction oms as [|[port ms] oms IH]; intros l0 h; cbn [emit_op lemit_op].
  - unfold rmap. cbn. now rewrite app_nil_r.
  - destruct (sset_mem port (o_outs b)); [|reflexivity].
    change (@nil (string * opmsg)) with (collate []). rewrite lemit_port_spec, bind_rmap, rmap_bind.
    apply bind_ext. intros l1 h1. cbn [app].
    rewrite <- collate_app, IH, rmap_bind. apply bind_ext. intros l2 h2. unfold rmap. cbn. now rewrite app_assoc.
Qed.
End Emit.

Lemma lexec_spec n : forall ctl id h, exec n ctl id h = rmap collate (lexec n ctl id h).
Proof.
  induction n as [|n IH]; intros ctl id h; [reflexivity|]. cbn [exec lexec].
  destruct (sfind id h) as [o|]; [|reflexivity].
  destruct (exec_local (exec n) ctl o) as [[out| | | |] o']; try reflexivity.
  change (@nil (string * opmsg)) with (collate []). rewrite (lemit_op_spec _ (lexec n)) by auto.
  rewrite rmap_bind. apply bind_ext. intros l h1. reflexivity.
Qed.

Lemma lsend1_spec n entry port m h : send1 n entry port m h = rmap collate (lsend1 n entry port m h).
Proof.
  unfold send1, lsend1. destruct (sfind entry h) as [o|]; [|reflexivity].
  destruct (recv_data n o m port) as [[[]| | | |] o']; try reflexivity.
  cbn [bind sbind]. rewrite lexec_spec, rmap_bind. apply bind_ext. reflexivity.
Qed.

Lemma lsend_all_app n entry ms1 : forall ms2 h,
  lsend_all n entry (ms1 ++ ms2) h =
  do! (l1, h1) <- lsend_all n entry ms1 h; do! (l2, h2) <- lsend_all n entry ms2 h1; (Ok (l1 ++ l2), h2).
Proof.
  induction ms1 as [|[port m] ms1 IH]; intros ms2 h; cbn [app lsend_all].
  - cbn. destruct (lsend_all n entry ms2 h) as [[] ?]; reflexivity.
  - rewrite bind_bind. apply bind_ext. intros l1 h1. rewrite IH, !bind_bind. apply bind_ext. intros l2 h2.
    cbn [bind sbind]. rewrite !bind_bind. apply bind_ext. intros l3 h3. cbn. now rewrite app_assoc.
Qed.

Lemma lsend_port_spec n entry port ms : forall l0 h,
  send_port n entry port ms (collate l0) h =
  rmap (fun l => collate (l0 ++ l)) (lsend_all n entry (map (pair port) ms) h).
Proof.
  induction ms as [|m ms IH]; intros l0 h; cbn [send_port lsend_all map].
  - unfold rmap. cbn. now rewrite app_nil_r.
  - rewrite lsend1_spec, bind_rmap, rmap_bind. apply bind_ext. intros l1 h1.
    rewrite <- collate_app, IH, rmap_bind. apply bind_ext. intros l2 h2. unfold rmap. cbn. now rewrite app_assoc.
Qed.

Lemma lsend_batch_spec n entry batch : forall l0 h,
  send_batch n entry batch (collate l0) h =
  rmap (fun l => collate (l0 ++ l)) (lsend_all n entry (batch_messages batch) h).
Proof.
  induction batch as [|[port ms] batch IH]; intros l0 h; cbn [send_batch].
  - unfold rmap. cbn. now rewrite app_nil_r.
  - unfold batch_messages. cbn [flat_map fst snd]. fold (batch_messages batch).
    rewrite lsend_all_app, rmap_bind, lsend_port_spec, bind_rmap. apply bind_ext. intros l1 h1.
    rewrite IH, rmap_bind. apply bind_ext. intros l2 h2. unfold rmap. cbn. now rewrite app_assoc.
Qed.

(** reading the result map *)

Lemma result_merge a b id port : wf_pm b ->
  result_at (merge_pm a b) id port = result_at a id port ++ result_at b id port.
Proof.
  intros Hb. unfold result_at. rewrite merge_pm_find by auto.
  destruct (sfind id a) as [x|], (sfind id b) as [y|] eqn:E; cbn [ojoin odefault]; auto.
  - rewrite merge_op_find by (apply swf_NoDup; eapply (proj2 Hb); eauto).
    destruct (sfind port x), (sfind port y); cbn; auto. now rewrite app_nil_r.
  - cbn. now rewrite app_nil_r.
Qed.

Lemma emitted_app id port l1 l2 : emitted id port (l1 ++ l2) = emitted id port l1 ++ emitted id port l2.
Proof. apply flat_map_app. Qed.

Lemma result_collate l id port : result_at (collate l) id port = emitted id port l.
Proof.
  induction l as [|x l IH] using rev_ind; [reflexivity|].
  rewrite collate_app, result_merge by apply collate_wf. rewrite IH, emitted_app. f_equal.
  destruct x as [sp sm|ci ce co|id0 port0 m]; try reflexivity. unfold result_at. cbn [collate fold_left record merge_pm sset sfind emitted flat_map].
  cbn. destruct (String.eqb id id0); [|reflexivity]. cbn. destruct (String.eqb port port0); reflexivity.
Qed.

Lemma collate_entries l : forall id om, sfind id (collate l) = Some om ->
  om <> [] /\ forall port ms, sfind port om = Some ms -> ms <> [].
Proof.
  induction l as [|x l IH] using rev_ind; intros id om H; [discriminate H|].
  rewrite collate_app, merge_pm_find in H by apply collate_wf.
  assert (Z : ojoin merge_op (sfind id (collate l)) None = Some om ->
    om <> [] /\ (forall port ms, sfind port om = Some ms -> ms <> [])).
  { clear H. intros H. destruct (sfind id (collate l)) as [a|] eqn:E; [|discriminate H].
    injection H as <-. eapply IH; eauto. }
  destruct x as [sp sm|ci ce co|id0 port m]; [exact (Z H)|exact (Z H)|].
  assert (C : collate [LEmit id0 port m] = [(id0, [(port, [m])])]) by reflexivity. rewrite C in H.
  rewrite sfind_cons in H. cbn [sfind] in H.
  destruct (String.eqb id id0).
  2:{ exact (Z H). }
  clear Z.
  destruct (sfind id (collate l)) as [a|] eqn:E; cbn [ojoin] in H; injection H as <-.
  - destruct (IH _ _ E) as [A1 A2]. cbn [merge_op]. split.
    + intros X. assert (Y : sfind port (sset port (odefault [] (sfind port a) ++ [m]) a) = None) by now rewrite X.
      rewrite sfind_sset_same in Y. discriminate Y.
    + intros p ms. rewrite sfind_sset. destruct (String.eqb_spec p port); [|eauto].
      intros [= <-] X. apply app_eq_nil in X as [_ X]. discriminate X.
  - split; [discriminate|]. intros p ms. cbn. destruct (String.eqb p port); [|discriminate]. intros [= <-]. discriminate.
Qed.

End Log.
