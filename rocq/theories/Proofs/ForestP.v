(** * Operators that share nothing can be executed in either order *)

From Coq Require Import String ZArith Bool List Lia Permutation.
From Verif Require Import Base.StrMap Base.Num Model.Core Model.Ops Model.Graph Model.Run.
From Verif Require Import Spec.Streams Spec.Shape Spec.Log Spec.Preserving Spec.Definition Spec.Forest.
From Verif Require Import Proofs.ShapeP Proofs.Merge Proofs.LogP Proofs.LogRun Proofs.Untouched Proofs.Conns Proofs.CompositeP.
Import ListNotations.
Open Scope string_scope.
Open Scope list_scope.
Open Scope Z_scope.
Open Scope rtbot_scope.

Section Forest.
Context {NO : NumOps}.

(** ** What is executed depends only on the operators that can be reached *)

Section Depends.
Variable P : string -> Prop.

Definition agree (h g : heap) : Prop := forall id, P id -> sfind id g = sfind id h.
Definition alike {A} (x y : sres heap A) : Prop := fst y = fst x /\ agree (snd x) (snd y).

Lemma agree_sset h g id o : agree h g -> agree (sset id o h) (sset id o g).
Proof. intros E i Hi. rewrite !sfind_sset. destruct (String.eqb i id); auto. Qed.

Lemma alike_bind {A B} h g (x y : sres heap A) (k : A -> heap -> sres heap B) :
  wf_heap h -> wf_heap g -> keeps h x -> keeps g y -> alike x y ->
  (forall a h1 g1, wf_heap h1 -> wf_heap g1 -> erase_heap h1 = erase_heap h -> agree h1 g1 -> alike (k a h1) (k a g1)) ->
  alike (bind x k) (bind y k).
Proof.
  intros Wh Wg. unfold keeps, alike. destruct x as [rx h1], y as [ry g1]. cbn [fst snd]. intros Kx Ky [-> Ag] H.
  destruct rx as [a| | | |]; cbn [bind sbind fst snd]; auto.
  apply H; auto; [now apply (wf_heap_same h)|now apply (wf_heap_same g)].
Qed.

Lemma deliver1_alike n m c h g : P (fst c) -> agree h g -> alike (deliver1 n m c h) (deliver1 n m c g).
Proof.
  intros Hp A. destruct c as [dst port]. cbn [fst] in Hp. unfold deliver1. rewrite (A _ Hp).
  destruct (sfind dst h) as [o|]; [|now split].
  destruct (is_data_input o port); [destruct (recv_data n o m port); split; auto; now apply agree_sset|].
  destruct (is_control_input o port); [destruct (recv_ctrl_local o m port); split; auto; now apply agree_sset|now split].
Qed.

Lemma deliver_alike n m cs : (forall c, In c cs -> P (fst c)) ->
  forall h g, wf_heap h -> wf_heap g -> agree h g -> alike (deliver n m cs h) (deliver n m cs g).
Proof.
  induction cs as [|c cs IH]; intros Hc h g Wh Wg A; [now split|]. cbn [deliver].
  apply alike_bind with h g; auto; try (now apply deliver1_keeps).
  - apply deliver1_alike; auto. apply Hc. now left.
  - intros _ h1 g1 W1 W2 _ A1. apply IH; auto. intros; apply Hc; now right.
Qed.

Section Emit.
Variable n : nat.
Hypothesis IH : forall ctl id h g, wf_heap h -> wf_heap g -> closed P h -> P id -> agree h g ->
  alike (exec n ctl id h) (exec n ctl id g).

Lemma execute1_alike c h g : wf_heap h -> wf_heap g -> closed P h -> P (fst c) -> agree h g ->
  alike (execute1 (exec n) c h) (execute1 (exec n) c g).
Proof.
  intros Wh Wg C Hp A. destruct c as [dst port]. cbn [fst] in Hp. unfold execute1. rewrite (A _ Hp).
  destruct (sfind dst h) as [o|]; [|now split].
  destruct (is_data_input o port); auto. destruct (is_control_input o port); auto. now split.
Qed.

Lemma execute_all_alike cs : (forall c, In c cs -> P (fst c)) -> forall out h g, wf_heap h -> wf_heap g -> closed P h -> agree h g ->
  alike (execute_all (exec n) cs out h) (execute_all (exec n) cs out g).
Proof.
  induction cs as [|c cs IHc]; intros Hc out h g Wh Wg C A; [now split|]. cbn [execute_all].
  apply alike_bind with h g; auto; try (apply execute1_keeps; auto; apply exec_keeps).
  - apply execute1_alike; auto. apply Hc. now left.
  - intros x h1 g1 W1 W2 E A1. apply IHc; auto. intros; apply Hc; now right. eapply closed_same; eauto.
Qed.

Lemma emit_msg_alike b port m h g : (forall c, In c (odefault [] (sfind port (o_conns b))) -> P (fst c)) ->
  wf_heap h -> wf_heap g -> closed P h -> agree h g -> alike (emit_msg (exec n) n b port m h) (emit_msg (exec n) n b port m g).
Proof.
  intros Hc Wh Wg C A. unfold emit_msg. destruct (sfind port (o_conns b)) as [cs|]; [|now split]. cbn [odefault] in Hc.
  apply alike_bind with h g; auto; try (now apply deliver_keeps).
  - now apply deliver_alike.
  - intros x h1 g1 W1 W2 E A1. apply execute_all_alike; auto. eapply closed_same; eauto.
Qed.

Lemma emit_port_alike b port ms : (forall c, In c (odefault [] (sfind port (o_conns b))) -> P (fst c)) ->
  forall out h g, wf_heap h -> wf_heap g -> closed P h -> agree h g ->
  alike (emit_port (exec n) n b port ms out h) (emit_port (exec n) n b port ms out g).
Proof.
  intros Hc. induction ms as [|m ms IHm]; intros out h g Wh Wg C A; [now split|]. cbn [emit_port].
  apply alike_bind with h g; auto; try (apply emit_msg_keeps; auto; apply exec_keeps).
  - now apply emit_msg_alike.
  - intros x h1 g1 W1 W2 E A1. apply IHm; auto. eapply closed_same; eauto.
Qed.

Lemma emit_op_alike b oms : (forall port c, In c (odefault [] (sfind port (o_conns b))) -> P (fst c)) ->
  forall out h g, wf_heap h -> wf_heap g -> closed P h -> agree h g ->
  alike (emit_op (exec n) n b oms out h) (emit_op (exec n) n b oms out g).
Proof.
  intros Hc. induction oms as [|[port ms] oms IHm]; intros out h g Wh Wg C A; [now split|]. cbn [emit_op].
  destruct (sset_mem port (o_outs b)); [|now split].
  apply alike_bind with h g; auto; try (apply emit_port_keeps; auto; apply exec_keeps).
  - apply emit_port_alike; auto. apply Hc.
  - intros x h1 g1 W1 W2 E A1. apply IHm; auto. eapply closed_same; eauto.
Qed.
End Emit.

Lemma exec_alike n : forall ctl id h g, wf_heap h -> wf_heap g -> closed P h -> P id -> agree h g ->
  alike (exec n ctl id h) (exec n ctl id g).
Proof.
  induction n as [|n IH]; intros ctl id h g Wh Wg C Hp A; [now split|]. cbn [exec]. pose proof (A _ Hp) as Eg. rewrite Eg.
  destruct (sfind id h) as [o|] eqn:Ho; [|now split].
  pose proof (exec_local_erase (exec n) (exec_keeps n) ctl o (proj2 Wh _ _ Ho)) as X.
  destruct (exec_local (exec n) ctl o) as [r o']. cbn [snd] in X.
  assert (A' : agree (sset id o' h) (sset id o' g)) by now apply agree_sset.
  destruct r; try (now split).
  assert (Kh : erase_heap (sset id o' h) = erase_heap h) by (eapply erase_heap_sset; eauto).
  assert (Kg : erase_heap (sset id o' g) = erase_heap g) by (eapply erase_heap_sset; eauto).
  apply emit_op_alike; auto.
  - intros port c Hc. apply (C id); auto. exists port, (snd c).
    rewrite (wires_here h id o) by auto. rewrite <- erase_conns, <- X, erase_conns. now destruct c.
  - now apply (wf_heap_same h).
  - now apply (wf_heap_same g).
  - eapply closed_same; eauto.
Qed.
End Depends.

(** ** What is returned names only operators that can be reached *)

Lemma mentions_collate P l : mentions P l -> forall id, ~ P id -> sfind id (collate l) = None.
Proof.
  intros M id N. induction l as [|x l IH] using rev_ind; [reflexivity|].
  apply Forall_app in M as [M1 M2]. rewrite collate_app, merge_pm_find by apply collate_wf. rewrite (IH M1).
  apply Forall_inv in M2. destruct x; try reflexivity. cbn. destruct (String.eqb_spec id id0) as [->|]; [contradiction|reflexivity].
Qed.

Lemma exec_names P n ctl id h x h' : wf_heap h -> named h -> closed P h -> P id -> exec n ctl id h = (Ok x, h') ->
  wf_pm x /\ forall i, ~ P i -> sfind i x = None.
Proof.
  intros W N C Hp E. rewrite lexec_spec in E. unfold rmap in E. apply bind_ok in E as (l & s & El & E). injection E as <- <-.
  split; [apply collate_wf|]. eapply mentions_collate, log_mentions; eauto.
Qed.

Lemma execute1_names P n c h x h' : wf_heap h -> named h -> closed P h -> P (fst c) -> execute1 (exec n) c h = (Ok x, h') ->
  wf_pm x /\ forall i, ~ P i -> sfind i x = None.
Proof.
  intros W N C Hp E. destruct c as [dst port]. unfold execute1 in E. destruct (sfind dst h) as [o|]; [|discriminate E].
  destruct (is_data_input o port); [eapply exec_names; eauto|]. destruct (is_control_input o port); [eapply exec_names; eauto|].
  injection E as <- <-. split; [apply wf_pm_nil|reflexivity].
Qed.

Lemma merge_pm_swap (P : string -> Prop) out x y : wf_pm out -> wf_pm x -> wf_pm y ->
  (forall id, P id \/ ~ P id) -> (forall i, P i -> sfind i x = None) -> (forall i, ~ P i -> sfind i y = None) ->
  merge_pm (merge_pm out x) y = merge_pm (merge_pm out y) x.
Proof.
  intros Wo Wx Wy D Hx Hy. apply swf_ext; try (now apply merge_pm_wf, merge_pm_wf).
  intros id. rewrite !merge_pm_find by (auto using merge_pm_wf).
  destruct (D id) as [H|H]; [rewrite (Hx _ H)|rewrite (Hy _ H)]; destruct (sfind id out); cbn;
    try destruct (sfind id y); try destruct (sfind id x); reflexivity.
Qed.

(** ** Reachability *)

Lemma reachable_first h a x : reachable h a x -> x = a \/ exists b, wired h a b /\ reachable h b x.
Proof.
  induction 1 as [|b c H IH Hw]; [now left|]. right. destruct IH as [->|(d & W & R)].
  - exists c. split; [auto|constructor].
  - exists d. split; [auto|]. econstructor; eauto.
Qed.
Lemma reachable_step h a b x : wired h a b -> reachable h b x -> reachable h a x.
Proof. intros W. induction 1; [econstructor; eauto; constructor|econstructor; eauto]. Qed.

Definition successors (h : heap) (a : string) : list string :=
  match sfind a h with
  | Some o => flat_map (fun port => map fst (wires h a port)) (skeys (o_conns (op_base o)))
  | None => []
  end.
Lemma successors_spec h a b : In b (successors h a) <-> wired h a b.
Proof.
  unfold successors, wired, wires. destruct (sfind a h) as [o|]; [|split; [intros []|intros (? & ? & [])]].
  rewrite in_flat_map. split.
  - intros (port & _ & H). apply in_map_iff in H as ((b' & p) & <- & H). exists port, p. exact H.
  - intros (port & p & H). exists port. split; [|apply in_map_iff; exists (b, p); auto].
    destruct (sfind port (o_conns (op_base o))) eqn:E; [|destruct H]. eapply sfind_In_key; eauto.
Qed.

Lemma any_dec {A} (Q : A -> Prop) l : (forall a, In a l -> Q a \/ ~ Q a) -> (exists a, In a l /\ Q a) \/ ~ (exists a, In a l /\ Q a).
Proof.
  induction l as [|a l IH]; intros D; [right; intros (? & [] & _)|].
  destruct (D a (or_introl eq_refl)) as [H|H]; [left; exists a; cbn; auto|].
  destruct IH as [(b & I & Hb)|N]; [intros; apply D; now right|left; exists b; cbn; auto|].
  right. intros (b & [<-|I] & Hb); [contradiction|]. apply N. eauto.
Qed.

Lemma reachable_dec rank h : ranked rank h -> forall a x, reachable h a x \/ ~ reachable h a x.
Proof.
  intros Rk a x. remember (rank a) as k eqn:E. revert a E. induction k as [k IH] using (well_founded_ind lt_wf). intros a ->.
  destruct (string_dec x a) as [->|Na]; [left; constructor|].
  destruct (any_dec (fun b => reachable h b x) (successors h a)) as [(b & I & H)|N].
  - intros b I. apply successors_spec in I. apply (IH (rank b)); auto.
  - left. apply successors_spec in I. eapply reachable_step; eauto.
  - right. intros H. apply reachable_first in H as [H|(b & W & H)]; [contradiction|]. apply N. exists b. split; [now apply successors_spec|auto].
Qed.

Lemma ranked_reachable rank h : ranked rank h -> forall a b, reachable h a b -> b = a \/ (rank b < rank a)%nat.
Proof.
  intros Rk a b. induction 1 as [|b c H IH W]; [now left|]. right. apply Rk in W. destruct IH as [->|]; lia.
Qed.

(** in a forest, the operators before a given one form a chain *)
Lemma chain h : forest h -> forall a b x, reachable h a x -> reachable h b x -> reachable h a b \/ reachable h b a.
Proof.
  intros [U _] a b x Ha. revert b. induction Ha as [|y z Hy IH W]; intros b Hb; [now right|].
  inversion Hb as [|y' z' Hy' W']; subst; [left; econstructor; eauto|].
  rewrite (U _ _ _ W' W) in *. auto.
Qed.

Lemma siblings rank h : ranked rank h -> forest h -> forall a b c, wired h a b -> wired h a c -> b <> c ->
  forall x, reachable h b x -> reachable h c x -> False.
Proof.
  intros Rk F.
  assert (G : forall a b c, wired h a b -> wired h a c -> b <> c -> reachable h b c -> False).
  { intros a b c Wb Wc N H. inversion H as [|y z Hy W]; subst; [now apply N|].
    destruct F as [U _]. rewrite (U _ _ _ W Wc) in Hy. apply (ranked_reachable rank) in Hy; auto. apply Rk in Wb. destruct Hy; [subst|]; lia. }
  intros a b c Wb Wc N x Hb Hc. destruct (chain h F b c x Hb Hc); [eapply (G a b c)|eapply (G a c b)]; eauto.
Qed.

Lemma closed_reachable h a : closed (reachable h a) h.
Proof. intros x y H W. econstructor; eauto. Qed.

(** ** Exchanging two steps *)

Definition well (h : heap) : Prop := wf_heap h /\ named h.
Lemma well_same h h' : erase_heap h' = erase_heap h -> well h -> well h'.
Proof. intros E [W N]. split; [now apply (wf_heap_same h)|eapply named_same; eauto]. Qed.

Section Swap.
Context {A B : Type}.
Variable D : heap.
Variables P Q : string -> Prop.
Variable f : heap -> sres heap A.
Variable g : heap -> sres heap B.
Definition shaped (h : heap) : Prop := well h /\ erase_heap h = D.
Hypothesis P_dec : forall id, P id \/ ~ P id.
Hypothesis Q_dec : forall id, Q id \/ ~ Q id.
Hypothesis apart : forall id, P id -> Q id -> False.
Hypothesis f_keeps : forall h, shaped h -> keeps h (f h).
Hypothesis g_keeps : forall h, shaped h -> keeps h (g h).
Hypothesis f_off : forall h, shaped h -> off P h (f h).
Hypothesis g_off : forall h, shaped h -> off Q h (g h).
Hypothesis f_alike : forall h h', shaped h -> shaped h' -> agree P h h' -> alike P (f h) (f h').
Hypothesis g_alike : forall h h', shaped h -> shaped h' -> agree Q h h' -> alike Q (g h) (g h').

Lemma shaped_keeps {C} h (x : sres heap C) : shaped h -> keeps h x -> shaped (snd x).
Proof. intros [W E] K. unfold keeps in K. split; [now apply (well_same h)|congruence]. Qed.

Lemma swap_steps h a h1 b h2 : shaped h -> f h = (Ok a, h1) -> g h1 = (Ok b, h2) ->
  exists h1', g h = (Ok b, h1') /\ f h1' = (Ok a, h2).
Proof.
  intros S Ef Eg.
  assert (S1 : shaped h1) by (pose proof (shaped_keeps h _ S (f_keeps h S)) as X; now rewrite Ef in X).
  assert (S2 : shaped h2) by (pose proof (shaped_keeps h1 _ S1 (g_keeps h1 S1)) as X; now rewrite Eg in X).
  pose proof (f_off h S) as Of. rewrite Ef in Of. pose proof (g_off h1 S1) as Og. rewrite Eg in Og. unfold off in Of, Og. cbn [snd] in Of, Og.
  assert (A1 : agree Q h1 h). { intros id Hq. symmetry. apply Of. intros Hp. eauto. }
  destruct (g_alike h1 h S1 S A1) as [G1 G2]. rewrite Eg in G1, G2. cbn [fst snd] in G1, G2.
  pose proof (g_off h S) as Og'. pose proof (shaped_keeps h _ S (g_keeps h S)) as S1'.
  destruct (g h) as [rb h1']. cbn [fst snd] in *. subst rb. exists h1'. split; [reflexivity|]. unfold off in Og'. cbn [snd] in Og'.
  assert (A2 : agree P h h1'). { intros id Hp. apply Og'. intros Hq. eauto. }
  destruct (f_alike h h1' S S1' A2) as [F1 F2]. rewrite Ef in F1, F2. cbn [fst snd] in F1, F2.
  pose proof (f_off h1' S1') as Of'. pose proof (shaped_keeps h1' _ S1' (f_keeps h1' S1')) as S2'.
  destruct (f h1') as [ra h2']. cbn [fst snd] in *. subst ra. f_equal. unfold off in Of'. cbn [snd] in Of'.
  apply swf_ext; [apply S2'|apply S2|]. intros id. destruct (Q_dec id) as [Hq|Hq].
  - rewrite Of' by (intros Hp; eauto). apply (G2 id Hq).
  - rewrite (Og id Hq). destruct (P_dec id) as [Hp|Hp]; [apply (F2 id Hp)|]. now rewrite Of', Og', Of.
Qed.
End Swap.

(** ** Permuting the receivers *)

Lemma NoDup_perm {A} (l l' : list A) : Permutation l l' -> NoDup l -> NoDup l'.
Proof. apply Permutation_NoDup. Qed.

Lemma deliver_perm n m cs cs' : Permutation cs cs' -> NoDup (map fst cs) ->
  forall h h', well h -> deliver n m cs h = (Ok tt, h') -> deliver n m cs' h = (Ok tt, h').
Proof.
  induction 1 as [|c cs cs' Hp IH|c d cs|cs1 cs2 cs3 H1 IH1 H2 IH2]; intros ND h h' W E; auto.
  - cbn [deliver map] in *. apply bind_ok in E as ([] & h1 & E1 & E). rewrite E1. cbn [bind sbind].
    apply IH; auto; [now inversion ND|]. pose proof (deliver1_keeps n m c h (proj1 W)) as K. rewrite E1 in K.
    eapply well_same; [exact K|exact W].
  - cbn [deliver map] in *. apply bind_ok in E as ([] & h1 & E1 & E). apply bind_ok in E as ([] & h2 & E2 & E).
    assert (N : fst d <> fst c). { inversion ND as [|? ? N _]; subst. intros X. apply N. now left. }
    assert (X : exists h1', deliver1 n m c h = (Ok tt, h1') /\ deliver1 n m d h1' = (Ok tt, h2)).
    { apply (swap_steps (erase_heap h) (fun i => i = fst d) (fun i => i = fst c) (deliver1 n m d) (deliver1 n m c)) with h1; auto;
        try (intros g [G _]; apply deliver1_keeps, G); try (intros; now apply deliver1_off); try (intros; now apply deliver1_alike);
        try (intros i; destruct (string_dec i (fst d)); auto; fail); try (intros i; destruct (string_dec i (fst c)); auto; fail).
      - intros i -> X. contradiction.
      - split; auto. }
    destruct X as (h1' & -> & X). cbn [bind sbind]. rewrite X. exact E.
  - apply IH2; auto. eapply NoDup_perm; [|exact ND]. now apply Permutation_map.
Qed.

(** siblings without common descendants *)
Definition apart (h : heap) (cs : list (string * string)) : Prop :=
  NoDup (map fst cs) /\
  forall b c, In b (map fst cs) -> In c (map fst cs) -> b <> c -> forall x, reachable h b x -> reachable h c x -> False.

Lemma apart_perm h cs cs' : Permutation cs cs' -> apart h cs -> apart h cs'.
Proof.
  intros P [N A]. apply (Permutation_map fst) in P. split; [eapply NoDup_perm; eauto|].
  intros b c Hb Hc. apply A; eapply Permutation_in; try (apply Permutation_sym, P); auto.
Qed.
Lemma apart_tail h c cs : apart h (c :: cs) -> apart h cs.
Proof. intros [N A]. split; [now inversion N|]. intros. eapply A; eauto; now right. Qed.
Lemma apart_same h h' cs : erase_heap h' = erase_heap h -> apart h cs -> apart h' cs.
Proof. intros E [N A]. split; [exact N|]. intros b c Hb Hc Nb x Rb Rc. apply (A b c Hb Hc Nb x); eapply reachable_same; eauto. Qed.
Lemma ranked_same rank h h' : erase_heap h' = erase_heap h -> ranked rank h -> ranked rank h'.
Proof. intros E R a b W. apply R. eapply wired_same; eauto. Qed.

Lemma execute_all_perm rank n cs cs' : Permutation cs cs' ->
  forall out h r h', well h -> ranked rank h -> apart h cs -> wf_pm out ->
  execute_all (exec n) cs out h = (Ok r, h') -> execute_all (exec n) cs' out h = (Ok r, h').
Proof.
  induction 1 as [|c cs cs' Hp IH|c d cs|cs1 cs2 cs3 H1 IH1 H2 IH2]; intros out h r h' W Rk Ap Wo E; auto.
  - cbn [execute_all] in *. apply bind_ok in E as (x & h1 & E1 & E). rewrite E1. cbn [bind sbind].
    pose proof (execute1_keeps (exec n) (exec_keeps n) c h (proj1 W)) as K. rewrite E1 in K. unfold keeps in K. cbn [snd] in K.
    apply IH; auto; [eapply well_same; eauto|eapply ranked_same; eauto|eapply apart_same; eauto; eapply apart_tail; eauto|].
    now apply merge_pm_wf.
  - cbn [execute_all] in *. apply bind_ok in E as (x & h1 & E1 & E). apply bind_ok in E as (y & h2 & E2 & E).
    pose proof (execute1_keeps (exec n) (exec_keeps n) d h (proj1 W)) as K1. rewrite E1 in K1. unfold keeps in K1. cbn [snd] in K1.
    pose proof (well_same h h1 K1 W) as W1.
    destruct Ap as [ND Ap]. cbn [map] in *.
    assert (N : fst d <> fst c). { inversion ND as [|? ? N _]; subst. intros X. apply N. now left. }
    assert (Dis : forall i, reachable h (fst d) i -> reachable h (fst c) i -> False).
    { intros i. apply Ap; cbn; auto. }
    assert (CL : forall a h0, erase_heap h0 = erase_heap h -> closed (reachable h a) h0).
    { intros a h0 E0. eapply closed_same; [apply closed_reachable|exact E0]. }
    assert (X : exists h1', execute1 (exec n) c h = (Ok y, h1') /\ execute1 (exec n) d h1' = (Ok x, h2)).
    { apply (swap_steps (erase_heap h) (reachable h (fst d)) (reachable h (fst c)) (execute1 (exec n) d) (execute1 (exec n) c)) with h1; auto;
        try (apply (reachable_dec rank); exact Rk).
      - intros g [G _]. apply execute1_keeps; [apply exec_keeps|apply G].
      - intros g [G _]. apply execute1_keeps; [apply exec_keeps|apply G].
      - intros g [G Eg]. apply execute1_off; auto; [|apply G|constructor]. intros; now apply exec_off.
      - intros g [G Eg]. apply execute1_off; auto; [|apply G|constructor]. intros; now apply exec_off.
      - intros g g' [G Eg] [G' Eg'] Ag. apply execute1_alike; auto; [|apply G|apply G'|constructor]. intros; now apply exec_alike.
      - intros g g' [G Eg] [G' Eg'] Ag. apply execute1_alike; auto; [|apply G|apply G'|constructor]. intros; now apply exec_alike.
      - split; auto. }
    destruct X as (h1' & X1 & X2). rewrite X1. cbn [bind sbind]. rewrite X2. cbn [bind sbind].
    destruct (execute1_names (reachable h (fst d)) n d h x h1 (proj1 W) (proj2 W) (CL _ _ eq_refl) (reach_here _ _) E1) as [Wx Nx].
    destruct (execute1_names (reachable h (fst c)) n c h y h1' (proj1 W) (proj2 W) (CL _ _ eq_refl) (reach_here _ _) X1) as [Wy Ny].
    rewrite <- (merge_pm_swap (reachable h (fst c)) out x y); auto; [apply (reachable_dec rank); exact Rk|].
    intros i Hi. apply Nx. intros Hd. eauto.
  - apply IH2; auto. eapply apart_perm; eauto.
Qed.

(** ** Other orders of the connections *)

Section Rewire.
Variable rank : string -> nat.
Variable table : string -> smap (list (string * string)).

Definition rewire (h : heap) : heap := map (fun x => (fst x, with_conns (table (fst x)) (snd x))) h.

Lemma sfind_rewire a h : sfind a (rewire h) = option_map (with_conns (table a)) (sfind a h).
Proof.
  induction h as [|[k o] h IH]; [reflexivity|]. cbn. destruct (String.eqb_spec a k) as [->|]; [reflexivity|exact IH].
Qed.
Lemma rewire_sset a o h : rewire (sset a o h) = sset a (with_conns (table a) o) (rewire h).
Proof.
  induction h as [|[k v] h IH]; cbn; [reflexivity|]. destruct (String.eqb_spec a k) as [->|]; [reflexivity|].
  destruct (sltb a k); [reflexivity|]. cbn. unfold rewire in IH. now rewrite IH.
Qed.

(** the table lists the connections of the program, in some order *)
Definition listing (h : heap) : Prop :=
  well h /\ ranked rank h /\ forest h /\
  forall a port, sfind a h <> None -> Permutation (wires h a port) (odefault [] (sfind port (table a))).

Lemma listing_same h h' : erase_heap h' = erase_heap h -> listing h -> listing h'.
Proof.
  intros E (W & R & [F1 F2] & L). split; [eapply well_same; eauto|]. split; [eapply ranked_same; eauto|]. split.
  - split; [|intros; rewrite (wires_same h h'); auto]. intros a a' b H1 H2. eapply F1; eapply wired_same; eauto.
  - intros a port N. rewrite (wires_same h h') by auto. apply L. intros X. apply N.
    pose proof (f_equal (sfind a) E) as Y. rewrite !sfind_erase, X in Y. destruct (sfind a h'); [discriminate Y|reflexivity].
Qed.

Definition follows {A} (x y : sres heap A) : Prop := forall a h, x = (Ok a, h) -> y = (Ok a, rewire h).

Lemma follows_ret {A} (r : res A) h : follows (r, h) (r, rewire h).
Proof. intros a h1 E. now injection E as -> <-. Qed.

Lemma follows_bind {A B} h (x y : sres heap A) (k k' : A -> heap -> sres heap B) :
  listing h -> keeps h x -> follows x y -> (forall a h1, listing h1 -> erase_heap h1 = erase_heap h -> follows (k a h1) (k' a (rewire h1))) -> follows (bind x k) (bind y k').
Proof.
  intros L K F H b h2 E. apply bind_ok in E as (a & h1 & E1 & E). rewrite (F _ _ E1). cbn [bind sbind].
  rewrite E1 in K. apply H; auto. eapply listing_same; eauto.
Qed.

Lemma deliver1_follows n m c h : follows (deliver1 n m c h) (deliver1 n m c (rewire h)).
Proof.
  destruct c as [dst port]. unfold deliver1. rewrite sfind_rewire. destruct (sfind dst h) as [o|]; cbn [option_map]; [|intros ? ? E; discriminate E].
  change (is_data_input (with_conns (table dst) o) port) with (is_data_input o port).
  change (is_control_input (with_conns (table dst) o) port) with (is_control_input o port).
  destruct (is_data_input o port).
  - rewrite recv_data_any. destruct (recv_data n o m port) as [r o']. cbn [fst snd]. rewrite <- rewire_sset. apply follows_ret.
  - destruct (is_control_input o port); [|apply follows_ret].
    pose proof (recv_ctrl_conns (table dst) o m port) as X. unfold simo in X. rewrite X.
    destruct (recv_ctrl_local o m port) as [r o']. cbn [fst snd]. rewrite <- rewire_sset. apply follows_ret.
Qed.

Lemma deliver_follows n m cs : forall h, listing h -> follows (deliver n m cs h) (deliver n m cs (rewire h)).
Proof.
  induction cs as [|c cs IH]; intros h L; cbn [deliver]; [apply follows_ret|].
  eapply follows_bind; eauto; [apply deliver1_keeps, L|apply deliver1_follows].
Qed.

Section Emit.
Variable n : nat.
Hypothesis IH : forall ctl id h, listing h -> follows (exec n ctl id h) (exec n ctl id (rewire h)).

Lemma execute1_follows c h : listing h -> follows (execute1 (exec n) c h) (execute1 (exec n) c (rewire h)).
Proof.
  intros L. destruct c as [dst port]. unfold execute1. rewrite sfind_rewire. destruct (sfind dst h) as [o|]; cbn [option_map]; [|intros ? ? E; discriminate E].
  change (is_data_input (with_conns (table dst) o) port) with (is_data_input o port).
  change (is_control_input (with_conns (table dst) o) port) with (is_control_input o port).
  destruct (is_data_input o port); auto. destruct (is_control_input o port); auto. apply follows_ret.
Qed.

Lemma execute_all_follows cs : forall out h, listing h -> follows (execute_all (exec n) cs out h) (execute_all (exec n) cs out (rewire h)).
Proof.
  induction cs as [|c cs IHc]; intros out h L; cbn [execute_all]; [apply follows_ret|].
  eapply follows_bind; eauto; [apply execute1_keeps; [apply exec_keeps|apply L]|now apply execute1_follows].
Qed.

(** the two versions of an operator *)
Definition versions (h : heap) (b b' : base) : Prop :=
  o_id b' = o_id b /\ o_outs b' = o_outs b /\
  forall port, Permutation (odefault [] (sfind port (o_conns b))) (odefault [] (sfind port (o_conns b'))) /\
    apart h (odefault [] (sfind port (o_conns b))).
Lemma versions_same h h' b b' : erase_heap h' = erase_heap h -> versions h b b' -> versions h' b b'.
Proof. intros E (H1 & H2 & H3). split; [auto|]. split; [auto|]. intros port. destruct (H3 port). split; auto. eapply apart_same; eauto. Qed.

Lemma emit_msg_follows b b' port m h : listing h -> versions h b b' -> follows (emit_msg (exec n) n b port m h) (emit_msg (exec n) n b' port m (rewire h)).
Proof.
  intros L (Ei & _ & V). destruct (V port) as [Pm Ap].
  assert (X : forall b h, emit_msg (exec n) n b port m h = (do! (_u, h1) <- deliver n m (odefault [] (sfind port (o_conns b))) h;
            execute_all (exec n) (odefault [] (sfind port (o_conns b))) [(o_id b, [(port, [m])])] h1)).
  { intros b0 h0. unfold emit_msg. destruct (sfind port (o_conns b0)); reflexivity. }
  rewrite !X, Ei. clear X. revert Pm Ap. generalize (odefault [] (sfind port (o_conns b))), (odefault [] (sfind port (o_conns b'))).
  intros cs cs' Pm Ap r h2 E. apply bind_ok in E as ([] & h1 & E1 & E).
  pose proof (deliver_keeps n m cs h (proj1 (proj1 L))) as K. rewrite E1 in K. unfold keeps in K. cbn [snd] in K.
  apply (deliver_perm n m cs cs' Pm (proj1 Ap)) in E1; [|apply L].
  rewrite (deliver_follows n m cs' h L _ _ E1). cbn [bind sbind].
  pose proof (listing_same h h1 K L) as L1.
  apply (execute_all_perm rank n cs cs' Pm) in E; try apply L1; [|eapply apart_same; eauto|apply wf_pm_one].
  apply (execute_all_follows cs'); auto.
Qed.

Lemma emit_port_follows b b' port ms : forall out h, listing h -> versions h b b' ->
  follows (emit_port (exec n) n b port ms out h) (emit_port (exec n) n b' port ms out (rewire h)).
Proof.
  induction ms as [|m ms IHm]; intros out h L V; cbn [emit_port]; [apply follows_ret|].
  eapply follows_bind; eauto; [apply emit_msg_keeps; [apply exec_keeps|apply L]|now apply emit_msg_follows|].
  intros a h1 L1 E. apply IHm; auto. eapply versions_same; eauto.
Qed.

Lemma emit_op_follows b b' oms : forall out h, listing h -> versions h b b' ->
  follows (emit_op (exec n) n b oms out h) (emit_op (exec n) n b' oms out (rewire h)).
Proof.
  induction oms as [|[port ms] oms IHm]; intros out h L V; cbn [emit_op]; [apply follows_ret|].
  rewrite (proj1 (proj2 V)). destruct (sset_mem port (o_outs b)); [|intros ? ? E; discriminate E].
  eapply follows_bind; eauto; [apply emit_port_keeps; [apply exec_keeps|apply L]|now apply emit_port_follows|].
  intros a h1 L1 E. apply IHm; auto. eapply versions_same; eauto.
Qed.
End Emit.

Lemma exec_follows n : forall ctl id h, listing h -> follows (exec n ctl id h) (exec n ctl id (rewire h)).
Proof.
  induction n as [|n IH]; intros ctl id h L; [intros ? ? E; discriminate E|]. cbn [exec].
  rewrite sfind_rewire. destruct (sfind id h) as [o|] eqn:Ho; cbn [option_map]; [|intros ? ? E; discriminate E].
  rewrite exec_local_any.
  pose proof (exec_local_erase (exec n) (exec_keeps n) ctl o (proj2 (proj1 (proj1 L)) _ _ Ho)) as X.
  destruct (exec_local (exec n) ctl o) as [r o']. cbn [fst snd] in *.
  destruct r as [out| | | |]; try (intros ? ? E; discriminate E). rewrite <- rewire_sset.
  assert (K : erase_heap (sset id o' h) = erase_heap h) by (eapply erase_heap_sset; eauto; apply L).
  apply emit_op_follows; auto; [eapply listing_same; eauto|].
  destruct o' as [b' k']. cbn [with_conns op_base]. split; [reflexivity|]. split; [reflexivity|].
  destruct L as (W & Rk & F & L). assert (N : sfind id h <> None) by congruence.
  assert (Y : forall port, odefault [] (sfind port (o_conns b')) = wires h id port).
  { intros port. rewrite (wires_here h id o) by auto. rewrite <- (erase_conns o), <- X, erase_conns. reflexivity. }
  intros port. rewrite Y. split; [apply (L id port N)|]. apply (apart_same h); auto. split; [apply F|].
  intros b c Hb Hc Nb. apply in_map_iff in Hb as ([b1 p1] & <- & Hb), Hc as ([c1 q1] & <- & Hc).
  apply (siblings rank h Rk F id); auto; [exists port, p1|exists port, q1]; auto.
Qed.

Lemma send1_follows n ep port m h : listing h -> follows (send1 n ep port m h) (send1 n ep port m (rewire h)).
Proof.
  intros L. unfold send1. rewrite sfind_rewire. destruct (sfind ep h) as [o|] eqn:Ho; cbn [option_map]; [|intros ? ? E; discriminate E].
  rewrite recv_data_any. pose proof (recv_data_erase n o m port (proj2 (proj1 (proj1 L)) _ _ Ho)) as X.
  destruct (recv_data n o m port) as [r o']. cbn [fst snd] in *.
  destruct r as [out| | | |]; try (intros ? ? E; discriminate E). rewrite <- rewire_sset. apply exec_follows.
  apply (listing_same h); [|exact L]. eapply erase_heap_sset; eauto; apply L.
Qed.

Lemma send_port_follows n ep port ms : forall out h, listing h -> follows (send_port n ep port ms out h) (send_port n ep port ms out (rewire h)).
Proof.
  induction ms as [|m ms IH]; intros out h L; cbn [send_port]; [apply follows_ret|].
  eapply follows_bind; eauto; [apply send1_keeps, L|now apply send1_follows].
Qed.

Lemma send_batch_follows n ep batch : forall out h, listing h -> follows (send_batch n ep batch out h) (send_batch n ep batch out (rewire h)).
Proof.
  induction batch as [|[port ms] batch IH]; intros out h L; cbn [send_batch]; [apply follows_ret|].
  eapply follows_bind; eauto; [apply send_port_keeps, L|now apply send_port_follows].
Qed.
End Rewire.

(** ** Any two heaps that differ in the order of connections *)

Definition conns_at (h : heap) (id : string) : smap (list (string * string)) :=
  match sfind id h with Some o => o_conns (op_base o) | None => [] end.

Lemma unwired_conns o o' : unwired o' = unwired o -> o' = with_conns (o_conns (op_base o')) o.
Proof. destruct o as [b k], o' as [b' k']. unfold unwired. intros [= E1 E2 E3 E4 E5 E6]. cbn. destruct b, b'. cbn in *. now subst. Qed.

Lemma rewire_alist (t : string -> smap (list (string * string))) (h : heap) : forall h' : heap,
  skeys h' = skeys h -> NoDup (skeys h) ->
  (forall id o o', sfind id h = Some o -> sfind id h' = Some o' -> o' = with_conns (t id) o) -> h' = rewire t h.
Proof.
  induction h as [|[k o] h IH]; intros [|[k' o'] h'] E ND H; try discriminate E; [reflexivity|].
  cbn [skeys map fst] in E. injection E as -> E. inversion ND as [|? ? N1 N2]; subst. cbn [rewire map fst snd].
  f_equal.
  - f_equal. apply H; cbn; now rewrite String.eqb_refl.
  - apply IH; auto. intros id a a' Ha Ha'. apply H; cbn.
    + destruct (String.eqb_spec id k) as [->|]; [|exact Ha]. exfalso. apply N1. eapply sfind_In_key; eauto.
    + destruct (String.eqb_spec id k) as [->|]; [|exact Ha']. exfalso. apply N1. eapply sfind_In_key; eauto.
Qed.

Lemma reordered_rewire rank h h' : well h -> ranked rank h -> forest h -> reordered h h' ->
  h' = rewire (conns_at h') h /\ listing rank (conns_at h') h.
Proof.
  intros W Rk F [K R]. split.
  - apply rewire_alist; auto; [apply swf_NoDup, W|]. intros id o o' Ho Ho'. destruct (R _ _ _ Ho Ho') as [U _].
    unfold conns_at. rewrite Ho'. now apply unwired_conns.
  - split; [exact W|]. split; [exact Rk|]. split; [exact F|]. intros a port N.
    destruct (sfind a h) as [o|] eqn:Ho; [|contradiction]. destruct (sfind a h') as [o'|] eqn:Ho'.
    + destruct (R _ _ _ Ho Ho') as [_ P]. specialize (P port). unfold wires, conns_at. rewrite Ho, Ho'. exact P.
    + exfalso. apply sfind_In_key in Ho. rewrite <- K in Ho. apply In_skeys_sfind in Ho as [v Hv]. congruence.
Qed.

Lemma rewire_reordered rank t h : listing rank t h -> reordered h (rewire t h).
Proof.
  intros (_ & _ & _ & L). split; [unfold rewire, skeys; rewrite map_map; reflexivity|].
  intros id o o' Ho Ho'. rewrite sfind_rewire, Ho in Ho'. cbn in Ho'. injection Ho' as <-. split; [destruct o as [[] ?]; reflexivity|].
  intros port. specialize (L id port). unfold wires in L. rewrite Ho in L. apply L. discriminate.
Qed.

Theorem send_batch_reordered rank n ep batch out h h' r h1 :
  well h -> ranked rank h -> forest h -> reordered h h' -> send_batch n ep batch out h = (Ok r, h1) ->
  exists h1', send_batch n ep batch out h' = (Ok r, h1') /\ reordered h1 h1' /\ erase_heap h1 = erase_heap h.
Proof.
  intros W Rk F R E. destruct (reordered_rewire rank h h' W Rk F R) as [Eh L]. revert Eh L. generalize (conns_at h'). intros t -> L.
  exists (rewire t h1). split; [eapply send_batch_follows; eauto|].
  pose proof (send_batch_keeps n ep batch out h (proj1 W)) as K. rewrite E in K. unfold keeps in K. cbn [snd] in K.
  split; [|exact K]. eapply rewire_reordered, listing_same; eauto.
Qed.

End Forest.
