(** * Conditions on the connections of a program, decided by looking at all of them *)

From Coq Require Import String ZArith Bool List Lia Sorted.
From Verif Require Import Base.StrMap Base.Num Model.Core Model.Ops Model.Make Model.Run Model.Graph.
From Verif Require Import Spec.Streams Spec.Operators Spec.Build Spec.Snapshot Spec.Preserving Spec.Filter Spec.Log Spec.Windows Spec.Synchronous.
From Verif Require Import Proofs.Ports Proofs.Lists Proofs.JsonP.
From Verif Require Properties.Order Properties.Graph.
Import ListNotations.
Open Scope string_scope.
Open Scope list_scope.
Open Scope Z_scope.
Open Scope rtbot_scope.

Section Wiring.
Context {NO : NumOps}.

Definition feeds := @Properties.Order.feeds NO.

Fixpoint distinct (l : list (string * string)) : bool :=
  match l with
  | [] => true
  | x :: r => negb (existsb (fun y => String.eqb (fst x) (fst y) && String.eqb (snd x) (snd y)) r) && distinct r
  end.

Lemma distinct_NoDup l : distinct l = true -> NoDup l.
Proof.
  induction l as [|x l IH]; intros H; [constructor|]. cbn in H. apply andb_true_iff in H as [H1 H2]. constructor; auto.
  intros Hx. apply negb_true_iff in H1. assert (Y : existsb (fun y => String.eqb (fst x) (fst y) && String.eqb (snd x) (snd y)) l = true); [|congruence].
  apply existsb_exists. exists x. split; auto. now rewrite !String.eqb_refl.
Qed.

Lemma NoDup_part {A B} (f : A -> B) l1 l2 l3 : NoDup (map f (l1 ++ l2 ++ l3)) -> NoDup (map f l2).
Proof.
  rewrite !map_app. intros H. assert (X : forall (a b : list B), NoDup (a ++ b) -> NoDup a /\ NoDup b).
  { induction a as [|x a IH]; intros b N; [split; [constructor|exact N]|]. cbn in N. inversion N as [|? ? N1 N2]; subst.
    destruct (IH b N2). split; auto. constructor; auto. intros Hx. apply N1, in_or_app. auto. }
  apply X in H as [_ H]. now apply X in H as [H _].
Qed.

Lemma one_feed_check h : distinct (map fst (feeds h)) = true -> one_feed h.
Proof.
  intros H. apply distinct_NoDup in H. split.
  - intros id port s1 s2 H1 H2. apply Properties.Order.feeds_fed in H1, H2. clear - H H1 H2. unfold feeds in H.
    induction (Properties.Order.feeds h) as [|x l IH]; [destruct H1|]. cbn in H. inversion H as [|? ? N D]; subst.
    destruct H1 as [->|H1], H2 as [H2|H2].
    + congruence.
    + exfalso. apply N. apply in_map_iff. exists (id, port, s2). auto.
    + subst x. exfalso. apply N. apply in_map_iff. exists (id, port, s1). auto.
    + auto.
  - intros id port. unfold wires. destruct (sfind id h) as [o|] eqn:F; [|constructor]. destruct (sfind port (o_conns (op_base o))) as [cs|] eqn:F2; [|constructor].
    cbn. apply sfind_In in F, F2. apply in_split in F as (h1 & h2 & ->). unfold feeds, Properties.Order.feeds in H.
    rewrite flat_map_app in H. cbn [flat_map] in H. apply NoDup_part in H. cbn [fst snd] in H. apply in_split in F2 as (c1 & c2 & E). rewrite E in H.
    rewrite flat_map_app in H. cbn [flat_map] in H. apply NoDup_part in H. cbn [fst snd] in H. rewrite map_map in H. cbn in H. now rewrite map_id in H.
Qed.

Lemma ranked_check rank h : forallb (fun f => Nat.ltb (rank (fst (fst f))) (rank (fst (snd f)))) (feeds h) = true -> ranked rank h.
Proof.
  intros H a b (port & q & Hin). assert (F : fed_by h b q (a, port)) by exact Hin. apply Properties.Order.feeds_fed in F.
  rewrite forallb_forall in H. specialize (H _ F). cbn in H. now apply Nat.ltb_lt in H.
Qed.

Lemma named_check h : forallb (fun x => String.eqb (o_id (op_base (snd x))) (fst x)) h = true -> named h.
Proof.
  intros H id o F. apply sfind_In in F. rewrite forallb_forall in H. specialize (H _ F). cbn in H. now apply String.eqb_eq in H.
Qed.

(** ** Calls whose answers are filtered *)

Lemma session_receive_all n batches : forall p, Forall (fun r => exists out, r = Ok out) (fst (session n p batches)) ->
  exists rs, receive_all n p batches = (Ok rs, snd (session n p batches)).
Proof.
  induction batches as [|b bs IH]; intros p A; [exists []; reflexivity|]. cbn [session] in *.
  destruct (receive n p b) as [r p1] eqn:E. destruct (session n p1 bs) as [rs p2] eqn:E2. cbn [fst snd] in *.
  inversion A as [|? ? (out & ->) A2]; subst. unfold receive in E. destruct (receive_debug n p b) as [[d| | | |] p1'] eqn:Ed; try discriminate E.
  apply (f_equal snd) in E as Ep. cbn in Ep. subst p1'. cbn [receive_all]. rewrite Ed. cbn [bind sbind]. unfold sbind.
  specialize (IH p1). rewrite E2 in IH. destruct (IH A2) as (rs' & ->). cbn [snd]. exists (d :: rs'). reflexivity.
Qed.

Lemma receive_filter n p b : p_filter (snd (receive n p b)) = p_filter p.
Proof.
  unfold receive, receive_debug. destruct (shas (p_entry p) (p_ops p)); [|reflexivity].
  destruct (send_batch n (p_entry p) b [] (p_ops p)) as [[r| | | |] h]; reflexivity.
Qed.

Lemma entry_at_result r id port : result_at r id port = odefault [] (entry_at r id port).
Proof. unfold result_at, entry_at. destruct (sfind id r) as [om|]; reflexivity. Qed.

Lemma answered_stream n batches : forall p rs p', p_filter p <> [] -> swf (p_filter p) ->
  (forall id ports, sfind id (p_filter p) = Some ports -> NoDup ports) ->
  receive_all n p batches = (Ok rs, p') ->
  forall id port, listed (p_filter p) id port = true -> answered (fst (session n p batches)) id port = stream rs id port.
Proof.
  induction batches as [|b bs IH]; intros p rs p' Ne W Nd E id port L; [cbn in E; injection E as <- _; reflexivity|].
  cbn [receive_all] in E. destruct (receive_debug n p b) as [[d| | | |] p1] eqn:Ed; try discriminate E.
  cbn [bind sbind] in E. destruct (receive_all n p1 bs) as [[ds| | | |] p2] eqn:E2; cbn in E; try discriminate E. apply pair_equal_spec in E as [E <-]. apply Ok_inj in E. subst rs.
  destruct (Properties.Graph.C36_restricts_partial n p b d p1 Ne W Nd Ed) as (d' & Er & Q & _).
  cbn [session]. rewrite Er. pose proof (receive_filter n p b) as Ef. rewrite Er in Ef. cbn [snd] in Ef.
  destruct (session n p1 bs) as [ss p3] eqn:Es. cbn [fst]. unfold answered, stream in *. cbn [flat_map].
  rewrite (entry_at_result d'), Q, L, <- entry_at_result. f_equal.
  specialize (IH p1 ds p2). rewrite Ef, Es in IH. cbn [fst] in IH. now apply IH.
Qed.

End Wiring.
