(** * Facts about lists, prefixes and histories. *)

From Coq Require Import String ZArith Bool List Lia Sorted.
From Verif Require Import Base.StrMap Base.Num Model.Core Model.Run Spec.Streams.
Import ListNotations.
Open Scope list_scope.
Open Scope nat_scope.

Section Lists.
Context {A : Type}.
Implicit Types l : list A.

Lemma prefixes_app l1 l2 :
  prefixes (l1 ++ l2) = prefixes l1 ++ map (app l1) (prefixes l2).
Proof.
  induction l1 as [|x l1 IH]; cbn.
  - now rewrite map_id.
  - rewrite IH, map_app, map_map. reflexivity.
Qed.

Lemma prefixes_snoc l x : prefixes (l ++ [x]) = prefixes l ++ [l ++ [x]].
Proof. now rewrite prefixes_app. Qed.

Lemma prefixes_length l : length (prefixes l) = length l.
Proof. induction l; cbn; [|rewrite map_length]; auto. Qed.

Lemma lastn_length n l : length (lastn n l) = min n (length l).
Proof. unfold lastn. rewrite skipn_length. lia. Qed.

Lemma lastn_all n l : length l <= n -> lastn n l = l.
Proof. intros. unfold lastn. now replace (length l - n) with 0 by lia. Qed.

Lemma lastn_0 l : lastn 0 l = [].
Proof. unfold lastn. rewrite Nat.sub_0_r. apply skipn_all. Qed.

Lemma lastn_snoc n l x : lastn (S n) (l ++ [x]) = lastn n l ++ [x].
Proof.
  unfold lastn. rewrite app_length, skipn_app. cbn.
  replace (length l + 1 - S n) with (length l - n) by lia.
  replace (length l - n - length l) with 0 by lia. reflexivity.
Qed.

Lemma skipn_S_tl n l : skipn (S n) l = tl (skipn n l).
Proof.
  revert l. induction n as [|n IH]; intros [|x l]; auto.
  change (skipn (S n) l = tl (skipn n l)). apply IH.
Qed.

Lemma lastn_S_tl n l : n < length l -> lastn n l = tl (lastn (S n) l).
Proof.
  intros. unfold lastn. rewrite <- skipn_S_tl. f_equal. lia.
Qed.

Lemma lastn_last n l d : n <> 0 -> last (lastn n l) d = last l d.
Proof.
  intros Hn. destruct l as [|x l] using rev_ind.
  - unfold lastn. now rewrite skipn_nil.
  - destruct n; [lia|]. rewrite lastn_snoc. now rewrite !last_last.
Qed.

Lemma last_app_ne l l' d : l' <> [] -> last (l ++ l') d = last l' d.
Proof.
  intros H. destruct l' as [|x l'] using rev_ind; [congruence|]. now rewrite app_assoc, !last_last.
Qed.

Lemma lastn_decomp n l : l = firstn (length l - n) l ++ lastn n l.
Proof. symmetry. apply firstn_skipn. Qed.

Lemma lastn_In n l x : In x (lastn n l) -> In x l.
Proof. intros. rewrite (lastn_decomp n l). apply in_or_app. auto. Qed.

Lemma In_prefixes l p : In p (prefixes l) <-> p <> [] /\ exists s, l = p ++ s.
Proof.
  revert p. induction l as [|x l IH]; intros p; cbn.
  - split; [tauto|]. intros [Hp [s Hs]]. destruct p; cbn in *; congruence.
  - rewrite in_map_iff. split.
    + intros [<-|[q [<- Hq]]].
      * split; [congruence|]. now exists l.
      * apply IH in Hq as [_ [s ->]]. split; [congruence|]. now exists s.
    + intros [Hp [s Hs]]. destruct p as [|y p]; [congruence|]. cbn in Hs. inversion Hs; subst.
      destruct p as [|z p]; [now left|right]. exists (z :: p). split; [reflexivity|].
      apply IH. split; [congruence|]. now exists s.
Qed.
End Lists.

Section Hist.
Context {NO : NumOps}.

Lemma received_app e1 e2 : received (e1 ++ e2) = received e1 ++ received e2.
Proof. induction e1 as [|[] e1 IH]; cbn; try rewrite IH; auto. Qed.

Lemma pending_snoc evs e :
  pending (evs ++ [e]) = match e with EData _ _ => true | EExec => false | _ => pending evs end.
Proof. unfold pending. now rewrite fold_left_app. Qed.

Lemma answer_snoc f evs e :
  answer f (evs ++ [e]) =
  match e with EExec => if pending evs then f (received evs) else [] | _ => [] end.
Proof.
  unfold answer. rewrite rev_app_distr. cbn.
  destruct e; try reflexivity. rewrite rev_involutive, received_app. cbn. now rewrite app_nil_r.
Qed.

Lemma answers_snoc f evs e : answers f (evs ++ [e]) = answers f evs ++ [answer f (evs ++ [e])].
Proof. unfold answers. now rewrite prefixes_snoc, map_app. Qed.

Lemma one_input_snoc evs e : one_input (evs ++ [e]) -> one_input evs.
Proof. unfold one_input. rewrite Forall_app. tauto. Qed.

Lemma run_app : forall (o : op) e1 e2,
  run o (e1 ++ e2) =
  match run o e1 with
  | (Ok xs, o1) => match run o1 e2 with
                   | (Ok ys, o2) => (Ok (xs ++ ys), o2)
                   | r => r
                   end
  | r => r
  end.
Proof.
  intros o e1 e2. revert o. induction e1 as [|e e1 IH]; intros o; cbn.
  - destruct (run o e2) as [[] ?]; reflexivity.
  - unfold bind, sbind. destruct (step o e) as [[x| | | |] o1]; try reflexivity.
    rewrite IH. destruct (run o1 e1) as [[xs| | | |] o2]; try reflexivity.
    destruct (run o2 e2) as [[ys| | | |] o3]; reflexivity.
Qed.

Lemma run_snoc o evs e xs o1 :
  run o evs = (Ok xs, o1) ->
  run o (evs ++ [e]) =
  match step o1 e with
  | (Ok y, o2) => (Ok (xs ++ [y]), o2)
  | (Throw e, o2) => (Throw e, o2)
  | (UB, o2) => (UB, o2)
  | (Diverges, o2) => (Diverges, o2)
  | (OutOfFuel, o2) => (OutOfFuel, o2)
  end.
Proof.
  intros H. rewrite run_app, H. cbn. unfold bind, sbind.
  destruct (step o1 e) as [[] ?]; reflexivity.
Qed.

Lemma processed_from_app lat e1 e2 :
  processed_from lat (e1 ++ e2) =
  processed_from lat e1 ++
  processed_from (fold_left (fun p e => match e with EData _ m => Some m | EExec => None | _ => p end) e1 lat) e2.
Proof.
  revert lat. induction e1 as [|[] e1 IH]; intros lat; cbn; auto.
  destruct lat; cbn; now rewrite IH.
Qed.

Lemma latest_spec e1 :
  fold_left (fun p e => match e with EData _ m => Some m | EExec => None | _ => p end) e1 None =
  if pending e1 then Some (last (received e1) msg0) else None.
Proof.
  induction e1 as [|e e1 IH] using rev_ind; [reflexivity|].
  rewrite fold_left_app, pending_snoc, received_app. cbn. destruct e; cbn.
  - now rewrite last_last.
  - rewrite IH. now rewrite app_nil_r.
  - reflexivity.
  - rewrite IH. now rewrite app_nil_r.
Qed.

Lemma processed_snoc evs e :
  processed (evs ++ [e]) =
  match e with
  | EExec => if pending evs then processed evs ++ [last (received evs) msg0] else processed evs
  | _ => processed evs
  end.
Proof.
  unfold processed. rewrite processed_from_app, latest_spec.
  destruct e; cbn; rewrite ?app_nil_r; try reflexivity.
  destruct (pending evs); cbn; now rewrite ?app_nil_r.
Qed.

Lemma pending_received evs : pending evs = true -> received evs <> [].
Proof.
  induction evs as [|e evs IH] using rev_ind; [discriminate|].
  rewrite pending_snoc, received_app. destruct e; cbn; intros H.
  - intro F. now apply app_eq_nil in F as [_ F].
  - rewrite app_nil_r. auto.
  - discriminate.
  - rewrite app_nil_r. auto.
Qed.

Lemma received_feed p ms : received (feed p ms) = ms.
Proof. induction ms as [|m ms IH]; [reflexivity|]. cbn. f_equal. exact IH. Qed.

Lemma one_input_feed ms : one_input (feed "i1"%string ms).
Proof. induction ms; cbn; repeat constructor; auto. Qed.

Lemma processed_feed p ms : processed (feed p ms) = ms.
Proof. unfold processed. induction ms as [|m ms IH]; [reflexivity|]. cbn. f_equal. exact IH. Qed.

Lemma feed_app p l1 l2 : feed p (l1 ++ l2) = feed p l1 ++ feed p l2.
Proof. unfold feed. apply flat_map_app. Qed.
End Hist.
