(** * Operators that answer window by window *)

From Coq Require Import String ZArith Bool List Lia Sorted.
From Verif Require Import Base.StrMap Base.Num Model.Core Model.Ops Model.Make Model.Run.
From Verif Require Import Spec.Streams Spec.Operators Spec.Multi Spec.Join Spec.Windows.
From Verif Require Import Proofs.Lists Proofs.Ports.
Import ListNotations.
Open Scope string_scope.
Open Scope list_scope.
Open Scope Z_scope.
Open Scope rtbot_scope.

Lemma windows_snoc {A} n (l : list A) x : (1 <= n)%nat ->
  windows n (l ++ [x]) = windows n l ++ (if (n <=? S (length l))%nat then [lastn n (l ++ [x])] else []).
Proof.
  intros Hn. unfold windows. rewrite app_length. cbn [length]. rewrite Nat.add_1_r.
  destruct (Nat.leb_spec n (S (length l))) as [H|H].
  - replace (S (S (length l)) - n)%nat with (S (S (length l) - n)) by lia. rewrite seq_S, map_app. cbn [map]. rewrite Nat.add_0_l. f_equal.
    + apply map_ext_in. intros i Hi. apply in_seq in Hi. rewrite skipn_app, firstn_app, skipn_length.
      replace (n - (length l - i))%nat with 0%nat by lia. cbn. apply app_nil_r.
    + unfold lastn. rewrite app_length. cbn [length]. rewrite Nat.add_1_r. f_equal. rewrite firstn_all2; [reflexivity|].
      rewrite skipn_length, app_length. cbn [length]. lia.
  - replace (S (S (length l)) - n)%nat with 0%nat by lia. replace (S (length l) - n)%nat with 0%nat by lia. reflexivity.
Qed.

Lemma windows_length {A} n (l : list A) w : In w (windows n l) -> length w = n.
Proof.
  unfold windows. intros H. apply in_map_iff in H as (i & <- & Hi). apply in_seq in Hi. rewrite firstn_length, skipn_length. lia.
Qed.

Lemma windows_parts {A} n (l : list A) w : In w (windows n l) -> exists l1 l2, l = l1 ++ w ++ l2.
Proof.
  unfold windows. intros H. apply in_map_iff in H as (i & <- & Hi). exists (firstn i l), (skipn n (skipn i l)).
  now rewrite (firstn_skipn n), (firstn_skipn i).
Qed.

Lemma windows_In {A} n (l : list A) w x : In w (windows n l) -> In x w -> In x l.
Proof.
  intros H Hx. apply windows_parts in H as (l1 & l2 & ->). apply in_or_app. right. apply in_or_app. auto.
Qed.

Section Windows.
Context {NO : NumOps}.

Lemma feed_snoc p l m : feed p (l ++ [m]) = (feed p l ++ [EData p m]) ++ [EExec].
Proof. unfold feed. rewrite flat_map_app. cbn. now rewrite <- app_assoc. Qed.
Lemma received_feed p l : received (feed p l) = l.
Proof. unfold feed. induction l as [|m l IH]; [reflexivity|]. cbn. now rewrite IH. Qed.
Lemma one_input_feed l : one_input (feed "i1" l).
Proof. unfold one_input, feed. apply Forall_flat_map, Forall_forall. intros m _. repeat constructor. Qed.

Lemma answers_windows n f l : (1 <= n)%nat ->
  on_port "o1" (answers (when_full (Z.of_nat n) f) (feed "i1" l)) = flat_map (fun w => match sfind "o1" (f w) with Some ms => ms | None => [] end) (windows n l).
Proof.
  intros Hn. induction l as [|m l IH] using rev_ind.
  { unfold windows. cbn [length]. replace (1 - n)%nat with 0%nat by lia. reflexivity. }
  rewrite feed_snoc, !answers_snoc, !answer_snoc, pending_snoc, received_app, received_feed. cbn [received].
  rewrite windows_snoc by auto. rewrite flat_map_app, <- IH. unfold on_port. rewrite !flat_map_app. cbn [flat_map sfind]. rewrite !app_nil_r.
  f_equal. unfold when_full. rewrite app_length. cbn [length]. rewrite Nat2Z.id.
  destruct (Nat.leb_spec n (S (length l))); destruct (Z.ltb_spec (Z.of_nat (length l + 1)) (Z.of_nat n)); try lia; cbn [flat_map]; rewrite ?app_nil_r; reflexivity.
Qed.

Lemma over_windows n (f : list V -> V) l : (1 <= n)%nat ->
  on_port "o1" (answers (when_full (Z.of_nat n) (fun w => emits (mkMsg (last_time w) (f (values w))))) (feed "i1" l)) = map (over f) (windows n l).
Proof.
  intros Hn. rewrite answers_windows by auto. induction (windows n l) as [|w ws IH]; [reflexivity|]. cbn [flat_map map]. rewrite IH. reflexivity.
Qed.

Lemma peak_windows n l : (1 <= n)%nat ->
  on_port "o1" (answers (peak (Z.of_nat n)) (feed "i1" l)) = map middle (filter is_peak (windows n l)).
Proof.
  intros Hn. unfold peak. rewrite answers_windows by auto. induction (windows n l) as [|w ws IH]; [reflexivity|]. cbn [flat_map filter]. rewrite IH.
  unfold is_peak at 2. destruct (forallb _ (values w)); reflexivity.
Qed.

Lemma mapping_feed (f : msg -> msg) l :
  on_port "o1" (answers (mapping (fun m => emits (f m))) (feed "i1" l)) = map f l.
Proof.
  unfold mapping. change 1 with (Z.of_nat 1). rewrite answers_windows by auto. induction l as [|m l IH] using rev_ind; [reflexivity|].
  rewrite windows_snoc by auto. cbn [Nat.leb]. rewrite flat_map_app, IH, map_app. cbn [flat_map map]. rewrite app_nil_r. f_equal.
  unfold lastn. rewrite app_length. cbn [length]. replace (length l + 1 - 1)%nat with (length l) by lia. rewrite skipn_app, skipn_all, Nat.sub_diag. reflexivity.
Qed.

(** ** Times of windows *)

Lemma increasing_map_windows n (l : list msg) (pos : list msg -> msg) : (1 <= n)%nat -> increasing (times l) ->
  (exists i, (i < n)%nat /\ forall w, length w = n -> pos w = nth i w msg0) ->
  increasing (map (fun w => mtime (pos w)) (windows n l)).
Proof.
  intros Hn Inc (i & Hi & Hp). induction l as [|m l IH] using rev_ind.
  { unfold windows. cbn [length]. replace (1 - n)%nat with 0%nat by lia. constructor. }
  rewrite windows_snoc by auto.
  assert (Inc0 : increasing (times l)).
  { unfold times in *. rewrite map_app in Inc. unfold increasing in *. clear - Inc. induction (map mtime l) as [|t r IHr]; [constructor|].
    cbn in Inc. inversion Inc as [|? ? S F]; subst. constructor; auto. apply Forall_app in F as [F _]. exact F. }
  destruct (Nat.leb_spec n (S (length l))) as [H|H]; [|rewrite app_nil_r; auto].
  rewrite map_app. cbn [map]. specialize (IH Inc0).
  assert (B : forall w, In w (windows n l) -> mtime (pos w) < mtime (pos (lastn n (l ++ [m])))).
  { intros w Hw. pose proof (windows_length n l w Hw) as Lw. rewrite (Hp w Lw), (Hp (lastn n (l ++ [m]))).
    2:{ unfold lastn. rewrite skipn_length, app_length. cbn. lia. }
    unfold windows in Hw. apply in_map_iff in Hw as (k & <- & Hk). apply in_seq in Hk.
    assert (X : forall a b, (a < b)%nat -> (b < length (l ++ [m]))%nat -> mtime (nth a (l ++ [m]) msg0) < mtime (nth b (l ++ [m]) msg0)).
    { clear - Inc. unfold increasing, times in Inc. induction (l ++ [m]) as [|y r IHr]; intros a b Hab Hb; [cbn in Hb; lia|].
      cbn in Inc. inversion Inc as [|? ? S F]; subst. destruct b as [|b]; [lia|]. cbn in Hb. destruct a as [|a]; cbn [nth].
      - rewrite Forall_forall in F. apply F, in_map, nth_In. lia.
      - apply IHr; auto; lia. }
    assert (Nw : nth i (firstn n (skipn k l)) msg0 = nth (k + i) (l ++ [m]) msg0).
    { rewrite app_nth1 by lia. clear - Hi. revert k. induction l as [|y r IHr]; intros k; [rewrite skipn_nil, firstn_nil; destruct i, k; reflexivity|].
      destruct k as [|k]; cbn [skipn]; [|exact (IHr k)]. clear IHr. cbn [Nat.add].
      revert i Hi. generalize (y :: r). intros q. revert n. induction q as [|z q IHq]; intros n i Hi; [now rewrite firstn_nil|].
      destruct n as [|n]; [lia|]. destruct i as [|i]; [reflexivity|]. cbn. apply IHq. lia. }
    assert (Nl : nth i (lastn n (l ++ [m])) msg0 = nth (S (length l) - n + i) (l ++ [m]) msg0).
    { unfold lastn. rewrite app_length. cbn [length]. rewrite Nat.add_1_r. generalize (S (length l) - n)%nat. intros k0. clear.
      revert k0. induction (l ++ [m]) as [|y r IHr]; intros k0; [rewrite skipn_nil; destruct i, k0; reflexivity|]. destruct k0; [reflexivity|]. apply IHr. }
    rewrite Nw, Nl. apply X; [lia|]. rewrite app_length. cbn [length]. lia. }
  clear - IH B. unfold increasing in *. induction (windows n l) as [|w ws IHw]; cbn in *; [repeat constructor|].
  inversion IH as [|? ? S F]; subst. constructor; auto. apply Forall_app. split; auto.
Qed.

Lemma last_nth (w : list msg) : last w msg0 = nth (length w - 1) w msg0.
Proof.
  induction w as [|x w IH]; [reflexivity|]. cbn [last length]. destruct w as [|y w]; [reflexivity|].
  rewrite IH. cbn [length]. replace (S (S (length w)) - 1)%nat with (S (S (length w) - 1)) by lia. reflexivity.
Qed.

Lemma times_over n f l : times (map (over f) (windows n l)) = map last_time (windows n l).
Proof. unfold times. rewrite map_map. reflexivity. Qed.

Lemma over_increasing n l : (1 <= n)%nat -> increasing (times l) -> increasing (map last_time (windows n l)).
Proof.
  intros Hn Inc. apply (increasing_map_windows n l (fun w => last w msg0) Hn Inc). exists (n - 1)%nat. split; [lia|].
  intros w <-. apply last_nth.
Qed.

Lemma middle_increasing n l : (1 <= n)%nat -> increasing (times l) -> increasing (map (fun w => mtime (middle w)) (windows n l)).
Proof.
  intros Hn Inc. apply (increasing_map_windows n l middle Hn Inc). exists (n / 2)%nat. split.
  - apply Nat.div_lt; lia.
  - intros w Hw. unfold middle. now rewrite Hw.
Qed.

Lemma middle_In n l w : (1 <= n)%nat -> In w (windows n l) -> In (middle w) l.
Proof.
  intros Hn H. apply (windows_In n l w); auto. apply nth_In. rewrite (windows_length n l w H). apply Nat.div_lt; lia.
Qed.
Lemma last_In n l w : (1 <= n)%nat -> In w (windows n l) -> In (last w msg0) l.
Proof.
  intros Hn H. apply (windows_In n l w); auto. rewrite last_nth. apply nth_In. rewrite (windows_length n l w H). lia.
Qed.

Lemma skipn_twice {A} b : forall a (l : list A), skipn a (skipn b l) = skipn (b + a) l.
Proof.
  induction b as [|b IH]; intros a l; [reflexivity|]. destruct l as [|x l]; [now rewrite !skipn_nil|]. cbn. apply IH.
Qed.

(** the windows of [n] end with windows of [m] *)
Lemma windows_end {A} m n (l : list A) : (1 <= m <= n)%nat ->
  map (lastn m) (windows n l) = skipn (n - m) (windows m l).
Proof.
  intros Hm. induction l as [|x l IH] using rev_ind.
  { unfold windows. cbn [length]. replace (1 - n)%nat with 0%nat by lia. replace (1 - m)%nat with 0%nat by lia. now rewrite skipn_nil. }
  rewrite !windows_snoc by lia. rewrite map_app, skipn_app, IH.
  assert (Lw : length (windows m l) = (S (length l) - m)%nat) by (unfold windows; now rewrite map_length, seq_length).
  destruct (Nat.leb_spec n (S (length l))) as [H|H].
  - replace (m <=? S (length l))%nat with true by (symmetry; apply Nat.leb_le; lia). rewrite Lw. replace (n - m - (S (length l) - m))%nat with 0%nat by lia.
    cbn [skipn map]. f_equal. f_equal. unfold lastn. rewrite skipn_length, app_length. cbn [length]. rewrite skipn_twice. f_equal. lia.
  - destruct (m <=? S (length l))%nat eqn:E; [|now rewrite skipn_nil]. apply Nat.leb_le in E. cbn [map]. f_equal.
    rewrite Lw. destruct (n - m - (S (length l) - m))%nat eqn:D; [lia|]. cbn. now rewrite skipn_nil.
Qed.

End Windows.
