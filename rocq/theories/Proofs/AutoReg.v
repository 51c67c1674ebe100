(** * AutoRegressive *)

From Coq Require Import String ZArith Bool List Lia.
From Verif Require Import Base.StrMap Base.Num Model.Core Model.Ops Model.Make Model.Run.
From Verif Require Import Spec.Streams Spec.Operators Proofs.Lists Proofs.Window Proofs.Basic.
Import ListNotations.
Open Scope string_scope.
Open Scope list_scope.
Open Scope Z_scope.
Open Scope rtbot_scope.

Section AR.
Context {NO : NumOps}.
Variable coeff : list V.
Notation n := (length coeff).
Hypothesis Hn : (1 <= n)%nat.
Hypothesis Hmax : Z.of_nat n < deque_max.

Definition ar_buf (outs : list msg) : list msg := lastn n (repeat msg0 n ++ outs).

Definition ar_value (outs : list msg) (x : V) : V :=
  fold_left vadd (map (fun cm => vmul (fst cm) (mval (snd cm))) (combine coeff (ar_buf outs))) x.

Definition ar_out (outs : list msg) (m : msg) : msg := mkMsg (mtime m) (ar_value outs (mval m)).

Definition ar_outs (ms : list msg) : list msg :=
  fold_left (fun outs m => outs ++ [ar_out outs m]) ms [].

Lemma ar_outs_snoc ms m : ar_outs (ms ++ [m]) = ar_outs ms ++ [ar_out (ar_outs ms) m].
Proof. unfold ar_outs. now rewrite fold_left_app. Qed.

Lemma ar_buf_length outs : length (ar_buf outs) = n.
Proof. unfold ar_buf. rewrite lastn_length, app_length, repeat_length. lia. Qed.

Lemma ar_loop_spec c q rest i N acc :
  length c = length q -> (i + length c = N)%nat ->
  forall pre, length pre = i ->
  ar_loop c (pre ++ q ++ rest) (Z.of_nat i) (Z.of_nat N) acc =
  Ok (fold_left vadd (map (fun cm => vmul (fst cm) (mval (snd cm))) (combine c q)) acc).
Proof.
  revert q i acc. induction c as [|a c IH]; intros [|m q] i acc Hl HN pre Hp; try discriminate Hl.
  - cbn. cbn in HN. replace (Z.of_nat N <=? Z.of_nat i) with true by (symmetry; apply Z.leb_le; lia).
    reflexivity.
  - cbn [length] in *. cbn [ar_loop].
    replace (Z.of_nat N <=? Z.of_nat i) with false by (symmetry; apply Z.leb_gt; lia).
    assert (Q : q_at (pre ++ (m :: q) ++ rest) (Z.of_nat i) = Ok m).
    { unfold q_at. destruct (pre ++ (m :: q) ++ rest) eqn:E; [destruct pre; discriminate|]. rewrite <- E.
      replace (Z.of_nat i <? 0) with false by (symmetry; apply Z.ltb_ge; lia).
      replace (Z.of_nat i <? _) with true.
      - rewrite Nat2Z.id, nth_error_app2 by lia. now replace (i - length pre)%nat with 0%nat by lia.
      - symmetry. apply Z.ltb_lt. rewrite !app_length. cbn. lia. }
    rewrite Q. cbn [rbind combine map fold_left fst snd].
    replace (Z.of_nat i + 1) with (Z.of_nat (S i)) by lia.
    replace (pre ++ (m :: q) ++ rest) with ((pre ++ [m]) ++ q ++ rest) by (rewrite <- app_assoc; reflexivity).
    apply IH; try lia. rewrite app_length. cbn. lia.
Qed.

Definition ar_op (id : string) (outs : list string) (conns : smap (list (string * string))) (d : list msg) : op :=
  Op (mkBase id [("i1", mkPort "i1" (Z.of_nat n) v0 d)] [] outs conns []) (KAutoReg coeff).

Definition ar_data (ms : list msg) : list msg :=
  match ms with [] => [] | _ => ar_buf (ar_outs ms) end.

Lemma run_ar id outs conns ms :
  run (ar_op id outs conns []) (feed "i1" ms) =
  (Ok (flat_map (fun m => [[]; emits m]) (ar_outs ms)), ar_op id outs conns (ar_data ms)).
Proof.
  induction ms as [|m ms IH] using rev_ind; [reflexivity|].
  rewrite feed_app, run_app, IH, ar_outs_snoc, flat_map_app. cbn [feed flat_map app run].
  set (d := ar_data ms).
  assert (R : step (ar_op id outs conns d) (EData "i1" m) = (Ok [], ar_op id outs conns (ar_buf (ar_outs ms) ++ [m]))).
  { unfold step, ar_op, recv_data_local, recv_data_ar. cbn [o_data resolve].
    change (resolve "i1" [("i1", mkPort "i1" (Z.of_nat n) v0 d)]) with "i1".
    change (sfind "i1" [("i1", mkPort "i1" (Z.of_nat n) v0 d)]) with (Some (mkPort "i1" (Z.of_nat n) v0 d)).
    cbn [ip_max ip_data ip_id ip_sum]. unfold ip_size. cbn [ip_data].
    destruct (deque_max <=? Z.of_nat n - Z.of_nat (length d)) eqn:E; [apply Z.leb_le in E; lia|].
    assert (D : d ++ repeat msg0 (Z.to_nat (Z.of_nat n - Z.of_nat (length d))) = ar_buf (ar_outs ms)).
    { subst d. unfold ar_data. destruct ms as [|a ms'].
      - cbn [length app ar_outs fold_left]. unfold ar_buf. rewrite app_nil_r, lastn_all by (rewrite repeat_length; lia).
        f_equal. lia.
      - rewrite ar_buf_length. replace (Z.to_nat _) with 0%nat by lia. apply app_nil_r. }
    rewrite app_assoc, D. reflexivity. }
  unfold bind, sbind. rewrite R.
  assert (X : step (ar_op id outs conns (ar_buf (ar_outs ms) ++ [m])) EExec =
              (Ok (emits (ar_out (ar_outs ms) m)), ar_op id outs conns (ar_data (ms ++ [m])))).
  { unfold step, ar_op, exec_data_local, ar_exec. cbn [o_data ip_data ip_max].
    rewrite last_last.
    pose proof (ar_loop_spec coeff (ar_buf (ar_outs ms)) [m] 0 n (mval m)) as L.
    specialize (L (eq_sym (ar_buf_length _)) eq_refl [] eq_refl). cbn [app] in L.
    change (Z.of_nat 0) with 0 in L. fold (ar_value (ar_outs ms) (mval m)) in L. rewrite L.
    fold (ar_out (ar_outs ms) m).
    pose proof (ar_buf_length (ar_outs ms)) as Lb. 
    assert (D : ar_data (ms ++ [m]) = tl (ar_buf (ar_outs ms)) ++ [ar_out (ar_outs ms) m]).
    { unfold ar_data. destruct (ms ++ [m]) eqn:E; [destruct ms; discriminate|]. rewrite <- E, ar_outs_snoc.
      unfold ar_buf. rewrite app_assoc. destruct n as [|k] eqn:K; [lia|]. rewrite lastn_snoc.
      f_equal. apply lastn_S_tl. rewrite app_length, repeat_length. lia. }
    rewrite D. clear D. destruct (ar_buf (ar_outs ms)) as [|a q]; [cbn in Lb; lia|].
    cbn [app tl]. unfold set_q. cbn [ip_id ip_max ip_sum].
    destruct (q ++ [m]) as [|b r] eqn:E; [destruct q; discriminate|]. rewrite <- E, removelast_last. reflexivity. }
  rewrite X. reflexivity.
Qed.

Lemma ar_buf_nth outs i :
  (i < n)%nat ->
  mval (nth i (ar_buf outs) msg0) = y_at (values outs) (Z.of_nat (length outs) - (Z.of_nat n - Z.of_nat i)).
Proof.
  intros Hi. unfold ar_buf, lastn. rewrite app_length, repeat_length.
  replace (n + length outs - n)%nat with (length outs) by lia.
  assert (N : nth i (skipn (length outs) (repeat msg0 n ++ outs)) msg0 =
              nth (length outs + i) (repeat msg0 n ++ outs) msg0).
  { generalize (repeat msg0 n ++ outs) as l. generalize (length outs) as k. clear.
    induction k as [|k IH]; intros [|x l]; cbn; auto. now destruct i. }
  rewrite N. unfold y_at, values.
  destruct (Z.ltb_spec (Z.of_nat (length outs) - (Z.of_nat n - Z.of_nat i)) 0) as [L|L].
  - rewrite app_nth1 by (rewrite repeat_length; lia).
    now rewrite nth_repeat.
  - rewrite app_nth2; rewrite repeat_length; [|lia].
    change v0 with (mval msg0). rewrite map_nth. do 2 f_equal. lia.
Qed.

Lemma ar_value_spec outs x :
  ar_value outs x =
  fold_left vadd (map (fun i => vmul (nth i coeff v0)
      (y_at (values outs) (Z.of_nat (length outs) - reversed_lag n i))) (seq 0 n)) x.
Proof.
  unfold ar_value. f_equal.
  assert (G : forall (c : list V) (q : list msg) (j : nat), length c = length q ->
    map (fun cm => vmul (fst cm) (mval (snd cm))) (combine c q) =
    map (fun i => vmul (nth (i - j) c v0) (mval (nth (i - j) q msg0))) (seq j (length c))).
  { induction c as [|a c IH]; intros [|m q] j Hl; try discriminate Hl; [reflexivity|].
    cbn [combine map length seq fst snd]. rewrite Nat.sub_diag. cbn [nth]. f_equal.
    rewrite (IH q (S j)) by (cbn in Hl; lia). apply map_ext_in. intros i Hi. apply in_seq in Hi.
    replace (i - j)%nat with (S (i - S j)) by lia. reflexivity. }
  rewrite (G _ _ 0%nat) by (now rewrite ar_buf_length).
  apply map_ext_in. intros i Hi. apply in_seq in Hi. rewrite Nat.sub_0_r.
  rewrite ar_buf_nth by lia. reflexivity.
Qed.

Lemma ar_outs_times ms : times (ar_outs ms) = times ms.
Proof.
  induction ms as [|m ms IH] using rev_ind; [reflexivity|].
  rewrite ar_outs_snoc. unfold times in *. rewrite !map_app, IH. reflexivity.
Qed.

Lemma ar_outs_length ms : length (ar_outs ms) = length ms.
Proof.
  pose proof (f_equal (@length _) (ar_outs_times ms)) as H. unfold times in H. now rewrite !map_length in H.
Qed.

Lemma ar_outs_recurrence ms : recurrence (reversed_lag n) coeff (values ms) (values (ar_outs ms)).
Proof.
  split; [unfold values; now rewrite !map_length, ar_outs_length|].
  induction ms as [|m ms IH] using rev_ind; intros k Hk; [cbn in Hk; lia|].
  rewrite ar_outs_snoc. unfold values in *. rewrite !map_app. cbn [map]. rewrite map_length, app_length in Hk. cbn in Hk.
  assert (Y : forall j, j < Z.of_nat (length ms) ->
     y_at (map mval (ar_outs ms) ++ [mval (ar_out (ar_outs ms) m)]) j = y_at (map mval (ar_outs ms)) j).
  { intros j Hj. unfold y_at. destruct (Z.ltb_spec j 0); auto. rewrite app_nth1; auto.
    rewrite map_length, ar_outs_length. lia. }
  assert (YY : forall k, (k <= length ms)%nat ->
    map (fun i => vmul (nth i coeff v0) (y_at (map mval (ar_outs ms) ++ [mval (ar_out (ar_outs ms) m)])
                         (Z.of_nat k - reversed_lag n i))) (seq 0 n) =
    map (fun i => vmul (nth i coeff v0) (y_at (map mval (ar_outs ms)) (Z.of_nat k - reversed_lag n i))) (seq 0 n)).
  { intros j Hj. apply map_ext_in. intros i Hi. apply in_seq in Hi. rewrite Y; auto. unfold reversed_lag. lia. }
  destruct (Nat.eq_dec k (length ms)) as [->|nk].
  - rewrite YY by lia. rewrite !app_nth2; rewrite ?map_length, ?ar_outs_length; try lia.
    rewrite Nat.sub_diag. cbn [nth ar_out mval]. rewrite ar_value_spec, ar_outs_length. reflexivity.
  - rewrite YY by lia. rewrite !app_nth1; rewrite ?map_length, ?ar_outs_length; try lia.
    apply IH. rewrite map_length. lia.
Qed.

End AR.

Lemma combine_emits {NO : NumOps} (l : list msg) :
  on_port "o1" (flat_map (fun m => [[]; emits m]) l) = l.
Proof.
  unfold on_port. induction l as [|m l IH]; [reflexivity|].
  change (flat_map (fun m => [[]; emits m]) (m :: l)) with ([] :: emits m :: flat_map (fun m => [[]; emits m]) l).
  cbn [flat_map sfind]. rewrite IH. reflexivity.
Qed.
