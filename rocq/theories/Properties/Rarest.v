(** * Joins of which one input leads (C23, C72): every acyclic program, any operators before the
    join, messages sent in any order.  If times increase on each input of a join and the other
    inputs have all the times of one of them, nothing stays waiting in it. *)

From Coq Require Import String ZArith QArith Bool List Lia Sorted Permutation.
From Verif Require Import Base.StrMap Base.Num Base.NumQc Model.Core Model.Ops Model.Make Model.Run Model.Graph Model.Json.
From Verif Require Import Spec.Shape Spec.Preserving Spec.Streams Spec.Operators Spec.Multi Spec.Demux Spec.Join Spec.Build Spec.Show Spec.Snapshot Spec.Definition Spec.Forest Spec.Rarest.
From Verif Require Import Proofs.Ports Proofs.VariableP Proofs.InputP Proofs.OutputP Proofs.JoinP Proofs.JoinRun Proofs.JoinKinds Proofs.JoinOrder Proofs.LogP Proofs.LogRun Proofs.LogProg Proofs.ForestP Proofs.JsonP Proofs.MakeP Proofs.Window.
From Verif Require Import Proofs.ShapeP Proofs.Conns Proofs.Monotone Proofs.Increasing Proofs.Rounds Proofs.Prompt Proofs.Sync Proofs.Settled Proofs.Dataflow Proofs.Rarest.
From Verif Require Import Spec.Log Spec.Synchronous Properties.Synchronous.
From Verif Require Properties.Join.
Import ListNotations.
Open Scope string_scope.
Open Scope list_scope.
Open Scope Z_scope.
Open Scope rtbot_scope.

(** ** A join by itself *)

Lemma paced_spaced {NO : NumOps} x arrivals : spaced x false (paced arrivals) /\ waits x false (paced arrivals) = false.
Proof.
  induction arrivals as [|[j m] r [IH1 IH2]]; [cbn; auto|]. cbn. destruct (String.eqb _ x); cbn; auto.
Qed.

(** If all other inputs have the times of input [a], a Join executed after every arrival emits
    each tuple as soon as it is complete. *)
Theorem C23_lead_partial {NO : NumOps} (id : string) (n : nat) (o : op) (arrivals : list (nat * msg)) (a : nat) :
  mk_join id n = Ok o -> Forall (fun km => (1 <= fst km <= n)%nat) arrivals -> ordered_ports n (paced arrivals) ->
  (1 <= a <= n)%nat -> (forall j, (1 <= j <= n)%nat -> keeps_up (hist (iport a) (paced arrivals)) (hist (iport j) (paced arrivals))) ->
  exists outs o', run o (paced arrivals) = (Ok outs, o') /\
    synchronized n (one_per_port n (paced arrivals)) (paced arrivals) outs [].
Proof.
  intros Ho Ha Hp La Ku. destruct (mk_join_fresh id n o Ho) as (b & -> & Hn & Fr & Pr).
  assert (On : data_on n (paced arrivals)).
  { unfold data_on, paced. apply Forall_forall. intros e He. apply in_flat_map in He as ([j m] & Hj & He).
    rewrite Forall_forall in Ha. specialize (Ha _ Hj). cbn in *. destruct He as [<-|[<-|[]]]; auto. eauto. }
  destruct (join_sync n b _ _ (fun e t out => out = jtuple (skeys (o_data b)) (map (fun x => at_time (hist x e) t) (skeys (o_data b))) (port_map iport n) [])
    (paced arrivals) ltac:(lia) Fr Pr On Hp) as (outs & o' & _ & R & _); [reflexivity|].
  exists outs, o'. split; [exact R|].
  destruct (rare_join n b _ _ a (paced arrivals) outs o' ltac:(lia) Fr Pr La On Hp Ku (fun j _ => paced_spaced _ _) R) as (ts & F & E).
  exists ts. rewrite app_nil_r. split; [|auto].
  eapply Forall2_impl_In; [exact F|]. intros [t|] out Ht Eo; [|exact Eo]. rewrite Eo.
  apply join_one_per_port; [lia|apply ssorted_NoDup, Fr|apply Fr].
Qed.
Print Assumptions C23_lead_partial.

(** the second input has all times of the first, later or sooner; nothing stays waiting but what only the second has *)
Example C23_lead_example :
  let arrivals := [(2, im 1 10); (2, im 2 20); (1, im 2 5); (1, im 4 6); (2, im 3 30); (2, im 4 40); (2, im 5 50)]%nat in
  keeps_up (hist (iport 1) (paced arrivals)) (hist (iport 2) (paced arrivals)) /\
  match mk_join "j" 2 with
  | Ok o => show_port "o2" (fst (run o (paced arrivals)))
  | _ => []
  end = [(2, 20%Q); (4, 40%Q)].
Proof.
  split; [|vm_compute; reflexivity]. intros t Ht. left. vm_compute in Ht |- *. intuition.
Qed.

(** ** Joins in programs *)
Section C72.
Context {NO : NumOps}.

Lemma lead_join (rank : string -> nat) n p batches rs p' id b kd cs k g s a :
  wf_heap (p_ops p) -> named (p_ops p) -> ranked rank (p_ops p) -> one_feed (p_ops p) ->
  receive_all n p batches = (Ok rs, p') ->
  id <> p_entry p -> sfind id (p_ops p) = Some (with_conns cs (Op b kd)) -> is_pipeline (Op b kd) = false ->
  (1 <= k)%nat -> fresh k b -> o_ctrl b = [] -> processes b kd g ->
  (forall j, (1 <= j <= k)%nat -> carried (p_ops p) rs id (iport j) (s j) /\ increasing (times (s j)) /\ keeps_up (s a) (s j)) ->
  (1 <= a <= k)%nat ->
  exists evs, (forall j, (1 <= j <= k)%nat -> hist (iport j) evs = s j) /\ common_times k evs = shared k s /\
    forall y, stream rs id y =
      flat_map (fun t => odefault [] (sfind y (g (map (fun x => at_time (hist x evs) t) (skeys (o_data b)))))) (shared k s).
Proof.
  intros W N Rk Of E Ne Ho Np Hk Fr Ct Pr C Ha. destruct (stream_log n p batches rs p' W N E) as (l & El & Es).
  assert (Np' : is_pipeline (with_conns cs (Op b kd)) = false) by (destruct kd; auto).
  destruct (flow_emitted (p_ops p) rank (p_entry p) W N Rk n _ l _ El _ _ Ho Np') as (outs & o' & R & Q).
  apply run_conns_ok in R as (o1 & R).
  assert (On : data_on k (calls id l)).
  { eapply calls_data_on; eauto. apply Fr. }
  assert (Hh : forall j, (1 <= j <= k)%nat -> hist (iport j) (calls id l) = s j).
  { intros j Hj. eapply carried_hist; eauto; [|apply C; auto]. apply (numbered_input k); auto. apply Fr. }
  assert (Ec : common_times k (calls id l) = shared k s).
  { unfold common_times, shared. rewrite Hh by lia. apply filter_ext_in. intros t _.
    assert (X : forall j, In j (seq 1 k) -> (1 <= j <= k)%nat) by (intros j Hj; apply in_seq in Hj; lia).
    induction (seq 1 k) as [|j r IH]; [reflexivity|]. cbn. rewrite Hh by (apply X; cbn; auto). rewrite IH; [reflexivity|].
    intros i Hi. apply X. cbn; auto. }
  destruct (rare_join k b kd g a (calls id l) outs o1 Hk Fr Pr Ha On) as (ts & F & Et); auto.
  { intros j Hj. rewrite Hh by auto. now apply C. }
  { intros j Hj. rewrite !Hh by auto. now apply C. }
  { intros j Hj. eapply spaced_calls; eauto. }
  exists (calls id l). split; [exact Hh|]. split; [exact Ec|]. intros y. rewrite Es, Q, <- Ec, <- Et. clear - F.
  unfold on_port. induction F as [|t out ts outs H F IH]; [reflexivity|].
  cbn [flat_map]. rewrite IH. destruct t as [t|]; cbn [somes flat_map]; rewrite H; reflexivity.
Qed.

(** Join: at exactly the times all its inputs have, output [oj] repeats the message of input [ij]. *)
Theorem C72_join_lead (rank : string -> nat) (n : nat) (p : program) (batches : list opmsg) (rs : list progmsg) (p' : program)
    (id x : string) (k : nat) (o : op) (cs : smap (list (string * string))) (s : nat -> list msg) (a : nat) :
  wf_heap (p_ops p) -> named (p_ops p) -> ranked rank (p_ops p) -> one_feed (p_ops p) -> receive_all n p batches = (Ok rs, p') ->
  id <> p_entry p -> mk_join x k = Ok o -> sfind id (p_ops p) = Some (with_conns cs o) ->
  (forall j, (1 <= j <= k)%nat -> carried (p_ops p) rs id (iport j) (s j) /\ increasing (times (s j)) /\ keeps_up (s a) (s j)) ->
  (1 <= a <= k)%nat ->
  (forall j, (1 <= j <= k)%nat -> stream rs id (oport j) = map (at_time (s j)) (shared k s)) /\
  (forall y, (forall j, (1 <= j <= k)%nat -> y <> oport j) -> stream rs id y = []).
Proof.
  intros W N Rk Of E Ne Hm Ho C Ha. destruct (mk_join_fresh x k o Hm) as (b & -> & Hn & Fr & Pr).
  destruct (lead_join rank n p batches rs p' id b _ cs k _ s a W N Rk Of E Ne Ho eq_refl ltac:(lia) Fr (join_no_ctrl _ _ _ Hm) Pr C Ha) as (evs & Hh & _ & Q).
  assert (O1 : forall t, one_per_port k evs t (jtuple (skeys (o_data b)) (map (fun x => at_time (hist x evs) t) (skeys (o_data b))) (port_map iport k) []))
    by (intros t; apply join_one_per_port; [lia|apply ssorted_NoDup, Fr|apply Fr]).
  split.
  - intros j Hj. rewrite Q. apply flat_map_map_in. intros t Ht. rewrite (proj1 (O1 t)) by auto. cbn. now rewrite Hh.
  - intros y Hy. rewrite Q. apply flat_map_none. intros t. destruct (sfind y _) as [ms|] eqn:F; [|reflexivity].
    destruct (proj2 (O1 t) y ms F) as (j & Hj & Ey). now destruct (Hy j Hj).
Qed.

(** Two-input operators: at every time both inputs have, the function of the two values. *)
Theorem C72_two_input_lead (rank : string -> nat) (n : nat) (p : program) (batches : list opmsg) (rs : list progmsg) (p' : program)
    (id x : string) (f : binop) (o : op) (cs : smap (list (string * string))) (s : nat -> list msg) (a : nat) :
  wf_heap (p_ops p) -> named (p_ops p) -> ranked rank (p_ops p) -> one_feed (p_ops p) -> receive_all n p batches = (Ok rs, p') ->
  id <> p_entry p -> mk_binary x f = Ok o -> sfind id (p_ops p) = Some (with_conns cs o) ->
  (forall j, (1 <= j <= 2)%nat -> carried (p_ops p) rs id (iport j) (s j) /\ increasing (times (s j)) /\ keeps_up (s a) (s j)) ->
  (1 <= a <= 2)%nat ->
  Forall (fun m => comparable (mval m)) (s 1%nat) ->
  stream rs id "o1" =
    flat_map (fun t => match two_input f (mval (at_time (s 1%nat) t)) (mval (at_time (s 2%nat) t)) with
                       | Some v => [mkMsg t v] | None => [] end) (shared 2 s) /\
  forall y, y <> "o1" -> stream rs id y = [].
Proof.
  intros W N Rk Of E Ne Hm Ho C Ha Cv. destruct (mk_binary_fresh x f o Hm) as (b & -> & Fr & K & Pr).
  destruct (lead_join rank n p batches rs p' id b _ cs 2 _ s a W N Rk Of E Ne Ho eq_refl ltac:(lia) Fr (binary_no_ctrl _ _ _ Hm) Pr C Ha) as (evs & Hh & Ec & Q).
  split; [|intros y Hy; rewrite Q; apply flat_map_none; intros t; unfold bin_apply, out1; apply String.eqb_neq in Hy;
    repeat match goal with |- context [match ?x with _ => _ end] => destruct x end; cbn; rewrite ?Hy; reflexivity].
  rewrite Q, K. apply flat_map_ext_in'. intros t Ht. cbn [map].
  change "i1" with (iport 1). change "i2" with (iport 2). rewrite !Hh by lia.
  assert (H1 : In t (times (s 1%nat))) by (unfold shared in Ht; now apply filter_In in Ht as [Ht _]).
  destruct (at_time_spec _ _ H1) as [I1 T1]. rewrite T1.
  rewrite Properties.Join.bin_apply_two_input by (rewrite Forall_forall in Cv; now apply Cv).
  destruct (two_input f _ _); reflexivity.
Qed.

(** Linear: at every time all inputs have, c1 * v1 + ... + cn * vn. *)
Theorem C72_linear_lead (rank : string -> nat) (n : nat) (p : program) (batches : list opmsg) (rs : list progmsg) (p' : program)
    (id x : string) (coeff : list V) (o : op) (cs : smap (list (string * string))) (s : nat -> list msg) (a : nat) :
  wf_heap (p_ops p) -> named (p_ops p) -> ranked rank (p_ops p) -> one_feed (p_ops p) -> receive_all n p batches = (Ok rs, p') ->
  id <> p_entry p -> mk_linear x coeff = Ok o -> (length coeff <= 9)%nat -> sfind id (p_ops p) = Some (with_conns cs o) ->
  (forall j, (1 <= j <= length coeff)%nat -> carried (p_ops p) rs id (iport j) (s j) /\ increasing (times (s j)) /\ keeps_up (s a) (s j)) ->
  (1 <= a <= length coeff)%nat ->
  stream rs id "o1" =
    map (fun t => mkMsg t (vsum (map (fun kc => vmul (mval (at_time (s (fst kc)) t)) (snd kc)) (combine (seq 1 (length coeff)) coeff))))
        (shared (length coeff) s) /\
  forall y, y <> "o1" -> stream rs id y = [].
Proof.
  intros W N Rk Of E Ne Hm H9 Ho C Ha. destruct (mk_linear_fresh x coeff o Hm) as (b & -> & Hn & Fr & Ln & Pr).
  destruct (lead_join rank n p batches rs p' id b _ cs (length coeff) _ s a W N Rk Of E Ne Ho eq_refl ltac:(lia) Fr (linear_no_ctrl _ _ _ Hm) Pr C Ha) as (evs & Hh & Ec & Q).
  assert (K : skeys (o_data b) = map iport (seq 1 (length coeff))).
  { apply (alphabetical_keys (length coeff)); auto. apply Properties.Join.alphabetical_9. exact H9. }
  split; [|intros y Hy; rewrite Q; apply flat_map_none; intros t; cbn; apply String.eqb_neq in Hy; now rewrite Hy].
  rewrite Q. rewrite <- Ec. apply flat_map_map_in. intros t Ht.
  pose proof (Properties.Join.linear_sync (seq 1 (length coeff)) coeff evs t b ltac:(lia) Fr K (seq_length _ _) Ht) as X.
  unfold linear_emits in X. rewrite X. cbn [emits sfind]. cbn. f_equal. f_equal. f_equal.
  apply map_ext_in. intros [k c] Hkc. cbn [fst snd]. rewrite Hh; [reflexivity|]. apply in_combine_l, in_seq in Hkc. lia.
Qed.

End C72.

Print Assumptions C72_join_lead.
Print Assumptions C72_two_input_lead.
Print Assumptions C72_linear_lead.
