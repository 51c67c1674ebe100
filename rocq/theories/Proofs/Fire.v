(** * One reaction per message, from the n-th on; facts that hold for every arithmetic. *)

From Coq Require Import String ZArith Bool List Lia.
From Verif Require Import Base.StrMap Base.Num Model.Core Model.Ops Model.Make Model.Run.
From Verif Require Import Spec.Streams Spec.Operators Proofs.Lists Proofs.Window Proofs.Basic.
Import ListNotations.
Open Scope string_scope.
Open Scope list_scope.
Open Scope Z_scope.
Open Scope rtbot_scope.

Section Fire.
Context {NO : NumOps}.

(** running sum kept by a port of size [n]: each arriving value is added, after the value
    that leaves the full window has been subtracted *)
Definition running_sum (n : Z) (h : list msg) : V := ip_sum (port_after "i1" n h).

Lemma run_moving_average_any id outs conns n evs :
  0 < n -> one_input evs ->
  run (sop id outs conns (new_port "i1" n) false KMovAvg) evs =
  (Ok (answers (fun h => if Z.of_nat (length h) <? n then [] else
                emits (mkMsg (last_time h) (vdiv (running_sum n h) (vofZ n)))) evs),
   sop id outs conns (port_after "i1" n (received evs)) (pending evs) KMovAvg).
Proof.
  intros Hn Hone. pose proof (eff_id n Hn) as En.
  enough (G : run (sop id outs conns (new_port "i1" n) false KMovAvg) evs = (Ok (answers (fun h => if Z.of_nat (length h) <? eff n then [] else emits (mkMsg (last_time h) (vdiv (running_sum n h) (vofZ n)))) evs), sop id outs conns (port_after "i1" n (received evs)) (pending evs) KMovAvg))
    by (rewrite En in G; apply G).
  apply (win_run_stateless id outs conns n one_input KMovAvg
    (fun h => emits (mkMsg (last_time h) (vdiv (running_sum n h) (vofZ n))))); auto; try lia.
  { apply one_input_snoc. }
  intros e He h Hh Hl. rewrite eff_id in Hl by lia.
  unfold proc. cbn. unfold d_last, d_sum, d_size. cbn.
  unfold ip_size. rewrite port_after_data by lia. rewrite eff_id by lia.
  rewrite lastn_full_length by lia. rewrite Z2Nat.id by lia.
  unfold keep, emits, last_time, running_sum. rewrite lastn_last by lia. reflexivity.
Qed.

Lemma run_std_any id outs conns n evs :
  0 < n -> one_input evs ->
  run (sop id outs conns (new_port "i1" n) false KStdDev) evs =
  (Ok (answers (fun h => if Z.of_nat (length h) <? n then [] else
                emits (mkMsg (last_time h) (std_value (running_sum n h) (lastn (Z.to_nat n) h)))) evs),
   sop id outs conns (port_after "i1" n (received evs)) (pending evs) KStdDev).
Proof.
  intros Hn Hone. pose proof (eff_id n Hn) as En.
  enough (G : run (sop id outs conns (new_port "i1" n) false KStdDev) evs = (Ok (answers (fun h => if Z.of_nat (length h) <? eff n then [] else emits (mkMsg (last_time h) (std_value (running_sum n h) (lastn (Z.to_nat n) h)))) evs), sop id outs conns (port_after "i1" n (received evs)) (pending evs) KStdDev))
    by (rewrite En in G; apply G).
  apply (win_run_stateless id outs conns n one_input KStdDev
    (fun h => emits (mkMsg (last_time h) (std_value (running_sum n h) (lastn (Z.to_nat n) h))))); auto; try lia.
  { apply one_input_snoc. }
  intros e He h Hh Hl. rewrite eff_id in Hl by lia.
  unfold proc. cbn. unfold d_last, d_sum, port_data. cbn.
  rewrite port_after_data by lia. rewrite eff_id by lia.
  unfold keep, emits, last_time, running_sum. rewrite lastn_last by lia. reflexivity.
Qed.

Lemma run_moving_average_zero id outs conns evs :
  one_input evs -> Z.of_nat (length (received evs)) < two64 - 1 ->
  fst (run (sop id outs conns (new_port "i1" 0) false KMovAvg) evs) = Ok (map (fun _ => []) evs) /\
  fst (run (sop id outs conns (new_port "i1" 0) false KStdDev) evs) = Ok (map (fun _ => []) evs) /\
  fst (run (sop id outs conns (new_port "i1" 0) false KPeak) evs) = Ok (map (fun _ => []) evs).
Proof.
  intros Hone Hlen.
  assert (G : forall k, base_kind k = true ->
    fst (run (sop id outs conns (new_port "i1" 0) false k) evs) = Ok (map (fun _ => []) evs)).
  { intros k Hk.
    set (P := fun evs => one_input evs /\ Z.of_nat (length (received evs)) < two64 - 1).
    erewrite (win_run id outs conns 0 P (fun _ => k) (fun _ => [])); try (split; assumption); auto; try lia.
    - cbn [fst]. f_equal. clear. induction evs as [|e evs IH]; [reflexivity|]. cbn. f_equal.
      rewrite map_map. exact IH.
    - intros e x [H1 H2]. split; [now apply one_input_snoc in H1|].
      rewrite received_app, app_length in H2. lia.
    - now intros e [H _].
    - intros e. change (eff 0) with (two64 - 1).
      destruct (_ && _) eqn:E; [|auto]. intros [_ Hl]. apply andb_prop in E as [_ E].
      apply negb_true_iff, Z.ltb_ge in E. lia. }
  repeat split; apply G; reflexivity.
Qed.
End Fire.
