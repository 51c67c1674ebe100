(** * Executing a program step by step, and what it answers at one output *)

From Coq Require Import String ZArith Bool List Lia.
From Verif Require Import Base.StrMap Base.Num Base.NumCount Model.Core Model.Ops Model.Make Model.Graph.
From Verif Require Import Spec.Snapshot Spec.Windows Spec.Synchronous Proofs.Merge Proofs.LogP.
From Verif Require Import Spec.Log.
Import ListNotations.
Open Scope string_scope.
Open Scope list_scope.
Open Scope Z_scope.
Open Scope rtbot_scope.

Section Symbolic.
Context {NO : NumOps}.

(** ** Heaps: [h] with the updates [l], the last one first *)

Definition upd (l : list (string * op)) (h : heap) : heap := fold_right (fun x h => sset (fst x) (snd x) h) h l.

Lemma find_upd l h id : sfind id (upd l h) = match sfind id l with Some o => Some o | None => sfind id h end.
Proof.
  induction l as [|[k o] l IH]; [reflexivity|]. cbn [upd fold_right fst snd sfind]. rewrite sfind_sset. destruct (String.eqb id k); [reflexivity|exact IH].
Qed.
Lemma found_new l h id o : sfind id l = Some o -> sfind id (upd l h) = Some o.
Proof. intros E. now rewrite find_upd, E. Qed.
Lemma found_old l h id o : sfind id l = None -> sfind id h = Some o -> sfind id (upd l h) = Some o.
Proof. intros E F. now rewrite find_upd, E. Qed.

(** ** Executions; [w] is the operator whose output "o1" is watched *)

Variable w : string.

Definition runs (n : nat) (ctl : bool) (id : string) (h h' : heap) (a : list msg) : Prop :=
  exists out, exec n ctl id h = (Ok out, h') /\ wf_pm out /\ result_at out w "o1" = a.
Definition runs_all (n : nat) (cs : list (string * string)) (h h' : heap) (a : list msg) : Prop :=
  forall out, wf_pm out -> exists out', execute_all (exec n) cs out h = (Ok out', h') /\
    wf_pm out' /\ result_at out' w "o1" = result_at out w "o1" ++ a.
Definition emits (n : nat) (b : base) (oms : opmsg) (h h' : heap) (a : list msg) : Prop :=
  forall out, wf_pm out -> exists out', emit_op (exec n) n b oms out h = (Ok out', h') /\
    wf_pm out' /\ result_at out' w "o1" = result_at out w "o1" ++ a.

Lemma runs_nil n h : runs_all n [] h h [].
Proof. intros out W. exists out. cbn. rewrite !app_nil_r. auto. Qed.

Lemma runs_cons n id port cs ctl o h h1 h2 a a2 :
  sfind id h = Some o -> is_data_input o port = negb ctl -> is_control_input o port = ctl ->
  runs n ctl id h h1 a -> runs_all n cs h1 h2 a2 -> runs_all n ((id, port) :: cs) h h2 (a ++ a2).
Proof.
  intros F D C (x & E & Wx & Ra) A out W. cbn [execute_all]. unfold execute1. rewrite F, D, C.
  destruct (A (merge_pm out x)) as (out' & E' & W' & R1); [now apply merge_pm_wf|]. exists out'.
  rewrite R1, !result_merge, Ra, !app_assoc by assumption. split; [|auto].
  destruct ctl; cbn [negb]; cbv iota; rewrite E; exact E'.
Qed.

Lemma emits_nil n b h : emits n b [] h h [].
Proof. intros out W. exists out. cbn. rewrite !app_nil_r. auto. Qed.

Lemma emits_cons n b port m oms cs h h1 h2 h3 here a a2 :
  sset_mem port (o_outs b) = true -> odefault [] (sfind port (o_conns b)) = cs ->
  (if String.eqb w (o_id b) && String.eqb "o1" port then [m] else []) = here ->
  deliver n m cs h = (Ok tt, h1) -> runs_all n cs h1 h2 a -> emits n b oms h2 h3 a2 ->
  emits n b ((port, [m]) :: oms) h h3 (here ++ a ++ a2).
Proof.
  intros S1 C H D A E out W. cbn [emit_op]. rewrite S1. cbn [emit_port]. unfold emit_msg.
  destruct (A [(o_id b, [(port, [m])])] (wf_pm_one _ _ _)) as (x & Ex & Wx & Rx).
  assert (Em : (match sfind port (o_conns b) with None => (Ok [(o_id b, [(port, [m])])], h)
                | Some cs => do! (_u, h1) <- deliver n m cs h; execute_all (exec n) cs [(o_id b, [(port, [m])])] h1 end) = (Ok x, h2)).
  { destruct (sfind port (o_conns b)) as [cs'|]; cbn [odefault] in C; subst cs.
    - rewrite D. exact Ex.
    - cbn [deliver] in D. cbn [execute_all] in Ex. apply pair_equal_spec in D as [_ <-]. exact Ex. }
  rewrite Em. cbn [bind sbind]. destruct (E (merge_pm out (merge_pm [] x))) as (out' & E' & W' & R'); [now apply merge_pm_wf|].
  exists out'. split; [exact E'|]. split; [exact W'|]. rewrite R'. rewrite (merge_pm_nil_l x Wx), result_merge, Rx by assumption.
  rewrite !app_assoc. do 3 f_equal. rewrite <- H. unfold result_at. cbn [sfind]. destruct (String.eqb w (o_id b)); cbn [odefault sfind andb]; [|reflexivity].
  destruct (String.eqb "o1" port); reflexivity.
Qed.

Lemma runs_step n ctl id o o' oms h h1 h2 a :
  sfind id h = Some o -> exec_local (exec n) ctl o = (Ok oms, o') -> sset id o' h = h1 -> emits n (op_base o') oms h1 h2 a ->
  runs (S n) ctl id h h2 a.
Proof.
  intros F E <- M. unfold runs. cbn [exec]. rewrite F, E. destruct (M [] wf_pm_nil) as (out & Eo & Wo & Ro). exists out. auto.
Qed.

Lemma deliver_data n m id port cs o o' h h1 h2 : sfind id h = Some o -> is_data_input o port = true -> recv_data n o m port = (Ok tt, o') ->
  sset id o' h = h1 -> deliver n m cs h1 = (Ok tt, h2) -> deliver n m ((id, port) :: cs) h = (Ok tt, h2).
Proof. intros F D R <- E. cbn [deliver]. unfold deliver1. rewrite F, D, R. cbn [bind sbind]. exact E. Qed.
Lemma deliver_ctrl n m id port cs o o' h h1 h2 : sfind id h = Some o -> is_data_input o port = false -> is_control_input o port = true ->
  recv_ctrl_local o m port = (Ok tt, o') -> sset id o' h = h1 -> deliver n m cs h1 = (Ok tt, h2) -> deliver n m ((id, port) :: cs) h = (Ok tt, h2).
Proof. intros F D C R <- E. cbn [deliver]. unfold deliver1. rewrite F, D, C, R. cbn [bind sbind]. exact E. Qed.
Lemma deliver_nil n m h : deliver n m [] h = (Ok tt, h).
Proof. reflexivity. Qed.

Lemma send_runs n ep port o o' h h1 h2 m a : sfind ep h = Some o -> recv_data n o m port = (Ok tt, o') ->
  sset ep o' h = h1 -> runs n false ep h1 h2 a ->
  exists out, send1 n ep port m h = (Ok out, h2) /\ wf_pm out /\ result_at out w "o1" = a.
Proof. intros F R <- X. unfold send1. rewrite F, R. exact X. Qed.

(** ** From one message to all calls *)

(** a filter that lets the watched output pass *)
Lemma filter_one out : result_at (apply_filter [(w, ["o1"])] out []) w "o1" = result_at out w "o1".
Proof.
  unfold result_at. cbn [apply_filter]. destruct (sfind w out) as [om|] eqn:E; cbn [odefault]; [|reflexivity].
  cbn [filter_ports sfind]. destruct (sfind "o1" om) as [ms|] eqn:E1; cbn [odefault].
  - rewrite sfind_sset_same. cbn [odefault]. unfold semplace. cbn [shas sfind]. reflexivity.
  - reflexivity.
Qed.

Section Calls.
Variables (entry : string) (n : nat).
(** the state after the messages [ms], whether they are covered, and what they make the program show *)
Variables (after : list msg -> heap -> Prop) (covered : list msg -> Prop) (view : list msg -> list msg).
Hypothesis covered_before : forall ms more, covered (ms ++ more) -> covered ms.
Hypothesis has_entry : forall ms h, after ms h -> shas entry h = true.
Hypothesis after_one : forall ms h m, after ms h -> covered (ms ++ [m]) ->
  exists h' r out, send1 n entry "i1" m h = (Ok out, h') /\ wf_pm out /\ result_at out w "o1" = r /\ after (ms ++ [m]) h' /\ view (ms ++ [m]) = view ms ++ r.

Lemma after_port more : forall ms h out, after ms h -> covered (ms ++ more) -> wf_pm out ->
  exists h' r out', send_port n entry "i1" more out h = (Ok out', h') /\ wf_pm out' /\ result_at out' w "o1" = result_at out w "o1" ++ r /\
    after (ms ++ more) h' /\ view (ms ++ more) = view ms ++ r.
Proof.
  induction more as [|m more IH]; intros ms h out A C W.
  - exists h, [], out. rewrite !app_nil_r. auto.
  - change (m :: more) with ([m] ++ more) in C. rewrite app_assoc in C.
    destruct (after_one ms h m A (covered_before _ _ C)) as (h1 & r1 & x & E & Wx & X & A1 & V1).
    destruct (IH (ms ++ [m]) h1 (merge_pm out x) A1 C) as (h' & r2 & out' & E' & W' & X' & A' & V'); [now apply merge_pm_wf|].
    exists h', (r1 ++ r2), out'. cbn [send_port]. rewrite E. cbn [bind sbind]. split; [exact E'|]. split; [exact W'|].
    rewrite X', result_merge, X by assumption. rewrite <- !app_assoc in A', V'. cbn [app] in A', V'. rewrite V', V1, !app_assoc. auto.
Qed.

Lemma after_batch batch : Forall (fun pm => fst pm = "i1") batch -> forall ms h out, after ms h -> covered (ms ++ map snd (batch_messages batch)) -> wf_pm out ->
  exists h' r out', send_batch n entry batch out h = (Ok out', h') /\ wf_pm out' /\ result_at out' w "o1" = result_at out w "o1" ++ r /\
    after (ms ++ map snd (batch_messages batch)) h' /\ view (ms ++ map snd (batch_messages batch)) = view ms ++ r.
Proof.
  intros F. induction F as [|[port more] batch P F IH]; intros ms h out A C W.
  - exists h, [], out. cbn. rewrite !app_nil_r. auto.
  - cbn [fst] in P. subst port. unfold batch_messages in *. cbn [flat_map fst snd] in *. rewrite map_app, map_map, map_id in *. rewrite app_assoc in C.
    destruct (after_port more ms h out A (covered_before _ _ C) W) as (h1 & r1 & out1 & E & W1 & X1 & A1 & V1).
    destruct (IH (ms ++ more) h1 out1 A1 C W1) as (h' & r2 & out' & E' & W' & X' & A' & V').
    exists h', (r1 ++ r2), out'. cbn [send_batch]. rewrite E. cbn [bind sbind]. split; [exact E'|]. split; [exact W'|].
    rewrite X', X1, !app_assoc, V', V1. auto.
Qed.

Lemma after_calls history : Forall (Forall (fun pm => fst pm = "i1")) history -> forall ms p, p_entry p = entry -> p_filter p = [(w, ["o1"])] ->
  after ms (p_ops p) -> covered (ms ++ map snd (all_messages history)) ->
  Forall (fun r => exists out, r = Ok out) (fst (session n p history)) /\
  view (ms ++ map snd (all_messages history)) = view ms ++ answered (fst (session n p history)) w "o1".
Proof.
  intros F. induction F as [|batch history Hb F IH]; intros ms p Ee Ef A C.
  - split; [constructor|]. cbn. now rewrite !app_nil_r.
  - unfold all_messages in *. cbn [flat_map] in *. rewrite map_app, app_assoc in *.
    destruct (after_batch batch Hb ms (p_ops p) [] A (covered_before _ _ C) wf_pm_nil) as (h1 & r1 & out & E & _ & X1 & A1 & V1).
    cbn [session]. unfold receive, receive_debug. rewrite Ee, Ef, E, (has_entry _ _ A).
    destruct (IH (ms ++ map snd (batch_messages batch)) (set_ops p h1) Ee Ef A1 C) as (Ok1 & V2).
    destruct (session n (set_ops p h1) history) as [rs p2]. cbn [fst] in *. split; [constructor; [now eexists|exact Ok1]|].
    unfold answered in *. cbn [flat_map]. change (result_at [] w "o1") with (@nil msg) in X1. cbn [app] in X1. rewrite filter_one, X1, V2, V1, !app_assoc. reflexivity.
Qed.
End Calls.

End Symbolic.
