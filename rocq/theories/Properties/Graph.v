(** * Programs: what processing a batch does (C28-C31, C35, C36, C51). *)

From Coq Require Import String ZArith QArith Bool List Lia.
From Verif Require Import Base.StrMap Base.Num Base.NumQc Model.Core Model.Ops Model.Make Model.Run Model.Graph.
From Verif Require Import Spec.Shape Spec.Log Spec.Depth Spec.Filter Spec.Show Spec.Build.
From Verif Require Import Proofs.ShapeP Proofs.Merge Proofs.LogP Proofs.LogRun Proofs.LogBal Proofs.DepthP Proofs.LogProg Proofs.Untouched Proofs.Fuel Proofs.FilterP Proofs.BatchP Proofs.MakeP Proofs.Loop Proofs.Spin.
Import ListNotations.
Open Scope string_scope.
Open Scope list_scope.
Open Scope rtbot_scope.

(** ** A program used as example: the difference between the input and its moving average *)

Definition demo_filter (f : smap (list string)) : res (@program QcOps) :=
  build [mk_input "in" 1; mk_movavg "avg" 2; mk_binary "diff" BMinus; mk_output "out" 1; mk_identity "alone"]
        [("in", "o1", "avg", "i1"); ("in", "o1", "diff", "i1"); ("avg", "o1", "diff", "i2"); ("diff", "o1", "out", "i1")]
        "in" f.
Definition demo := demo_filter [].
Definition demo_batch : @opmsg QcOps := [("i1", [im 1 10; im 2 20; im 3 60])].

Lemma mk_wf {NO : NumOps} id x o : (forall o', x = Ok o' -> made id o') -> Ok o = x -> wf_op o.
Proof. intros H E. symmetry in E. apply H in E. apply E. Qed.

Lemma res_ok {A} (r : res A) : match r with Ok _ => true | _ => false end = true -> exists a, r = Ok a.
Proof. destruct r; try discriminate. eauto. Qed.

Lemma demo_ok f : exists p, demo_filter f = Ok p /\ wf_heap (p_ops p) /\ named (p_ops p) /\
  shas (p_entry p) (p_ops p) = true.
Proof.
  destruct (res_ok (demo_filter f)) as [p E]; [vm_compute; reflexivity|].
  exists p. split; auto.
  assert (X : wf_heap (p_ops p) /\ named (p_ops p)).
  { eapply build_wf; [|exact E]. intros o [H|[H|[H|[H|[H|[]]]]]]; eapply mk_wf; try (exact (eq_sym H)).
    - apply mk_input_made.
    - intros o'. now apply mk_simple_made.
    - apply mk_binary_made.
    - apply mk_output_made.
    - intros o'. now apply mk_simple_made. }
  destruct X as [X1 X2]. split; [exact X1|split; [exact X2|]].
  assert (Y : match demo_filter f with Ok p => shas (p_entry p) (p_ops p) | _ => false end = true) by (vm_compute; reflexivity).
  now rewrite E in Y.
Qed.

(** ** C28 *)

Section C28.
Context {NO : NumOps}.

Lemma receive_debug_log n p batch r p' :
  wf_heap (p_ops p) -> named (p_ops p) -> receive_debug n p batch = (Ok r, p') ->
  exists l, lsend_all n (p_entry p) (batch_messages batch) (p_ops p) = (Ok l, p_ops p') /\
    r = collate l /\ p' = set_ops p (p_ops p').
Proof.
  intros W N E. unfold receive_debug in E. destruct (shas (p_entry p) (p_ops p)); [|discriminate E].
  pose proof (lsend_batch_spec n (p_entry p) batch [] (p_ops p)) as X. change (collate []) with (@nil (string * opmsg)) in X.
  rewrite X in E. destruct (lsend_all n (p_entry p) (batch_messages batch) (p_ops p)) as [[l| | | |] h']; try discriminate E.
  cbn in E. injection E as <- <-. exists l. auto.
Qed.

(** For every program, state and batch: there is a log of what happened, in which
    - the user's messages are those of the batch,
    - every message of the user is delivered to the entry operator and every emitted message
      to every input port its output is connected to, nothing else is delivered,
    - the operators compute what they compute when called like this by themselves,
    and the result map holds, under every operator and port, exactly the messages emitted
    there, in the order of emission, and no entry that is empty. *)
Theorem C28_result (n : nat) (p : program) (batch : opmsg) (r : progmsg) (p' : program) :
  wf_heap (p_ops p) -> named (p_ops p) ->
  receive_debug n p batch = (Ok r, p') ->
  exists l : list entry,
    lsend_all n (p_entry p) (batch_messages batch) (p_ops p) = (Ok l, p_ops p') /\
    sent l = batch_messages batch /\
    deliveries l = routed (p_ops p) (p_entry p) l /\
    replays (p_ops p) l (p_ops p') /\
    (forall id port, result_at r id port = emitted id port l) /\
    (forall id om, sfind id r = Some om -> om <> [] /\ forall port ms, sfind port om = Some ms -> ms <> []).
Proof.
  intros W N E. destruct (receive_debug_log _ _ _ _ _ W N E) as (l & E1 & -> & E2).
  exists l. split; [exact E1|]. split; [eapply lsend_all_sent; eauto|].
  split; [eapply lsend_all_routed; eauto|]. split; [eapply lsend_all_replays; eauto|].
  split; [apply result_collate|apply collate_entries].
Qed.

(** Without cycles, each operator emits on each port exactly what its calls computed, in the
    order of the calls (with cycles an operator may be called again before it has finished
    emitting). *)
Theorem C28_acyclic (rank : string -> nat) (n : nat) (p : program) (batch : opmsg) (r : progmsg) (p' : program) :
  wf_heap (p_ops p) -> named (p_ops p) -> ranked rank (p_ops p) ->
  receive_debug n p batch = (Ok r, p') ->
  exists l : list entry,
    lsend_all n (p_entry p) (batch_messages batch) (p_ops p) = (Ok l, p_ops p') /\
    balanced l /\
    (forall id port, result_at r id port = on_port port (returned id l)).
Proof.
  intros W N R E. destruct (receive_debug_log _ _ _ _ _ W N E) as (l & E1 & -> & E2).
  exists l. split; [exact E1|]. assert (B : balanced l) by (eapply lsend_all_balanced; eauto).
  split; [exact B|]. intros id port. rewrite result_collate. apply B.
Qed.

(** states reached by processing are again well formed, with the same ids, ports, parameters
    and connections: the theorems apply to every call in the life of a program *)
Theorem C28_next (n : nat) (p : program) (batch : opmsg) :
  wf_heap (p_ops p) -> named (p_ops p) ->
  let p' := snd (receive_debug n p batch) in
  wf_heap (p_ops p') /\ named (p_ops p') /\ erase_heap (p_ops p') = erase_heap (p_ops p) /\
  p_entry p' = p_entry p /\ p_filter p' = p_filter p.
Proof.
  intros W N. unfold receive_debug. destruct (shas (p_entry p) (p_ops p)); cbn [snd]; [|auto].
  pose proof (send_batch_keeps n (p_entry p) batch [] (p_ops p) W) as K. unfold keeps in K.
  destruct (send_batch n (p_entry p) batch [] (p_ops p)) as [x h]. cbn [snd p_ops set_ops] in *.
  split; [eapply wf_heap_same; eauto|]. split; [eapply named_same; eauto|]. auto.
Qed.

End C28.
Print Assumptions C28_result.
Print Assumptions C28_acyclic.
Print Assumptions C28_next.

Example C28_example :
  match demo with
  | Ok p => show_res show_pm (fst (receive_debug 4 p demo_batch))
  | _ => UB
  end = Ok [("avg", [("o1", [(2%Z, 15%Q); (3%Z, 40%Q)])]);
            ("diff", [("o1", [(2%Z, 5%Q); (3%Z, 20%Q)])]);
            ("in", [("o1", [(1%Z, 10%Q); (2%Z, 20%Q); (3%Z, 60%Q)])]);
            ("out", [("o1", [(2%Z, 5%Q); (3%Z, 20%Q)])])].
Proof. vm_compute. reflexivity. Qed.

Definition demo_rank (id : string) : nat :=
  if String.eqb id "in" then 3 else if String.eqb id "avg" then 2 else if String.eqb id "diff" then 1 else 0.

Lemma wires_of {NO : NumOps} (h : heap) a b : wired h a b ->
  exists o port cs p, In (a, o) h /\ In (port, cs) (o_conns (op_base o)) /\ In (b, p) cs.
Proof.
  intros (port & p & H). unfold wires in H. destruct (sfind a h) as [o|] eqn:E; [|destruct H].
  destruct (sfind port (o_conns (op_base o))) as [cs|] eqn:E2; [|destruct H].
  exists o, port, cs, p. split; [now apply sfind_In|]. split; [now apply sfind_In|exact H].
Qed.

(** all connections of a program: from, to *)
Definition edges {NO : NumOps} (h : heap) : list (string * string) :=
  flat_map (fun x => flat_map (fun y => map (fun c => (fst x, fst c)) (snd y)) (o_conns (op_base (snd x)))) h.
Lemma edges_wired {NO : NumOps} h a b : wired h a b -> In (a, b) (edges h).
Proof.
  intros H. destruct (wires_of h a b H) as (o & port & cs & p & H1 & H2 & H3).
  unfold edges. apply in_flat_map. exists (a, o). split; auto. apply in_flat_map. exists (port, cs). split; auto.
  cbn. apply in_map_iff. exists (b, p). auto.
Qed.

Example C28_demo_ranked : match demo with Ok p => ranked demo_rank (p_ops p) | _ => False end.
Proof.
  assert (X : match demo with Ok p => edges (p_ops p) | _ => [] end =
              [("avg", "diff"); ("diff", "out"); ("in", "avg"); ("in", "diff")]) by (vm_compute; reflexivity).
  destruct (demo_ok []) as (p & E & _). fold demo in E. rewrite E in *.
  intros a b H. apply edges_wired in H. rewrite X in H. cbn in H.
  destruct H as [H|[H|[H|[H|[]]]]]; injection H as <- <-; vm_compute; lia.
Qed.

(** ** C29 *)

Section C29.
Context {NO : NumOps}.

Lemma depth_fits h N : depth_within h N -> exists level, fits false h level /\ forall id, (level id < N)%nat.
Proof.
  revert h N. fix IH 3. intros h N D. destruct D as [h N level D1 D2 D3].
  exists level. split; auto. constructor; auto; [discriminate|].
  intros id b js ops ins outs pm H. apply (IH _ _ (D3 _ _ _ _ _ _ _ H)).
Qed.

Lemma fits_up h level : fits false h level -> no_constant_resampler h -> fits true h level.
Proof.
  revert h level. fix IH 3. intros h level F C. destruct F as [h level F1 F2 F3]. destruct C as [h C1 C2].
  constructor; auto.
  - intros _ id o H. destruct o as [b k]. cbn. destruct k; try reflexivity. now apply C1 in H.
  - intros id b js ops ins outs pm H. destruct (F3 _ _ _ _ _ _ _ H) as (level' & G1 & G2).
    exists level'. split; [|exact G2]. apply IH; [exact G1|]. eapply C2; eauto.
Qed.

Lemma receive_debug_quiet c n p batch level :
  wf_heap (p_ops p) -> fits c (p_ops p) level -> (level (p_entry p) < n)%nat ->
  quiet c (fst (receive_debug n p batch)).
Proof.
  intros W F L. unfold receive_debug. destruct (shas (p_entry p) (p_ops p)); [|apply tame_quiet, tame_throw].
  pose proof (send_batch_quiet c n (p_entry p) batch [] (p_ops p) level W F L) as Q.
  destruct (send_batch n (p_entry p) batch [] (p_ops p)) as [x h]. exact Q.
Qed.

(** On an acyclic program, for every state and batch, a recursion depth of one more than the
    number of operators suffices: processing is never cut off. *)
Theorem C29_terminates (n : nat) (p : program) (batch : opmsg) :
  wf_heap (p_ops p) -> acyclic (p_ops p) -> (heap_size (p_ops p) < n)%nat ->
  fst (receive_debug n p batch) <> OutOfFuel.
Proof.
  intros W A L X. apply (acyclic_fits false (p_ops p) W A); [discriminate|]. intros (level & F & Hl).
  specialize (Hl (p_entry p)).
  destruct (receive_debug_quiet false n p batch level W F ltac:(lia)) as [Q _]. auto.
Qed.

(** More precisely the recursion depth is bounded by the number of operators on the longest
    path. *)
Theorem C29_depth (n : nat) (p : program) (batch : opmsg) :
  wf_heap (p_ops p) -> depth_within (p_ops p) n ->
  fst (receive_debug n p batch) <> OutOfFuel.
Proof.
  intros W D X. destruct (depth_fits _ _ D) as (level & F & Hl).
  destruct (receive_debug_quiet false n p batch level W F (Hl _)) as [Q _]. auto.
Qed.

(** With enough recursion depth the outcome does not depend on how much more there is: the
    bound above is not an artefact. *)
Theorem C29_fuel_irrelevant (n k : nat) (p : program) (batch : opmsg) :
  fst (receive_debug n p batch) <> OutOfFuel ->
  receive_debug (k + n) p batch = receive_debug n p batch.
Proof. apply receive_debug_fuel. Qed.

(** Without a ConstantResampler no loop inside an operator runs forever either. *)
Theorem C29_no_endless_loop_partial (n : nat) (p : program) (batch : opmsg) :
  wf_heap (p_ops p) -> acyclic (p_ops p) -> no_constant_resampler (p_ops p) -> (heap_size (p_ops p) < n)%nat ->
  fst (receive_debug n p batch) <> OutOfFuel /\ fst (receive_debug n p batch) <> Diverges.
Proof.
  intros W A C L.
  split; intros X; apply (acyclic_fits true (p_ops p) W A (fun _ => C)); intros (level & F & Hl);
    specialize (Hl (p_entry p));
    destruct (receive_debug_quiet true n p batch level W F ltac:(lia)) as [Q1 Q2]; [auto|now apply Q2].
Qed.

End C29.
Print Assumptions C29_terminates.
Print Assumptions C29_depth.
Print Assumptions C29_fuel_irrelevant.
Print Assumptions C29_no_endless_loop_partial.

Lemma ranked_acyclic {NO : NumOps} rank h : ranked rank h ->
  (forall id b js ops ins outs pm, sfind id h = Some (Op b (KPipeline js ops ins outs pm)) -> acyclic ops) -> acyclic h.
Proof.
  intros R I. constructor; auto.
  assert (X : forall a b, path h a b -> (rank b < rank a)%nat).
  { induction 1 as [a b H|a b c H _ IH]; [auto|]. specialize (R _ _ H). lia. }
  intros a H. specialize (X _ _ H). lia.
Qed.

Definition special {NO : NumOps} (k : kind) : bool :=
  match k with KPipeline _ _ _ _ _ | KConstResampler _ _ _ _ => true | _ => false end.
Example C29_demo : match demo with
  | Ok p => acyclic (p_ops p) /\ depth_within (p_ops p) 4 /\ no_constant_resampler (p_ops p) /\ heap_size (p_ops p) = 5%nat
  | _ => False end.
Proof.
  pose proof C28_demo_ranked as R. destruct (demo_ok []) as (p & E & _). fold demo in E. rewrite E in *.
  assert (X : forall id o, sfind id (p_ops p) = Some o -> special (op_kind o) = false).
  { assert (Y : match demo with Ok p => existsb (fun x => special (op_kind (snd x))) (p_ops p) | _ => true end = false) by (vm_compute; reflexivity).
    rewrite E in Y. intros id o H. apply sfind_In in H.
    destruct (special (op_kind o)) eqn:Sp; [|reflexivity]. rewrite <- Y. symmetry. apply existsb_exists. exists (id, o). auto. }
  assert (Z : match demo with Ok p => heap_size (p_ops p) | _ => 0%nat end = 5%nat) by (vm_compute; reflexivity).
  rewrite E in Z.
  split; [|split; [|split]].
  - eapply ranked_acyclic; eauto. intros id b js ops ins outs pm H. now apply X in H.
  - apply Depth_within with demo_rank; auto.
    + intros id. unfold demo_rank. repeat destruct (String.eqb _ _); lia.
    + intros id b js ops ins outs pm H. now apply X in H.
  - constructor.
    + intros id b dt next i v H. now apply X in H.
    + intros id b js ops ins outs pm H. now apply X in H.
  - exact Z.
Qed.

(** A ConstantResampler of interval 2 that has seen a message at time 2^64 - 4 loops forever
    on a message at time 2^64 - 1: the next grid point wraps around and always stays below. *)
Definition spinner : res (@program QcOps) := build [mk_constres "r" 2 0 (qc_ofZ 0)] [] "r" [].

Theorem C29_no_endless_loop_refuted :
  ~ (forall (n : nat) (p : @program QcOps) (batch : opmsg),
       wf_heap (p_ops p) -> acyclic (p_ops p) -> (heap_size (p_ops p) < n)%nat ->
       fst (receive_debug n p batch) <> Diverges).
Proof.
  intros H. pose (z := qc_ofZ 0 : @V QcOps). pose (p := mkProgram "" (spin_heap [] 0 false z) "r" []).
  assert (E : spinner = Ok p) by reflexivity.
  assert (W : wf_heap (p_ops p)).
  { eapply build_wf; [|exact E]. intros o [Ho|[]]. eapply mk_wf; [|exact (eq_sym Ho)]. intros o'. apply mk_constres_made. }
  assert (A : acyclic (p_ops p)).
  { apply ranked_acyclic with (fun _ => 0%nat).
    - intros a b Hw. apply edges_wired in Hw. destruct Hw.
    - intros id b js ops ins outs pm Ho. apply sfind_In in Ho. destruct Ho as [Ho|[]]. discriminate Ho. }
  assert (Sz : heap_size (p_ops p) = 1%nat) by reflexivity.
  assert (Ep : p_entry p = "r") by reflexivity. assert (Hp : p_ops p = spin_heap [] 0 false z) by reflexivity.
  apply (H 2%nat p [("i1", [im (2 ^ 64 - 4) 1; im (2 ^ 64 - 1) 1])] W A); [rewrite Sz; repeat constructor|].
  unfold receive_debug. rewrite Ep, Hp.
  change (shas "r" (spin_heap [] 0 false z)) with true. cbn iota. cbn [send_batch send_port].
  erewrite spin_first by reflexivity. cbn [bind sbind].
  assert (Q1 : mtime (im (2 ^ 64 - 1) 1) = (2 ^ 64 - 1)%Z) by reflexivity.
  assert (Q2 : Z.even (wrap (mtime (im (2 ^ 64 - 4) 1) + 2)) = true) by (vm_compute; reflexivity).
  assert (Q3 : (0 <= wrap (mtime (im (2 ^ 64 - 4) 1) + 2) < 2^64)%Z) by (vm_compute; split; [discriminate|reflexivity]).
  pose proof (spin_stuck 1 ([] ++ [im (2 ^ 64 - 4) 1]) (im (2 ^ 64 - 1) 1) (wrap (mtime (im (2 ^ 64 - 4) 1) + 2))
                (mval (im (2 ^ 64 - 4) 1)) Q1 (conj Q2 Q3)) as F.
  match type of F with fst ?x = _ => destruct x as [rr hh] end. cbn [fst] in F. rewrite F. reflexivity.
Qed.
Print Assumptions C29_no_endless_loop_refuted.

(** ** C30 *)

(** A program may connect an operator to itself; creating it succeeds and the first message
    then recurses without end: whatever the recursion depth, it is not enough. *)
Definition looping : res (@program QcOps) := build [mk_identity "a"] [("a", "o1", "a", "i1")] "a" [].

Theorem C30_rejects_cycles_refuted :
  exists p, looping = Ok p /\
  forall n m, fst (receive_debug n p [("i1", [m])]) = OutOfFuel.
Proof.
  exists (mkProgram "" [("a", loop_op (NO := QcOps) [] false)] "a" []). split; [reflexivity|].
  intros n m. unfold receive_debug. cbn [p_entry p_ops].
  change (shas "a" [("a", loop_op (NO := QcOps) [] false)]) with true. cbn iota. cbn [send_batch send_port].
  pose proof (loop_send n [] m) as L.
  destruct (send1 n "a" "i1" m [("a", loop_op [] false)]) as [x h']. cbn [fst] in L. subst x. reflexivity.
Qed.
Print Assumptions C30_rejects_cycles_refuted.

(** ** C31 *)

Section C31.
Context {NO : NumOps}.

(** Whatever the outcome of a call (also when it throws), operators that cannot be reached
    from the entry operator through connections keep their state. *)
Theorem C31_state (n : nat) (p : program) (batch : opmsg) (id : string) :
  wf_heap (p_ops p) -> ~ reachable (p_ops p) (p_entry p) id ->
  sfind id (p_ops (snd (receive_debug n p batch))) = sfind id (p_ops p).
Proof.
  intros W Hr. unfold receive_debug. destruct (shas (p_entry p) (p_ops p)); [|reflexivity].
  pose proof (send_batch_off (reachable (p_ops p) (p_entry p)) n (p_entry p) batch (reach_here _ _) [] (p_ops p) W) as X.
  destruct (send_batch n (p_entry p) batch [] (p_ops p)) as [x h].
  apply X; auto. intros a b Ha Hb. econstructor; eauto.
Qed.

(** and the result holds nothing of them *)
Theorem C31_output (n : nat) (p : program) (batch : opmsg) (r : progmsg) (p' : program) (id : string) :
  wf_heap (p_ops p) -> named (p_ops p) -> receive_debug n p batch = (Ok r, p') ->
  ~ reachable (p_ops p) (p_entry p) id ->
  sfind id r = None.
Proof.
  intros W N E Hr. destruct (receive_debug_log _ _ _ _ _ W N E) as (l & E1 & -> & _).
  pose proof (lsend_all_mentions _ _ _ _ _ _ W N E1) as M.
  destruct (mentions_calls _ _ _ M Hr) as [_ Em].
  destruct (sfind id (collate l)) as [om|] eqn:F; [|reflexivity]. exfalso.
  destruct (collate_entries l id om F) as [H1 H2].
  destruct om as [|[port ms] om]; [congruence|].
  apply (H2 port ms); [cbn; now rewrite String.eqb_refl|].
  rewrite <- (Em port), <- result_collate. unfold result_at. rewrite F. cbn. now rewrite String.eqb_refl.
Qed.

End C31.
Print Assumptions C31_state.
Print Assumptions C31_output.

Example C31_example : match demo with Ok p => ~ reachable (p_ops p) (p_entry p) "alone" | _ => False end.
Proof.
  assert (X : match demo with Ok p => edges (p_ops p) | _ => [] end =
              [("avg", "diff"); ("diff", "out"); ("in", "avg"); ("in", "diff")]) by (vm_compute; reflexivity).
  assert (Y : match demo with Ok p => p_entry p | _ => "" end = "in") by (vm_compute; reflexivity).
  destruct (demo_ok []) as (p & E & _). fold demo in E. rewrite E in *. rewrite Y.
  intros H. inversion H as [|b c H1 H2]. apply edges_wired in H2. rewrite X in H2. cbn in H2.
  destruct H2 as [H2|[H2|[H2|[H2|[]]]]]; discriminate H2.
Qed.

(** ** C35 *)

Section C35.
Context {NO : NumOps}.

(** One call with a batch does the same as one call per message, in the order of
    [batch_messages]: same outcome (also when some message fails), same state; the result is
    the merge of the single results. *)
Theorem C35_one_by_one (n : nat) (p : program) (batch : opmsg) :
  wf_heap (p_ops p) -> shas (p_entry p) (p_ops p) = true ->
  receive_debug n p batch = rmap merge_all (one_by_one n p (batch_messages batch)).
Proof. apply batch_one_by_one. Qed.

(** merging concatenates, per operator and port, in the order of the calls *)
Theorem C35_concatenation (n : nat) (p : program) (batch : opmsg) (r : progmsg) (p' : program) :
  wf_heap (p_ops p) -> named (p_ops p) -> shas (p_entry p) (p_ops p) = true ->
  receive_debug n p batch = (Ok r, p') ->
  exists rs, one_by_one n p (batch_messages batch) = (Ok rs, p') /\
    forall id port, result_at r id port = flat_map (fun x => result_at x id port) rs.
Proof.
  intros W N S E. rewrite batch_one_by_one in E by auto.
  destruct (one_by_one n p (batch_messages batch)) as [[l| | | |] q] eqn:O; try discriminate E.
  cbn in E. injection E as <- <-. exists l. split; [reflexivity|].
  assert (Wl : Forall wf_pm l).
  { revert p q l W N S O. generalize (batch_messages batch). induction l as [|[port m] ms IH]; intros p q l W N S O; cbn [one_by_one] in O.
    - injection O as <- <-. constructor.
    - apply bind_ok in O as (r & p1 & E1 & O). apply bind_ok in O as (rs & p2 & E2 & O). injection O as <- <-.
      destruct (receive_debug_log _ _ _ _ _ W N E1) as (lg & G1 & -> & G2).
      constructor; [apply collate_wf|].
      pose proof (C28_next n p [(port, [m])] W N) as X. rewrite E1 in X. cbn [snd] in X. destruct X as (X1 & X2 & X3 & X4 & X5).
      eapply (IH p1); eauto. rewrite X4. unfold shas in *. pose proof (sfind_erase (p_ops p1) (p_entry p)) as Y.
      rewrite X3, sfind_erase in Y. destruct (sfind (p_entry p) (p_ops p)); [|discriminate S].
      destruct (sfind (p_entry p) (p_ops p1)); [reflexivity|discriminate Y]. }
  intros id port. unfold merge_all.
  enough (G : forall l acc, Forall wf_pm l -> result_at (fold_left merge_pm l acc) id port = result_at acc id port ++ flat_map (fun x => result_at x id port) l) by (rewrite G; auto).
  clear. induction l as [|x l IH]; intros acc F; cbn; [now rewrite app_nil_r|].
  inversion F; subst. rewrite IH by auto. rewrite result_merge by auto. now rewrite app_assoc.
Qed.

(** Splitting a list of messages anywhere: two calls do the same as one. *)
Theorem C35_split (n : nat) (p : program) (port : string) (ms1 ms2 : list msg) (r : progmsg) (p' : program) :
  wf_heap (p_ops p) -> named (p_ops p) -> shas (p_entry p) (p_ops p) = true ->
  receive_debug n p [(port, ms1 ++ ms2)] = (Ok r, p') ->
  exists r1 p1 r2,
    receive_debug n p [(port, ms1)] = (Ok r1, p1) /\ receive_debug n p1 [(port, ms2)] = (Ok r2, p') /\
    forall id q, result_at r id q = result_at r1 id q ++ result_at r2 id q.
Proof.
  intros W N S E. destruct (receive_debug_log _ _ _ _ _ W N E) as (l & G1 & -> & G2).
  unfold batch_messages in G1. cbn [flat_map fst snd] in G1. rewrite app_nil_r, map_app, lsend_all_app in G1.
  apply bind_ok in G1 as (l1 & h1 & L1 & G1). apply bind_ok in G1 as (l2 & h2 & L2 & G1). injection G1 as <- Eh.
  assert (R1 : receive_debug n p [(port, ms1)] = (Ok (collate l1), set_ops p h1)).
  { rewrite send_batch_shape by auto. change (@nil (string * opmsg)) with (collate []).
    rewrite lsend_batch_spec. unfold batch_messages. cbn [flat_map fst snd]. rewrite app_nil_r, L1. reflexivity. }
  exists (collate l1), (set_ops p h1), (collate l2). split; [exact R1|]. split.
  - assert (S1 : shas (p_entry (set_ops p h1)) (p_ops (set_ops p h1)) = true).
    { pose proof (lsend_all_keeps _ _ _ _ _ _ W L1) as K. cbn [p_entry p_ops set_ops]. unfold shas in *.
      pose proof (sfind_erase h1 (p_entry p)) as Y. rewrite K, sfind_erase in Y.
      destruct (sfind (p_entry p) (p_ops p)); [|discriminate S].
      destruct (sfind (p_entry p) h1); [reflexivity|discriminate Y]. }
    rewrite send_batch_shape by exact S1. cbn [p_ops p_entry set_ops]. change (@nil (string * opmsg)) with (collate []).
    rewrite lsend_batch_spec. unfold batch_messages. cbn [flat_map fst snd]. rewrite app_nil_r, L2.
    cbn. rewrite G2. rewrite <- Eh. reflexivity.
  - intros id q. now rewrite !result_collate, emitted_app.
Qed.

End C35.
Print Assumptions C35_one_by_one.
Print Assumptions C35_concatenation.
Print Assumptions C35_split.

Example C35_example :
  match demo with
  | Ok p => show_res (map show_pm) (fst (one_by_one 4 p (batch_messages demo_batch)))
  | _ => UB
  end = Ok [[("in", [("o1", [(1%Z, 10%Q)])])];
            [("avg", [("o1", [(2%Z, 15%Q)])]); ("diff", [("o1", [(2%Z, 5%Q)])]);
             ("in", [("o1", [(2%Z, 20%Q)])]); ("out", [("o1", [(2%Z, 5%Q)])])];
            [("avg", [("o1", [(3%Z, 40%Q)])]); ("diff", [("o1", [(3%Z, 20%Q)])]);
             ("in", [("o1", [(3%Z, 60%Q)])]); ("out", [("o1", [(3%Z, 20%Q)])])]].
Proof. vm_compute. reflexivity. Qed.

(** ** C36 *)

Section C36.
Context {NO : NumOps}.

(** same outcome up to the result, same state; without an output section the same result *)
Theorem C36_same_state (n : nat) (p : program) (batch : opmsg) :
  snd (receive n p batch) = snd (receive_debug n p batch) /\
  (forall e, fst (receive n p batch) = Throw e <-> fst (receive_debug n p batch) = Throw e) /\
  (p_filter p = [] -> receive n p batch = receive_debug n p batch).
Proof.
  unfold receive. destruct (receive_debug n p batch) as [[r| | | |] q]; cbn [fst snd];
    (split; [reflexivity|split; [|intros Hf]]); try tauto; try (intros e; split; discriminate).
  now rewrite Hf.
Qed.

(** With an output section that lists no port twice, the result holds exactly the listed
    entries of what [receiveDebug] returns: an entry that is listed is there with precisely
    the same messages, an entry that is not listed is absent (including unknown operators
    and ports), and no operator is listed without an entry. *)
Theorem C36_restricts_partial (n : nat) (p : program) (batch : opmsg) (r : progmsg) (p' : program) :
  p_filter p <> [] -> swf (p_filter p) ->
  (forall id ports, sfind id (p_filter p) = Some ports -> NoDup ports) ->
  receive_debug n p batch = (Ok r, p') ->
  exists r', receive n p batch = (Ok r', p') /\
    (forall id port, entry_at r' id port = if listed (p_filter p) id port then entry_at r id port else None) /\
    (forall id om, sfind id r' = Some om -> om <> []).
Proof.
  intros Ne W ND E. unfold receive. rewrite E. exists (apply_filter (p_filter p) r []). split.
  - destruct (p_filter p); [congruence|reflexivity].
  - now apply apply_filter_entry.
Qed.

End C36.
Print Assumptions C36_same_state.
Print Assumptions C36_restricts_partial.

Example C36_example :
  match demo_filter [("diff", ["o1"; "nope"]); ("ghost", ["o1"])] with
  | Ok p => show_res show_pm (fst (receive 4 p demo_batch))
  | _ => UB
  end = Ok [("diff", [("o1", [(2%Z, 5%Q); (3%Z, 20%Q)])])].
Proof. vm_compute. reflexivity. Qed.

(** A port listed twice is returned with its messages twice. *)
Theorem C36_restricts_refuted :
  ~ (forall (n : nat) (p : @program QcOps) (batch : opmsg) (r r' : progmsg) (p' p'' : program),
       p_filter p <> [] -> swf (p_filter p) ->
       receive_debug n p batch = (Ok r, p') -> receive n p batch = (Ok r', p'') ->
       forall id port, entry_at r' id port = if listed (p_filter p) id port then entry_at r id port else None).
Proof.
  intros H. destruct (demo_ok [("diff", ["o1"; "o1"])]) as (p & E & _).
  assert (F : match demo_filter [("diff", ["o1"; "o1"])] with Ok p => p_filter p | _ => [] end = [("diff", ["o1"; "o1"])]) by (vm_compute; reflexivity).
  assert (A : match demo_filter [("diff", ["o1"; "o1"])] with
              | Ok p => show_res (fun r => option_map (map show_msg) (entry_at r "diff" "o1")) (fst (receive_debug 4 p demo_batch))
              | _ => UB end = Ok (Some [(2%Z, 5%Q); (3%Z, 20%Q)])) by (vm_compute; reflexivity).
  assert (B : match demo_filter [("diff", ["o1"; "o1"])] with
              | Ok p => show_res (fun r => option_map (map show_msg) (entry_at r "diff" "o1")) (fst (receive 4 p demo_batch))
              | _ => UB end = Ok (Some [(2%Z, 5%Q); (3%Z, 20%Q); (2%Z, 5%Q); (3%Z, 20%Q)])) by (vm_compute; reflexivity).
  rewrite E in A, B, F.
  destruct (receive_debug 4 p demo_batch) as [[r| | | |] p1] eqn:E1; try discriminate A.
  destruct (receive 4 p demo_batch) as [[r'| | | |] p2] eqn:E2; try discriminate B.
  cbn in A, B.
  pose proof (H 4%nat p demo_batch r r' p1 p2) as X. rewrite F in X.
  specialize (X ltac:(discriminate)). specialize (X ltac:(repeat constructor)). specialize (X E1 E2 "diff" "o1").
  cbn [listed sfind existsb String.eqb Ascii.eqb Bool.eqb orb] in X. rewrite X in B. rewrite A in B. discriminate B.
Qed.
Print Assumptions C36_restricts_refuted.

(** ** C51 *)

Section C51.
Context {NO : NumOps}.

(** The results of the first calls are the same whatever calls follow, and they are the
    results of making only those calls: each result depends on the messages up to its call
    only.  Batches and messages sent one by one. *)
Theorem C51_calls (n : nat) (p : program) (past future : list opmsg) (rs : list progmsg) (p' : program) :
  receive_all n p (past ++ future) = (Ok rs, p') ->
  exists rs1 p1 rs2, receive_all n p past = (Ok rs1, p1) /\ receive_all n p1 future = (Ok rs2, p') /\
    rs = rs1 ++ rs2 /\ length rs1 = length past.
Proof.
  intros E. rewrite receive_all_app in E. apply bind_ok in E as (r1 & p1 & E1 & E). apply bind_ok in E as (r2 & p2 & E2 & E).
  injection E as <- <-. exists r1, p1, r2. repeat split; auto.
  clear - E1. revert p r1 p1 E1. induction past as [|b bs IH]; intros p r1 p1 E; cbn [receive_all] in E.
  - now injection E as <- <-.
  - apply bind_ok in E as (r & q & E1 & E). apply bind_ok in E as (rs & q2 & E2 & E). injection E as <- <-. cbn. f_equal. eauto.
Qed.

(** Within a call too: what the messages of a prefix make the operators emit is what they
    make them emit without the rest. *)
Theorem C51_within_a_call (n : nat) (p : program) (port : string) (past future : list msg) (r : progmsg) (p' : program) :
  wf_heap (p_ops p) -> named (p_ops p) -> shas (p_entry p) (p_ops p) = true ->
  receive_debug n p [(port, past ++ future)] = (Ok r, p') ->
  exists r1 p1, receive_debug n p [(port, past)] = (Ok r1, p1) /\
    forall id q, exists later, result_at r id q = result_at r1 id q ++ later.
Proof.
  intros W N S E. destruct (C35_split _ _ _ _ _ _ _ W N S E) as (r1 & p1 & r2 & E1 & E2 & H).
  exists r1, p1. split; [exact E1|]. intros id q. exists (result_at r2 id q). apply H.
Qed.

End C51.
Print Assumptions C51_calls.
Print Assumptions C51_within_a_call.

Example C51_example :
  match demo with
  | Ok p => (show_res (map show_pm) (fst (receive_all 4 p [[("i1", [im 1 10; im 2 20])]])),
             show_res (fun l => firstn 1 (map show_pm l)) (fst (receive_all 4 p [[("i1", [im 1 10; im 2 20])]; [("i1", [im 3 60])]])))
  | _ => (UB, UB)
  end = (let r := Ok [[("avg", [("o1", [(2%Z, 15%Q)])]); ("diff", [("o1", [(2%Z, 5%Q)])]);
                       ("in", [("o1", [(1%Z, 10%Q); (2%Z, 20%Q)])]); ("out", [("o1", [(2%Z, 5%Q)])])]] in (r, r)).
Proof. vm_compute. reflexivity. Qed.
