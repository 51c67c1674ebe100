(** * Timestamps, the order of connections and of arrivals (C32-C34). *)

From Coq Require Import String ZArith QArith Bool List Lia Sorted Permutation.
From Verif Require Import Base.StrMap Base.Num Base.NumQc Model.Core Model.Ops Model.Make Model.Run Model.Graph.
From Verif Require Import Spec.Shape Spec.Log Spec.Show Spec.Build Spec.Streams Spec.Preserving.
From Verif Require Import Proofs.ShapeP Proofs.LogRun Proofs.MakeP Proofs.Increasing.
From Verif Require Properties.Graph.
Import ListNotations.
Open Scope string_scope.
Open Scope list_scope.
Open Scope rtbot_scope.

(** ** C32 *)

Section C32.
Context {NO : NumOps}.

(** A single operator, called in whatever order and however often: if the times increase on
    each of its input ports, they increase on each of its output ports. *)
Theorem C32_operator (o : op) (evs : list ev) (outs : list opmsg) (o' : op) :
  time_preserving o -> ports_exist o evs -> run o evs = (Ok outs, o') ->
  (forall x, increasing (times (Join.hist x evs))) -> (forall x, increasing (times (Demux.chist x evs))) ->
  forall y, increasing (times (on_port y outs)).
Proof. intros T. now apply time_preserving_monotone. Qed.

(** An Input emits increasing times whatever it receives. *)
Theorem C32_input (id : string) (n : nat) (o : op) cs (evs : list ev) (outs : list opmsg) (o' : op) :
  mk_input id n = Ok o -> run (with_conns cs o) evs = (Ok outs, o') ->
  forall y, increasing (times (on_port y outs)).
Proof. intros H. now apply (mk_input_always id n o cs H). Qed.

(** A whole program, over its whole life: whatever batches it is sent, the times in the
    results of all the calls together increase strictly, for every operator and port. *)
Theorem C32_program (rank : string -> nat) (n : nat) (p : program) (batches : list opmsg) (rs : list progmsg) (p' : program) :
  wf_heap (p_ops p) -> named (p_ops p) ->
  ranked rank (p_ops p) -> one_feed (p_ops p) ->
  (forall id o, sfind id (p_ops p) = Some o -> time_preserving o) ->
  (exists id k o cs, mk_input id k = Ok o /\ sfind (p_entry p) (p_ops p) = Some (with_conns cs o)) ->
  receive_all n p batches = (Ok rs, p') ->
  forall id port, increasing (times (flat_map (fun r => result_at r id port) rs)).
Proof.
  intros W N Rk Of Tp (i & k & o & cs & Hi & Hs) E id port.
  destruct (receive_all_log n p batches rs p' W N E) as (l & L & R). rewrite R.
  eapply (log_increasing rank); eauto.
  - intros id' o' H'. split; [now apply time_preserving_monotone, (Tp id')|now apply time_preserving_simple, (Tp id')].
  - now apply (mk_input_always i k).
Qed.

(** The same for programs put together from constructed operators. *)
Lemma connect_preserving src child cid out inp src' :
  connect src child cid out inp = Ok (Some src') -> exists cs, src' = with_conns cs src.
Proof.
  destruct src as [b k]. unfold connect. intros E.
  repeat match type of E with
  | (if ?c then _ else _) = Ok _ => destruct c; try discriminate E
  end; injection E as <-; eexists; reflexivity.
Qed.

Lemma with_conns_twice cs cs' o : with_conns cs' (with_conns cs o) = with_conns cs' o.
Proof. destruct o as [b k]. reflexivity. Qed.

Definition was_at (h : heap) (id : string) (o : op) : Prop := exists o0 cs, sfind id h = Some o0 /\ o = with_conns cs o0.

Lemma connect_all_was cs : forall h h' id o, connect_all cs h = Ok h' -> sfind id h' = Some o -> was_at h id o.
Proof.
  induction cs as [|[[[from out] to] inp] cs IH]; intros h h' id o E H; cbn [connect_all] in E.
  - injection E as <-. exists o, (o_conns (op_base o)). split; auto. now destruct o as [[]].
  - destruct (sfind from h) as [a|] eqn:Ha; [|discriminate E]. destruct (sfind to h) as [b|]; [|discriminate E].
    apply rbind_ok in E as ([a'|] & E1 & E); [|discriminate E].
    destruct (IH _ _ _ _ E H) as (o0 & cs0 & H0 & ->). rewrite sfind_sset in H0.
    destruct (String.eqb_spec id from) as [->|]; [|exists o0, cs0; auto]. injection H0 as <-.
    destruct (connect_preserving _ _ _ _ _ _ E1) as (cs1 & ->). exists a, cs0. split; auto.
Qed.

Lemma collect_ops_In ops : forall h id o, collect_ops ops = Ok h -> sfind id h = Some o -> In (Ok o) ops /\ o_id (op_base o) = id.
Proof.
  induction ops as [|x ops IH]; intros h id o E H; cbn [collect_ops] in E; [injection E as <-; discriminate H|].
  apply rbind_ok in E as (o1 & E1 & E). apply rbind_ok in E as (h1 & E2 & E). injection E as <-. rewrite sfind_sset in H.
  destruct (String.eqb_spec id (o_id (op_base o1))) as [->|]; [injection H as <-; cbn; auto|].
  destruct (IH _ _ _ E2 H). cbn. auto.
Qed.

Lemma constructed_wf o : constructed o -> wf_op o.
Proof.
  intros H. enough (exists id, made id o) as (id & X) by apply X.
  destruct H as [id n o' H|id n o' H|id n o' H|id f v o' H|id v o' H|id v o' H|id v o' H|id v o' H|id o' H|id o' H|id o' H|id l ty o' H
         |id n o' Hn H|id n o' Hn H|id n o' Hn H|id c o' Hc H|id n g1 g2 g3 g4 o' Hn H|id n o' H|id f o' H|id c o' H|id n o' H|id v o' H];
    exists id; try (eapply mk_simple_made; [|exact H]; reflexivity).
  - eapply mk_input_made; eauto.
  - eapply mk_output_made; eauto.
  - eapply mk_collector_made; eauto.
  - eapply mk_function_made; eauto.
  - eapply mk_join_made; eauto.
  - eapply mk_binary_made; eauto.
  - eapply mk_linear_made; eauto.
  - eapply mk_demux_made; eauto.
  - eapply mk_variable_made; eauto.
Qed.

Theorem C32_built (rank : string -> nat) (n : nat) (ops : list (res op)) conns entry filter (p : program)
  (batches : list opmsg) (rs : list progmsg) (p' : program) :
  build ops conns entry filter = Ok p ->
  (forall o, In (Ok o) ops -> constructed o) ->
  (forall o, In (Ok o) ops -> o_id (op_base o) = entry -> exists k, mk_input entry k = Ok o) ->
  ranked rank (p_ops p) -> one_feed (p_ops p) ->
  receive_all n p batches = (Ok rs, p') ->
  forall id port, increasing (times (flat_map (fun r => result_at r id port) rs)).
Proof.
  intros B Hc Hi Rk Of E.
  destruct (build_wf ops conns entry filter p) as (W & N); auto using constructed_wf.
  assert (Was : forall id o, sfind id (p_ops p) = Some o -> exists o0 cs, In (Ok o0) ops /\ o_id (op_base o0) = id /\ o = with_conns cs o0).
  { intros id o H. unfold build in B. apply rbind_ok in B as (h & E1 & B). apply rbind_ok in B as (h' & E2 & B). injection B as <-. cbn in H.
    destruct (connect_all_was _ _ _ _ _ E2 H) as (o0 & cs & H0 & ->). destruct (collect_ops_In _ _ _ _ E1 H0). exists o0, cs. auto. }
  assert (Ent : p_entry p = entry).
  { unfold build in B. apply rbind_ok in B as (h & E1 & B). apply rbind_ok in B as (h' & E2 & B). now injection B as <-. }
  destruct batches as [|b bs]; [injection E as <- _; intros; constructor|].
  eapply (C32_program rank); eauto.
  - intros id o H. destruct (Was id o H) as (o0 & cs & H0 & _ & ->). exists o0, cs. auto.
  - assert (Sh : shas (p_entry p) (p_ops p) = true).
    { cbn [receive_all] in E. apply bind_ok in E as (r & p1 & E1 & _). unfold receive_debug in E1. destruct (shas _ _); [auto|discriminate E1]. }
    unfold shas in Sh. destruct (sfind (p_entry p) (p_ops p)) as [o|] eqn:F; [|discriminate].
    destruct (Was _ _ F) as (o0 & cs & H0 & Id & ->). rewrite Ent in Id. destruct (Hi o0 H0 Id) as (k & Hk). exists entry, k, o0, cs. auto.
Qed.

End C32.
Print Assumptions C32_operator.
Print Assumptions C32_input.
Print Assumptions C32_program.
Print Assumptions C32_built.

(** all connections of a program: the input port and the output port that feeds it *)
Definition feeds {NO : NumOps} (h : heap) : list ((string * string) * (string * string)) :=
  flat_map (fun x => flat_map (fun y => map (fun c => (c, (fst x, fst y))) (snd y)) (o_conns (op_base (snd x)))) h.

Lemma feeds_fed {NO : NumOps} h id port src : fed_by h id port src -> In ((id, port), src) (feeds h).
Proof.
  intros H. unfold fed_by, wires in H. destruct (sfind (fst src) h) as [o|] eqn:E; [|destruct H].
  destruct (sfind (snd src) (o_conns (op_base o))) as [cs|] eqn:E2; [|destruct H].
  unfold feeds. apply in_flat_map. exists (fst src, o). split; [now apply sfind_In|]. apply in_flat_map.
  exists (snd src, cs). split; [now apply sfind_In|]. cbn. apply in_map_iff. exists (id, port). split; auto. now destruct src.
Qed.

(** the example program of Graph.v, sent times that are out of order and repeated *)
Definition messy : list (@opmsg QcOps) :=
  [[("i1", [im 3 10; im 1 20; im 4 60])]; [("i1", [im 4 1; im 2 1; im 9 30])]].
Example C32_example :
  match Graph.demo with
  | Ok p => show_res (map show_pm) (fst (receive_all 4 p messy))
  | _ => UB
  end = Ok [[("avg", [("o1", [(4%Z, 35%Q)])]); ("diff", [("o1", [(4%Z, 25%Q)])]);
             ("in", [("o1", [(3%Z, 10%Q); (4%Z, 60%Q)])]); ("out", [("o1", [(4%Z, 25%Q)])])];
            [("avg", [("o1", [(9%Z, 45%Q)])]); ("diff", [("o1", [(9%Z, (-15)%Q)])]);
             ("in", [("o1", [(9%Z, 30%Q)])]); ("out", [("o1", [(9%Z, (-15)%Q)])])]].
Proof. vm_compute. reflexivity. Qed.

Example C32_demo_hypotheses : match Graph.demo with
  | Ok p => one_feed (p_ops p) /\ forall id port, NoDup (wires (p_ops p) id port)
  | _ => False end.
Proof.
  assert (X : match Graph.demo with Ok p => feeds (p_ops p) | _ => [] end =
              [(("diff", "i2"), ("avg", "o1")); (("out", "i1"), ("diff", "o1")); (("avg", "i1"), ("in", "o1")); (("diff", "i1"), ("in", "o1"))])
    by (vm_compute; reflexivity).
  assert (Y : match Graph.demo with Ok p => map (fun x => (fst x, o_conns (op_base (snd x)))) (p_ops p) | _ => [] end =
    [("alone", []); ("avg", [("o1", [("diff", "i2")])]); ("diff", [("o1", [("out", "i1")])]);
     ("in", [("o1", [("avg", "i1"); ("diff", "i1")])]); ("out", [])]) by (vm_compute; reflexivity).
  destruct (Graph.demo_ok []) as (p & E & _). fold Graph.demo in E. rewrite E in *.
  assert (ND : forall id port, NoDup (wires (p_ops p) id port)).
  { intros id port. unfold wires. destruct (sfind id (p_ops p)) as [o|] eqn:F; [|constructor].
    apply sfind_In in F. apply (in_map (fun x => (fst x, o_conns (op_base (snd x))))) in F. rewrite Y in F. cbn in F.
    destruct F as [F|[F|[F|[F|[F|[]]]]]]; injection F as _ <-; cbn; try destruct (String.eqb port "o1"); cbn;
      repeat constructor; cbn; intuition congruence. }
  split; [|exact ND]. split; [|exact ND].
  intros id port s1 s2 H1 H2. apply feeds_fed in H1, H2. rewrite X in H1, H2. cbn in H1, H2.
  destruct H1 as [H1|[H1|[H1|[H1|[]]]]]; destruct H2 as [H2|[H2|[H2|[H2|[]]]]]; congruence.
Qed.

(** so for this program, whatever is sent *)
Example C32_demo n p batches rs p' :
  Graph.demo = Ok p -> receive_all n p batches = (Ok rs, p') ->
  forall id port, increasing (times (flat_map (fun r => result_at r id port) rs)).
Proof.
  intros E R. pose proof Graph.C28_demo_ranked as Rk. pose proof C32_demo_hypotheses as Of. rewrite E in *. destruct Of as [Of _].
  eapply (C32_built Graph.demo_rank); [exact E| | |exact Rk|exact Of|exact R].
  - intros o [H|[H|[H|[H|[H|[]]]]]].
    + eapply C_input; eauto.
    + eapply C_movavg; eauto. reflexivity.
    + eapply C_binary; eauto.
    + eapply C_output; eauto.
    + eapply C_identity; eauto.
  - intros o H Id. destruct H as [H|H]; [eauto|exfalso].
    assert (X : forall id x, In x [mk_movavg "avg" 2; mk_binary "diff" BMinus; mk_output "out" 1; mk_identity "alone"] ->
      match x with Ok o => o_id (op_base o) | _ => "" end = id -> id <> "in").
    { intros id x [<-|[<-|[<-|[<-|[]]]]]; vm_compute; intros <-; discriminate. }
    exact (X _ _ H eq_refl Id).
Qed.

(** With two connections into one port the times need not increase: both outputs of a
    two-port Input feed the same operator. *)
Definition shared : res (@program QcOps) :=
  build [mk_input "in" 2; mk_identity "all"]
        [("in", "o1", "all", "i1"); ("in", "o2", "all", "i1")] "in" [].
Example C32_one_feed_needed :
  match shared with
  | Ok p => show_res (map show_pm) (fst (receive_all 3 p [[("i1", [im 5 1])]; [("i2", [im 2 1])]]))
  | _ => UB
  end = Ok [[("all", [("o1", [(5%Z, 1%Q)])]); ("in", [("o1", [(5%Z, 1%Q)])])];
            [("all", [("o1", [(2%Z, 1%Q)])]); ("in", [("o2", [(2%Z, 1%Q)])])]].
Proof. vm_compute. reflexivity. Qed.

(** ** C33 *)

(** Big values go to the first port of a Join, small ones, three time units back, to the second. *)
Definition branches (cs : list (string * string * string * string)) : res (@program QcOps) :=
  build [mk_input "in" 1; mk_filter "big" FGreater (Qcanon.Q2Qc 1); mk_filter "small" FLess (Qcanon.Q2Qc 3);
         mk_timeshift "back" 1 (-3); mk_join "pair" 2]
        cs "in" [].
Definition to_big := ("in", "o1", "big", "i1").
Definition to_small := ("in", "o1", "small", "i1").
Definition the_rest := [("big", "o1", "pair", "i1"); ("small", "o1", "back", "i1"); ("back", "o1", "pair", "i2")].
Definition branch_batch : @opmsg QcOps := [("i1", [im 5 5; im 8 5; im 10 2; im 13 0])].
Definition pair_of (cs : list (string * string * string * string)) : res (list (Z * Q)) :=
  match branches cs with
  | Ok p => show_res (fun r => map (fun m => (mtime m, Qcanon.this (mval m))) (result_at r "pair" "o1"))
              (fst (receive_debug 5 p branch_batch))
  | _ => UB
  end.

(** Exchanging two connections (in an acyclic program where every input port has one
    connection) changes what is emitted: time 10 is paired or not. *)
Theorem C33_connection_order_refuted :
  exists cs cs', Permutation cs cs' /\ pair_of cs = Ok [] /\ pair_of cs' = Ok [(10%Z, 2%Q)].
Proof.
  exists (to_big :: to_small :: the_rest), (to_small :: to_big :: the_rest).
  split; [apply perm_swap|]. split; vm_compute; reflexivity.
Qed.
Print Assumptions C33_connection_order_refuted.

(** ** C34 *)

Definition two_ports : res (@program QcOps) :=
  build [mk_input "in" 2; mk_join "pair" 2]
        [("in", "o1", "pair", "i1"); ("in", "o2", "pair", "i2")] "in" [].
Definition per_port (port : string) (ms : list (string * @msg QcOps)) : list msg :=
  map snd (filter (fun x => String.eqb (fst x) port) ms).
Definition paired (ms : list (string * @msg QcOps)) : res (list (Z * Q)) :=
  match two_ports with
  | Ok p => show_res (fun rs => map (fun m => (mtime m, Qcanon.this (mval m))) (flat_map (fun r => result_at r "pair" "o1") rs))
              (fst (one_by_one 3 p ms))
  | _ => UB
  end.
Definition in_turn : list (string * @msg QcOps) :=
  [("i1", im 5 1); ("i2", im 7 4); ("i1", im 8 2); ("i2", im 10 5); ("i1", im 10 3)].
Definition one_after_the_other : list (string * @msg QcOps) :=
  [("i1", im 5 1); ("i1", im 8 2); ("i1", im 10 3); ("i2", im 7 4); ("i2", im 10 5)].

(** The same messages on each port, in the same order, with increasing times: whether time 10
    is paired depends on which port receives its messages first. *)
Theorem C34_interleaving_refuted :
  exists ms ms', (forall port, per_port port ms = per_port port ms') /\
    paired ms = Ok [(10%Z, 3%Q)] /\ paired ms' = Ok [].
Proof.
  exists in_turn, one_after_the_other. split; [|split; vm_compute; reflexivity].
  intros port. unfold per_port, in_turn, one_after_the_other. cbn [filter fst].
  destruct (String.eqb_spec "i1" port) as [<-|N1]; [reflexivity|]. destruct (String.eqb_spec "i2" port) as [<-|N2]; reflexivity.
Qed.
Print Assumptions C34_interleaving_refuted.
