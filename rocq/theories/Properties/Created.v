(** * Programs created from JSON: results do not depend on uninitialised memory (C54),
      snapshots do (C55);
      snapshots of created programs (C38, C39). *)

From Coq Require Import String Ascii ZArith Bool List Lia.
From Flocq Require Import IEEE754.Binary IEEE754.Bits.
From Verif Require Import Base.StrMap Base.Num Base.NumInt Base.NumB64 Model.Core Model.Ops Model.Make Model.Run Model.Graph.
From Verif Require Import Model.Codec Model.Json Model.Factory.
From Verif Require Import Spec.Shape Spec.Build Spec.Preserving Spec.Snapshot Spec.Definition Spec.Manager.
From Verif Require Import Proofs.Ports Proofs.ShapeP Proofs.MakeP Proofs.CodecP Proofs.Restored Proofs.Fits Proofs.JsonP Proofs.Junk.
From Verif Require Import Properties.Definition Properties.Snapshot.
Import ListNotations.
Open Scope string_scope.
Open Scope list_scope.
Open Scope Z_scope.
Open Scope rtbot_scope.

Section Created.
Context {NO : NumOps} {JT : JsonText}.

(** ** C54: [g] and [g'] are what the constructors' uninitialised members hold.  Two programs
    created from the same definition give the same results, for every sequence of batches;
    and creation fails for one if and only if it fails, in the same way, for the other. *)
Lemma jrel_session n batches : forall p q, pjrel p q ->
  fst (session n p batches) = fst (session n q batches) /\ pjrel (snd (session n p batches)) (snd (session n q batches)).
Proof.
  induction batches as [|b bs IH]; intros p q H; cbn [session]; [auto|].
  destruct (jrel_receive n p q b H) as [E H1]. destruct (receive n p b) as [r p1], (receive n q b) as [r' q1]. cbn [fst snd] in E, H1. subst r'.
  destruct (IH p1 q1 H1) as [E2 H2]. destruct (session n p1 bs), (session n q1 bs). cbn [fst snd] in *. now subst.
Qed.

Theorem C54_reproducible (g g' : string -> junk) (text : string) :
  match new_prog g text with
  | Ok p => exists q, new_prog g' text = Ok q /\
      forall n batches, fst (session n p batches) = fst (session n q batches)
  | failure => new_prog g' text = failure
  end.
Proof.
  pose proof (jrel_new_prog g g' text) as H. unfold rres in H.
  destruct (new_prog g text) as [p| | | |], (new_prog g' text) as [q| | | |]; try contradiction; auto.
  exists q. split; [reflexivity|]. intros n batches. now apply jrel_session.
Qed.

(** ** Created programs in the sense of the theorems on snapshots *)
Lemma read_ops_created g l : forall h h', read_ops (read_op g) l h = Ok h' ->
  (forall id o, sfind id h = Some o -> is_pipeline o = true \/ created o) ->
  forall id o, sfind id h' = Some o -> is_pipeline o = true \/ created o.
Proof.
  induction l as [|x l IH]; intros h h' E F; cbn [read_ops] in E; [injection E as <-; exact F|].
  apply rbind_ok in E as (idj & _ & E). apply rbind_ok in E as (o1 & E2 & E). apply rbind_ok in E as (i & _ & E).
  eapply IH; [exact E|]. intros i' o' Fi. rewrite sfind_semplace in Fi. destruct (sfind i' h) eqn:X; [injection Fi as <-; eauto|].
  destruct (String.eqb i' i); [|discriminate]. injection Fi as <-.
  destruct (read_op_cases _ _ _ E2) as (ty & _ & [(_ & id & prog & _ & _ & M)|(_ & C)]).
  - left. unfold mk_pipeline in M. apply rbind_ok in M as (xs & _ & M). apply rbind_ok in M as (h1 & _ & M).
    apply rbind_ok in M as (cs & _ & M). apply rbind_ok in M as ([[h2 ui] uo] & _ & M). apply rbind_ok in M as (y & _ & M).
    destruct (pipe_outs _ _ _ _). injection M as <-. reflexivity.
  - right. eapply from_json_created; eauto.
Qed.

Definition no_pipelines (p : program) : Prop := forall id o, sfind id (p_ops p) = Some o -> is_pipeline o = false.

Lemma created_new g text p : new_prog g text = Ok p -> no_pipelines p -> new_program p /\ p_text p = text.
Proof.
  unfold new_prog. intros H NP. apply rbind_ok in H as (j & _ & H).
  destruct (init_cases _ _ _ _ H) as (entry & filter & h & h' & cs & o & _ & _ & _ & E & _ & R & _ & [[_ ->]|[_ ->]]).
  - split; [|reflexivity]. destruct (operators_good _ _ _ E) as [[[W _] _] _]. split; cbn [p_ops] in *.
    + now apply (read_conns_swf _ _ _ R).
    + intros id o1 F1. destruct (read_conns_ok _ _ _ R) as (cs' & rs & _ & _ & Rw). specialize (Rw id). rewrite F1 in Rw.
      destruct (sfind id h) as [o0|] eqn:F0; [|contradiction]. destruct Rw as [Sp _].
      unfold operators_of in E. apply rbind_ok in E as (xs & _ & E).
      destruct (read_ops_created _ _ _ _ E) with (id := id) (o := o0) as [P|C]; auto; [intros ? ? X; discriminate X| |].
      * specialize (NP id o1 F1). destruct (same_ports_fields _ _ Sp) as (_ & _ & _ & _ & K). unfold is_pipeline in *. rewrite K in NP. congruence.
      * exists o0, (o_conns (op_base o1)). split; [exact C|]. destruct o0 as [b k], o1 as [b1 k1].
        unfold same_ports, unwired in Sp. injection Sp as E1 E2 E3 E4 E5 E6. unfold with_conns. cbn [op_base op_kind].
        destruct b, b1. cbn in *. subst. reflexivity.
  - split; [|reflexivity]. split; [constructor|]. intros id o1 X. discriminate X.
Qed.

Lemma jrel_erase a b : jrel a b -> is_pipeline a = false -> erase a = erase b.
Proof. destruct 1; intros P; try reflexivity. discriminate P. Qed.

Lemma pjrel_same p q : pjrel p q -> no_pipelines p -> swf (p_ops p) -> same_definition q p /\ no_pipelines q.
Proof.
  intros (E1 & E2 & E3 & H) NP W. split.
  - repeat split; auto. unfold erase_heap. unfold no_pipelines in NP.
    assert (NP' : forall x, In x (p_ops p) -> is_pipeline (snd x) = false).
    { intros [k o] I. apply (NP k). now apply In_sfind. }
    clear NP W. revert NP'. induction H as [|[k a] [k' a'] h h' [E J] H IH]; intros NP'; [reflexivity|].
    unfold smapv. cbn [map]. cbn [fst snd] in E, J. subst k'. f_equal.
    + cbn [fst snd]. rewrite (jrel_erase a a' J); [reflexivity|]. apply (NP' (k, a)). now left.
    + apply IH. intros x I. apply NP'. now right.
  - intros id o F. destruct (hj_find _ _ id H) as [(a & a' & Fa & Fa' & J)|[_ Fa']]; [|congruence].
    rewrite F in Fa'. injection Fa' as <-. specialize (NP id a Fa). destruct J; auto. 
Qed.

Context {NC : NumCodec NO}.

(** The same for a program restored from the same bytes, *)
Theorem C54_restored (g g' : string -> junk) (bs : bytes) :
  match load (new_prog g) bs with
  | Ok p => exists q, load (new_prog g') bs = Ok q /\
      forall n batches, fst (session n p batches) = fst (session n q batches)
  | failure => load (new_prog g') bs = failure
  end.
Proof.
  pose proof (jrel_load g g' bs) as H. unfold rres in H.
  destruct (load (new_prog g) bs) as [p| | | |], (load (new_prog g') bs) as [q| | | |]; try contradiction; auto.
  exists q. split; [reflexivity|]. intros n batches. now apply jrel_session.
Qed.

(** and for whole sessions with the manager of programs: two runs of the same calls get the
    same replies, except for the bytes of snapshots *)
Theorem C54_manager (n : nat) (calls calls' : list call) : Forall2 same_call calls calls' ->
  replies_without_snapshots calls (fst (do_calls n calls no_programs)) =
  replies_without_snapshots calls' (fst (do_calls n calls' no_programs)).
Proof. intros H. apply mjrel_calls; [exact H|]. split; [reflexivity|constructor]. Qed.

(** ** C55, what holds of it: the bytes are the same once every ConstantResampler has received
    something *)
Theorem C55_snapshot_partial (g g' : string -> junk) (text : string) (p q : program) (n : nat) (batches : list opmsg) :
  new_prog g text = Ok p -> new_prog g' text = Ok q ->
  (forall id b dt next i v, sfind id (p_ops (snd (session n p batches))) = Some (Op b (KConstResampler dt next i v)) -> i = true) ->
  serialize (snd (session n p batches)) = serialize (snd (session n q batches)).
Proof.
  intros Hp Hq HI. pose proof (jrel_new_prog g g' text) as J. rewrite Hp, Hq in J. cbn [rres] in J.
  assert (W : swf (p_ops (snd (session n p batches)))).
  { destruct (new_prog_good _ _ _ Hp) as [W N]. now destruct (session_shape n batches p W N) as [[X _] _]. }
  destruct (jrel_session n batches p q J) as [_ (E1 & _ & _ & H)]. unfold serialize. rewrite E1. f_equal.
  assert (HI' : forall x, In x (p_ops (snd (session n p batches))) -> forall b dt next i v, snd x = Op b (KConstResampler dt next i v) -> i = true).
  { intros [k o] I b dt next i v E. cbn [snd] in E. subst o. eapply HI. apply In_sfind; [exact W|exact I]. }
  clear HI W. revert HI'. induction H as [|[k a] [k' a'] h h' [E J1] H IH]; intros HI; [reflexivity|].
  cbn [fst snd] in E, J1. subst k'. cbn [flat_map]. rewrite IH by (intros x I; apply HI; now right). f_equal.
  unfold enc_named_op. cbn [fst snd]. f_equal. specialize (HI (k, a) (or_introl eq_refl)). cbn [snd] in HI.
  destruct J1; try reflexivity. specialize (HI _ _ _ _ _ eq_refl). discriminate HI.
Qed.

(** Snapshots do depend on uninitialised memory before: they contain the next time and the last value
    of a ConstantResampler also when it has not received anything. *)
Definition resampler : json :=
  JObj [("connections", JArr []); ("entryOperator", JStr "r");
        ("operators", JArr [JObj [("id", JStr "r"); ("interval", JInt 5); ("type", JStr "ConstantResampler")]])].

Theorem C55_snapshot_refuted (text : string) : parse text = Ok resampler ->
  exists (g g' : string -> junk) (p q : program),
    new_prog g text = Ok p /\ new_prog g' text = Ok q /\ serialize p <> serialize q.
Proof.
  intros P. exists (fun _ => mkJunk 0 v0 v0 v0 v0), (fun _ => mkJunk 1 v0 v0 v0 v0).
  unfold new_prog. rewrite P. eexists. eexists. split; [reflexivity|]. split; [reflexivity|].
  unfold serialize. cbn [p_text p_ops]. intros E. apply app_inv_head in E.
  assert (X : forall b t t', flat_map enc_named_op [("r", Op b (KConstResampler (wrap 5) t false v0))] =
                             flat_map enc_named_op [("r", Op b (KConstResampler (wrap 5) t' false v0))] -> enc64 t = enc64 t').
  { intros b t t' H. cbn [flat_map] in H. rewrite !app_nil_r in H. unfold enc_named_op in H. cbn [fst snd collect] in H.
    do 3 apply app_inv_head in H. rewrite !app_assoc in H. do 2 apply app_inv_tail in H. exact H. }
  apply X in E. discriminate E.
Qed.


Lemma supported_no_pipelines p : supported_program p -> no_pipelines p.
Proof. intros S0 id o F. specialize (S0 id o F). unfold supported, is_pipeline in *. destruct (op_kind o); auto; discriminate S0. Qed.

(** ** C38, for programs created from JSON and restored by [Program(Bytes)] *)
Theorem C38_created (g g' : string -> junk) (text : string) (p0 p : program) (n : nat) (history : list opmsg) :
  new_prog g text = Ok p0 -> supported_program p0 ->
  p = snd (session n p0 history) -> fits_program p ->
  exists q, load (new_prog g') (serialize p) = Ok q /\
    (forall n' future, fst (session n' q future) = fst (session n' p future)) /\
    serialize q = serialize p.
Proof.
  intros H S0 E F. pose proof (supported_no_pipelines p0 S0) as NP. destruct (created_new g text p0 H NP) as [N T].
  pose proof (jrel_new_prog g g' text) as J. rewrite H in J. destruct (new_prog g' text) as [q0| | | |] eqn:H'; try contradiction.
  destruct (pjrel_same _ _ J NP (proj1 N)) as [SD NP']. destruct (created_new g' text q0 H' NP') as [N' _].
  assert (I : new_prog g' (p_text p0) = Ok q0) by (rewrite T; exact H').
  destruct (C38_continues (new_prog g') p0 q0 p n history N S0 I N' SD E F) as (q & L & Q).
  exists q. split; [exact L|]. split; [exact Q|]. now apply (C38_same_bytes (new_prog g') p0 q0 p q n history).
Qed.

(** ** C39, what holds of it: a RelativeStrengthIndex that has not emitted anything yet *)
Theorem C39_created_partial (g g' : string -> junk) (text : string) (p0 p : program) (n : nat) (history : list opmsg) :
  new_prog g text = Ok p0 -> no_pipelines p0 ->
  p = snd (session n p0 history) -> fits_program p ->
  (forall id b g1 g2 g3 g4 i, sfind id (p_ops p) = Some (Op b (KRSI g1 g2 g3 g4 i)) -> i = false) ->
  exists q, load (new_prog g') (serialize p) = Ok q /\
    forall n' future, fst (session n' q future) = fst (session n' p future).
Proof.
  intros H NP E F NI. destruct (created_new g text p0 H NP) as [N T].
  pose proof (jrel_new_prog g g' text) as J. rewrite H in J. destruct (new_prog g' text) as [q0| | | |] eqn:H'; try contradiction.
  destruct (pjrel_same _ _ J NP (proj1 N)) as [SD NP']. destruct (created_new g' text q0 H' NP') as [N' _].
  assert (I : new_prog g' (p_text p0) = Ok q0) by (rewrite T; exact H').
  exact (C39_continues_partial (new_prog g') p0 q0 p n history N I N' SD E F NI).
Qed.

End Created.

(** ** Examples *)

Definition tbl (j : @json ex_ops) : @JsonText ex_ops :=
  {| parse := fun s => if String.eqb s "text" then Ok j else Throw parse_error; dump := fun _ => "inner" |}.
Definition junk_of (z : Z) : string -> @junk ex_ops := fun _ => @mkJunk ex_ops z (b64_ofZ z) (b64_ofZ z) (b64_ofZ z) (b64_ofZ z).

(** in -> Pipeline(count) *)
Definition counting_pipeline : @json ex_ops := JObj
  [("connections", JArr [JObj [("from", JStr "in"); ("to", JStr "p")]]); ("entryOperator", JStr "in");
   ("operators", JArr [JObj [("id", JStr "in"); ("type", JStr "Input")];
                       JObj [("id", JStr "p"); ("prog", JObj [("connections", JArr []);
                                                              ("operators", JArr [JObj [("id", JStr "n"); ("type", JStr "Count")]])]);
                             ("type", JStr "Pipeline")]]);
   ("output", JObj [("p", JArr [JStr "o1"])])].

(** the created program after [history], what it was restored to, and their further results *)
Definition created_outcome (j : @json ex_ops) (history future : list (@opmsg ex_ops)) :=
  match new_prog (JT := tbl j) (junk_of 7) "text" with
  | Ok p0 =>
      let p := snd (session 5 p0 history) in
      match load (new_prog (JT := tbl j) (junk_of 8)) (serialize p) with
      | Ok q => Some (fits_programb p, forallb (fun x => supported (snd x)) (p_ops p0),
                      show_session (fst (session 5 p future)), show_session (fst (session 5 q future)))
      | _ => None
      end
  | _ => None
  end.

Lemma created_outcome_spec j history future s a b : created_outcome j history future = Some (true, s, a, b) ->
  exists p0 p q, new_prog (JT := tbl j) (junk_of 7) "text" = Ok p0 /\ p = snd (session 5 p0 history) /\ fits_program p /\
    load (new_prog (JT := tbl j) (junk_of 8)) (serialize p) = Ok q /\
    forallb (fun x => supported (snd x)) (p_ops p0) = s /\
    show_session (fst (session 5 p future)) = a /\ show_session (fst (session 5 q future)) = b.
Proof.
  unfold created_outcome. destruct (new_prog (junk_of 7) "text") as [p0| | | |]; try discriminate. cbv zeta.
  set (p := snd (session 5 p0 history)). destruct (load _ _) as [q| | | |] eqn:L; try discriminate.
  intros H. injection H as H1 H2 H3 H4. exists p0, p, q. repeat split; auto.
  all: apply fits_programb_ok in H1; apply H1.
Qed.

(** ** C39 is false of a Pipeline: its inner operators start anew after a restore. *)
Theorem C39_pipeline_refuted : exists (JT : @JsonText ex_ops) (g g' : string -> @junk ex_ops) (p0 p q : program) (history future : list opmsg),
  new_prog g "text" = Ok p0 /\ p = snd (session 5 p0 history) /\ fits_program p /\
  load (new_prog g') (serialize p) = Ok q /\
  fst (session 5 q future) <> fst (session 5 p future).
Proof.
  assert (O : created_outcome counting_pipeline [[("i1", [dm 1 10; dm 2 20])]; [("i1", [dm 3 20; dm 4 0])]] [[("i1", [dm 5 20; dm 6 0])]] =
     Some (true, false, [Ok [("p", [("o1", [(5, bits_of_b64 (b64_ofZ 5)); (6, bits_of_b64 (b64_ofZ 6))])])]],
                        [Ok [("p", [("o1", [(5, bits_of_b64 (b64_ofZ 1)); (6, bits_of_b64 (b64_ofZ 2))])])]]))
    by (vm_compute; reflexivity).
  destruct (created_outcome_spec _ _ _ _ _ _ O) as (p0 & p & q & B & E & F & L & _ & O2 & O3).
  exists (tbl counting_pipeline), (junk_of 7), (junk_of 8), p0, p, q, [[("i1", [dm 1 10; dm 2 20])]; [("i1", [dm 3 20; dm 4 0])]], [[("i1", [dm 5 20; dm 6 0])]].
  repeat (split; [assumption|]). intros X. rewrite X, O2 in O3. discriminate O3.
Qed.

(** ** C38: a program with a ConstantResampler, restored with other uninitialised memory *)
Definition resampled_average : @json ex_ops := JObj
  [("connections", JArr [JObj [("from", JStr "in"); ("to", JStr "r")]; JObj [("from", JStr "r"); ("to", JStr "ma")]]);
   ("entryOperator", JStr "in");
   ("operators", JArr [JObj [("id", JStr "in"); ("type", JStr "Input")];
                       JObj [("id", JStr "r"); ("interval", JInt 2); ("type", JStr "ConstantResampler")];
                       JObj [("id", JStr "ma"); ("n", JInt 2); ("type", JStr "MovingAverage")]]);
   ("output", JObj [("ma", JArr [JStr "o1"])])].

Definition average_history : list (@opmsg ex_ops) := [[("i1", [dm 1 10; dm 3 20])]; [("i9", [dm 4 1])]; [("i1", [dm 6 5])]].
Definition average_result : list (res (list (string * list (string * list (Z * Z))))) :=
  [Ok [("ma", [("o1", [(7, 4623226492472524800 (* 12.5 *)); (9, bits_of_b64 (b64_ofZ 7)); (11, bits_of_b64 (b64_ofZ 9))])])]].

Example C38_created_example : exists p0 p q : @program ex_ops,
  new_prog (JT := tbl resampled_average) (junk_of 7) "text" = Ok p0 /\ supported_program p0 /\
  p = snd (session 5 p0 average_history) /\ fits_program p /\
  load (new_prog (JT := tbl resampled_average) (junk_of 8)) (serialize p) = Ok q /\
  show_session (fst (session 5 q [[("i1", [dm 9 9; dm 11 9])]])) = average_result.
Proof.
  assert (O : created_outcome resampled_average average_history [[("i1", [dm 9 9; dm 11 9])]] =
     Some (true, true, average_result, average_result)) by (vm_compute; reflexivity).
  destruct (created_outcome_spec _ _ _ _ _ _ O) as (p0 & p & q & B & E & F & L & S0 & O2 & O3).
  exists p0, p, q. split; [exact B|]. split; [|auto].
  intros id o H. apply sfind_In in H. rewrite forallb_forall in S0. exact (S0 _ H).
Qed.

(** ** C54: a program with a RelativeStrengthIndex and a ConstantResampler *)
Definition indexed : @json ex_ops := JObj
  [("connections", JArr [JObj [("from", JStr "in"); ("to", JStr "r")]; JObj [("from", JStr "in"); ("to", JStr "rsi")]]);
   ("entryOperator", JStr "in");
   ("operators", JArr [JObj [("id", JStr "in"); ("type", JStr "Input")];
                       JObj [("id", JStr "r"); ("interval", JInt 2); ("type", JStr "ConstantResampler")];
                       JObj [("id", JStr "rsi"); ("n", JInt 2); ("type", JStr "RelativeStrengthIndex")]]);
   ("output", JObj [("r", JArr [JStr "o1"]); ("rsi", JArr [JStr "o1"])])].
Definition results_with (z : Z) :=
  match new_prog (JT := tbl indexed) (junk_of z) "text" with
  | Ok p => show_session (fst (session 5 p [[("i1", [dm 1 10; dm 2 20])]; [("i1", [dm 4 15; dm 5 25])]]))
  | _ => []
  end.
Example C54_example : results_with 7 = results_with 8 /\
  map (show_res (map (fun x => (fst x, map (fun y => map fst (snd y)) (snd x))))) (results_with 7) =
  [Ok []; Ok [("r", [[3; 5]]); ("rsi", [[4; 5]])]].
Proof. vm_compute. split; reflexivity. Qed.
Example C54_manager_example : Forall2 (@same_call ex_ops)
  [CreateText "a" (junk_of 7) "text"; Add "a" "i1" (dm 1 10); Process false "a"; Serialize "a"]
  [CreateText "a" (junk_of 8) "text"; Add "a" "i1" (dm 1 10); Process false "a"; Serialize "a"].
Proof. repeat constructor. Qed.

Print Assumptions C54_reproducible.
Print Assumptions C54_restored.
Print Assumptions C54_manager.
Print Assumptions C55_snapshot_refuted.
Print Assumptions C55_snapshot_partial.
Print Assumptions C38_created.
Print Assumptions C39_created_partial.
Print Assumptions C39_pipeline_refuted.
