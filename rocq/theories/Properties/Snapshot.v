(** * Snapshots and restoring (C37-C40). *)

From Coq Require Import String Ascii ZArith Bool List Lia.
From Flocq Require Import IEEE754.Binary IEEE754.Bits.
From Verif Require Import Base.StrMap Base.Num Base.NumB64 Model.Core Model.Ops Model.Make Model.Run Model.Graph Model.Codec.
From Verif Require Import Spec.Shape Spec.Build Spec.Preserving Spec.Snapshot.
From Verif Require Import Proofs.ShapeP Proofs.MakeP Proofs.CodecP Proofs.Restored Proofs.Fits.
From Verif Require Properties.Order.
Import ListNotations.
Open Scope string_scope.
Open Scope list_scope.
Open Scope Z_scope.
Open Scope rtbot_scope.

Section C37.
Context {NO : NumOps} {NC : NumCodec NO}.

(** ** C37: an operator [o] that was created, connected and then called in any way; [fresh]
    was created from the same definition.  Restoring consumes exactly the collected bytes
    and gives an operator in exactly the same state. *)
Theorem C37_round_trip_partial (o0 fresh o : op) (evs : list ev) (rest : bytes) :
  new_op o0 -> new_op fresh -> erase fresh = erase o0 ->
  snd (run o0 evs) = o -> fits o -> whole_snapshot o = true ->
  restore fresh (collect o ++ rest) = Ok (o, rest).
Proof.
  intros N0 Nf E <- F Wh. destruct (new_kept o0 N0) as (K0 & _ & P0). destruct (new_kept fresh Nf) as (_ & Ff & _).
  destruct (run_kept evs o0 P0 K0) as (K & P & E1).
  destruct (restore_decodes fresh (snd (run o0 evs)) Ff) as [D _]; [congruence|now apply kept_tidy|auto|].
  rewrite D. f_equal. f_equal. unfold restored, whole_snapshot in *.
  destruct (snd (run o0 evs)) as [b k]. cbn [op_kind op_base] in *. destruct k; auto; discriminate Wh.
Qed.

(** Whatever the operator, restoring never fails and consumes exactly the collected bytes. *)
Theorem C37_restores (o0 fresh o : op) (evs : list ev) (rest : bytes) :
  new_op o0 -> new_op fresh -> erase fresh = erase o0 ->
  snd (run o0 evs) = o -> fits o ->
  restore fresh (collect o ++ rest) = Ok (restored fresh o, rest).
Proof.
  intros N0 Nf E <- F. destruct (new_kept o0 N0) as (K0 & _ & P0). destruct (new_kept fresh Nf) as (_ & Ff & _).
  destruct (run_kept evs o0 P0 K0) as (K & P & E1).
  destruct (restore_decodes fresh (snd (run o0 evs)) Ff) as [D _]; [congruence|now apply kept_tidy|auto|].
  apply D.
Qed.

(** The remaining case: the snapshot of a CumulativeSum holds the sum but not a message that
    was received and not yet processed.  That message is lost. *)
Theorem C37_cumulative_sum_refuted : forall m : msg, is_time (mtime m) ->
  exists o0 o o' : op,
    mk_cumsum "sum" = Ok o0 /\ snd (run o0 [EData "i1" m]) = o /\
    restore o0 (collect o) = Ok (o', []) /\
    fst (exec_data_local o) = Ok [("o1", [mkMsg (mtime m) (vadd v0 (mval m))])] /\
    fst (exec_data_local o') = Ok [].
Proof.
  intros m Hm. eexists. eexists. eexists. split; [reflexivity|]. split; [reflexivity|].
  split.
  - match goal with |- restore _ ?x = _ => rewrite <- (app_nil_r x) end.
    eapply (C37_restores _ _ _ [EData "i1" m]); try reflexivity.
    + eexists _, []. split; [apply (N_cumsum "sum"); reflexivity|reflexivity].
    + eexists _, []. split; [apply (N_cumsum "sum"); reflexivity|reflexivity].
    + apply fitsb_ok. assert (X : is_timeb (mtime m) = true) by (unfold is_timeb, is_time in *; rewrite andb_true_iff, Z.leb_le, Z.ltb_lt; lia).
      unfold fitsb, fits_portsb, fits_portb, fits_msgb. cbn -[is_timeb short_strb shortb]. rewrite X. reflexivity.
  - split; reflexivity.
Qed.
End C37.

(** ** C38 *)

Section C38.
Context {NO : NumOps} {NC : NumCodec NO}.

Theorem C38_continues (init : string -> res program) (p0 q0 p : program) (n : nat) (history : list opmsg) :
  new_program p0 -> supported_program p0 ->
  (* creating the program again from its definition *)
  init (p_text p0) = Ok q0 -> new_program q0 -> same_definition q0 p0 ->
  (* any history, also one with exceptions *)
  p = snd (session n p0 history) -> fits_program p ->
  exists q, load init (serialize p) = Ok q /\
    forall n' future, fst (session n' q future) = fst (session n' p future).
Proof.
  intros N0 S0 I Nq D0 -> F.
  assert (K0 : kept_program p0) by (intros id o H; apply new_kept; eapply (proj2 N0); eauto).
  destruct (session_kept n history p0 (proj1 N0) K0) as [K D].
  set (p := snd (session n p0 history)) in *.
  destruct D as (D1 & D2 & D3 & D4). destruct D0 as (E1 & E2 & E3 & E4).
  assert (W : swf (p_ops p)) by (apply (swf_keys (p_ops p0)); [symmetry; exact (smapv_keys _ _ _ D4)|apply N0]).
  destruct (load_equiv init p q0) as (q & L & Q); auto.
  - intros id o H. destruct (erase_heap_find _ _ _ _ D4 H) as (o0 & H0 & Eo). apply S0 in H0.
    destruct o as [b k], o0 as [b0 k0]. destruct (erase_parts _ _ _ _ Eo) as [_ Ek].
    unfold recovers, supported in *. cbn [op_kind] in *. unfold erase_kind in Ek.
    destruct k; auto; destruct k0; try discriminate Ek; discriminate H0.
  - now rewrite D1.
  - repeat split; congruence.
  - exists q. split; auto. intros n' future. symmetry. now apply session_equiv.
Qed.

(** Taking a snapshot of the restored program gives the same bytes again. *)
Theorem C38_same_bytes (init : string -> res program) (p0 q0 p q : program) (n : nat) (history : list opmsg) :
  new_program p0 -> init (p_text p0) = Ok q0 -> new_program q0 -> same_definition q0 p0 ->
  p = snd (session n p0 history) -> fits_program p ->
  load init (serialize p) = Ok q -> serialize q = serialize p.
Proof.
  intros N0 I Nq (E1 & E2 & E3 & E4) -> F.
  assert (K0 : kept_program p0) by (intros id o H; apply new_kept; eapply (proj2 N0); eauto).
  destruct (session_kept n history p0 (proj1 N0) K0) as [K (D1 & D2 & D3 & D4)].
  set (p := snd (session n p0 history)) in *.
  assert (W : swf (p_ops p)) by (apply (swf_keys (p_ops p0)); [symmetry; exact (smapv_keys _ _ _ D4)|apply N0]).
  apply (serialize_again init p q0); auto; [now rewrite D1|repeat split; congruence].
Qed.

(** ** C39, what holds of it: a RelativeStrengthIndex is restored as long as it has not
    emitted anything *)
Theorem C39_continues_partial (init : string -> res program) (p0 q0 p : program) (n : nat) (history : list opmsg) :
  new_program p0 ->
  init (p_text p0) = Ok q0 -> new_program q0 -> same_definition q0 p0 ->
  p = snd (session n p0 history) -> fits_program p ->
  (forall id b g1 g2 g3 g4 i, sfind id (p_ops p) = Some (Op b (KRSI g1 g2 g3 g4 i)) -> i = false) ->
  exists q, load init (serialize p) = Ok q /\
    forall n' future, fst (session n' q future) = fst (session n' p future).
Proof.
  intros N0 I Nq (E1 & E2 & E3 & E4) -> F NI.
  assert (K0 : kept_program p0) by (intros id o H; apply new_kept; eapply (proj2 N0); eauto).
  destruct (session_kept n history p0 (proj1 N0) K0) as [K (D1 & D2 & D3 & D4)].
  set (p := snd (session n p0 history)) in *.
  assert (W : swf (p_ops p)) by (apply (swf_keys (p_ops p0)); [symmetry; exact (smapv_keys _ _ _ D4)|apply N0]).
  destruct (load_equiv init p q0) as (q & L & Q); auto.
  - intros id o H. destruct (erase_heap_find _ _ _ _ D4 H) as (o0 & H0 & Eo).
    apply (proj2 N0) in H0. apply new_kept in H0 as (_ & _ & P0).
    destruct o as [b k], o0 as [b0 k0]. destruct (erase_parts _ _ _ _ Eo) as [_ Ek].
    unfold recovers. cbn [op_kind] in *. unfold erase_kind in Ek.
    destruct k; auto.
    + rewrite (NI id b _ _ _ _ _ H). reflexivity.
    + destruct k0; try discriminate Ek. discriminate P0.
  - now rewrite D1.
  - repeat split; congruence.
  - exists q. split; auto. intros n' future. symmetry. now apply session_equiv.
Qed.

(** ** C40, what is true instead: a truncated snapshot is never rejected.  The reader runs
    past the end of the buffer, or - when the cut is between two operators - construction
    succeeds and the operators after the cut are as new. *)
Theorem C40_truncated_partial (init : string -> res program) (p0 q0 p : program) (n : nat) (history : list opmsg) (b : bytes) :
  new_program p0 ->
  init (p_text p0) = Ok q0 -> new_program q0 -> same_definition q0 p0 ->
  p = snd (session n p0 history) -> fits_program p ->
  (exists c r, serialize p = b ++ c :: r) ->
  load init b = UB \/
  exists kept_ops lost_ops q, p_ops p = kept_ops ++ lost_ops /\ lost_ops <> [] /\ load init b = Ok q /\
    forall id, sfind id (p_ops q) =
      match sfind id kept_ops with
      | Some o => option_map (fun fresh => restored fresh o) (sfind id (p_ops q0))
      | None => sfind id (p_ops q0)
      end.
Proof.
  intros N0 I Nq (E1 & E2 & E3 & E4) -> F HC.
  assert (K0 : kept_program p0) by (intros id o H; apply new_kept; eapply (proj2 N0); eauto).
  destruct (session_kept n history p0 (proj1 N0) K0) as [K (D1 & D2 & D3 & D4)].
  set (p := snd (session n p0 history)) in *.
  assert (W : swf (p_ops p)) by (apply (swf_keys (p_ops p0)); [symmetry; exact (smapv_keys _ _ _ D4)|apply N0]).
  destruct (load_cut init p q0 b) as [U|(l1 & l2 & q & X1 & X2 & X3 & _ & _ & _ & X4)]; auto.
  - now rewrite D1.
  - repeat split; congruence.
  - right. exists l1, l2, q. auto.
Qed.

Corollary C40_never_rejected_refuted (init : string -> res program) (p0 q0 p : program) (n : nat) (history : list opmsg) (b : bytes) :
  new_program p0 ->
  init (p_text p0) = Ok q0 -> new_program q0 -> same_definition q0 p0 ->
  p = snd (session n p0 history) -> fits_program p ->
  (exists c r, serialize p = b ++ c :: r) ->
  forall e, load init b <> Throw e.
Proof.
  intros N0 I Nq D E F HC e.
  destruct (C40_truncated_partial init p0 q0 p n history b) as [U|(l1 & l2 & q & _ & _ & U & _)]; auto; rewrite U; discriminate.
Qed.

(** programs put together from constructed operators *)
Lemma built_new ops conns entry filter p : build ops conns entry filter = Ok p ->
  (forall o, In (Ok o) ops -> created o) -> new_program p.
Proof.
  intros B H. split.
  - destruct (build_wf ops conns entry filter p) as ((W & _) & _); auto. intros o Ho. now apply created_names, H.
  - intros id o Ho. unfold build in B. apply rbind_ok in B as (h & E1 & B). apply rbind_ok in B as (h' & E2 & B).
    injection B as <-. cbn in Ho.
    destruct (Order.connect_all_was _ _ _ _ _ E2 Ho) as (o0 & cs & H0 & ->).
    destruct (Order.collect_ops_In _ _ _ _ E1 H0). exists o0, cs. auto.
Qed.

End C38.

(** ** Examples with double values *)

Definition ex_ops : NumOps := b64_ops (fun x _ => x) (fun x => x).
Definition ex_codec : NumCodec ex_ops := b64_codec _ _.
Definition dm (t v : Z) : @msg ex_ops := @mkMsg ex_ops t (b64_ofZ v).
(** times and bit patterns of values *)
Definition show_session (l : list (res (@progmsg ex_ops))) : list (res (list (string * list (string * list (Z * Z))))) :=
  map (show_res (map (fun x => (fst x, map (fun y => (fst y, map (fun m => (mtime m, bits_of_b64 (@mval ex_ops m))) (snd y))) (snd x))))) l.

Definition rsi_program : res (@program ex_ops) :=
  build [mk_input "in" 1; @mk_rsi ex_ops "rsi" 2 (b64_ofZ 0) (b64_ofZ 0) (b64_ofZ 0) (b64_ofZ 0)] [("in", "o1", "rsi", "i1")] "in" [].
Definition rsi_history : list (@opmsg ex_ops) := [[("i1", [dm 1 10; dm 2 20; dm 3 15; dm 4 30])]].
Definition rsi_future : list (@opmsg ex_ops) := [[("i1", [dm 5 25])]].

(** the program, the restored program (from the whole snapshot or its first bytes), and
    their results *)
Definition outcome (x : res (@program ex_ops)) (history future : list (@opmsg ex_ops)) (keep : nat -> nat) :=
  match x with
  | Ok p0 =>
      let p := snd (session 5 p0 history) in
      let bs := serialize p in
      match @load ex_ops (fun _ => Ok p0) (firstn (keep (length bs)) bs) with
      | Ok q => Some (fits_programb p, show_session (fst (session 5 p future)), show_session (fst (session 5 q future)))
      | _ => None
      end
  | _ => None
  end.

Lemma built_example ops conns entry filter (p : @program ex_ops) : build ops conns entry filter = Ok p ->
  Forall (fun x => match x with Ok o => created o | _ => True end) ops -> new_program p.
Proof.
  intros B H. eapply built_new; eauto. intros o Ho. rewrite Forall_forall in H. exact (H _ Ho).
Qed.

Lemma res_ok {A} (r : res A) : match r with Ok _ => true | _ => false end = true -> exists a, r = Ok a.
Proof. destruct r; try discriminate. eauto. Qed.

Lemma outcome_spec x history future keep a b : outcome x history future keep = Some (true, a, b) ->
  exists p0 p q, x = Ok p0 /\ p = snd (session 5 p0 history) /\ fits_program p /\
    load (fun _ => Ok p0) (firstn (keep (length (serialize p))) (serialize p)) = Ok q /\
    show_session (fst (session 5 p future)) = a /\ show_session (fst (session 5 q future)) = b.
Proof.
  unfold outcome. destruct x as [p0| | | |]; try discriminate. cbv zeta.
  set (p := snd (session 5 p0 history)). destruct (load _ _) as [q| | | |] eqn:L; try discriminate.
  intros H. injection H as H1 H2 H3. exists p0, p, q. repeat split; auto. now apply fits_programb_ok.
  all: apply fits_programb_ok in H1; apply H1.
Qed.

Ltac is_created E := match type of E with
  | mk_input _ _ = _ => exact (N_input _ _ _ E)
  | mk_output _ _ = _ => exact (N_output _ _ _ E)
  | mk_rsi _ _ _ _ _ _ = _ => exact (N_rsi _ _ _ _ _ _ _ E)
  | mk_count _ = _ => exact (N_count _ _ E)
  | mk_movavg _ _ = _ => exact (N_movavg _ _ _ E)
  | mk_cumsum _ = _ => exact (N_cumsum _ _ E)
  | mk_constres _ _ _ _ = _ => exact (N_constres _ _ _ _ _ E)
  | mk_binary _ _ = _ => exact (N_binary _ _ _ E)
  end.
Ltac new_ops := repeat match goal with
  | |- Forall _ [] => constructor
  | |- Forall _ (?x :: _) => constructor; [let E := fresh "E" in destruct x eqn:E; try exact I; is_created E|]
  end.

(** ** C39 is false of a RelativeStrengthIndex: after a restore it starts its averages anew. *)
Theorem C39_rsi_refuted : exists (p0 p q : @program ex_ops) (future : list (@opmsg ex_ops)),
  new_program p0 /\ p = snd (session 5 p0 rsi_history) /\ fits_program p /\
  load (fun _ => Ok p0) (serialize p) = Ok q /\
  fst (session 5 q future) <> fst (session 5 p future).
Proof.
  assert (O : outcome rsi_program rsi_history rsi_future (fun n => n) = Some (true,
        [Ok [("in", [("o1", [(5, 4627730092099895296)])]); ("rsi", [("o1", [(5, 4633857585823673423)])])]],
        [Ok [("in", [("o1", [(5, 4627730092099895296)])]); ("rsi", [("o1", [(5, 4634978072750194688)])])]]))
    by (vm_compute; reflexivity).
  destruct (outcome_spec _ _ _ _ _ _ O) as (p0 & p & q & B & E & F & L & O2 & O3). rewrite firstn_all in L.
  exists p0, p, q, rsi_future.
  split; [eapply built_example; [exact B|new_ops]|]. repeat (split; [assumption|]).
  intros X. rewrite X, O2 in O3. discriminate O3.
Qed.

(** ** C40 is false: a snapshot cut after the first operator is accepted, and the count of
    the second starts again from the beginning. *)
Definition count_program : res (@program ex_ops) :=
  build [@mk_input ex_ops "a" 1; mk_count "b"] [("a", "o1", "b", "i1")] "a" [].
Definition count_history : list (@opmsg ex_ops) := [[("i1", [dm 1 10; dm 2 20; dm 3 15])]].
Definition count_future : list (@opmsg ex_ops) := [[("i1", [dm 4 25])]].

Theorem C40_silent_loss_refuted : exists (p0 p q : @program ex_ops) (b lost : bytes) (future : list (@opmsg ex_ops)),
  new_program p0 /\ p = snd (session 5 p0 count_history) /\ fits_program p /\
  serialize p = b ++ lost /\ length lost = 101%nat /\
  load (fun _ => Ok p0) b = Ok q /\
  fst (session 5 q future) <> fst (session 5 p future).
Proof.
  assert (O : outcome count_program count_history count_future (fun n => (n - 101)%nat) = Some (true,
          [Ok [("a", [("o1", [(4, 4627730092099895296)])]); ("b", [("o1", [(4, 4616189618054758400)])])]],
          [Ok [("a", [("o1", [(4, 4627730092099895296)])]); ("b", [("o1", [(4, 4607182418800017408)])])]]))
    by (vm_compute; reflexivity).
  assert (Z : match count_program with Ok p0 => length (serialize (snd (session 5 p0 count_history))) | _ => 0%nat end = 236%nat)
    by (vm_compute; reflexivity).
  destruct (outcome_spec _ _ _ _ _ _ O) as (p0 & p & q & B & E & F & L & O2 & O3).
  rewrite B in Z. rewrite <- E in Z. cbv beta in L. rewrite Z in L.
  exists p0, p, q, (firstn (236 - 101) (serialize p)), (skipn (236 - 101) (serialize p)), count_future.
  split; [eapply built_example; [exact B|new_ops]|]. split; [assumption|]. split; [assumption|].
  split; [symmetry; apply firstn_skipn|]. split; [rewrite skipn_length, Z; reflexivity|]. split; [exact L|].
  intros X. rewrite X, O2 in O3. discriminate O3.
Qed.

(** ** C37, C38: a program with several operators restored in the middle *)
Definition mixed_program : res (@program ex_ops) :=
  build [@mk_input ex_ops "in" 1; mk_movavg "avg" 3; mk_cumsum "sum"; mk_count "n"; @mk_constres ex_ops "res" 2 0 (b64_ofZ 0);
         mk_binary "diff" BMinus; mk_output "out" 1]
        [("in", "o1", "avg", "i1"); ("in", "o1", "sum", "i1"); ("in", "o1", "n", "i1"); ("in", "o1", "res", "i1");
         ("avg", "o1", "diff", "i1"); ("sum", "o1", "diff", "i2"); ("diff", "o1", "out", "i1")] "in" [].
Definition mixed_history : list (@opmsg ex_ops) := [[("i1", [dm 1 10; dm 3 20])]; [("i7", [dm 4 1])]; [("i1", [dm 5 15; dm 4 30; dm 7 2])]].
Definition mixed_future : list (@opmsg ex_ops) := [[("i1", [dm 8 4; dm 11 5])]].

Definition mixed_result : list (res (list (string * list (string * list (Z * Z))))) :=
    [Ok [("avg", [("o1", [(8, 4619567317775286272); (11, 4615439018116863317)])]);
         ("diff", [("o1", [(8, 13854761303651909632); (11, 13855934116054870699)])]);
         ("in", [("o1", [(8, 4616189618054758400); (11, 4617315517961601024)])]);
         ("n", [("o1", [(8, 4617315517961601024); (11, 4618441417868443648)])]);
         ("out", [("o1", [(8, 13854761303651909632); (11, 13855934116054870699)])]);
         ("res", [("o1", [(9, 4616189618054758400); (11, 4617315517961601024)])]);
         ("sum", [("o1", [(8, 4632374429215621120); (11, 4633078116657397760)])])]].

Lemma all_supported (x : res (@program ex_ops)) (p : @program ex_ops) :
  match x with Ok p0 => forallb (fun x => supported (snd x)) (p_ops p0) | _ => false end = true ->
  x = Ok p -> supported_program p.
Proof. intros Y ->. intros id o H. apply sfind_In in H. rewrite forallb_forall in Y. exact (Y _ H). Qed.

Example C38_example : exists (p0 p q : @program ex_ops),
  new_program p0 /\ supported_program p0 /\ p = snd (session 5 p0 mixed_history) /\ fits_program p /\
  load (fun _ => Ok p0) (serialize p) = Ok q /\
  show_session (fst (session 5 q mixed_future)) = mixed_result.
Proof.
  assert (O : outcome mixed_program mixed_history mixed_future (fun n => n) = Some (true, mixed_result, mixed_result))
    by (vm_compute; reflexivity).
  destruct (outcome_spec _ _ _ _ _ _ O) as (p0 & p & q & B & E & F & L & O2 & O3). rewrite firstn_all in L.
  exists p0, p, q.
  split; [eapply built_example; [exact B|new_ops]|].
  split; [refine (all_supported mixed_program p0 _ B); vm_compute; reflexivity|]. repeat (split; [assumption|]). exact O3.
Qed.

Example C37_example : exists o0 o : @op ex_ops,
  mk_movavg "avg" 3 = Ok o0 /\ o = snd (run o0 (feed "i1" [dm 1 10; dm 2 20; dm 3 30; dm 4 7])) /\
  fits o /\ whole_snapshot o = true /\ length (collect o) = 116%nat.
Proof.
  eexists. eexists. split; [reflexivity|]. split; [reflexivity|]. split; [apply fitsb_ok; vm_compute; reflexivity|].
  split; [reflexivity|]. vm_compute. reflexivity.
Qed.

Print Assumptions C37_round_trip_partial.
Print Assumptions C37_restores.
Print Assumptions C37_cumulative_sum_refuted.
Print Assumptions C38_continues.
Print Assumptions C38_same_bytes.
Print Assumptions C39_continues_partial.
Print Assumptions C39_rsi_refuted.
Print Assumptions C40_truncated_partial.
Print Assumptions C40_never_rejected_refuted.
Print Assumptions C40_silent_loss_refuted.
