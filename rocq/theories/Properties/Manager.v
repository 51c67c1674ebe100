(** * The manager of programs (C44-C47) *)

From Coq Require Import String Ascii ZArith QArith Bool List Lia.
From Verif Require Import Base.StrMap Base.Num Model.Core Model.Ops Model.Make Model.Run Model.Graph Model.Codec Model.Json Model.Factory.
From Verif Require Import Spec.Definition Spec.Manager.
From Verif Require Import Proofs.Ports Proofs.FactoryP.
Import ListNotations.
Open Scope string_scope.
Open Scope list_scope.
Open Scope Z_scope.
Open Scope rtbot_scope.

Section Manager.
Context {NO : NumOps} {NC : NumCodec NO} {JT : JsonText}.

(** ** C44: in every history, the replies to the calls about one program, and everything the
    manager has of it in the end, are those of that program's calls alone *)
Theorem C44_isolated (n : nat) (id : string) (cs : list call) (m : manager) : reachable_manager m ->
  let alone := filter (is_about id) cs in
  replies_about id cs (fst (do_calls n cs m)) = fst (do_calls n alone m) /\
  same_at id (snd (do_calls n cs m)) (snd (do_calls n alone m)).
Proof. intros R. apply do_calls_own; [now apply reachable_wf|now apply reachable_wf|apply same_refl]. Qed.

(** in particular calls about others change nothing *)
Theorem C44_others (n : nat) (id : string) (c : call) (m : manager) :
  about c <> id -> same_at id m (snd (do_call n c m)).
Proof. apply do_call_other. Qed.

(** and what the manager has of other programs does not matter *)
Theorem C44_context (n : nat) (c : call) (m m' : manager) : reachable_manager m -> reachable_manager m' ->
  same_at (about c) m m' ->
  fst (do_call n c m) = fst (do_call n c m') /\ same_at (about c) (snd (do_call n c m)) (snd (do_call n c m')).
Proof. intros R R'. apply do_call_same; now apply reachable_wf. Qed.

(** ** C45 *)

Definition add_calls (id : string) (l : list (string * msg)) : list call := map (fun x => Add id (fst x) (snd x)) l.

Lemma adds_hold n id l : forall m l0, wf_manager m -> shas id (f_programs m) = true -> holds (sfind id (f_buffer m)) l0 ->
  let m1 := snd (do_calls n (add_calls id l) m) in
  wf_manager m1 /\ f_programs m1 = f_programs m /\ holds (sfind id (f_buffer m1)) (l0 ++ l).
Proof.
  induction l as [|[port x] l IH]; intros m l0 W E H; cbn [add_calls map do_calls]; [rewrite app_nil_r; auto|].
  destruct (add_holds id port x m l0 W E H) as (_ & P & H1). pose proof (add_wf id port x m W) as W1. cbn [fst snd do_call].
  destruct (add_to_buffer id port x m) as [r m1]. cbn [snd] in *.
  assert (E1 : shas id (f_programs m1) = true) by now rewrite P.
  specialize (IH m1 _ W1 E1 H1). rewrite <- app_assoc in IH. fold (add_calls id l).
  destruct (do_calls n (add_calls id l) m1) as [xs m2]. cbn [snd] in *. rewrite P in IH. exact IH.
Qed.

Lemma add_all_hold id l : forall m l0, wf_manager m -> shas id (f_programs m) = true -> holds (sfind id (f_buffer m)) l0 ->
  fst (add_all id l m) = Ok tt /\
  let m1 := snd (add_all id l m) in
  wf_manager m1 /\ f_programs m1 = f_programs m /\ holds (sfind id (f_buffer m1)) (l0 ++ l).
Proof.
  induction l as [|[port x] l IH]; intros m l0 W E H; cbn [add_all]; [rewrite app_nil_r; auto|].
  destruct (add_holds id port x m l0 W E H) as (R & P & H1). pose proof (add_wf id port x m W) as W1.
  destruct (add_to_buffer id port x m) as [r m1]. cbn [fst snd] in *. subst r. cbn [bind sbind].
  assert (E1 : shas id (f_programs m1) = true) by now rewrite P.
  specialize (IH m1 _ W1 E1 H1). rewrite <- app_assoc in IH. rewrite P in IH. exact IH.
Qed.

Lemma batch_unique l b b' : is_batch_of l b -> is_batch_of l b' -> b = b'.
Proof. intros [W E] [W' E']. apply sfind_ext; auto. intros k. now rewrite E, E'. Qed.

Lemma batch_nonempty x l b : is_batch_of (x :: l) b -> b <> [].
Proof.
  intros [_ E] ->. specialize (E (fst x)). unfold for_port in E. cbn in E. rewrite String.eqb_refl in E. discriminate E.
Qed.

Lemma process_held n d id m l batch : wf_manager m -> shas id (f_programs m) = true ->
  sfind id (f_buffer m) = Some batch -> is_batch_of l batch -> l <> [] ->
  fst (process_buffer d n id m) = fst (process_map d n id batch m) /\
  sfind id (f_programs (snd (process_buffer d n id m))) = sfind id (f_programs (snd (process_map d n id batch m))) /\
  match fst (process_map d n id batch m) with
  | Ok _ => sfind id (f_buffer (snd (process_buffer d n id m))) = None
  | _ => sfind id (f_buffer (snd (process_buffer d n id m))) = Some batch
  end.
Proof.
  intros W E F B N. destruct l as [|x l]; [congruence|]. pose proof (batch_nonempty _ _ _ B) as NE.
  pose proof (process_map_wf d n id batch m W) as W1.
  assert (Fb : sfind id (f_buffer (snd (process_map d n id batch m))) = Some batch).
  { unfold process_map. destruct (sfind id (f_programs m)); [|exact F]. destruct (receive_as d n p batch). exact F. }
  unfold process_buffer. rewrite E, F. destruct batch as [|y b]; [congruence|].
  destruct (process_map d n id (y :: b) m) as [r m1]. cbn [fst snd] in *.
  destruct r; cbn [bind sbind fst snd]; auto. repeat (split; [reflexivity|]).
  apply sfind_serase_same. apply W1.
Qed.

(** Messages added one by one and then processed: same result and same program as when sent at
    once; if this succeeds, the buffer is gone and processing again does nothing. *)
Theorem C45_buffered_partial (n : nat) (m : manager) (id : string) (p : program) (adds : list (string * msg))
    (batch : opmsg) (debug : bool) :
  reachable_manager m -> sfind id (f_programs m) = Some p -> sfind id (f_buffer m) = None ->
  adds <> [] -> is_batch_of adds batch ->
  let direct := do_call n (ProcessMap debug id batch) m in
  let buffered := do_call n (Process debug id) (snd (do_calls n (add_calls id adds) m)) in
  fst buffered = fst direct /\
  sfind id (f_programs (snd buffered)) = sfind id (f_programs (snd direct)) /\
  forall r, fst direct = Ok r ->
    sfind id (f_buffer (snd buffered)) = None /\
    do_call n (Process debug id) (snd buffered) = (Ok (RResult []), snd buffered).
Proof.
  intros R F Fb N B. cbn [do_call]. pose proof (reachable_wf _ R) as W.
  assert (E : shas id (f_programs m) = true) by (unfold shas; now rewrite F).
  destruct (adds_hold n id adds m [] W E) as (W1 & P & H); [rewrite Fb; reflexivity|]. cbn [app] in H.
  set (m1 := snd (do_calls n (add_calls id adds) m)) in *. cbn [holds] in H.
  destruct (sfind id (f_buffer m1)) as [b|] eqn:F1; cbn [holds] in H; [|congruence].
  assert (b = batch) by (eapply batch_unique; eauto). subst b.
  assert (E1 : shas id (f_programs m1) = true) by now rewrite P.
  destruct (process_held n debug id m1 adds batch W1 E1 F1 B N) as (H1 & H2 & H3).
  assert (X : fst (process_map debug n id batch m1) = fst (process_map debug n id batch m) /\
              f_programs (snd (process_map debug n id batch m1)) = f_programs (snd (process_map debug n id batch m))).
  { unfold process_map. rewrite P. destruct (sfind id (f_programs m)); [|auto]. destruct (receive_as debug n p0 batch).
    cbn [fst snd set_programs f_programs]. rewrite ?P. auto. }
  destruct X as [X1 X2]. rewrite X1 in *. rewrite X2 in H2. split; [exact H1|]. split; [exact H2|].
  intros r Er. rewrite Er in H3. split; [exact H3|]. unfold process_buffer at 1. rewrite H3.
  assert (Es : shas id (f_programs (snd (process_buffer debug n id m1))) = true).
  { unfold shas. rewrite H2. unfold process_map. rewrite F. destruct (receive_as debug n p batch).
    cbn [snd set_programs f_programs]. now rewrite sfind_sset, String.eqb_refl. }
  now rewrite Es.
Qed.

(** Messages sent at once are those the program receives: the reply is what its own [receive] (or
    [receiveDebug]) returns, and the state this leaves, also after an exception, is the one the
    next call works on. *)
Theorem C45_direct (n : nat) (m : manager) (id : string) (p : program) (batch : opmsg) :
  sfind id (f_programs m) = Some p ->
  let same (call : sres manager reply) (run : sres program progmsg) :=
    fst call = (let! x := fst run in Ok (RResult x)) /\
    sfind id (f_programs (snd call)) = Some (snd run) /\
    f_buffer (snd call) = f_buffer m in
  same (do_call n (ProcessMap false id batch) m) (receive n p batch) /\
  same (do_call n (ProcessMap true id batch) m) (receive_debug n p batch).
Proof.
  intros F. cbn [do_call]. unfold process_map. rewrite F. cbn [receive_as].
  destruct (receive n p batch) as [r q], (receive_debug n p batch) as [r' q']. cbn [fst snd set_programs f_programs f_buffer].
  rewrite !sfind_sset, String.eqb_refl. auto 10.
Qed.

(** the same for [processBatch] of the bindings *)
Theorem C45_process_batch_partial (n : nat) (m : manager) (id : string) (p : program) (times : list Z) (values : list V)
    (ports : list string) (batch : opmsg) (debug : bool) :
  reachable_manager m -> sfind id (f_programs m) = Some p -> sfind id (f_buffer m) = None ->
  length times = length values -> length times = length ports -> times <> [] ->
  is_batch_of (combine ports (map (fun tv => mkMsg (fst tv) (snd tv)) (combine times values))) batch ->
  let direct := do_call n (ProcessMap debug id batch) m in
  let called := do_call n (ProcessBatch debug id times values ports) m in
  fst called = fst direct /\
  sfind id (f_programs (snd called)) = sfind id (f_programs (snd direct)) /\
  forall r, fst direct = Ok r -> sfind id (f_buffer (snd called)) = None.
Proof.
  intros R F Fb L1 L2 N B. cbn [do_call]. pose proof (reachable_wf _ R) as W. fold (entries times values ports) in B.
  assert (E : shas id (f_programs m) = true) by (unfold shas; now rewrite F).
  unfold process_batch. rewrite <- L1, <- L2, Nat.eqb_refl. cbn [andb].
  destruct (add_all_hold id (entries times values ports) m [] W E) as (Ea & W1 & P & H); [rewrite Fb; reflexivity|]. cbn [app] in H.
  destruct (add_all id (entries times values ports) m) as [ra m1]. cbn [fst snd] in *. subst ra. cbn [bind sbind].
  assert (Ne : entries times values ports <> []).
  { destruct times, values, ports; try discriminate; congruence. }
  destruct (sfind id (f_buffer m1)) as [b|] eqn:F1; cbn [holds] in H; [|congruence].
  assert (b = batch) by (eapply batch_unique; eauto). subst b.
  assert (E1 : shas id (f_programs m1) = true) by now rewrite P.
  destruct (process_held n debug id m1 _ batch W1 E1 F1 B Ne) as (H1 & H2 & H3).
  assert (X : fst (process_map debug n id batch m1) = fst (process_map debug n id batch m) /\
              f_programs (snd (process_map debug n id batch m1)) = f_programs (snd (process_map debug n id batch m))).
  { unfold process_map. rewrite P. destruct (sfind id (f_programs m)); [|auto]. destruct (receive_as debug n p0 batch).
    cbn [fst snd set_programs f_programs]. rewrite ?P. auto. }
  destruct X as [X1 X2]. rewrite X1 in *. rewrite X2 in H2. split; [exact H1|]. split; [exact H2|].
  intros r Er. now rewrite Er in H3.
Qed.

(** When processing throws, the buffer stays: the next call sends the whole batch once more. *)
Theorem C45_exception_keeps (n : nat) (m : manager) (id : string) (p : program) (adds : list (string * msg))
    (batch : opmsg) (debug debug' : bool) (e : exn) :
  reachable_manager m -> sfind id (f_programs m) = Some p -> sfind id (f_buffer m) = None ->
  adds <> [] -> is_batch_of adds batch ->
  let buffered := do_call n (Process debug id) (snd (do_calls n (add_calls id adds) m)) in
  fst buffered = Throw e ->
  sfind id (f_buffer (snd buffered)) = Some batch /\
  fst (do_call n (Process debug' id) (snd buffered)) = fst (do_call n (ProcessMap debug' id batch) (snd buffered)).
Proof.
  intros R F Fb N B. cbn [do_call]. pose proof (reachable_wf _ R) as W.
  assert (E : shas id (f_programs m) = true) by (unfold shas; now rewrite F).
  destruct (adds_hold n id adds m [] W E) as (W1 & P & H); [rewrite Fb; reflexivity|]. cbn [app] in H.
  set (m1 := snd (do_calls n (add_calls id adds) m)) in *. cbn [holds] in H.
  destruct (sfind id (f_buffer m1)) as [b|] eqn:F1; cbn [holds] in H; [|congruence].
  assert (b = batch) by (eapply batch_unique; eauto). subst b.
  assert (E1 : shas id (f_programs m1) = true) by now rewrite P.
  destruct (process_held n debug id m1 adds batch W1 E1 F1 B N) as (H1 & H2 & H3).
  intros T. rewrite H1 in T. rewrite T in H3. split; [exact H3|].
  set (m2 := snd (process_buffer debug n id m1)) in *.
  assert (W2 : wf_manager m2) by now apply process_buffer_wf.
  assert (E2 : shas id (f_programs m2) = true).
  { unfold shas. rewrite H2. unfold process_map. rewrite P, F. destruct (receive_as debug n p batch).
    cbn [snd set_programs f_programs]. rewrite ?P. now rewrite sfind_sset, String.eqb_refl. }
  now destruct (process_held n debug' id m2 adds batch W2 E2 H3 B N).
Qed.

(** a program that counts its messages *)
Definition counter : json :=
  JObj [("connections", JArr []); ("entryOperator", JStr "c");
        ("operators", JArr [JObj [("id", JStr "c"); ("type", JStr "Count")]])].

(** One message that cannot be delivered is enough: the others are processed again and again,
    here three times. *)
Theorem C45_exactly_once_refuted (n : nat) (g : string -> junk) (text : string) (v : V) :
  parse text = Ok counter ->
  let calls := [CreateText "a" g text; Add "a" "i1" (mkMsg 1 v); Add "a" "zz" (mkMsg 1 v);
                Process false "a"; Process false "a"; Process false "a"; ProcessMap false "a" [("i1", [mkMsg 2 v])]] in
  exists e, fst (do_calls (S n) calls no_programs) =
    [Ok (RText ""); Ok (RBool true); Ok (RBool true); Throw e; Throw e; Throw e;
     Ok (RResult [("c", [("o1", [mkMsg 2 (vofZ 4)])])])].
Proof.
  intros P. cbn [do_calls do_call]. unfold create_text, new_prog. rewrite P. eexists. destruct n; reflexivity.
Qed.

(** ** C46: an existing program is never touched by a creation *)
Theorem C46_untouched (n : nat) (m : manager) (id : string) (p : program) (c : call) :
  (exists g text, c = CreateText id g text) \/ (exists g bs, c = CreateBytes id g bs) ->
  sfind id (f_programs m) = Some p ->
  sfind id (f_programs (snd (do_call n c m))) = Some p /\ f_buffer (snd (do_call n c m)) = f_buffer m.
Proof.
  intros [(g & text & ->)|(g & bs & ->)] F; cbn [do_call].
  - assert (X : sfind id (semplace id p (f_programs m)) = Some p) by now rewrite sfind_semplace, F.
    unfold create_text. destruct (new_prog g text); cbn [snd set_programs f_programs f_buffer]; auto.
    + split; [|reflexivity]. now rewrite sfind_semplace, F.
    + destruct e; auto. repeat (match goal with |- context [match ?s with _ => _ end] => destruct s end; auto).
  - unfold create_bytes, shas. rewrite F. auto.
Qed.

(** with bytes: an error *)
Theorem C46_bytes (n : nat) (m : manager) (id : string) (p : program) (g : string -> junk) (bs : bytes) :
  sfind id (f_programs m) = Some p ->
  do_call n (CreateBytes id g bs) m = (Throw (RuntimeError "Program already exists"), m).
Proof. intros F. cbn [do_call]. unfold create_bytes, shas. now rewrite F. Qed.

(** with a definition: the reply is the same as for a successful creation *)
Theorem C46_text_refuted (n : nat) (m : manager) (id : string) (p p' : program) (g : string -> junk) (text : string) :
  sfind id (f_programs m) = Some p -> new_prog g text = Ok p' ->
  fst (do_call n (CreateText id g text) m) = Ok (RText "") /\
  fst (do_call n (CreateText id g text) no_programs) = Ok (RText "").
Proof. intros F E. cbn [do_call]. unfold create_text. rewrite E. auto. Qed.

(** ** C47 *)

(** If nothing is left in the buffer, deleting makes the manager forget the program: whatever
    is done under that id from then on gives what it gives in a new manager. *)
Theorem C47_forgotten_partial (n : nat) (m : manager) (id : string) (cs : list call) :
  reachable_manager m -> sfind id (f_buffer m) = None ->
  let m1 := snd (do_call n (Delete id) m) in
  replies_about id cs (fst (do_calls n cs m1)) = fst (do_calls n (filter (is_about id) cs) no_programs).
Proof.
  intros R F m1. pose proof (reachable_wf _ R) as W.
  apply do_calls_own; [now apply do_call_wf|apply no_programs_wf|]. unfold m1. cbn [do_call delete].
  split; [|exact F]. change (sfind id (serase id (f_programs m)) = None). apply sfind_serase_same. apply W.
Qed.

(** the calls that put something into a buffer *)
Definition adding (c : call) : bool :=
  match c with Add _ _ _ | ProcessBatch _ _ _ _ _ => true | _ => false end.

(** nothing is left in the buffer as long as messages are sent directly *)
Theorem C47_direct_calls (n : nat) (cs : list call) (m : manager) (id : string) :
  reachable_manager m -> sfind id (f_buffer m) = None ->
  (forall c, In c cs -> about c = id -> adding c = false) ->
  sfind id (f_buffer (snd (do_calls n cs m))) = None.
Proof.
  intros R. apply reachable_wf in R. revert m R. induction cs as [|c cs IH]; intros m W F A; cbn [do_calls]; [exact F|].
  assert (X : sfind id (f_buffer (snd (do_call n c m))) = None).
  { destruct (String.eqb_spec (about c) id) as [E|E].
    - specialize (A c (or_introl eq_refl) E). destruct c; cbn [adding about] in *; try discriminate A; subst; cbn [do_call].
      + unfold create_text. destruct (new_prog g text); auto.
        destruct e; auto. repeat (match goal with |- context [match ?s with _ => _ end] => destruct s end; auto).
      + unfold create_bytes. destruct (shas id (f_programs m)); auto. destruct (load (new_prog g) bs); auto.
      + exact F.
      + unfold process_buffer. destruct (shas id (f_programs m)); [|exact F]. now rewrite F.
      + unfold process_map. destruct (sfind id (f_programs m)); [|exact F]. destruct (receive_as debug n p batch). exact F.
      + unfold with_program. destruct (sfind id (f_programs m)); exact F.
      + unfold with_program. destruct (sfind id (f_programs m)); exact F.
      + unfold with_program. destruct (sfind id (f_programs m)); exact F.
      + unfold with_program. destruct (sfind id (f_programs m)); exact F.
    - destruct (do_call_other n c id m E) as [_ Y]. etransitivity; [symmetry; exact Y|exact F]. }
  pose proof (do_call_wf n c m W) as W1. destruct (do_call n c m) as [x m1]. cbn [snd] in *.
  specialize (IH m1 W1 X (fun c' I => A c' (or_intror I))). destruct (do_calls n cs m1). exact IH.
Qed.

(** A message added for the deleted program is processed by the new one. *)
Theorem C47_pending_refuted (n : nat) (g : string -> junk) (text : string) (v : V) :
  parse text = Ok counter ->
  let history := [CreateText "a" g text; Add "a" "i1" (mkMsg 1 v); Delete "a"] in
  let again := [CreateText "a" g text; Process false "a"] in
  fst (do_calls (S n) again (snd (do_calls (S n) history no_programs))) =
    [Ok (RText ""); Ok (RResult [("c", [("o1", [mkMsg 1 (vofZ 1)])])])] /\
  fst (do_calls (S n) again no_programs) = [Ok (RText ""); Ok (RResult [])].
Proof.
  intros P. cbn [do_calls do_call]. unfold create_text, new_prog. rewrite P. split; destruct n; reflexivity.
Qed.

(** ** Examples: hypotheses met *)
Example C44_example (n : nat) (g : string -> junk) (text : string) (v : V) : parse text = Ok counter ->
  let cs := [CreateText "a" g text; CreateText "b" g text; Add "a" "i1" (mkMsg 1 v);
             ProcessMap false "b" [("i1", [mkMsg 5 v])]; Delete "b"; Process false "a"] in
  replies_about "a" cs (fst (do_calls (S n) cs no_programs)) =
    [Ok (RText ""); Ok (RBool true); Ok (RResult [("c", [("o1", [mkMsg 1 (vofZ 1)])])])].
Proof. intros P. cbn [do_calls do_call]. unfold create_text, new_prog. rewrite P. destruct n; reflexivity. Qed.

Example C45_example (v : V) : is_batch_of [("i2", mkMsg 1 v); ("i1", mkMsg 2 v); ("i2", mkMsg 3 v)]
  [("i1", [mkMsg 2 v]); ("i2", [mkMsg 1 v; mkMsg 3 v])].
Proof.
  split.
  - repeat constructor.
  - intros port. unfold for_port. cbn [filter fst sfind]. rewrite (String.eqb_sym "i2" port), (String.eqb_sym "i1" port).
    destruct (String.eqb_spec port "i1") as [->|]; [reflexivity|]. destruct (String.eqb_spec port "i2") as [->|]; reflexivity.
Qed.
Example C45_example_result (n : nat) (g : string -> junk) (text : string) (v : V) : parse text = Ok counter ->
  let m := snd (do_call 1 (CreateText "a" g text) no_programs) in
  fst (do_calls (S n) [Add "a" "i1" (mkMsg 1 v); Add "a" "i1" (mkMsg 2 v); Process false "a"; Process false "a"] m) =
  [Ok (RBool true); Ok (RBool true); Ok (RResult [("c", [("o1", [mkMsg 1 (vofZ 1); mkMsg 2 (vofZ 2)])])]); Ok (RResult [])].
Proof. intros P. cbn [do_calls do_call]. unfold create_text, new_prog. rewrite P. destruct n; reflexivity. Qed.

Example C46_example (g : string -> junk) (text : string) : parse text = Ok counter ->
  exists p, new_prog g text = Ok p /\ sfind "a" (f_programs (snd (do_call 1 (CreateText "a" g text) no_programs))) = Some p.
Proof. intros P. cbn [do_call]. unfold create_text, new_prog. rewrite P. eexists. split; reflexivity. Qed.
End Manager.

Print Assumptions C44_isolated.
Print Assumptions C44_others.
Print Assumptions C44_context.
Print Assumptions C45_direct.
Print Assumptions C45_buffered_partial.
Print Assumptions C45_process_batch_partial.
Print Assumptions C45_exception_keeps.
Print Assumptions C45_exactly_once_refuted.
Print Assumptions C46_untouched.
Print Assumptions C46_bytes.
Print Assumptions C46_text_refuted.
Print Assumptions C47_forgotten_partial.
Print Assumptions C47_direct_calls.
Print Assumptions C47_pending_refuted.
