(** * Validation of definitions (C57-C61) *)

From Coq Require Import String Ascii ZArith QArith Qcanon Bool List Lia.
From Verif Require Import Base.StrMap Base.Num Base.NumQc Base.NumInt Model.Core Model.Ops Model.Make Model.Run Model.Graph Model.Codec Model.Json Model.Factory Model.Schema.
From Verif Require Import Spec.Show Spec.Build Spec.Definition Spec.Manager Spec.Schema.
From Verif Require Import Proofs.MakeP Proofs.JsonP Proofs.FactoryP Proofs.SchemaP Proofs.SchemaNew Proofs.SchemaWrite.
From Verif Require Import Spec.Snapshot Proofs.Fits Properties.Definition Properties.Bounds Properties.Created.
Import ListNotations.
Open Scope string_scope.
Open Scope list_scope.
Open Scope Z_scope.
Open Scope rtbot_scope.

(** the members of a definition *)
Notation operators := (list_at "operators").
Notation connections := (list_at "connections").
Notation entry := (text_at "entryOperator").

Section C57.
Context {NO : NumOps} {SL : SchemaLib} {JT : JsonText} {NC : NumCodec NO}.

(** ** C57: a valid definition with usable parameters ([ready]) and connections between ports that
    exist, whose entry operator exists and has no control inputs, is created *)
Theorem C57_created_partial (id : string) (g : string -> junk) (text : string) (m : manager) (j e : json) :
  parse text = Ok j -> validate text = Ok true ->
  Forall ready (operators j) ->
  Forall (linked (operators j)) (connections j) ->
  entry j <> "" -> described (operators j) (entry j) = Some e -> control_inputs e = [] ->
  exists p, create_checked id g text m = (Ok (RText ""), set_programs m (semplace id p (f_programs m))) /\
    new_prog g text = Ok p /\ p_entry p = entry j /\
    forall x, shas x (p_ops p) = true <-> exists d, In d (operators j) /\ text_at "id" d = x.
Proof.
  intros P V R L N D C. assert (V' := V). unfold validate in V'. rewrite P in V'. injection V' as V'.
  destruct (new_valid g text j P V' R L e (conj N D) C) as (p & E & Ep & _ & K). exists p.
  unfold create_checked. rewrite V. unfold create_text. rewrite E. auto.
Qed.

(** without such an entry operator, or with a connection from or to a port that does not exist or
    is not determined, an exception reports it and nothing is created *)
Theorem C57_refused (id : string) (g : string -> junk) (text : string) (m : manager) (j : json) :
  parse text = Ok j -> validate text = Ok true -> Forall ready (operators j) ->
  (~ Forall (linked (operators j)) (connections j) \/ entry j = "" \/ described (operators j) (entry j) = None) ->
  exists e, create_checked id g text m = (Throw e, m).
Proof.
  intros P V R B. assert (V' := V). unfold validate in V'. rewrite P in V'. injection V' as V'.
  destruct (new_unlinked g text j P V' R) as (e & E & N).
  { destruct B as [B|[B|B]]; [now left|right; intros x [G _]; congruence|right; intros x [_ G]; congruence]. }
  exists e. unfold create_checked. rewrite V. unfold create_text. rewrite E.
  destruct e; try reflexivity. repeat (match goal with |- context [match ?s with _ => _ end] => destruct s end; try reflexivity).
  now destruct N.
Qed.

(** ** C57 refuted: the schema asks for neither "numPorts" of a Join nor "coeff" of a Linear, which
    are read without a check; and no Function can be created *)
Definition bare (ty : string) : json := definition ty "j" [].

Theorem C57_join_refuted (id : string) (g : string -> junk) (text : string) (m : manager) :
  parse text = Ok (one_operator (bare "Join")) ->
  validate text = Ok true /\ create_checked id g text m = (UB, m).
Proof.
  intros P. assert (V : validate text = Ok true) by (unfold validate; rewrite P; reflexivity).
  split; [exact V|]. unfold create_checked. rewrite V. unfold create_text, new_prog. rewrite P. reflexivity.
Qed.

Theorem C57_linear_refuted (id : string) (g : string -> junk) (text : string) (m : manager) :
  parse text = Ok (one_operator (bare "Linear")) ->
  validate text = Ok true /\ create_checked id g text m = (UB, m).
Proof.
  intros P. assert (V : validate text = Ok true) by (unfold validate; rewrite P; reflexivity).
  split; [exact V|]. unfold create_checked. rewrite V. unfold create_text, new_prog. rewrite P. reflexivity.
Qed.

Definition two_points (a b c d : V) : json := JArr [JArr [JNum a; JNum b]; JArr [JNum c; JNum d]].
Theorem C57_function_refuted (id : string) (g : string -> junk) (text : string) (m : manager) (a b c d : V) :
  parse text = Ok (one_operator (definition "Function" "j" [("points", two_points a b c d)])) ->
  validate text = Ok true /\ exists e, create_checked id g text m = (Throw e, m).
Proof.
  intros P. assert (V : validate text = Ok true) by (unfold validate; rewrite P; reflexivity).
  split; [exact V|]. unfold create_checked. rewrite V. unfold create_text, new_prog. rewrite P. eexists. reflexivity.
Qed.

End C57.

Section C58.
Context {NO : NumOps} {SL : SchemaLib} {JT : JsonText} {NC : NumCodec NO}.

(** ** C58: an invalid definition (and a text that is not JSON) is answered with an error and
    changes nothing *)
Theorem C58_rejected (n : nat) (id : string) (g : string -> junk) (text : string) (m : manager) :
  validate text = Ok false -> bound_call n (CreateText id g text) m = (Ok invalid_reply, m).
Proof. intros V. cbn [bound_call]. unfold create_checked. now rewrite V. Qed.

Lemma bound_accepted n c m : accepted c = true -> bound_call n c m = do_call n c m.
Proof.
  destruct c; try reflexivity. cbn [accepted bound_call do_call]. unfold create_checked. destruct (validate text) as [[|]| | | |] eqn:V; try discriminate; try reflexivity.
  all: unfold validate in V; unfold create_text, new_prog; destruct (parse text); try discriminate V; reflexivity.
Qed.
Lemma bound_invalid n c m : accepted c = false -> bound_call n c m = (Ok invalid_reply, m).
Proof.
  destruct c; try discriminate. cbn [accepted]. destruct (validate text) as [[|]| | | |] eqn:V; try discriminate. intros _. now apply C58_rejected.
Qed.

(** Among the definitions that are not valid: those with a connection that has no "from" or no "to",
    or a member which connections do not have. *)
Theorem C58_connection (text : string) (m c : smap json) (conns : list json) :
  parse text = Ok (JObj m) -> sfind "connections" m = Some (JArr conns) -> In (JObj c) conns ->
  sfind "from" c = None \/ sfind "to" c = None \/
  (exists key x, In (key, x) c /\ ~ In key ["from"; "to"; "fromPort"; "toPort"]) ->
  validate text = Ok false.
Proof.
  intros P F I H. unfold validate. rewrite P. destruct (valid program_schema (JObj m)) eqn:V; [|reflexivity]. exfalso.
  apply valid_object in V as (m' & [= <-] & _ & V). specialize (V "connections" _ _ ltac:(cbn [In]; tauto) F). cbn [valid] in V.
  apply andb_prop in V as [_ V]. rewrite forallb_forall in V. specialize (V _ I). unfold connection_schema in V. rewrite valid_object_eq in V.
  apply andb_prop in V as [V A]. apply andb_prop in V as [V _]. apply andb_prop in V as [V _]. cbn [forallb] in V. unfold shas in V.
  destruct H as [H|[H|(key & x & Hin & H)]].
  - rewrite H in V. discriminate V.
  - rewrite H in V. rewrite !andb_false_r in V. discriminate V.
  - cbn [orb] in A. rewrite forallb_forall in A. specialize (A _ Hin). cbn [fst] in A. rewrite orb_false_r in A. unfold str_in in A.
    apply existsb_exists in A as (k & Hk & E). apply String.eqb_eq in E. subst k. apply H. cbn [map fst] in Hk. cbn [In] in *. tauto.
Qed.

(** in every history of calls, the calls but for the creations from invalid definitions get the
    replies, and leave the programs, of the history without those creations *)
Theorem C58_history (n : nat) (cs : list call) (m : manager) :
  let rs := fst (bound_calls n cs m) in
  snd (bound_calls n cs m) = snd (do_calls n (filter accepted cs) m) /\
  map snd (filter (fun x => accepted (fst x)) (with_replies cs rs)) = fst (do_calls n (filter accepted cs) m) /\
  Forall (fun x => accepted (fst x) = false -> snd x = Ok invalid_reply) (with_replies cs rs) /\
  length rs = length cs.
Proof.
  revert m. induction cs as [|c cs IH]; intros m; cbn [bound_calls filter]; [cbn; auto|].
  destruct (accepted c) eqn:A.
  - rewrite (bound_accepted _ _ _ A). cbn [do_calls]. destruct (do_call n c m) as [x m1]. specialize (IH m1).
    destruct (bound_calls n cs m1) as [xs m2], (do_calls n (filter accepted cs) m1) as [ys m3]. cbn [fst snd] in *.
    destruct IH as (E1 & E2 & E3 & E4). unfold with_replies in *. cbn [combine filter fst]. rewrite A. cbn [map snd length].
    split; [auto|]. split; [now f_equal|]. split; [constructor; [cbn; congruence|auto]|now f_equal].
  - rewrite (bound_invalid _ _ _ A). specialize (IH m). destruct (bound_calls n cs m) as [xs m2]. cbn [fst snd] in *.
    destruct IH as (E1 & E2 & E3 & E4). unfold with_replies in *. cbn [combine filter fst]. rewrite A. cbn [map snd length].
    split; [auto|]. split; [auto|]. split; [constructor; auto|now f_equal].
Qed.

(** ** the programs of a history without snapshots were created from valid definitions *)

Definition texts_valid (m : manager) : Prop := forall id p, sfind id (f_programs m) = Some p -> validate (p_text p) = Ok true.

Lemma receive_text d n p b : p_text (snd (receive_as d n p b)) = p_text p.
Proof.
  unfold receive_as, receive, receive_debug. destruct d; destruct (shas (p_entry p) (p_ops p)); try reflexivity;
    destruct (send_batch _ _ _ _ _) as [[x| | | |] h]; reflexivity.
Qed.

Lemma map_texts d n id b m : texts_valid m -> texts_valid (snd (process_map d n id b m)).
Proof.
  intros T. unfold process_map. destruct (sfind id (f_programs m)) as [p|] eqn:F; [|exact T].
  pose proof (receive_text d n p b) as E. destruct (receive_as d n p b) as [r p']. cbn [snd] in *.
  intros i q. cbn [f_programs set_programs]. rewrite sfind_sset. destruct (String.eqb i id); [|apply T].
  intros [= <-]. rewrite E. now apply (T id).
Qed.
Lemma buffer_texts d n id m : texts_valid m -> texts_valid (snd (process_buffer d n id m)).
Proof.
  intros T. unfold process_buffer. destruct (shas id (f_programs m)); [|exact T].
  destruct (sfind id (f_buffer m)) as [[|x b]|]; try exact T. pose proof (map_texts d n id (x :: b) m T) as X.
  destruct (process_map d n id (x :: b) m) as [[r| | | |] m1]; exact X.
Qed.
Lemma add_texts id port x m : texts_valid m -> texts_valid (snd (add_to_buffer id port x m)).
Proof. intros T. unfold add_to_buffer. destruct (shas id (f_programs m)); exact T. Qed.
Lemma adds_texts id l : forall m, texts_valid m -> texts_valid (snd (add_all id l m)).
Proof.
  induction l as [|[port x] l IH]; intros m T; cbn [add_all]; [exact T|]. pose proof (add_texts id port x m T) as X.
  destruct (add_to_buffer id port x m) as [[r| | | |] m1]; cbn [bind sbind snd] in *; auto.
Qed.

Lemma new_text g text p : new_prog g text = Ok p -> p_text p = text.
Proof.
  unfold new_prog. intros H. apply rbind_ok in H as (j & _ & H). unfold init in H. apply rbind_ok in H as (en & _ & H).
  destruct (String.eqb en ""); [discriminate|]. repeat (apply rbind_ok in H as (? & _ & H)).
  destruct (sfind en _) as [o|]; [|discriminate]. destruct (o_ctrl (op_base o)); apply Ok_inj in H; subst p; reflexivity.
Qed.

Lemma with_texts m id k : texts_valid m -> texts_valid (snd (with_program m id k)).
Proof. intros T. unfold with_program. destruct (sfind id (f_programs m)); exact T. Qed.

Lemma call_texts n c m : from_bytes c = false -> wf_manager m -> texts_valid m -> texts_valid (snd (bound_call n c m)).
Proof.
  intros B W T. destruct c; try discriminate B; cbn [bound_call do_call]; auto using with_texts, map_texts, buffer_texts, add_texts.
  - unfold create_checked. destruct (validate text) as [[|]| | | |] eqn:V; try exact T. unfold create_text.
    destruct (new_prog g text) as [p|e| | |] eqn:E; try exact T.
    + intros i q. cbn [snd f_programs set_programs]. rewrite sfind_semplace_cases. destruct (sfind i (f_programs m)) as [p0|] eqn:F; [intros [= <-]; now apply (T i)|].
      destruct (String.eqb i id); [|discriminate]. intros [= <-]. now rewrite (new_text _ _ _ E).
    + destruct e; try exact T. repeat (match goal with |- context [match ?s with _ => _ end] => destruct s end; try exact T).
  - intros i q. cbn [snd delete f_programs set_programs]. destruct (String.eqb_spec i id) as [->|N].
    + rewrite sfind_serase_same by apply W. discriminate.
    + rewrite sfind_serase_other by auto. apply T.
  - unfold process_batch. destruct (_ && _); [|exact T]. pose proof (adds_texts id (entries times values ports) m T) as X.
    destruct (add_all id (entries times values ports) m) as [[u| | | |] m1]; cbn [bind sbind snd] in *; auto using buffer_texts.
Qed.

Theorem C58_only_valid (n : nat) (cs : list call) (id : string) (p : program) :
  Forall (fun c => from_bytes c = false) cs ->
  sfind id (f_programs (snd (bound_calls n cs no_programs))) = Some p -> validate (p_text p) = Ok true.
Proof.
  intros B. assert (G : forall m, wf_manager m -> texts_valid m -> texts_valid (snd (bound_calls n cs m))).
  { induction cs as [|c cs IH]; intros m W T; cbn [bound_calls]; [exact T|]. inversion B as [|? ? B1 B2]; subst.
    pose proof (call_texts n c m B1 W T) as X.
    assert (W1 : wf_manager (snd (bound_call n c m))).
    { destruct (accepted c) eqn:A; [rewrite bound_accepted by auto; now apply do_call_wf|now rewrite bound_invalid]. }
    destruct (bound_call n c m) as [x m1]. cbn [snd] in X, W1. specialize (IH B2 m1 W1 X).
    destruct (bound_calls n cs m1). exact IH. }
  apply (G no_programs no_programs_wf). intros i q F. discriminate F.
Qed.

End C58.

Section C58_snapshots.
Context {NO : NumOps} {SL : SchemaLib} {JT : JsonText} {NC : NumCodec NO}.

(** ** C58 refuted for snapshots: the definition in the bytes is not validated.  [text] is any
    invalid definition that FactoryOp accepts. *)
Theorem C58_snapshot_refuted (n k : nat) (id : string) (g g' : string -> junk) (text : string) (p0 p : program)
    (history : list opmsg) (m : manager) :
  validate text = Ok false ->
  new_prog g text = Ok p0 -> supported_program p0 -> p = snd (session k p0 history) -> fits_program p ->
  sfind id (f_programs m) = None ->
  bound_call n (CreateText id g text) m = (Ok invalid_reply, m) /\
  exists q, bound_call n (CreateBytes id g' (serialize p)) m = (Ok (RText id), set_programs m (semplace id q (f_programs m))) /\
    forall n' future, fst (session n' q future) = fst (session n' p future).
Proof.
  intros V H S E F N. split; [now apply C58_rejected|].
  destruct (C38_created g g' text p0 p k history H S E F) as (q & L & Q & _). exists q. split; [|exact Q].
  cbn [bound_call do_call]. unfold create_bytes, shas. rewrite N, L. reflexivity.
Qed.
End C58_snapshots.

Section C59.
Context {NO : NumOps} {SL : SchemaLib} {NI : NumInt NO} {JT : JsonText}.

(** a program with this one operator *)
Definition program_of (e : string) (d : json) : json :=
  JObj [("connections", JArr []); ("entryOperator", JStr e); ("operators", JArr [d])].

Lemma valid_program_of e d : valid program_schema (program_of e d) = valid (SOneOf (map snd operator_schemas)) d.
Proof.
  unfold program_schema, program_of. rewrite valid_object_eq. cbn [valid_props sfind]. cbv [String.eqb Ascii.eqb Bool.eqb].
  change (valid (SArray 0 None (SOneOf (map snd operator_schemas))) (JArr [d]))
      with (true && true && (valid (SOneOf (map snd operator_schemas)) d && true)).
  destruct (valid (SOneOf (map snd operator_schemas)) d); reflexivity.
Qed.

(** ** C59: which operators are written in a form that is valid, on its own and in a program:
    exactly those that [in_schema] describes *)
Theorem C59_written_partial (g : string -> junk) (j : json) (o : op) (j' : json) (text text' e : string) :
  read_op g j = Ok o -> write_op o = Ok j' ->
  parse text = Ok j' -> parse text' = Ok (program_of e j') ->
  (validate_operator (text_at "type" j') text = Ok true <-> in_schema o) /\
  (validate text' = Ok true <-> in_schema o).
Proof.
  intros H W P P'. pose proof (written_valid g j o j' H W) as V. split.
  - rewrite <- V, valid_by_type. unfold validate_operator, schema_of. destruct (find _ _) as [[ty s]|]; [|split; discriminate].
    rewrite P. split; intros X; [now apply Ok_inj in X|now rewrite X].
  - rewrite <- V, <- (valid_program_of e). unfold validate. rewrite P'. split; intros X; [now apply Ok_inj in X|now rewrite X].
Qed.

(** ** C59 refuted *)

(** a shift by 2^31 is valid; it is read as -2^31 and written as 2^64 - 2^31, which is not valid *)
Theorem C59_timeshift_refuted (g : string -> junk) (id : string) :
  exists o j', valid (SOneOf (map snd operator_schemas)) (definition "TimeShift" id [("dt", JInt (2 ^ 31))]) = true /\
    read_op g (definition "TimeShift" id [("dt", JInt (2 ^ 31))]) = Ok o /\ write_op o = Ok j' /\
    valid (SOneOf (map snd operator_schemas)) j' = false.
Proof.
  eexists _, _. split; [rewrite valid_by_type; reflexivity|]. split; [reflexivity|]. split; [reflexivity|].
  rewrite valid_by_type. reflexivity.
Qed.

(** LessThan takes every value, but the schema only whole ones *)
Theorem C59_lessthan_refuted (g : string -> junk) (id : string) (v : V) : whole v = None ->
  exists o j', read_op g (definition "LessThan" id [("value", JNum v)]) = Ok o /\ write_op o = Ok j' /\
    valid (SOneOf (map snd operator_schemas)) j' = false.
Proof.
  intros N. eexists _, _. split; [reflexivity|]. split; [reflexivity|]. rewrite valid_by_type.
  change (match whole v with Some z => above None z | None => false end && true && true && true = false). now rewrite N.
Qed.

End C59.

Section C60.
Context {NO : NumOps} {SL : SchemaLib} {JT : JsonText} {NC : NumCodec NO}.

(** ** C60: for every type of operator but three there are valid definitions that are created *)
Theorem C60_available_partial (g : string -> junk) (k : kind) (id : string) :
  let ty := type_name k in
  ty <> "RelativeStrengthIndex" -> ty <> "Pipeline" -> ty <> "Function" -> ty <> "Collector" ->
  exists l o, valid (SOneOf (map snd operator_schemas)) (definition ty id l) = true /\
    read_op g (definition ty id l) = Ok o /\ type_name (op_kind o) = ty.
Proof.
  intros ty N1 N2 N3 N4. subst ty.
  assert (X : forall ty l o, valid (schema_of ty) (definition ty id l) = true -> read_op g (definition ty id l) = Ok o -> type_name (op_kind o) = ty ->
    exists l o, valid (SOneOf (map snd operator_schemas)) (definition ty id l) = true /\
      read_op g (definition ty id l) = Ok o /\ type_name (op_kind o) = ty).
  { intros ty l o V R T. exists l, o. rewrite valid_by_type, definition_type. auto. }
  destruct k; try destruct f; cbn [type_name] in *; try contradiction.
  all: first
    [ eapply (X _ []); reflexivity
    | eapply (X _ [("numPorts", JInt 2)]); reflexivity
    | eapply (X _ [("n", JInt 5)]); reflexivity
    | eapply (X _ [("dt", JInt 5)]); reflexivity
    | eapply (X _ [("interval", JInt 5)]); reflexivity
    | eapply (X _ [("value", JInt 5)]); reflexivity
    | eapply (X _ [("coeff", JArr [JInt 1; JInt 2])]); reflexivity ].
Qed.

(** ** C60 refuted: a definition with a RelativeStrengthIndex or a Pipeline is never valid, and
    [validateOperator] rejects them *)
Theorem C60_unknown_refuted (id : string) (g : string -> junk) (text : string) (j d : json) (m : manager) :
  parse text = Ok j -> In d (operators j) ->
  text_at "type" d = "RelativeStrengthIndex" \/ text_at "type" d = "Pipeline" ->
  create_checked id g text m = (Ok invalid_reply, m).
Proof.
  intros P I T. assert (V : validate text = Ok false).
  { unfold validate. rewrite P. f_equal. destruct (valid program_schema j) eqn:V; [|reflexivity]. exfalso.
    destruct (valid_program j V) as (o & ops & conns & _ & _ & _ & Lo & _ & _ & Vo & _). rewrite Lo in I.
    rewrite forallb_forall in Vo. specialize (Vo _ I). rewrite valid_by_type in Vo. destruct T as [T|T]; rewrite T in Vo; discriminate Vo. }
  unfold create_checked. now rewrite V.
Qed.

Theorem C60_operator_refuted (text : string) :
  validate_operator "RelativeStrengthIndex" text = Ok false /\ validate_operator "Pipeline" text = Ok false.
Proof. split; reflexivity. Qed.

(** FactoryOp creates them *)
Theorem C60_factory_accepts (id : string) (g : string -> junk) (text : string) (n : Z) (m : manager) : 
  parse text = Ok (one_operator (definition "RelativeStrengthIndex" "j" [("n", JInt n)])) ->
  exists p, create_text id g text m = (Ok (RText ""), set_programs m (semplace id p (f_programs m))) /\ skeys (p_ops p) = ["j"].
Proof. intros P. unfold create_text, new_prog. rewrite P. eexists. split; reflexivity. Qed.

End C60.

Section C61.
Context {NO : NumOps} {SL : SchemaLib} {JT : JsonText}.

(** the texts in an array *)
Definition texts_in (x : json) : list string :=
  match x with JArr l => flat_map (fun y => match y with JStr s => [s] | _ => [] end) l | _ => [] end.
(** the filter a definition asks for *)
Definition filter_meant (j : json) : smap (list string) :=
  match member "output" j with Some (JObj m) => map (fun kx => (fst kx, texts_in (snd kx))) m | _ => [] end.

Lemma strings_read x : valid (SArray 0 None SString) x = true -> get_strs x = Ok (texts_in x).
Proof.
  destruct x as [| | | | |l|]; try discriminate. change (true && true && forallb (valid SString) l = true -> map_res get_str l = Ok (texts_in (JArr l))).
  cbn [andb texts_in]. induction l as [|y l IH]; intros H; [reflexivity|]. cbn [forallb] in H. apply andb_prop in H as [H1 H2].
  destruct y; try discriminate H1. cbn [map_res get_str rbind flat_map]. now rewrite (IH H2).
Qed.

(** ** C61: the filter of a valid definition whose operators' names consist of the characters
    A-Z, a-t, 0-9, _ and - is the filter of the program *)
Theorem C61_filter_partial (g : string -> junk) (text : string) (j : json) (p : program) :
  parse text = Ok j -> validate text = Ok true -> new_prog g text = Ok p -> p_ops p <> [] ->
  (forall m, member "output" j = Some (JObj m) -> Forall (fun kx => pattern_matches (fst kx) = true) m) ->
  p_filter p = filter_meant j.
Proof.
  intros P V H NE K. unfold validate in V. rewrite P in V. apply Ok_inj in V. unfold new_prog in H. rewrite P in H. cbn [rbind] in H.
  destruct (init_cases _ _ _ _ H) as (en & f & h & h' & cs & oe & _ & _ & Ef & _ & _ & _ & _ & [[_ ->]|[_ ->]]); cbn [p_ops p_filter] in *; [|congruence].
  apply valid_object in V as (m & -> & _ & Q). unfold filter_meant. cbn [member] in *. unfold filter_of in Ef. cbn [jat] in Ef.
  destruct (sfind "output" m) as [x|] eqn:F; [|now injection Ef as <-].
  assert (Vx : valid (SObject [] (Some (SArray 0 None SString)) [] true) x = true) by (apply (Q "output"); [cbn [In]; tauto|exact F]).
  destruct x as [| | | | | |l]; try discriminate Vx. specialize (K _ eq_refl). rewrite valid_object_eq in Vx. rewrite !andb_true_iff in Vx. destruct Vx as [[_ Vx] _].
  cbn [rbind] in Ef. assert (E : map_res (fun kv => let! l := get_strs (snd kv) in Ok (fst kv, l)) l = Ok (map (fun kx => (fst kx, texts_in (snd kx))) l)).
  { clear - K Vx. induction l as [|[k y] l IH]; [reflexivity|]. cbn [forallb fst snd] in Vx. apply andb_prop in Vx as [V1 V2].
    inversion K as [|? ? K1 K2]; subst. cbn [fst] in K1. rewrite K1 in V1. cbn [negb orb] in V1.
    cbn [map_res map fst snd]. rewrite (strings_read _ V1). cbn [rbind]. now rewrite (IH K2 V2). }
  rewrite E in Ef. now injection Ef as <-.
Qed.

(** ** C61 refuted: the letters u-z are missing in the schema's pattern, so the value for "out" is
    not looked at; the program then has no filter at all *)
Definition wrong_filter : json :=
  JObj [("connections", JArr []); ("entryOperator", JStr "j"); ("operators", JArr [definition "Count" "j" []]);
        ("output", JObj [("j", JArr [JStr "o1"]); ("out", JStr "o1")])].
Theorem C61_pattern_refuted (g : string -> junk) (text : string) :
  parse text = Ok wrong_filter ->
  validate text = Ok true /\ exists p, new_prog g text = Ok p /\ skeys (p_ops p) = ["j"] /\ p_filter p = [].
Proof.
  intros P. unfold validate, new_prog. rewrite P. split; [reflexivity|]. eexists. split; [reflexivity|]. split; reflexivity.
Qed.

End C61.

(** ** Examples *)
Section Examples.

(** numbers that are whole, dates that are not looked at *)
Definition a_lib : @SchemaLib QcOps :=
  {| whole := fun q => if (Z.pos (Qden (this q)) =? 1) then Some (Qnum (this q)) else None; date_ok := fun _ => true |}.

(** the moving averages of Properties/Definition.v *)
Example C57_example : let JT := a_text macd JNull in let SL := a_lib in
  validate "text" = Ok true /\ Forall ready (operators macd) /\ Forall (linked (operators macd)) (connections macd) /\
  entry macd = "in" /\ exists e, described (operators macd) "in" = Some e /\ control_inputs e = [].
Proof.
  split; [vm_compute; reflexivity|]. split; [|split; [|split; [reflexivity|eexists; split; reflexivity]]].
  - change (operators macd) with [definition "Input" "in" [("numPorts", JInt 1)]; definition "MovingAverage" "ma1" [("n", JInt 1)];
      definition "MovingAverage" "ma2" [("n", JInt 2)]; definition "Minus" "minus" []; definition "Output" "out" [("numPorts", @JInt QcOps 1)]].
    apply Forall_cons; [change (0 <= 1 < 2 ^ 31 - 1); lia|]. apply Forall_cons; [exact I|]. apply Forall_cons; [exact I|].
    apply Forall_cons; [exact I|]. apply Forall_cons; [change (0 <= 1 < 2 ^ 31 - 1); lia|]. apply Forall_nil.
  - change (connections macd) with [a_conn "in" "ma1"; a_conn "in" "ma2"; a_conn_to "ma1" "minus" "i1"; a_conn_to "ma2" "minus" "i2"; a_conn "minus" "out"].
    repeat apply Forall_cons; try apply Forall_nil; (eexists _, _; split; [reflexivity|]; split; [reflexivity|]; split; [eexists; reflexivity|]).
    + eexists. split; reflexivity.
    + eexists. split; reflexivity.
    + now left.
    + right. now left.
    + eexists. split; reflexivity.
Qed.

(** a connection to the missing input i3 *)
Example C57_refused_example : let d := bad_conn (a_conn_to "in" "minus" "i3") in let JT := a_text d JNull in let SL := a_lib in
  validate "text" = Ok true /\ Forall ready (operators d) /\ ~ Forall (linked (operators d)) (connections d).
Proof.
  split; [vm_compute; reflexivity|]. split.
  - change (operators (bad_conn (a_conn_to "in" "minus" "i3"))) with [@definition QcOps "Input" "in" []; definition "Minus" "minus" []].
    repeat apply Forall_cons; try apply Forall_nil; exact I.
  - change (connections (bad_conn (a_conn_to "in" "minus" "i3"))) with [a_conn_to "in" "minus" "i3"].
    intros F. inversion F as [|? ? L _]; subst. destruct L as (a & b & _ & Db & _ & In3).
    assert (E : described (operators (bad_conn (a_conn_to "in" "minus" "i3"))) "minus" = Some (@definition QcOps "Minus" "minus" [])) by reflexivity.
    change (text_at "to" (a_conn_to "in" "minus" "i3")) with "minus" in Db. rewrite E in Db. injection Db as <-.
    change (In "i3" ["i1"; "i2"]) in In3. destruct In3 as [X|[X|[]]]; discriminate X.
Qed.

(** a definition whose title is a number is created by FactoryOp only *)
Definition titled : @json QcOps :=
  JObj [("connections", JArr []); ("entryOperator", JStr "j"); ("operators", JArr [definition "Count" "j" []]); ("title", JInt 5)].
Example C58_example : let JT := a_text titled JNull in let SL := a_lib in
  validate "text" = Ok false /\
  match new_prog j0 "text" with
  | Ok p => fits_program p /\ supported_program p /\ skeys (p_ops p) = ["j"]
  | _ => False
  end.
Proof.
  split; [reflexivity|]. cbv zeta. assert (E : exists p, new_prog (JT := a_text titled JNull) j0 "text" = Ok p /\ fits_programb p = true /\
    (forall id o, sfind id (p_ops p) = Some o -> supported o = true) /\ skeys (p_ops p) = ["j"]).
  { eexists. split; [reflexivity|]. split; [reflexivity|]. split; [|reflexivity].
    intros id o. cbn. destruct (String.eqb id "j"); [|discriminate]. intros [= <-]. reflexivity. }
  destruct E as (p & E & F & S & K). rewrite E. split; [now apply fits_programb_ok|]. split; [exact S|exact K].
Qed.

Example C58_history_example : let JT := a_text macd JNull in let SL := a_lib in
  map accepted [CreateText "a" j0 "text"; CreateText "b" j0 "no such text"; GetEntry "a"] = [true; false; true].
Proof. reflexivity. Qed.

Example C59_example : let SL := a_lib in let JT := a_text JNull JNull in
  match read_op (NO := QcOps) j0 (definition "Linear" "l" [("coeff", JArr [JInt 1; JInt 2])]) with Ok o => in_schema o | _ => False end.
Proof. exact I. Qed.
Example C61_example : filter_meant macd = [("out", ["o1"])] /\ pattern_matches "min-1" = true /\ pattern_matches "out" = false.
Proof. repeat split; reflexivity. Qed.
End Examples.

Print Assumptions C57_created_partial.
Print Assumptions C57_refused.
Print Assumptions C57_join_refuted.
Print Assumptions C57_linear_refuted.
Print Assumptions C57_function_refuted.
Print Assumptions C58_rejected.
Print Assumptions C58_connection.
Print Assumptions C58_history.
Print Assumptions C58_only_valid.
Print Assumptions C58_snapshot_refuted.
Print Assumptions C59_written_partial.
Print Assumptions C59_timeshift_refuted.
Print Assumptions C59_lessthan_refuted.
Print Assumptions C60_available_partial.
Print Assumptions C60_unknown_refuted.
Print Assumptions C60_operator_refuted.
Print Assumptions C60_factory_accepts.
Print Assumptions C61_filter_partial.
Print Assumptions C61_pattern_refuted.
