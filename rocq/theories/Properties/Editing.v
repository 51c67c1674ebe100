(** * C69-C71: editing programs with the Python module and the JavaScript class Program *)

From Coq Require Import String Ascii ZArith QArith Bool List Lia Sorted.
From Verif Require Import Base.StrMap Base.Num Base.NumQc Model.Core Model.Make Model.Graph Model.Codec Model.Json Model.Factory Model.Schema Model.Wrapper.
From Verif Require Import Spec.Shape Spec.Show Spec.Manager Spec.Definition Spec.Schema Spec.Wrapper.
From Verif Require Import Proofs.Ports Proofs.FactoryP Proofs.JsonP Proofs.SchemaP Proofs.SchemaNew Proofs.MakeP.
From Verif Require Import Properties.Definition Properties.Manager Properties.Schema.
Import ListNotations.
Open Scope string_scope.
Open Scope list_scope.
Open Scope Z_scope.
Open Scope rtbot_scope.

Lemma NoDup_app_single {A} (l : list A) x : NoDup l -> ~ In x l -> NoDup (l ++ [x]).
Proof. intros D N. apply (NoDup_Add (a := x) (l := l)); [|auto]. rewrite <- (app_nil_r l) at 1. apply Add_app. Qed.

Section Wrapper.
Context {NO : NumOps} {SL : SchemaLib} {JT : JsonText} {NC : NumCodec NO} {PJ : PyJson}.

(** ** C69: the connections of a program built with Python are between its operators, which have
    different ids *)
Lemma py_do_sound e p : Forall (known_py p) (py_connections p) -> NoDup (map (json_member "id") (py_operators p)) ->
  Forall (known_py (snd (py_do e p))) (py_connections (snd (py_do e p))) /\
  NoDup (map (json_member "id") (py_operators (snd (py_do e p)))).
Proof.
  intros F D. destruct e as [x|a b c d]; cbn [py_do].
  - unfold py_add_operator. destruct (validate_operator (json_type x) (py_dumps x)) as [[|]| | | |]; auto.
    destruct (existsb (String.eqb (json_id x)) (map json_id (py_operators p))) eqn:Ex; auto. cbn [snd py_connections py_operators].
    split.
    + eapply Forall_impl; [|exact F]. intros c [H1 H2]. unfold known_py. cbn [py_operators]. rewrite map_app. split; apply in_or_app; now left.
    + rewrite map_app. cbn [map]. apply NoDup_app_single; [exact D|]. intros I.
      assert (X : existsb (String.eqb (json_id x)) (map json_id (py_operators p)) = true); [|congruence].
      apply existsb_exists. exists (json_id x). split; [exact I|apply String.eqb_refl].
  - unfold py_add_connection. destruct (_ && _) eqn:Ex; auto. cbn [snd py_connections py_operators]. split; [|exact D].
    apply Forall_app. split; [exact F|]. constructor; [|constructor]. apply andb_prop in Ex as [E1 E2].
    apply existsb_exists in E1 as (y & I1 & E1). apply existsb_exists in E2 as (z & I2 & E2). apply String.eqb_eq in E1, E2. subst y z.
    split; assumption.
Qed.

Theorem C69_python (es : list py_edit) :
  let p := py_edits es py_new in
  Forall (known_py p) (py_connections p) /\ NoDup (map (json_member "id") (py_operators p)).
Proof.
  cbv zeta. unfold py_edits.
  assert (G : forall p, Forall (known_py p) (py_connections p) -> NoDup (map (json_member "id") (py_operators p)) ->
    let q := fold_left (fun p e => snd (py_do e p)) es p in
    Forall (known_py q) (py_connections q) /\ NoDup (map (json_member "id") (py_operators q))).
  { induction es as [|e es IH]; intros p F D; cbv zeta; cbn [fold_left]; [auto|]. destruct (py_do_sound e p F D). now apply IH. }
  apply G; constructor.
Qed.

(** A connection between two operators of the program is added as given, one with an operator the
    program does not have is refused; neither changes anything else. *)
Theorem C69_python_connection (p : py_program) (a b c d : string) :
  let ids := map (json_member "id") (py_operators p) in
  let q := snd (py_add_connection a b c d p) in
  (In a ids /\ In b ids -> fst (py_add_connection a b c d p) = Ok tt /\
     exists x, py_connections q = py_connections p ++ [x] /\
       json_member "from" x = a /\ json_member "to" x = b /\ json_member "fromPort" x = c /\ json_member "toPort" x = d) /\
  (~ (In a ids /\ In b ids) -> fst (py_add_connection a b c d p) = Throw (py_error "Exception") /\ q = p) /\
  py_operators q = py_operators p.
Proof.
  cbv zeta. unfold py_add_connection. change json_id with (json_member "id").
  destruct (existsb (String.eqb a) _ && existsb (String.eqb b) _) eqn:E.
  - apply andb_prop in E as [E1 E2]. apply existsb_exists in E1 as (y & I1 & E1). apply existsb_exists in E2 as (z & I2 & E2).
    apply String.eqb_eq in E1, E2. subst y z. cbn [fst snd py_connections py_operators]. split; [|split; [tauto|reflexivity]].
    intros _. split; [reflexivity|]. eexists. split; [reflexivity|]. repeat split; reflexivity.
  - split; [|split; [split; reflexivity|reflexivity]]. intros [I1 I2].
    assert (X : forall s, In s (map (json_member "id") (py_operators p)) -> existsb (String.eqb s) (map (json_member "id") (py_operators p)) = true).
    { intros s Hs. apply existsb_exists. exists s. split; [exact Hs|apply String.eqb_refl]. }
    rewrite (X a I1), (X b I2) in E. discriminate E.
Qed.

(** the same connection twice: accepted, and then every message is delivered twice *)
Theorem C69_duplicate_refuted (p : py_program) (a b c d : string) :
  fst (py_add_connection a b c d p) = Ok tt ->
  let q := snd (py_add_connection a b c d p) in
  fst (py_add_connection a b c d q) = Ok tt /\
  py_connections (snd (py_add_connection a b c d q)) = py_connections p ++ [py_connection a b c d; py_connection a b c d].
Proof.
  unfold py_add_connection. destruct (_ && _) eqn:E; [|discriminate]. intros _. cbv zeta. cbn [snd py_operators]. rewrite E.
  split; [reflexivity|]. cbn [snd py_connections]. now rewrite <- app_assoc.
Qed.

(** ** C71: definitions read and written by Python *)

(** the members of the written object *)
Lemma py_object_find p : exists m, py_object p = JObj m /\
  sfind "operators" m = Some (JArr (py_operators p)) /\ sfind "connections" m = Some (JArr (py_connections p)) /\
  sfind "apiVersion" m = Some (py_version p) /\ sfind "output" m = None /\
  (forall key x, In (key, x) [("title", py_title p); ("author", py_author p); ("description", py_description p);
                              ("license", py_license p); ("date", py_date p)] ->
    sfind key m = if truthy x then Some x else None) /\
  sfind "entryOperator" m = if truthy (py_date p) then Some (py_entry p) else None.
Proof.
  eexists. split; [reflexivity|]. unfold py_optional.
  destruct (truthy (py_title p)) eqn:T1; destruct (truthy (py_author p)) eqn:T2; destruct (truthy (py_description p)) eqn:T3;
  destruct (truthy (py_license p)) eqn:T4; destruct (truthy (py_date p)) eqn:T5; cbn [app];
  (repeat (split; [reflexivity|])); split; try reflexivity;
  intros key x [E|[E|[E|[E|[E|[]]]]]]; injection E as <- <-; rewrite ?T1, ?T2, ?T3, ?T4, ?T5; reflexivity.
Qed.

(** Without a date no definition is accepted: the entry operator is only written if there is a
    date. *)
Theorem C71_date_refuted (payload : string) (m : smap json) :
  py_loads payload = Ok (JObj m) -> truthy (py_member "date" m) = false ->
  (forall p, py_construct m = Ok p -> parse (py_to_json p) = Ok (py_object p)) ->
  forall p, py_parse payload <> Ok p.
Proof.
  intros L D R p E. unfold py_parse in E. rewrite L in E. cbn [rbind] in E. apply rbind_ok in E as (q & Eq & E).
  apply rbind_ok in E as (ok & Ev & E). unfold py_validate, validate in Ev. rewrite (R q Eq) in Ev. cbn [rbind] in Ev. apply Ok_inj in Ev. subst ok.
  assert (X : truthy (py_date q) = false).
  { unfold py_construct in Eq. destruct (forallb _ _); [|discriminate Eq]. apply rbind_ok in Eq as (a & _ & Eq). apply rbind_ok in Eq as (b & _ & Eq).
    apply Ok_inj in Eq. subst q. exact D. }
  destruct (py_object_find q) as (m' & Eo & _ & _ & _ & _ & _ & Fe). rewrite X in Fe. rewrite Eo in E.
  destruct (valid program_schema (JObj m')) eqn:V; [|discriminate E]. apply valid_object in V as (m2 & Em & Rq & _). injection Em as <-.
  destruct (Rq "entryOperator") as [y Fy]; [cbn [In]; tauto|]. congruence.
Qed.

(** A definition with an "output" is a TypeError. *)
Theorem C71_output_refuted (payload : string) (m : smap json) :
  py_loads payload = Ok (JObj m) -> shas "output" m = true -> py_parse payload = Throw (py_error "TypeError").
Proof.
  intros L H. unfold py_parse. rewrite L. cbn [rbind]. unfold py_construct.
  destruct (forallb (fun k => existsb (String.eqb k) py_members) (skeys m)) eqn:F; [|reflexivity]. exfalso.
  unfold shas in H. destruct (sfind "output" m) as [x|] eqn:Fo; [|discriminate H]. apply sfind_In_key in Fo.
  rewrite forallb_forall in F. specialize (F _ Fo). discriminate F.
Qed.

Definition known_keys : list string :=
  ["operators"; "connections"; "entryOperator"; "title"; "description"; "apiVersion"; "date"; "author"; "license"].

Lemma init_same g t1 t2 m1 m2 :
  (forall k, In k ["operators"; "connections"; "entryOperator"; "output"] -> sfind k m1 = sfind k m2) ->
  init g t1 (JObj m1) = (let! q := init g t2 (JObj m2) in Ok (mkProgram t1 (p_ops q) (p_entry q) (p_filter q))).
Proof.
  intros H. unfold init, filter_of. cbn [jat jvalue]. rewrite !H by (cbn [In]; tauto).
  destruct (match sfind "entryOperator" m2 with Some x => get_str x | None => Ok "" end) as [en| | | |]; cbn [rbind]; try reflexivity.
  destruct (String.eqb en ""); [reflexivity|].
  match goal with |- context [let! filter := ?f in _] => destruct f as [fi| | | |]; cbn [rbind]; try reflexivity end.
  match goal with |- context [let! xs := ?f in _] => destruct f as [xs| | | |]; cbn [rbind]; try reflexivity end.
  destruct (read_ops (read_op g) (jitems xs) []) as [h| | | |]; cbn [rbind]; try reflexivity.
  match goal with |- context [let! cs := ?f in _] => destruct f as [cs| | | |]; cbn [rbind]; try reflexivity end.
  destruct (read_conns (jitems cs) h) as [h'| | | |]; cbn [rbind]; try reflexivity.
  destruct (sfind en h') as [o|]; [|reflexivity]. destruct (o_ctrl (op_base o)); reflexivity.
Qed.

(** A valid definition with a date and without an "output" is accepted, and the program it
    describes is the one that is created. *)
Theorem C71_parse_partial (g : string -> junk) (payload : string) (m : smap json) :
  py_loads payload = Ok (JObj m) -> parse payload = Ok (JObj m) -> validate payload = Ok true ->
  Forall (fun k => In k known_keys) (skeys m) -> truthy (py_member "date" m) = true ->
  (forall p, py_construct m = Ok p -> parse (py_to_json p) = Ok (py_object p)) ->
  exists p, py_parse payload = Ok p /\ validate (py_to_json p) = Ok true /\
    new_prog g (py_to_json p) =
      (let! q := new_prog g payload in Ok (mkProgram (py_to_json p) (p_ops q) (p_entry q) (p_filter q))).
Proof.
  intros L P V K D R. unfold validate in V. rewrite P in V. cbn [rbind] in V. apply Ok_inj in V.
  assert (V' := V). apply valid_object in V' as (m0 & Em & Rq & Pr). injection Em as <-.
  destruct (Rq "operators") as [xo Fo]; [cbn [In]; tauto|]. destruct (Rq "connections") as [xc Fc]; [cbn [In]; tauto|].
  destruct (Rq "entryOperator") as [xe Fe]; [cbn [In]; tauto|].
  assert (Vo := Pr "operators" _ xo ltac:(cbn [In]; tauto) Fo). assert (Vc := Pr "connections" _ xc ltac:(cbn [In]; tauto) Fc).
  destruct xo as [| | | | |ops|]; try discriminate Vo. destruct xc as [| | | | |conns|]; try discriminate Vc.
  assert (C : exists p, py_construct m = Ok p /\ py_operators p = ops /\ py_connections p = conns /\ py_entry p = xe /\
    py_version p = odefault (JStr "v1") (sfind "apiVersion" m) /\
    forall key x, In (key, x) [("title", py_title p); ("author", py_author p); ("description", py_description p);
                               ("license", py_license p); ("date", py_date p)] -> x = odefault JNull (sfind key m)).
  { eexists. split; [|split; [|split; [|split; [|split]]]].
    - unfold py_construct. replace (forallb (fun k => existsb (String.eqb k) py_members) (skeys m)) with true.
      + unfold py_list. rewrite Fo, Fc. cbn [rbind]. reflexivity.
      + symmetry. apply forallb_forall. intros k I. rewrite Forall_forall in K. apply existsb_exists. exists k. split; [exact (K k I)|apply String.eqb_refl].
    - reflexivity.
    - reflexivity.
    - cbn [py_entry]. unfold py_member. now rewrite Fe.
    - reflexivity.
    - cbn [py_title py_author py_description py_license py_date]. intros key x [E|[E|[E|[E|[E|[]]]]]]; injection E as <- <-; reflexivity. }
  destruct C as (p & Ec & Eo & Ecn & Ee & Ev & Em). exists p.
  assert (Td : truthy (py_date p) = true) by (rewrite (Em "date" (py_date p)) by (cbn [In]; tauto); exact D).
  destruct (py_object_find p) as (m' & Ep & Go & Gc & Gv & Gout & Gt & Ge). rewrite Td in Ge.
  assert (Val : valid program_schema (JObj m') = true).
  { unfold program_schema. rewrite valid_object_eq. cbn [forallb]. unfold shas. rewrite Go, Gc, Ge. cbn [andb valid_props].
    assert (Opt : forall key s x, In (key, x) [("title", py_title p); ("author", py_author p); ("description", py_description p);
                               ("license", py_license p); ("date", py_date p)] ->
       (forall y, sfind key m = Some y -> valid s y = true) ->
       match sfind key m' with Some y => valid s y | None => true end = true).
    { intros key s x I H. rewrite (Gt key x I), (Em key x I). destruct (sfind key m) as [y|]; cbn [odefault truthy]; [|reflexivity].
      destruct (truthy y); auto. }
    rewrite (Opt "title" SString (py_title p)), (Opt "description" SString (py_description p)), (Opt "date" SDate (py_date p)),
      (Opt "author" SString (py_author p)), (Opt "license" SString (py_license p)); try (cbn [In]; tauto);
      try (intros y Fy; eapply Pr; [|exact Fy]; cbn [In]; tauto).
    rewrite Gv, Go, Gc, Ge, Gout, Ee, Eo, Ecn, Ev, Vo, Vc.
    rewrite (Pr "entryOperator" _ xe ltac:(cbn [In]; tauto) Fe).
    destruct (sfind "apiVersion" m) as [y|] eqn:Fv; cbn [odefault].
    - rewrite (Pr "apiVersion" _ y ltac:(cbn [In]; tauto) Fv). reflexivity.
    - reflexivity. }
  assert (Vp : validate (py_to_json p) = Ok true) by (unfold validate; rewrite (R p Ec), Ep; cbn [rbind]; now rewrite Val).
  split; [|split; [exact Vp|]].
  - unfold py_parse. rewrite L. cbn [rbind]. rewrite Ec. cbn [rbind]. unfold py_validate. rewrite Vp. reflexivity.
  - unfold new_prog. rewrite (R p Ec), P, Ep. cbn [rbind]. apply init_same. intros k [<-|[<-|[<-|[<-|[]]]]].
    + now rewrite Go, Fo, Eo.
    + now rewrite Gc, Fc, Ecn.
    + now rewrite Ge, Fe, Ee.
    + rewrite Gout. symmetry. apply sfind_None. intros I. rewrite Forall_forall in K. specialize (K _ I). cbn [In known_keys] in K.
      repeat destruct K as [K|K]; try discriminate K. exact K.
Qed.

End Wrapper.

(** ** C69: the same for JavaScript, where connections are different as well *)
Section JavaScript.

Lemma existsb_eqb x l : existsb (String.eqb x) l = true <-> In x l.
Proof.
  rewrite existsb_exists. split; [intros (y & I & E); apply String.eqb_eq in E; now subst|]. intros I. exists x. split; [exact I|apply String.eqb_refl].
Qed.

Lemma same_connection_eq c d : same_connection c d = true <-> c = d.
Proof.
  unfold same_connection. rewrite !andb_true_iff, !String.eqb_eq. destruct c, d. cbn. split; [intros [[[-> ->] ->] ->]; reflexivity|].
  intros [= -> -> -> ->]. auto.
Qed.

Lemma js_do_sound e p : Forall (known_js p) (js_connections p) -> NoDup (js_connections p) ->
  Forall (known_js (snd (js_do e p))) (js_connections (snd (js_do e p))) /\ NoDup (js_connections (snd (js_do e p))).
Proof.
  intros F D. destruct e as [id ty|id|c|c]; cbn [js_do snd].
  - cbn [js_add_operator js_connections]. split; [|exact D]. eapply Forall_impl; [|exact F]. intros c [H1 H2]. unfold known_js. cbn [js_operators js_add_operator].
    rewrite map_app. split; apply in_or_app; now left.
  - cbn [js_delete_operator js_connections]. split; [|now apply NoDup_filter]. rewrite Forall_forall in *. intros c I. apply filter_In in I as [I X].
    apply andb_prop in X as [X1 X2]. apply negb_true_iff in X1, X2. destruct (F c I) as [H1 H2]. apply in_map_iff in H1 as (o1 & E1 & I1). apply in_map_iff in H2 as (o2 & E2 & I2).
    split; cbn [js_operators js_delete_operator]; apply in_map_iff; [exists o1|exists o2]; (split; [assumption|]); apply filter_In; rewrite ?E1, ?E2; split; auto; now rewrite ?X1, ?X2.
  - unfold js_add_connection. destruct (existsb (String.eqb (c_from c)) (map fst (js_operators p))) eqn:E1; cbn [negb]; auto.
    destruct (existsb (String.eqb (c_to c)) (map fst (js_operators p))) eqn:E2; cbn [negb]; auto.
    destruct (existsb (fun d => same_connection d c) (js_connections p)) eqn:E3; auto. cbn [snd js_connections]. split.
    + apply Forall_app. split; [exact F|]. constructor; [|constructor]. split; apply existsb_eqb; assumption.
    + apply NoDup_app_single; [exact D|]. intros I. assert (X : existsb (fun d => same_connection d c) (js_connections p) = true); [|congruence].
      apply existsb_exists. exists c. split; [exact I|]. now apply same_connection_eq.
  - cbn [js_delete_connection js_connections]. split; [|now apply NoDup_filter]. rewrite Forall_forall in *. intros d I. apply filter_In in I as [I _]. exact (F d I).
Qed.

Theorem C69_javascript (es : list js_edit) :
  let p := js_edits es js_new in
  Forall (known_js p) (js_connections p) /\ NoDup (js_connections p).
Proof.
  cbv zeta. unfold js_edits.
  assert (G : forall p, Forall (known_js p) (js_connections p) -> NoDup (js_connections p) ->
    let q := fold_left (fun p e => snd (js_do e p)) es p in Forall (known_js q) (js_connections q) /\ NoDup (js_connections q)).
  { induction es as [|e es IH]; intros p F D; cbv zeta; cbn [fold_left]; [auto|]. destruct (js_do_sound e p F D). now apply IH. }
  apply G; constructor.
Qed.

(** after [deleteOperator] the operator is gone and the others are all there, with the
    connections between them *)
Theorem C69_deleted (p : js_program) (id : string) :
  let q := js_delete_operator id p in
  (forall o, In o (js_operators q) <-> In o (js_operators p) /\ fst o <> id) /\
  (forall c, In c (js_connections q) <-> In c (js_connections p) /\ c_from c <> id /\ c_to c <> id).
Proof.
  cbv zeta. split; intros x; cbn [js_delete_operator js_operators js_connections]; rewrite filter_In.
  - rewrite negb_true_iff, String.eqb_neq. reflexivity.
  - rewrite andb_true_iff, !negb_true_iff, !String.eqb_neq. reflexivity.
Qed.

(** two operators with the same id are accepted, and a deleted operator stays the entry operator *)
Theorem C69_ids_refuted (id ty : string) (p : js_program) :
  let q := js_add_operator id ty (js_add_operator id ty p) in
  js_operators q = js_operators p ++ [(id, ty); (id, ty)].
Proof. cbn. now rewrite <- app_assoc. Qed.
Theorem C69_entry_refuted (id : string) (p : js_program) :
  let q := js_delete_operator id (js_add_operator id "Input" p) in
  js_entry q = Some id /\ ~ In id (map fst (js_operators q)).
Proof.
  cbv zeta. split; [reflexivity|]. intros I. apply in_map_iff in I as (o & E & I). apply C69_deleted in I as [_ I]. contradiction.
Qed.

(** ** C70: [deleteConnection] never removes the connection it is asked to remove *)
Theorem C70_delete_refuted (p : js_program) (c : connection) :
  In c (js_connections p) -> In c (js_connections (js_delete_connection c p)).
Proof.
  intros I. cbn [js_delete_connection js_connections]. apply filter_In. split; [exact I|]. now rewrite !String.eqb_refl.
Qed.
(** It removes those that differ from it in everything. *)
Theorem C70_removed (p : js_program) (c d : connection) :
  In d (js_connections (js_delete_connection c p)) <->
  In d (js_connections p) /\
  (c_from d = c_from c \/ c_to d = c_to c \/ c_fromPort d = c_fromPort c \/ c_toPort d = c_toPort c).
Proof.
  cbn [js_delete_connection js_connections]. rewrite filter_In, negb_true_iff, !andb_false_iff, !negb_false_iff, !String.eqb_eq. tauto.
Qed.

End JavaScript.

(** ** Examples: hypotheses met *)
Section Examples.
Definition dated : list (string * @json QcOps) :=
  [("connections", JArr []); ("date", JStr "2023-11-20"); ("entryOperator", JStr "c"); ("license", JStr "");
   ("operators", JArr [definition "Count" "c" []])].
Definition written : @json QcOps := match py_construct dated with Ok p => py_object p | _ => JNull end.
Definition reads (j : @json QcOps) : @PyJson QcOps :=
  {| py_loads := fun s => if String.eqb s "text" then Ok j else Throw (RuntimeError "other"); py_dumps := fun _ => "inner"; shown := fun _ => true |}.

Example C71_example : let JT := a_text (JObj dated) written in let SL := a_lib in let PJ := reads (JObj dated) in
  validate "text" = Ok true /\ truthy (py_member "date" dated) = true /\ Forall (fun k => In k known_keys) (skeys dated) /\
  match py_construct dated with
  | Ok p => match new_prog j0 (py_to_json p) with Ok q => skeys (p_ops q) = ["c"] | _ => False end
  | _ => False
  end.
Proof.
  cbv zeta. split; [vm_compute; reflexivity|]. split; [reflexivity|]. split; [|vm_compute; reflexivity].
  change (Forall (fun k => In k known_keys) ["connections"; "date"; "entryOperator"; "license"; "operators"]).
  repeat (apply Forall_cons; [cbn [known_keys In]; tauto|]). apply Forall_nil.
Qed.
Example C71_example_written : let JT := a_text (JObj dated) written in let PJ := reads (JObj dated) in
  exists p, py_construct dated = Ok p /\ parse (py_to_json p) = Ok (py_object p).
Proof. eexists. split; reflexivity. Qed.
(** a valid definition without a date *)
Example C71_date_example : let JT := a_text counter JNull in let SL := a_lib in let PJ := reads counter in
  validate "text" = Ok true /\ match counter (NO := QcOps) with JObj m => truthy (py_member "date" m) = false | _ => False end.
Proof. split; vm_compute; reflexivity. Qed.

Definition a_text2 (j : @json QcOps) : JsonText := {| parse := fun _ => Ok j; dump := fun _ => "" |}.
Example C69_python_example : let JT := a_text2 (definition "Count" "c" []) in let SL := a_lib in let PJ := reads JNull in
  let p := py_edits [PyAddOperator (definition "Count" "a" []); PyAddOperator (definition "Count" "b" []);
                     PyAddOperator (definition "Count" "b" []); PyAddConnection "a" "b" "o1" "i1"; PyAddConnection "a" "c" "o1" "i1"] py_new in
  map (json_member "id") (py_operators p) = ["a"; "b"] /\ map (json_member "to") (py_connections p) = ["b"].
Proof. vm_compute. split; reflexivity. Qed.
Example C69_javascript_example :
  let c := mkConn "a" "b" "i1" "o1" in
  let p := js_edits [JsAddOperator "a" "Input"; JsAddOperator "b" "Count"; JsAddConnection c; JsAddConnection c;
                     JsAddConnection (mkConn "a" "z" "i1" "o1"); JsAddOperator "d" "Count"; JsAddConnection (mkConn "b" "d" "i1" "o1");
                     JsDeleteOperator "d"] js_new in
  js_operators p = [("a", "Input"); ("b", "Count")] /\ js_connections p = [c] /\ js_entry p = Some "a".
Proof. repeat split; reflexivity. Qed.
Example C70_example :
  let c := mkConn "a" "b" "i1" "o1" in let d := mkConn "c" "d" "i2" "o2" in let p := mkJs [] [c; d] None in
  js_connections (js_delete_connection c p) = [c] /\ js_connections (js_delete_connection d p) = [d].
Proof. split; reflexivity. Qed.
End Examples.

Print Assumptions C69_python.
Print Assumptions C69_python_connection.
Print Assumptions C69_duplicate_refuted.
Print Assumptions C69_javascript.
Print Assumptions C69_deleted.
Print Assumptions C69_ids_refuted.
Print Assumptions C69_entry_refuted.
Print Assumptions C70_delete_refuted.
Print Assumptions C70_removed.
Print Assumptions C71_date_refuted.
Print Assumptions C71_output_refuted.
Print Assumptions C71_parse_partial.
