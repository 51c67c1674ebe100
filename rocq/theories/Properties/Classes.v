(** * C83-C85: the operator classes of the Python and JavaScript packages, and programs built with them *)

From Coq Require Import String Ascii ZArith QArith Qcanon Bool List Lia.
From Verif Require Import Base.StrMap Base.Num Base.NumQc Base.NumInt Model.Core Model.Make Model.Graph Model.Codec Model.Json Model.Factory Model.Schema Model.Wrapper Model.Classes.
From Verif Require Import Spec.Show Spec.Manager Spec.Definition Spec.Schema Spec.Wrapper Spec.Classes.
From Verif Require Import Proofs.Ports Proofs.MakeP Proofs.JsonP Proofs.FactoryP Proofs.SchemaP Proofs.SchemaNew Proofs.SchemaWrite Proofs.ClassesP.
From Verif Require Import Properties.Definition Properties.Manager Properties.Schema Properties.Editing.
Import ListNotations.
Open Scope string_scope.
Open Scope list_scope.
Open Scope Z_scope.
Open Scope rtbot_scope.

Section C83.
Context {NO : NumOps} {SL : SchemaLib} {JT : JsonText} {PJ : PyJson}.

Lemma py_operator_ok ty pos kw x : py_operator ty pos kw = Ok x ->
  exists s args, In (ty, s) operator_schemas /\ py_known (py_parameters ty s) kw = true /\
    py_bind (py_parameters ty s) pos kw = Ok args /\ x = jobj (("type", JStr ty) :: args) /\
    validate_operator ty (py_dumps x) = Ok true.
Proof.
  unfold py_operator. rewrite module_ok. destruct (find _ _) as [[t s]|] eqn:F; [|discriminate].
  apply class_In in F. cbn [snd] in F. destruct (py_known _ kw) eqn:K; [|discriminate].
  intros E. apply rbind_ok in E as (args & Eb & E). apply rbind_ok in E as (ok & Ev & E). destruct ok; [|discriminate E].
  apply Ok_inj in E. subst x. exists s, args. auto.
Qed.

Lemma py_operator_valid ty pos kw x : py_operator ty pos kw = Ok x -> readable x ->
  valid (SOneOf (map snd operator_schemas)) x = true /\ text_at "type" x = ty.
Proof.
  intros E R. apply py_operator_ok in E as (s & args & I & _ & _ & _ & V). unfold validate_operator in V.
  destruct (find _ _) as [[t s']|] eqn:F; [|discriminate V]. apply class_In in F. cbn [snd] in F.
  rewrite (NoDup_fst_eq _ _ _ _ schema_types F I) in V. rewrite R in V. apply Ok_inj in V.
  split; [exact (valid_known ty s x I V)|exact (schema_type ty s x I V)].
Qed.

Lemma py_operator_accepts ty s pos kw args x : In (ty, s) operator_schemas -> py_known (py_parameters ty s) kw = true ->
  py_bind (py_parameters ty s) pos kw = Ok args -> jobj (("type", JStr ty) :: args) = x -> readable x ->
  py_operator ty pos kw = if valid s x then Ok x else Throw (py_error "Exception").
Proof.
  intros I K B <- R. unfold py_operator, validate_operator. rewrite module_ok.
  destruct (find (fun c => String.eqb ty (fst c)) operator_schemas) as [[t s']|] eqn:F.
  - apply class_In in F. cbn [snd] in F. rewrite (NoDup_fst_eq _ _ _ _ schema_types F I), K, B. cbn [rbind]. cbv zeta. rewrite R. cbn [rbind]. reflexivity.
  - apply find_none with (x := (ty, s)) in F; [|exact I]. cbn in F. rewrite String.eqb_refl in F. discriminate.
Qed.

Lemma member_jobj k l : member k (jobj l) = sfind k l.
Proof. pose proof (sfind_jobj k l) as E. unfold member. destruct (jobj l); try contradiction. exact E. Qed.

(** ** C83: what the object made by a class consists of.  Arguments given by position are those of
    the first parameters, arguments given by name those of that name, the documented defaults are
    used for the others, and there is nothing else. *)
Theorem C83_arguments (ty : string) (pos : list json) (kw : list (string * json)) (x : json) :
  py_operator ty pos kw = Ok x ->
  let names := "id" :: map fst (documented ty) in
  has_class ty /\ member "type" x = Some (JStr ty) /\
  (forall i v, nth_error pos i = Some v -> exists k, nth_error names i = Some k /\ member k x = Some v /\ sfind k kw = None) /\
  (forall k v, sfind k kw = Some v -> In k names /\ member k x = Some v) /\
  (forall i k v, nth_error (documented ty) i = Some (k, Some v) -> (length pos <= S i)%nat -> sfind k kw = None -> member k x = Some v) /\
  (forall k v, member k x = Some v -> k = "type" \/ In k names).
Proof.
  intros E. cbv zeta. apply py_operator_ok in E as (s & args & I & K & B & -> & _).
  pose proof (py_names ty s I) as Nm. pose proof (names_NoDup ty) as ND. rewrite <- Nm in ND |- *.
  destruct (py_bind_ok _ ND _ _ _ B) as (Hm & Hl & Hn).
  assert (NT : ~ In "type" (map fst (py_parameters ty s))).
  { rewrite (py_names ty s I). cbn [operator_schemas simple_op value_op In] in I.
    repeat (destruct I as [I|I]; [injection I as <- <-; cbn; intuition discriminate|]). destruct I. }
  assert (M : forall k, In k (map fst (py_parameters ty s)) -> member k (jobj (("type", JStr ty) :: args)) = sfind k args).
  { intros k Ik. rewrite member_jobj. cbn [sfind]. destruct (String.eqb_spec k "type") as [->|]; [contradiction|reflexivity]. }
  split; [apply class_known; eauto|]. split; [now rewrite member_jobj|]. split; [|split; [|split]].
  - intros i v X. destruct (nth_error (py_parameters ty s) i) as [[k d]|] eqn:Ei.
    + exists k. assert (Ik : In k (map fst (py_parameters ty s))) by (change k with (fst (k, d)); apply in_map; eapply nth_error_In; eauto).
      split; [exact (map_nth_error fst _ _ Ei)|]. rewrite M by exact Ik. destruct (Hn i k d Ei) as (v' & F & [[A C]|[A _]]); [|congruence].
      split; [congruence|exact C].
    + apply nth_error_None in Ei. assert (i < length pos)%nat by (apply nth_error_Some; congruence). unfold parameter in *. lia.
  - intros k v X. assert (Ik : In k (map fst (py_parameters ty s))).
    { unfold py_known in K. rewrite forallb_forall in K. specialize (K k (sfind_In_key _ _ _ X)). unfold str_in in K.
      apply existsb_exists in K as (k' & I' & E'). apply String.eqb_eq in E'. now subst k'. }
    split; [exact Ik|]. rewrite M by exact Ik. apply in_map_iff in Ik as ([k' d] & Ek & Ik). cbn [fst] in Ek. subst k'.
    apply In_nth_error in Ik as [i Ei]. destruct (Hn i k d Ei) as (v' & F & [[_ A]|[_ [A|[A _]]]]); congruence.
  - intros i k v Hd Lp Nk. pose proof (py_default ty s i k v I Hd) as Ei.
    rewrite M by (change k with (fst (k, Some v)); apply in_map; eapply nth_error_In; eauto).
    destruct (Hn _ _ _ Ei) as (v' & F & [[A _]|[_ [A|[_ A]]]]); try congruence.
    exfalso. assert (S i < length pos)%nat by (apply nth_error_Some; congruence). lia.
  - intros k v. rewrite member_jobj. cbn [sfind]. destruct (String.eqb_spec k "type") as [->|]; [now left|]. intros F. right.
    rewrite <- Hm. now apply sfind_In_key in F.
Qed.

(** it does not matter which arguments are given by position *)
Theorem C83_positional (ty : string) (pos : list json) (kw : list (string * json)) :
  let names := "id" :: map fst (documented ty) in
  (length pos <= length names)%nat -> (forall k, In k (firstn (length pos) names) -> sfind k kw = None) ->
  py_operator ty pos kw = py_operator ty [] (combine names pos ++ kw).
Proof.
  cbv zeta. intros L H. unfold py_operator. rewrite module_ok. destruct (find _ _) as [[t s]|] eqn:F; [|reflexivity].
  apply class_In in F. cbn [snd] in F. pose proof (py_names ty s F) as Nm. pose proof (names_NoDup ty) as ND. rewrite <- Nm in *.
  rewrite map_length in L.
  assert (K : py_known (py_parameters ty s) (combine (map fst (py_parameters ty s)) pos ++ kw) = py_known (py_parameters ty s) kw).
  { unfold py_known, skeys. rewrite map_app, forallb_app. replace (forallb _ (map fst (combine _ pos))) with true; [reflexivity|].
    symmetry. apply forallb_forall. intros k Ik. apply in_map_iff in Ik as ([k' v] & <- & Ik). apply in_combine_l in Ik. cbn [fst].
    apply existsb_exists. exists k'. split; [exact Ik|apply String.eqb_refl]. }
  rewrite K. now rewrite <- (py_bind_positional _ ND _ _ L H).
Qed.

Lemma sized_ready ty pos kw x : py_operator ty pos kw = Ok x -> readable x -> sized x -> ready x.
Proof.
  intros E R Z1. destruct (py_operator_valid _ _ _ _ E R) as [V T].
  unfold ready, sized in *. rewrite T in *. destruct (C83_arguments _ _ _ _ E) as (_ & _ & A & B & C & _).
    assert (Some2 : forall k, In k ("id" :: map fst (documented ty)) -> (exists v, In (k, Some v) (documented ty)) -> member k x <> None).
    { intros k _ [v I]. apply In_nth_error in I as [i Hi]. destruct (sfind k kw) as [w|] eqn:F; [destruct (B _ _ F); congruence|].
      destruct (Nat.leb_spec (length pos) (S i)).
      - rewrite (C i k v Hi H F). discriminate.
      - destruct (nth_error pos (S i)) as [w|] eqn:Ew; [|apply nth_error_None in Ew; lia].
        destruct (A _ _ Ew) as (k' & Ek & Mk & _). cbn [nth_error] in Ek. rewrite (map_nth_error fst _ _ Hi) in Ek. cbn [fst] in Ek. congruence. }
    destruct (String.eqb_spec ty "Join") as [->|N1].
    { split; [|exact Z1]. apply Some2; [right; now left|]. exists (JInt 2). now left. }
    destruct (String.eqb_spec ty "Linear") as [->|N2].
    { apply py_operator_ok in E as (s & args & I & _ & Bd & -> & _).
      assert (s = schema_of "Linear") as -> by (symmetry; now apply schema_of_In).
      destruct (py_bind_ok (py_parameters "Linear" (schema_of "Linear")) (names_NoDup "Linear") _ _ _ Bd) as (_ & _ & Hn). destruct (Hn 1%nat "coeff" (Some JNull) eq_refl) as (v & F & _).
      rewrite member_jobj. cbn [sfind]. cbv [String.eqb Ascii.eqb Bool.eqb]. congruence. }
    revert Z1 N1 N2. clear. intros Z1 N1 N2.
    repeat match goal with |- match ?s with _ => _ end => destruct s as [|[[] [] [] [] [] [] [] []] s] end; auto; congruence.
Qed.

(** the object is an operator that the library can create, if the numbers are not too large:
    nothing is missing, unlike in definitions that satisfy the schema (C57) *)
Theorem C83_created_partial (g : string -> junk) (ty : string) (pos : list json) (kw : list (string * json)) (x : json) :
  py_operator ty pos kw = Ok x -> readable x -> sized x ->
  exists o, read_op g x = Ok o /\ has_ports (data_inputs x) (control_inputs x) (outputs x) o.
Proof.
  intros E R Z1. destruct (py_operator_valid _ _ _ _ E R) as [V T].
  pose proof (sized_ready _ _ _ _ E R Z1) as Rd.
  destruct (read_valid g x V Rd) as (o & Eo & _ & F). eauto.
Qed.

Context {NI : NumInt NO}.

Lemma ports_valid ty lo id n : schema_of ty = op_schema ty [("numPorts", SInteger (Some lo))] [] ->
  valid (schema_of ty) (definition ty id [("numPorts", JInt n)]) = above (Some lo) n.
Proof.
  intros ->. unfold op_schema. change (definition ty id [("numPorts", JInt n)]) with (JObj [("id", JStr id); ("numPorts", JInt n); ("type", JStr ty)]).
  rewrite valid_object_eq. cbn [app valid_props sfind]. cbv [String.eqb Ascii.eqb Bool.eqb]. cbn [valid str_in existsb].
  rewrite String.eqb_refl. destruct (above (Some lo) n); reflexivity.
Qed.

(** called with parameters in their documented ranges, a class makes an object from which the library
    creates the operator with these parameters, or with the documented defaults for those left out *)
Theorem C83_meant_partial (g : string -> junk) (id ty : string) (l : list (string * json)) (r : res op) :
  meant id ty l r \/ (ty = "Join" /\ l = [] /\ r = mk_join id 2) ->
  narrow ty l -> in_range_of ty l -> readable (definition ty id (completed ty l)) ->
  py_operator ty [] (("id", JStr id) :: l) = Ok (definition ty id (completed ty l)) /\
  read_op g (definition ty id (completed ty l)) = r.
Proof.
  intros M N W R.
  assert (Acc : forall s, In (ty, s) operator_schemas -> py_known (py_parameters ty s) (("id", JStr id) :: l) = true ->
    py_bind (py_parameters ty s) [] (("id", JStr id) :: l) = Ok (("id", JStr id) :: completed ty l) -> valid s (definition ty id (completed ty l)) = true ->
    read_op g (definition ty id (completed ty l)) = r ->
    py_operator ty [] (("id", JStr id) :: l) = Ok (definition ty id (completed ty l)) /\ read_op g (definition ty id (completed ty l)) = r).
  { intros s I K B V Rd. split; [|exact Rd]. rewrite (py_operator_accepts ty s _ _ _ (definition ty id (completed ty l)) I K B eq_refl R). now rewrite V. }
  assert (Full : meant id ty (completed ty l) r -> narrow ty (completed ty l) -> read_op g (definition ty id (completed ty l)) = r).
  { intros M' N'. now apply C53_parameters_partial. }
  assert (two64 > 2 ^ 31) by reflexivity.
  destruct M as [M|(-> & -> & ->)].
  2:{ apply (Acc (schema_of "Join")); try reflexivity. cbn; tauto. }
  destruct M.
  all: match goal with |- py_operator ?ty _ _ = _ /\ _ => apply (Acc (schema_of ty)) end.
  all: match goal with |- In _ _ => cbn; tauto | |- py_known _ _ = _ => reflexivity | |- py_bind _ _ _ = _ => reflexivity | _ => idtac end.
  all: try (apply Full; [constructor; auto; lia|first [exact N|exact I|cbn in N |- *; lia]]).
  all: try reflexivity.
  all: cbn in W, N.
  - apply (proj2 (bool_eq_iff _ _ (ports_valid "Input" 1 id n eq_refl))). apply above_small; lia.
  - apply (proj2 (bool_eq_iff _ _ (ports_valid "Output" 1 id n eq_refl))). apply above_small; lia.
  - apply (proj2 (bool_eq_iff _ _ (ports_valid "Demultiplexer" 1 id n eq_refl))). apply above_small; lia.
  - apply (proj2 (bool_eq_iff _ _ (ports_valid "Join" 2 id n eq_refl))). apply above_small; lia.
  - change (valid (op_schema "FiniteImpulseResponse" [("coeff", SArray 0 None SNumber)] ["coeff"])
      (definition "FiniteImpulseResponse" id [("coeff", JArr (map JNum c))]) = true). now rewrite valid_coeff by auto.
  - change (valid (op_schema "Linear" [("coeff", SArray 2 None SNumber)] [])
      (definition "Linear" id [("coeff", JArr (map JNum c))]) = true). rewrite valid_coeff by auto. rewrite map_length in W. now apply Nat.leb_le.
  - change (valid (op_schema "AutoRegressive" [("coeff", SArray 1 None SNumber)] ["coeff"])
      (definition "AutoRegressive" id [("coeff", JArr (map JNum c))]) = true). rewrite valid_coeff by auto. destruct c; [now destruct W|reflexivity].
  - destruct W as [z W]. change (match whole v with Some z => above None z | None => false end && true && true && true = true). now rewrite W.
  - change (above (Some 1) dt && true && true && true = true). replace (above (Some 1) dt) with true; [reflexivity|]. symmetry. apply above_small; lia.
  - change (above (Some 1) dt && true && true && true = true). replace (above (Some 1) dt) with true; [reflexivity|]. symmetry. apply above_small; lia.
Qed.

(** ** C83 refuted *)

(** "coeff" of a Linear is documented as optional, but without it the class raises an exception
    whatever the id: it passes None, which is written as null *)
Theorem C83_linear_refuted (id : string) :
  readable (definition "Linear" id [("coeff", JNull)]) ->
  py_operator "Linear" [JStr id] [] = Throw (py_error "Exception") /\
  py_operator "Linear" [] [("id", JStr id)] = Throw (py_error "Exception").
Proof.
  intros R. assert (V : valid (schema_of "Linear") (definition "Linear" id [("coeff", JNull)]) = false) by reflexivity.
  split; erewrite (py_operator_accepts "Linear" (schema_of "Linear") _ _ _ (definition "Linear" id [("coeff", JNull)])); try reflexivity;
    try exact R; (cbn; tauto).
Qed.

(** no Function made with the class can be created *)
Theorem C83_function_refuted (g : string -> junk) (pos : list json) (kw : list (string * json)) (x : json) (o : op) :
  py_operator "Function" pos kw = Ok x -> read_op g x <> Ok o.
Proof.
  intros E. apply C43_function_refuted. apply py_operator_ok in E as (s & args & _ & _ & _ & -> & _). now rewrite jat_jobj.
Qed.
(** and its interpolation, documented as "type", cannot be chosen *)
Theorem C83_interpolation_refuted (a b c : json) (pos : list json) (kw : list (string * json)) (v : json) :
  (forall x, py_operator "Function" (a :: b :: c :: pos) kw <> Ok x) /\
  (sfind "type" kw = Some v -> forall x, py_operator "Function" pos kw <> Ok x).
Proof.
  split; intros; intros E.
  - destruct (C83_arguments _ _ _ _ E) as (_ & _ & A & _). destruct (A 2%nat c eq_refl) as (k & X & _). discriminate X.
  - destruct (C83_arguments _ _ _ _ E) as (_ & _ & _ & B & _). destruct (B _ _ H) as [X _]. cbn in X. intuition discriminate.
Qed.

(** there are no classes for RelativeStrengthIndex and Pipeline *)
Theorem C83_unknown_refuted (pos : list json) (kw : list (string * json)) :
  py_operator "RelativeStrengthIndex" pos kw = Throw (py_error "AttributeError") /\
  py_operator "Pipeline" pos kw = Throw (py_error "AttributeError").
Proof. split; reflexivity. Qed.

(** ** C84: the classes of the JavaScript package *)

Lemma js_operator_ok ty args x : js_operator ty args = Ok x ->
  exists s, In (ty, s) operator_schemas /\ x = jobj (("type", JStr ty) :: js_members (map fst (schema_parameters s)) args) /\ valid s x = true.
Proof.
  unfold js_operator. destruct (find _ _) as [[t s]|] eqn:F; [|discriminate]. apply class_In in F. cbn [snd] in F. cbv zeta.
  destruct (valid s _) eqn:V; [|discriminate]. intros E. apply Ok_inj in E. subst x. eauto.
Qed.

Lemma js_members_find names : NoDup names -> forall args k,
  sfind k (js_members names args) = match find (fun ka => String.eqb k (fst ka)) (combine names args) with Some (_, a) => a | None => None end.
Proof.
  induction 1 as [|n names N ND IH]; intros args k; [reflexivity|]. destruct args as [|a args]; [reflexivity|]. cbn [combine find fst].
  assert (Out : sfind n (js_members names args) = None).
  { rewrite IH. destruct (find _ _) as [[k' a']|] eqn:F; [|reflexivity]. apply find_some in F as [I E]. apply String.eqb_eq in E. cbn in E. subst k'.
    apply in_combine_l in I. contradiction. }
  cbn [js_members]. destruct a as [v|]; cbn [sfind].
  - destruct (String.eqb k n); [reflexivity|apply IH].
  - destruct (String.eqb_spec k n) as [->|]; [exact Out|apply IH].
Qed.

(** an argument that is given is that of its parameter; the others are missing from the object, with
    no defaults *)
Theorem C84_arguments (ty : string) (args : list (option json)) (x : json) :
  js_operator ty args = Ok x ->
  let names := "id" :: map fst (documented ty) in
  has_class ty /\ member "type" x = Some (JStr ty) /\
  (forall i k, nth_error names i = Some k -> member k x = match nth_error args i with Some a => a | None => None end) /\
  (forall k v, member k x = Some v -> k = "type" \/ In k names).
Proof.
  intros E. cbv zeta. apply js_operator_ok in E as (s & I & -> & V). rewrite <- (class_names ty s I).
  assert (ND : NoDup (map fst (schema_parameters s))) by (rewrite (class_names ty s I); apply names_NoDup).
  assert (NT : ~ In "type" (map fst (schema_parameters s))).
  { rewrite (class_names ty s I). clear - I. cbn [operator_schemas simple_op value_op In] in I.
    repeat (destruct I as [I|I]; [injection I as <- <-; cbn; intuition discriminate|]). destruct I. }
  split; [apply class_known; eauto|]. split; [now rewrite member_jobj|]. split.
  - intros i k X. rewrite member_jobj. cbn [sfind]. destruct (String.eqb_spec k "type") as [->|_].
    { exfalso. apply NT. eapply nth_error_In; eauto. }
    rewrite js_members_find by exact ND. clear V NT. generalize dependent i. generalize dependent args. induction ND as [|n names N ND IH]; intros args i X.
    + now destruct i.
    + destruct i as [|i].
      * injection X as ->. destruct args as [|a args]; [reflexivity|]. cbn [combine find fst nth_error]. now rewrite String.eqb_refl.
      * cbn [nth_error] in X. destruct args as [|a args]; [reflexivity|]. cbn [combine find fst nth_error].
        destruct (String.eqb_spec k n) as [->|]; [exfalso; apply N; eapply nth_error_In; eauto|]. now apply IH.
  - intros k v. rewrite member_jobj. cbn [sfind]. destruct (String.eqb_spec k "type") as [->|]; [now left|].
    rewrite js_members_find by exact ND. destruct (find _ _) as [[k' a]|] eqn:F; [|discriminate]. intros _. right.
    apply find_some in F as [J Ek]. apply String.eqb_eq in Ek. cbn in Ek. subst k'. now apply in_combine_l in J.
Qed.

(** the class makes a definition with the given parameters, from which the library creates the
    operator that is meant *)
Theorem C84_meant_partial (g : string -> junk) (id ty : string) (l : list (string * json)) (r : res op) :
  meant id ty l r -> narrow ty l -> in_range_of ty l ->
  js_operator ty (Some (JStr id) :: map (fun kd => sfind (fst kd) l) (documented ty)) = Ok (definition ty id l) /\
  read_op g (definition ty id l) = r.
Proof.
  intros M N W.
  assert (Acc : find (fun c => String.eqb ty (fst c)) operator_schemas = Some (ty, schema_of ty) ->
    js_members (map fst (schema_parameters (schema_of ty))) (Some (JStr id) :: map (fun kd => sfind (fst kd) l) (documented ty)) = ("id", JStr id) :: l ->
    valid (schema_of ty) (definition ty id l) = true ->
    js_operator ty (Some (JStr id) :: map (fun kd => sfind (fst kd) l) (documented ty)) = Ok (definition ty id l) /\ read_op g (definition ty id l) = r).
  { intros F B V. split; [|now apply C53_parameters_partial]. unfold js_operator. rewrite F, B. cbv zeta.
    change (jobj (("type", JStr ty) :: ("id", JStr id) :: l)) with (definition ty id l). now rewrite V. }
  assert (two64 > 2 ^ 31) by reflexivity.
  destruct M; apply Acc; try reflexivity.
  all: cbn in W, N.
  - apply (proj2 (bool_eq_iff _ _ (ports_valid "Input" 1 id n eq_refl))). apply above_small; lia.
  - apply (proj2 (bool_eq_iff _ _ (ports_valid "Output" 1 id n eq_refl))). apply above_small; lia.
  - apply (proj2 (bool_eq_iff _ _ (ports_valid "Demultiplexer" 1 id n eq_refl))). apply above_small; lia.
  - apply (proj2 (bool_eq_iff _ _ (ports_valid "Join" 2 id n eq_refl))). apply above_small; lia.
  - change (valid (op_schema "FiniteImpulseResponse" [("coeff", SArray 0 None SNumber)] ["coeff"])
      (definition "FiniteImpulseResponse" id [("coeff", JArr (map JNum c))]) = true). now rewrite valid_coeff by auto.
  - change (valid (op_schema "Linear" [("coeff", SArray 2 None SNumber)] [])
      (definition "Linear" id [("coeff", JArr (map JNum c))]) = true). rewrite valid_coeff by auto. rewrite map_length in W. now apply Nat.leb_le.
  - change (valid (op_schema "AutoRegressive" [("coeff", SArray 1 None SNumber)] ["coeff"])
      (definition "AutoRegressive" id [("coeff", JArr (map JNum c))]) = true). rewrite valid_coeff by auto. destruct c; [now destruct W|reflexivity].
  - destruct W as [z W]. change (match whole v with Some z => above None z | None => false end && true && true && true = true). now rewrite W.
  - change (above (Some 1) dt && true && true && true = true). replace (above (Some 1) dt) with true; [reflexivity|]. symmetry. apply above_small; lia.
  - change (above (Some 1) dt && true && true && true = true). replace (above (Some 1) dt) with true; [reflexivity|]. symmetry. apply above_small; lia.
Qed.

(** ** C84 refuted: a Join without a number of ports and a Linear without coefficients pass the checks
    of their classes, and reading them is undefined behaviour; the documented default 2 is not used *)
Theorem C84_join_refuted (g : string -> junk) (id : string) :
  js_operator "Join" [Some (JStr id)] = Ok (definition "Join" id []) /\ read_op g (definition "Join" id []) = UB.
Proof. split; reflexivity. Qed.
Theorem C84_linear_refuted (g : string -> junk) (id : string) :
  js_operator "Linear" [Some (JStr id)] = Ok (definition "Linear" id []) /\ read_op g (definition "Linear" id []) = UB.
Proof. split; reflexivity. Qed.
(** nor can a Function be created *)
Theorem C84_function_refuted (g : string -> junk) (args : list (option json)) (x : json) (o : op) :
  js_operator "Function" args = Ok x -> read_op g x <> Ok o.
Proof. intros E. apply C43_function_refuted. apply js_operator_ok in E as (s & _ & -> & _). now rewrite jat_jobj. Qed.

End C83.

Section C85.
Context {NO : NumOps} {SL : SchemaLib} {JT : JsonText} {NC : NumCodec NO} {PJ : PyJson}.

(** ** C85: programs built with the Python module *)

(** [Program(entryOperator = e, date = d)] *)
Definition py_program_of (e d : json) : py_program := mkPy [] [] e JNull JNull (JStr "v1") d JNull JNull.

(** an operator made with a class, which can be written and whose numbers are not too large *)
Definition well_made (x : json) : Prop :=
  (exists ty pos kw, py_operator ty pos kw = Ok x) /\ readable x /\ sized x.

Lemma py_edits_snoc es e p : py_edits (es ++ [e]) p = snd (py_do e (py_edits es p)).
Proof. unfold py_edits. now rewrite fold_left_app. Qed.

Lemma py_do_members e p : let q := snd (py_do e p) in
  py_entry q = py_entry p /\ py_title q = py_title p /\ py_description q = py_description p /\ py_version q = py_version p /\
  py_date q = py_date p /\ py_author q = py_author p /\ py_license q = py_license p.
Proof.
  cbv zeta. destruct e as [x|a b c d]; cbn [py_do].
  - unfold py_add_operator. destruct (validate_operator _ _) as [[|]| | | |]; auto 8. destruct (existsb _ _); auto 8.
  - unfold py_add_connection. destruct (_ && _); auto 8.
Qed.
Lemma py_edits_members es : forall p, let q := py_edits es p in
  py_entry q = py_entry p /\ py_title q = py_title p /\ py_description q = py_description p /\ py_version q = py_version p /\
  py_date q = py_date p /\ py_author q = py_author p /\ py_license q = py_license p.
Proof.
  induction es as [|e es IH]; intros p; cbv zeta; [auto 8|]. change (py_edits (e :: es) p) with (py_edits es (snd (py_do e p))).
  destruct (IH (snd (py_do e p))) as (-> & -> & -> & -> & -> & -> & ->). apply py_do_members.
Qed.

(** the operators were added, and an operator that was to be added is there, or one with its id *)
Lemma py_edits_operators es p0 : py_operators p0 = [] -> py_connections p0 = [] ->
  (forall x, In (PyAddOperator x) es -> well_made x) ->
  let p := py_edits es p0 in
  (forall x, In x (py_operators p) -> In (PyAddOperator x) es) /\
  (forall x, In (PyAddOperator x) es -> In (json_id x) (map json_id (py_operators p))) /\
  (forall c, In c (py_connections p) -> exists a b fp tp, c = py_connection a b fp tp).
Proof.
  intros E0 C0. induction es as [|e es IH] using rev_ind; intros W; cbv zeta.
  - cbn. rewrite E0, C0. repeat split; intros ? [].
  - rewrite py_edits_snoc. cbv zeta in IH. destruct IH as (I1 & I2 & I3); [intros x I; apply W; apply in_or_app; now left|].
    assert (Keep : forall x, In (PyAddOperator x) es -> In (PyAddOperator x) (es ++ [e])) by (intros x I; apply in_or_app; now left).
    destruct e as [x|a b c d]; cbn [py_do].
    + destruct (W x) as ((ty & pos & kw & Ex) & Rx & _); [apply in_or_app; right; now left|].
      assert (V : validate_operator (json_type x) (py_dumps x) = Ok true).
      { destruct (py_operator_valid _ _ _ _ Ex Rx) as [_ T]. apply py_operator_ok in Ex as (s & args & _ & _ & _ & Eq & V).
        change (json_type x) with (match x with JObj m => match sfind "type" m with Some (JStr s) => s | _ => "" end | _ => "" end).
        replace (match x with JObj m => match sfind "type" m with Some (JStr s) => s | _ => "" end | _ => "" end) with ty; [exact V|].
        rewrite <- T. unfold text_at, member. destruct x; reflexivity. }
      unfold py_add_operator. rewrite V. destruct (existsb _ _) eqn:D; cbn [snd py_operators py_connections].
      * split; [auto|]. split; [|exact I3]. intros y I. apply in_app_iff in I as [I|[I|[]]]; [auto|]. injection I as <-.
        apply existsb_exists in D as (i & Ii & Ei). apply String.eqb_eq in Ei. now rewrite Ei.
      * split; [|split; [|exact I3]].
        -- intros y I. apply in_app_iff in I as [I|[<-|[]]]; [auto|]. apply in_or_app. right. now left.
        -- intros y I. rewrite map_app. apply in_app_iff in I as [I|[I|[]]]; apply in_or_app; [left; auto|]. injection I as <-. right. now left.
    + unfold py_add_connection. destruct (_ && _); cbn [snd py_operators py_connections].
      * split; [auto|]. split.
        -- intros y I. apply in_app_iff in I as [I|[I|[]]]; [auto|discriminate I].
        -- intros y I. apply in_app_iff in I as [I|[<-|[]]]; [auto|]. eauto.
      * split; [auto|]. split; [|exact I3]. intros y I. apply in_app_iff in I as [I|[I|[]]]; [auto|discriminate I].
Qed.

(** A program with a date, whose operators were made with the classes, whose connections are between
    ports that exist and whose entry operator was added and has no control inputs, is created with all the
    operators. *)
Theorem C85_created_partial (id : string) (g : string -> junk) (m : manager) (es : list py_edit) (e d : string) (eo : json) :
  let p := py_edits es (py_program_of (JStr e) (JStr d)) in
  (forall x, In (PyAddOperator x) es -> well_made x) ->
  Forall (linked (py_operators p)) (py_connections p) ->
  d <> "" -> date_ok d = true -> e <> "" -> described (py_operators p) e = Some eo -> control_inputs eo = [] ->
  readable (py_object p) ->
  exists q, create_checked id g (py_to_json p) m = (Ok (RText ""), set_programs m (semplace id q (f_programs m))) /\
    p_entry q = e /\
    (forall x, In (PyAddOperator x) es -> shas (text_at "id" x) (p_ops q) = true) /\
    (forall i, shas i (p_ops q) = true -> exists x, In (PyAddOperator x) es /\ text_at "id" x = i).
Proof.
  cbv zeta. intros W L Dn Dk En De Ce R. set (p := py_edits es _) in *.
  destruct (py_edits_members es (py_program_of (JStr e) (JStr d))) as (M1 & M2 & M3 & M4 & M5 & M6 & M7). fold p in M1, M2, M3, M4, M5, M6, M7.
  destruct (py_edits_operators es (py_program_of (JStr e) (JStr d)) eq_refl eq_refl W) as (O1 & O2 & O3). fold p in O1, O2, O3.
  cbn [py_program_of py_entry py_title py_description py_version py_date py_author py_license] in M1, M2, M3, M4, M5, M6, M7.
  destruct (py_object_find p) as (mm & Ep & Go & Gc & Gv & Gout & Gt & Ge). rewrite M5 in Ge.
  assert (Td : truthy (JStr d) = true) by (cbn; destruct (String.eqb_spec d ""); [contradiction|reflexivity]). rewrite Td, M1 in Ge.
  assert (Gx : sfind "title" mm = None /\ sfind "description" mm = None /\ sfind "author" mm = None /\ sfind "license" mm = None /\ sfind "date" mm = Some (JStr d)).
  { rewrite (Gt "title" (py_title p)), (Gt "description" (py_description p)), (Gt "author" (py_author p)), (Gt "license" (py_license p)), (Gt "date" (py_date p)) by (cbn [In]; tauto).
    rewrite M2, M3, M5, M6, M7, Td. auto. }
  destruct Gx as (G1 & G2 & G3 & G4 & G5).
  assert (Vo : forallb (valid (SOneOf (map snd operator_schemas))) (py_operators p) = true).
  { apply forallb_forall. intros x I. destruct (W x (O1 x I)) as ((ty & pos & kw & Ex) & Rx & _). exact (proj1 (py_operator_valid _ _ _ _ Ex Rx)). }
  assert (Vc : forallb (valid connection_schema) (py_connections p) = true).
  { apply forallb_forall. intros c I. destruct (O3 c I) as (a & b & fp & tp & ->). reflexivity. }
  assert (Val : valid program_schema (JObj mm) = true).
  { unfold program_schema. rewrite valid_object_eq. cbn [forallb]. unfold shas. rewrite Go, Gc, Ge. cbn [andb valid_props].
    rewrite G1, G2, G3, G4, G5, Gv, Gout, Go, Gc, Ge, M4.
    assert (Ar : forall s l, valid (SArray 0 None s) (JArr l) = forallb (valid s) l) by reflexivity.
    rewrite !Ar, Vo, Vc. cbn [valid]. rewrite Dk. reflexivity. }
  assert (P : parse (py_to_json p) = Ok (py_object p)) by exact R.
  assert (V : validate (py_to_json p) = Ok true) by (unfold validate; rewrite P, Ep; now rewrite Val).
  assert (Lo : list_at "operators" (py_object p) = py_operators p) by (rewrite Ep; unfold list_at; cbn [member]; now rewrite Go).
  assert (Lc : list_at "connections" (py_object p) = py_connections p) by (rewrite Ep; unfold list_at; cbn [member]; now rewrite Gc).
  assert (Le : text_at "entryOperator" (py_object p) = e) by (rewrite Ep; unfold text_at; cbn [member]; now rewrite Ge).
  destruct (C57_created_partial id g (py_to_json p) m (py_object p) eo P V) as (q & Eq & _ & Eentry & K); rewrite ?Lo, ?Lc, ?Le; auto.
  { apply Forall_forall. intros x I. destruct (W x (O1 x I)) as ((ty & pos & kw & Ex) & Rx & Zx). eapply sized_ready; eauto. }
  rewrite Lo in K. rewrite Le in Eentry. exists q. split; [exact Eq|]. split; [exact Eentry|]. split.
  - intros x I. apply K. specialize (O2 x I). apply in_map_iff in O2 as (y & Ey & Iy). exists y. split; [exact Iy|].
    unfold json_id in Ey. unfold text_at, member. destruct x, y; auto.
  - intros i X. apply K in X as (x & I & Ei). eauto.
Qed.

(** ** C85 refuted: without a date no program is created, whatever its operators, connections and
    entry operator, and running it fails *)
Theorem C85_date_refuted (n : nat) (id : string) (g : string -> junk) (rows : list row) (m : manager) (es : list py_edit) (e : json) :
  let p := py_edits es (py_program_of e JNull) in
  readable (py_object p) ->
  create_checked id g (py_to_json p) m = (Ok invalid_reply, m) /\
  forall t, fst (run_exec n id g (py_to_json p) rows m) <> Ok t.
Proof.
  cbv zeta. intros R. set (p := py_edits es _) in *.
  destruct (py_edits_members es (py_program_of e JNull)) as (_ & _ & _ & _ & M5 & _). fold p in M5. cbn [py_program_of py_date] in M5.
  assert (V : validate (py_to_json p) = Ok false).
  { unfold validate, py_to_json. rewrite R. f_equal. destruct (py_object_find p) as (mm & Ep & _ & _ & _ & _ & _ & Ge). rewrite M5 in Ge. cbn [truthy] in Ge.
    rewrite Ep. destruct (valid program_schema (JObj mm)) eqn:V; [|reflexivity]. exfalso. apply valid_object in V as (m2 & Em & Rq & _). injection Em as <-.
    destruct (Rq "entryOperator") as [y Fy]; [cbn [In]; tauto|]. congruence. }
  assert (C : create_checked id g (py_to_json p) m = (Ok invalid_reply, m)) by (unfold create_checked; now rewrite V).
  split; [exact C|]. intros t. unfold run_exec. rewrite C. cbn [bind sbind]. unfold sbind, invalid_reply.
  destruct (with_program m id entry_ports) as [[[]| | | |] m2]; try discriminate.
Qed.
End C85.

(** ** Examples *)
Section Examples.

(** a program: an Input, a MovingAverage made with the class, a Join with the default number of ports *)
Definition op_in : @json QcOps := definition "Input" "in" [("numPorts", JInt 1)].
Definition op_ma : @json QcOps := definition "MovingAverage" "ma" [("n", JInt 3)].
Definition op_join : @json QcOps := definition "Join" "j" [("numPorts", JInt 2)].
Definition built_edits : list (@py_edit QcOps) :=
  [PyAddOperator op_in; PyAddOperator op_ma; PyAddOperator op_join;
   PyAddConnection "in" "ma" "o1" "i1"; PyAddConnection "in" "j" "o1" "i1"; PyAddConnection "ma" "j" "o1" "i2"].

(** objects are written as their ids *)
Definition by_id : @PyJson QcOps :=
  {| py_loads := fun _ => Throw (RuntimeError "unused"); py_dumps := fun x => text_at "id" x; shown := fun _ => true |}.
Definition id_texts (program : @json QcOps) : @JsonText QcOps :=
  {| parse := fun s => if String.eqb s "in" then Ok op_in else if String.eqb s "ma" then Ok op_ma else if String.eqb s "j" then Ok op_join
                       else if String.eqb s "l" then Ok (definition "Linear" "l" [("coeff", JNull)])
                       else if String.eqb s "" then Ok program else Throw parse_error;
     dump := fun _ => "" |}.
Definition built_object : @json QcOps :=
  let SL := a_lib in let PJ := by_id in let JT := id_texts JNull in
  py_object (py_edits built_edits (py_program_of (JStr "in") (JStr "2024-01-01"))).

Example C83_example : let SL := a_lib in let PJ := by_id in let JT := id_texts JNull in
  py_operator "MovingAverage" [JStr "ma"] [("n", JInt 3)] = Ok op_ma /\ readable op_ma /\ sized op_ma /\
  py_operator "Join" [JStr "j"] [] = Ok op_join /\
  py_operator "MovingAverage" [JStr "ma"; JInt 3; JInt 4] [] = Throw (py_error "TypeError") /\
  py_operator "MovingAverage" [JStr "ma"; JInt 3] [("n", JInt 4)] = Throw (py_error "TypeError") /\
  py_operator "MovingAverage" [JStr "ma"] [] = Throw (py_error "TypeError").
Proof. repeat split; reflexivity. Qed.
Example C83_meant_example : let SL := a_lib in let PJ := by_id in let JT := id_texts JNull in
  meant (NO := QcOps) "ma" "MovingAverage" [("n", JInt 3)] (mk_movavg "ma" 3) /\ narrow (NO := QcOps) "MovingAverage" [("n", JInt 3)] /\
  in_range_of "MovingAverage" [("n", @JInt QcOps 3)] /\ readable (definition "MovingAverage" "ma" (completed "MovingAverage" [("n", @JInt QcOps 3)])) /\
  readable (definition "Join" "j" (completed "Join" [])).
Proof. split; [apply Mt_movavg; unfold two64; lia|]. repeat split; reflexivity. Qed.
Example C83_refuted_example : let PJ := by_id in let JT := id_texts JNull in readable (definition "Linear" "l" [("coeff", JNull)]).
Proof. reflexivity. Qed.

Example C85_example : let SL := a_lib in let PJ := by_id in let JT := id_texts built_object in
  let p := py_edits built_edits (py_program_of (JStr "in") (JStr "2024-01-01")) in
  (forall x, In (PyAddOperator x) built_edits -> well_made x) /\
  Forall (linked (py_operators p)) (py_connections p) /\ date_ok "2024-01-01" = true /\
  described (py_operators p) "in" = Some op_in /\ control_inputs op_in = [] /\ readable (py_object p) /\ length (py_connections p) = 3%nat.
Proof.
  cbv zeta. split; [|split].
  - intros x [E|[E|[E|[E|[E|[E|[]]]]]]]; try discriminate E; injection E as <-; (split; [|split; [reflexivity|]]).
    + exists "Input", [JStr "in"], []. reflexivity.
    + change (0 <= 1 < 2 ^ 31 - 1). lia.
    + exists "MovingAverage", [JStr "ma"; JInt 3], []. reflexivity.
    + exact I.
    + exists "Join", [JStr "j"], []. reflexivity.
    + change (0 <= 2 < 2 ^ 31 - 1). lia.
  - repeat apply Forall_cons; try apply Forall_nil; (eexists _, _; split; [reflexivity|]; split; [reflexivity|]; split; vm_compute; auto).
  - repeat split; reflexivity.
Qed.
Example C85_refuted_example : let SL := a_lib in let PJ := by_id in
  let p0 := (let JT := id_texts JNull in py_edits built_edits (py_program_of (JStr "in") JNull)) in
  let JT := id_texts (py_object p0) in
  readable (py_object (py_edits built_edits (py_program_of (JStr "in") JNull))).
Proof. reflexivity. Qed.
End Examples.

Print Assumptions C83_arguments.
Print Assumptions C83_positional.
Print Assumptions C83_created_partial.
Print Assumptions C83_meant_partial.
Print Assumptions C83_linear_refuted.
Print Assumptions C83_function_refuted.
Print Assumptions C83_interpolation_refuted.
Print Assumptions C83_unknown_refuted.
Print Assumptions C84_arguments.
Print Assumptions C84_meant_partial.
Print Assumptions C84_join_refuted.
Print Assumptions C84_linear_refuted.
Print Assumptions C84_function_refuted.
Print Assumptions C85_created_partial.
Print Assumptions C85_date_refuted.
