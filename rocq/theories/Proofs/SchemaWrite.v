(** * What is written for an operator is valid *)

From Coq Require Import String Ascii ZArith Bool List Lia.
From Verif Require Import Base.StrMap Base.Num Base.NumInt Model.Core Model.Ops Model.Make Model.Graph Model.Codec Model.Json Model.Factory Model.Schema.
From Verif Require Import Spec.Shape Spec.Definition Spec.Schema.
From Verif Require Import Proofs.Ports Proofs.MakeP Proofs.JsonP Proofs.SchemaP.
Import ListNotations.
Open Scope string_scope.
Open Scope list_scope.
Open Scope Z_scope.
Open Scope rtbot_scope.

Section Write.
Context {NO : NumOps} {SL : SchemaLib}.

(** ** Every schema of an operator allows one type *)

Lemma schema_type ty s x : In (ty, s) operator_schemas -> valid s x = true -> text_at "type" x = ty.
Proof.
  intros I V. assert (E : exists ps req, s = op_schema ty ps req).
  { cbn [operator_schemas simple_op value_op In] in I. repeat (destruct I as [[= <- <-]|I]; [eexists _, _; reflexivity|]). destruct I. }
  destruct E as (ps & req & ->). apply valid_op in V as (m & id & -> & T & _). unfold text_at. cbn [member]. now rewrite T.
Qed.

Lemma schema_types : NoDup (map fst operator_schemas).
Proof.
  assert (E : (if list_eq_dec string_dec (nodup string_dec (map fst operator_schemas)) (map fst operator_schemas) then true else false) = true)
    by (vm_compute; reflexivity).
  destruct (list_eq_dec string_dec (nodup string_dec (map fst operator_schemas)) (map fst operator_schemas)) as [X|]; [|discriminate E].
  rewrite <- X. apply NoDup_nodup.
Qed.

Lemma how_many_none x (l : list (string * schema)) : (forall ty s, In (ty, s) l -> valid s x = false) -> how_many x (map snd l) = O.
Proof.
  induction l as [|[ty s] l IH]; intros H; [reflexivity|]. cbn [map snd how_many]. rewrite (H ty s) by now left.
  rewrite IH; auto. intros ty' s' I. apply (H ty'). now right.
Qed.

Lemma how_many_one x (l : list (string * schema)) : NoDup (map fst l) -> (forall ty s, In (ty, s) l -> valid s x = true -> text_at "type" x = ty) ->
  forall ty s, In (ty, s) l -> valid s x = true -> how_many x (map snd l) = 1%nat.
Proof.
  induction l as [|[ty' s'] l IH]; intros ND H ty s I V; [destruct I|]. cbn [map fst] in ND. inversion ND as [|? ? N ND']; subst.
  cbn [map snd how_many]. destruct I as [[= -> ->]|I].
  - rewrite V, how_many_none; [reflexivity|]. intros ty' s' I. destruct (valid s' x) eqn:V'; [|reflexivity]. exfalso.
    rewrite <- (H ty s (or_introl eq_refl) V), (H ty' s' (or_intror I) V') in N. apply N. now apply (in_map fst) in I.
  - assert (N1 : valid s' x = false).
    { destruct (valid s' x) eqn:V'; [|reflexivity]. exfalso.
      rewrite <- (H ty' s' (or_introl eq_refl) V'), (H ty s (or_intror I) V) in N. apply N. now apply (in_map fst) in I. }
    rewrite N1. cbn. eapply IH; eauto. intros ty2 s2 I2. apply H. now right.
Qed.

Lemma valid_known ty s x : In (ty, s) operator_schemas -> valid s x = true -> valid (SOneOf (map snd operator_schemas)) x = true.
Proof.
  intros I V. rewrite valid_oneof_eq, (how_many_one x operator_schemas schema_types) with (ty := ty) (s := s); auto.
  intros ty' s' I' V'. eapply schema_type; eauto.
Qed.

Lemma valid_unknown x : ~ In (text_at "type" x) (map fst operator_schemas) -> valid (SOneOf (map snd operator_schemas)) x = false.
Proof.
  intros N. rewrite valid_oneof_eq, how_many_none; [reflexivity|]. intros ty s I. destruct (valid s x) eqn:V; [|reflexivity].
  exfalso. apply N. rewrite (schema_type _ _ _ I V). now apply (in_map fst) in I.
Qed.

Definition schema_of (ty : string) : schema :=
  match find (fun x => String.eqb ty (fst x)) operator_schemas with Some (_, s) => s | None => SOneOf [] end.

Lemma NoDup_fst_eq {A} (l : list (string * A)) k a b : NoDup (map fst l) -> In (k, a) l -> In (k, b) l -> a = b.
Proof.
  induction l as [|[k' c] l IH]; intros ND I J; [destruct I|]. cbn [map fst] in ND. inversion ND as [|? ? N ND']; subst.
  destruct I as [[= -> ->]|I], J as [[= E]|J]; auto.
  - exfalso. apply N. now apply (in_map fst) in J.
  - subst. exfalso. apply N. now apply (in_map fst) in I.
Qed.

Lemma schema_of_In ty s : In (ty, s) operator_schemas -> schema_of ty = s.
Proof.
  intros I. unfold schema_of. destruct (find (fun x => String.eqb ty (fst x)) operator_schemas) as [[ty2 s2]|] eqn:F.
  - apply find_some in F as [I2 E2]. cbn [fst] in E2. apply String.eqb_eq in E2. subst ty2. exact (NoDup_fst_eq _ _ _ _ schema_types I2 I).
  - apply find_none with (x := (ty, s)) in F; [|exact I]. cbn in F. rewrite String.eqb_refl in F. discriminate.
Qed.

(** only the schema of the operator's type matters *)
Lemma valid_by_type x : valid (SOneOf (map snd operator_schemas)) x = valid (schema_of (text_at "type" x)) x.
Proof.
  destruct (valid (SOneOf (map snd operator_schemas)) x) eqn:V.
  - apply valid_oneof in V as (s & I & V). apply in_map_iff in I as ([ty s'] & <- & I). cbn [snd] in V.
    now rewrite (schema_type _ _ _ I V), (schema_of_In _ _ I), V.
  - destruct (valid (schema_of (text_at "type" x)) x) eqn:W; [|reflexivity]. rewrite <- V. unfold schema_of in W.
    destruct (find _ _) as [[ty' s]|] eqn:F; [|discriminate]. apply find_some in F as [I _]. eapply valid_known; eauto.
Qed.

Lemma definition_type ty id l : text_at "type" (definition ty id l) = ty.
Proof.
  unfold text_at, definition. pose proof (sfind_jobj "type" (("type", JStr ty) :: ("id", JStr id) :: l)) as E.
  destruct (jobj _); try contradiction. cbn [member]. now rewrite E.
Qed.

(** ** Definitions *)

Lemma bool_eq_iff (a b : bool) : a = b -> (a = true <-> b = true). Proof. intros ->. tauto. Qed.

Lemma valid_numbers lo c : valid (SArray lo None SNumber) (JArr (map JNum c)) = Nat.leb lo (length c).
Proof.
  change (Nat.leb lo (length (map JNum c)) && true && forallb (valid SNumber) (map JNum c) = Nat.leb lo (length c)).
  rewrite map_length. assert (E : forallb (valid SNumber) (map JNum c) = true).
  { apply forallb_forall. intros x I. apply in_map_iff in I as (v & <- & _). reflexivity. }
  rewrite E. now rewrite !andb_true_r.
Qed.

Lemma valid_coeff ty lo req id c : req = [] \/ req = ["coeff"] ->
  valid (op_schema ty [("coeff", SArray lo None SNumber)] req) (definition ty id [("coeff", JArr (map JNum c))]) = Nat.leb lo (length c).
Proof.
  intros R. unfold op_schema. change (definition ty id [("coeff", JArr (map JNum c))]) with
    (JObj [("coeff", JArr (map JNum c)); ("id", JStr id); ("type", JStr ty)]).
  rewrite valid_object_eq. cbn [app valid_props sfind]. cbv [String.eqb Ascii.eqb Bool.eqb].
  rewrite valid_numbers. cbn [valid str_in existsb]. rewrite String.eqb_refl.
  destruct R as [-> | ->]; cbn; now destruct (Nat.leb lo (length c)).
Qed.

Lemma above_small m z : - 2 ^ 63 <= z < 2 ^ 63 -> (above (Some m) z = true <-> m <= z).
Proof. intros H. unfold above. rewrite Z.leb_le, Z.mod_small by lia. lia. Qed.
Lemma above_one z : 0 <= z < two64 -> (above (Some 1) z = true <-> 1 <= z < 2 ^ 63).
Proof.
  unfold two64. intros H. unfold above. rewrite Z.leb_le. destruct (Z.ltb_spec z (2 ^ 63)).
  - rewrite Z.mod_small by lia. lia.
  - replace (z + 2 ^ 63) with (z - 2 ^ 63 + 1 * 2 ^ 64) by lia. rewrite Z.mod_add, Z.mod_small by lia. lia.
Qed.

Context {NI : NumInt NO} {JT : JsonText}.

Lemma ports_of_small z n : ports_of z = Ok n -> Z.of_nat n < 2 ^ 31.
Proof. unfold ports_of. destruct (Z.leb_spec 0 z), (Z.ltb_spec z (2 ^ 31 - 1)); cbn; intros [= <-]; lia. Qed.

Lemma ports_length id n max outs b : add_ports (seq 1 n) max outs (base0 id) = Ok b -> (o_data b <> [] <-> (1 <= n)%nat).
Proof.
  intros H. apply add_ports_length in H. rewrite seq_length, Nat.add_0_r in H. destruct (o_data b); cbn in H; split; intros X; try lia; try congruence; discriminate.
Qed.

Ltac split_type H :=
  repeat match type of H with
  | (if String.eqb ?a ?b then _ else _) = _ =>
      let N := fresh in destruct (String.eqb_spec a b) as [->|N]; [|clear N || idtac]
  end;
  try discriminate H;
  try (let H' := fresh in
       assert (H' := f_equal (fun x => match x with Some y => y | None => UB end) H); cbv beta iota in H'; clear H;
       rename H' into H);
  repeat match type of H with rbind _ _ = Ok _ => apply rbind_ok in H as (? & ? & H) end.

Ltac written W H :=
  rewrite W in H; apply Ok_inj in H; subst; rewrite valid_by_type, definition_type; cbn [type_name].

Lemma port_count ty lo id n : (match schema_of ty with SObject [("id", SString); ("numPorts", SInteger (Some m)); ("type", SEnum [t])] None ["type"; "id"] true => m = lo /\ t = ty | _ => False end) ->
  Z.of_nat n < 2 ^ 31 ->
  (valid (schema_of ty) (definition ty id [("numPorts", JInt (Z.of_nat n))]) = true <-> lo <= Z.of_nat n).
Proof.
  intros S L. destruct (schema_of ty) as [| | | | | |ps pat req add|]; try contradiction.
  repeat match type of S with match ?x with _ => _ end => destruct x; try contradiction end. destruct S as [-> ->].
  change (definition ty id [("numPorts", JInt (Z.of_nat n))]) with (JObj [("id", JStr id); ("numPorts", JInt (Z.of_nat n)); ("type", JStr ty)]).
  rewrite valid_object_eq. cbn [app valid_props sfind]. cbv [String.eqb Ascii.eqb Bool.eqb]. cbn [valid str_in existsb].
  rewrite String.eqb_refl. rewrite <- (above_small lo (Z.of_nat n)) by lia. destruct (above (Some lo) (Z.of_nat n)); split; intros X; try reflexivity; discriminate X.
Qed.

Ltac subst_op H := apply Ok_inj in H; subst; unfold in_schema; cbn [op_kind op_base].
Ltac plain H := subst_op H; split; [auto|reflexivity].

(** the operators whose written form is valid *)
Lemma written_valid g j o j' : read_op g j = Ok o -> write_op o = Ok j' ->
  (valid (SOneOf (map snd operator_schemas)) j' = true <-> in_schema o).
Proof.
  intros H W. destruct (read_op_cases _ _ _ H) as (ty & Et & [(-> & id & prog & _ & _ & M)|(N & E)]).
  { unfold mk_pipeline in M. repeat match type of M with rbind _ _ = Ok _ => apply rbind_ok in M as (? & ? & M) end.
    destruct x2 as [[h' ui] uo]. apply rbind_ok in M as (y & _ & M). destruct (pipe_outs _ _ _ _) as [b pm]. apply Ok_inj in M. subst o.
    cbn [write_op members] in W. apply rbind_ok in W as (l & E & W). apply Ok_inj in W. subst j'.
    rewrite valid_by_type. change (jobj _) with (definition "Pipeline" (o_id b) l). rewrite definition_type. split; [discriminate|intros []]. }
  clear H. rename E into H. assert (H' := H). unfold from_json in H. split_type H.
  - written (write_input _ _ _ H) W. rewrite (port_count "Input" 1) by (try (split; reflexivity); eapply ports_of_small; eauto).
    unfold mk_input in H. apply rbind_ok in H as (b & E & H). subst_op H. rewrite (ports_length _ _ _ _ _ E). lia.
  - written (write_output _ _ _ H) W. rewrite (port_count "Output" 1) by (try (split; reflexivity); eapply ports_of_small; eauto).
    unfold mk_output in H. apply rbind_ok in H as (b & E & H). subst_op H. rewrite (ports_length _ _ _ _ _ E). lia.
  - written (write_demux _ _ _ H) W. rewrite (port_count "Demultiplexer" 1) by (try (split; reflexivity); eapply ports_of_small; eauto).
    unfold mk_demux in H. destruct (Nat.ltb_spec x1 1); [discriminate|]. repeat (apply rbind_ok in H as (? & _ & H)). subst_op H. split; [auto|lia].
  - written (write_join _ _ _ H) W. rewrite (port_count "Join" 2) by (try (split; reflexivity); eapply ports_of_small; eauto).
    unfold mk_join in H. destruct (Nat.ltb_spec x1 2); [discriminate|]. repeat (apply rbind_ok in H as (? & _ & H)). subst_op H. split; [auto|lia].
  - written (write_simple _ _ (KCosineResampler x0 0) _ eq_refl _ H) W. plain H.
  - written (write_simple _ _ (KHermiteResampler x0 0 None) _ eq_refl _ H) W. plain H.
  - written (write_simple _ _ KMovAvg _ eq_refl _ H) W. plain H.
  - written (write_simple _ _ KStdDev _ eq_refl _ H) W. plain H.
  - written (write_simple _ _ KPeak _ eq_refl _ H) W. plain H.
  - written (write_rsi _ _ _ _ _ _ _ H) W. apply rsi_kind in H' as (? & ? & ? & ? & K). unfold in_schema. rewrite K. split; [discriminate|intros []].
  - assert (H2 := H). unfold mk_constres in H2. destruct (Z.leb_spec x0 0); [discriminate|].
    written (write_simple _ _ (KConstResampler x0 _ false _) _ eq_refl _ H2) W. subst_op H2.
    change (above (Some 1) x0 && true && true && true = true <-> x0 < 2 ^ 63). rewrite !andb_true_r, above_one by (eapply u64_range; eauto). lia.
  - written (write_simple _ _ (KFIR x0) _ eq_refl _ H) W.
    etransitivity; [apply bool_eq_iff, (valid_coeff "FiniteImpulseResponse" 0 ["coeff"]); auto|]. subst_op H. split; [auto|reflexivity].
  - written (write_linear _ _ _ H) W. etransitivity; [apply bool_eq_iff, (valid_coeff "Linear" 2 []); auto|].
    unfold mk_linear in H. destruct (Nat.ltb_spec (length x0) 2); [discriminate|]. repeat (apply rbind_ok in H as (? & _ & H)). subst_op H.
    rewrite Nat.leb_le. tauto.
  - written (write_simple _ _ (KAutoReg x0) _ eq_refl _ H) W. etransitivity; [apply bool_eq_iff, (valid_coeff "AutoRegressive" 1 ["coeff"]); auto|].
    subst_op H. rewrite Nat.leb_le. destruct x0; cbn; split; intros X; try lia; try congruence; discriminate.
  - written (write_binary _ _ _ H) W. plain H.
  - written (write_binary _ _ _ H) W. plain H.
  - written (write_binary _ _ _ H) W. plain H.
  - written (write_binary _ _ _ H) W. plain H.
  - written (write_binary _ _ _ H) W. plain H.
  - written (write_binary _ _ _ H) W. plain H.
  - written (write_binary _ _ _ H) W. plain H.
  - written (write_binary _ _ _ H) W. plain H.
  - written (write_simple _ _ (KFilter FGreater x0) _ eq_refl _ H) W. plain H.
  - written (write_simple _ _ (KFilter FLess x0) _ eq_refl _ H) W. subst_op H.
    change (match whole x0 with Some z => above None z | None => false end && true && true && true = true <-> exists z, whole x0 = Some z).
    destruct (whole x0) as [z|]; cbn; split; eauto; try discriminate. intros [z E]. discriminate E.
  - written (write_simple _ _ (KFilter FEqual x0) _ eq_refl _ H) W. plain H.
  - written (write_simple _ _ (KScale x0) _ eq_refl _ H) W. plain H.
  - written (write_simple _ _ (KConstant x0) _ eq_refl _ H) W. plain H.
  - written (write_simple _ _ (KAdd x0) _ eq_refl _ H) W. plain H.
  - written (write_simple _ _ (KPower x0) _ eq_refl _ H) W. plain H.
  - written (write_simple _ _ (KCumSum v0) _ eq_refl _ H) W. plain H.
  - written (write_simple _ _ (KCount 0) _ eq_refl _ H) W. plain H.
  - written (write_simple _ _ (KDifference true) _ eq_refl _ H) W. plain H.
  - written (write_simple _ _ KIdentity _ eq_refl _ H) W. plain H.
  - written (write_variable _ _ _ H) W. plain H.
  - written (write_simple _ _ (KTimeShift (wrap x0) x1) _ eq_refl _ H) W. subst_op H.
    change (above (Some 1) (wrap x0) && (true && true) && true && true = true <-> 1 <= wrap x0 < 2 ^ 63).
    rewrite !andb_true_r, above_one by apply wrap_range. lia.
  - exfalso. eapply function_unreadable; eauto.
Qed.

End Write.
