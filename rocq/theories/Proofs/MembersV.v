(** * Other members and the schema (for C96) *)

From Coq Require Import String ZArith Bool List Lia.
From Verif Require Import Base.StrMap Base.Num Model.Core Model.Graph Model.Json Model.Schema.
From Verif Require Import Spec.Members Proofs.SchemaP.
Import ListNotations.
Open Scope string_scope.
Open Scope list_scope.
Open Scope Z_scope.

Section MembersV.
Context {NO : NumOps} {SL : SchemaLib}.

Lemma valid_other ty ps req m type : sfind "type" m = Some (JStr type) -> type <> ty -> valid (op_schema ty ps req) (JObj m) = false.
Proof.
  intros T N. destruct (valid (op_schema ty ps req) (JObj m)) eqn:V; [|reflexivity].
  apply valid_op in V as (m' & id & [= <-] & T' & _). congruence.
Qed.

(** the schema of this type says the same of both *)
Ltac same_type :=
  match goal with
  | H : forall key, In key (parameters ?ty) -> _, T : sfind "type" ?m = _, T' : sfind "type" ?m' = _, I : sfind "id" ?m = sfind "id" ?m' |- _ =>
      unfold op_schema; rewrite !valid_object_eq; cbn [forallb valid_props app shas]; unfold shas; rewrite T, T', I;
      repeat match goal with
        | |- context [sfind ?key m] =>
            let X := fresh in pose proof (H key ltac:(cbn; tauto)) as X; unfold given in X; cbn in X;
            destruct (sfind key m), (sfind key m'); try discriminate X; try (injection X as X; subst)
        end; reflexivity
  end.

Lemma valid_schema_same m m' type s : sfind "type" m = Some (JStr type) -> sfind "type" m' = Some (JStr type) -> sfind "id" m = sfind "id" m' ->
  (forall key, In key (parameters type) -> given key (default type key) m = given key (default type key) m') ->
  In s (map snd operator_schemas) -> valid s (JObj m) = valid s (JObj m').
Proof.
  intros T T' I H J. unfold operator_schemas, simple_op, value_op in J. cbn [map snd] in J.
  repeat (destruct J as [<-|J];
    [match goal with |- valid (op_schema ?ty _ _) _ = _ =>
       destruct (String.eqb_spec type ty) as [E|N]; [rewrite E in *; clear E; same_type|rewrite (valid_other _ _ _ m type T N), (valid_other _ _ _ m' type T' N); reflexivity] end|]).
  destruct J.
Qed.

Lemma how_many_ext l x y : (forall s, In s l -> valid s x = valid s y) -> how_many x l = how_many y l.
Proof.
  induction l as [|s l IH]; intros H; [reflexivity|]. cbn [how_many]. rewrite (H s) by now left. f_equal. apply IH. intros; apply H; now right.
Qed.

Lemma valid_operator_same x y : same_operator x y -> valid (SOneOf (map snd operator_schemas)) x = valid (SOneOf (map snd operator_schemas)) y.
Proof.
  intros [->|(m & m' & type & -> & -> & T & T' & I & H)]; [reflexivity|]. rewrite !valid_oneof_eq. f_equal.
  apply how_many_ext. intros s Hs. now apply (valid_schema_same m m' type).
Qed.

Definition ends_only (c : json) : Prop :=
  forall mc, c = JObj mc -> forall key y, In (key, y) mc -> In key ["from"; "to"; "fromPort"; "toPort"].

Lemma ends_known m : ends_only (JObj m) -> forallb (fun kx => str_in (fst kx) ["from"; "to"; "fromPort"; "toPort"] || false) m = true.
Proof.
  intros H. apply forallb_forall. intros [k y] Hin. cbn [fst]. rewrite orb_false_r. unfold str_in. apply existsb_exists.
  exists k. split; [|apply String.eqb_refl]. eapply H; eauto.
Qed.

Lemma valid_connection_same x y : same_connection x y -> ends_only x -> ends_only y -> valid connection_schema x = valid connection_schema y.
Proof.
  intros [->|(m & m' & -> & -> & A & B)] Ex Ey; [reflexivity|]. unfold connection_schema. rewrite !valid_object_eq.
  cbn [map fst orb]. rewrite (ends_known m Ex), (ends_known m' Ey). cbn [forallb valid_props]. unfold shas.
  rewrite (A "from"), (A "to") by (cbn; tauto). pose proof (B "fromPort" ltac:(cbn; tauto)) as B1. pose proof (B "toPort" ltac:(cbn; tauto)) as B2.
  unfold given in B1, B2.
  destruct (sfind "fromPort" m), (sfind "fromPort" m'); try (injection B1 as B1; subst);
    destruct (sfind "toPort" m), (sfind "toPort" m'); try (injection B2 as B2; subst); reflexivity.
Qed.

Lemma forallb_Forall2 {A} (R : A -> A -> Prop) f l l' : Forall2 R l l' -> (forall x y, R x y -> f x = f y) -> forallb f l = forallb f l'.
Proof. intros F H. induction F as [|x y l l' S _ IH]; [reflexivity|]. cbn [forallb]. now rewrite (H x y S), IH. Qed.

Lemma forallb_Forall2_both {A} (R : A -> A -> Prop) (P : A -> Prop) f l l' : Forall2 R l l' -> Forall P l -> Forall P l' ->
  (forall x y, R x y -> P x -> P y -> f x = f y) -> forallb f l = forallb f l'.
Proof.
  intros F. induction F as [|x y l l' S _ IH]; intros Pl Pl' H; [reflexivity|]. inversion Pl; inversion Pl'; subst. cbn [forallb].
  rewrite (H x y S) by assumption. f_equal. now apply IH.
Qed.

Lemma valid_same x y : same_definition x y -> same_header x y -> only_ends x -> only_ends y -> valid program_schema x = valid program_schema y.
Proof.
  intros (m & m' & ops & ops' & cs & cs' & -> & -> & _ & O & O' & Fo & C & C' & Fc) (m1 & m1' & [= <-] & [= <-] & H)
    (m2 & c2 & [= <-] & C2 & E2) (m3 & c3 & [= <-] & C3 & E3).
  rewrite C in C2. injection C2 as <-. rewrite C' in C3. injection C3 as <-.
  unfold program_schema. rewrite !valid_object_eq. cbn [orb]. rewrite !andb_true_r. cbn [forallb valid_props]. unfold shas.
  rewrite O, O', C, C'.
  rewrite (H "title"), (H "description"), (H "date"), (H "apiVersion"), (H "author"), (H "license"), (H "entryOperator"), (H "output") by (cbn [In checked]; tauto).
  f_equal. repeat (f_equal; []). f_equal; [|f_equal].
  - cbn [valid]. f_equal. apply (forallb_Forall2 same_operator); [exact Fo|]. exact valid_operator_same.
  - cbn [valid]. f_equal. apply (forallb_Forall2_both same_connection ends_only); auto. exact valid_connection_same.
Qed.

End MembersV.
