(** * The generated operator classes *)

From Coq Require Import String Ascii ZArith Bool List Lia.
From Verif Require Import Base.StrMap Base.Num Base.NumInt Model.Core Model.Make Model.Codec Model.Json Model.Factory Model.Schema Model.Wrapper Model.Classes.
From Verif Require Import Spec.Definition Spec.Schema Spec.Classes.
From Verif Require Import Proofs.Ports Proofs.MakeP Proofs.JsonP Proofs.SchemaP Proofs.SchemaWrite.
Import ListNotations.
Open Scope string_scope.
Open Scope list_scope.
Open Scope Z_scope.
Open Scope rtbot_scope.

Section Classes.
Context {NO : NumOps}.

(** ** Calls of Python functions *)

Lemma py_bind_ok params : NoDup (map fst params) -> forall pos kw l, py_bind params pos kw = Ok l ->
  map fst l = map fst params /\ (length pos <= length params)%nat /\
  forall i k d, nth_error params i = Some (k, d) -> exists v, sfind k l = Some v /\
    ((nth_error pos i = Some v /\ sfind k kw = None) \/
     (nth_error pos i = None /\ (sfind k kw = Some v \/ (sfind k kw = None /\ d = Some v)))).
Proof.
  induction params as [|[k d] r IH]; intros ND pos kw l E; cbn [py_bind] in E.
  - destruct pos; [|discriminate E]. apply Ok_inj in E. subst l. repeat split; auto. intros [|i] ? ? X; discriminate X.
  - cbn [map fst] in ND. inversion ND as [|? ? N ND']; subst.
    assert (Step : forall v pos' l', py_bind r pos' kw = Ok l' ->
      ((nth_error pos 0 = Some v /\ sfind k kw = None) \/
       (nth_error pos 0 = None /\ (sfind k kw = Some v \/ (sfind k kw = None /\ d = Some v)))) ->
      pos' = tl pos -> l = (k, v) :: l' ->
      map fst l = map fst ((k, d) :: r) /\ (length pos <= length ((k, d) :: r))%nat /\
      forall i k0 d0, nth_error ((k, d) :: r) i = Some (k0, d0) -> exists v, sfind k0 l = Some v /\
        ((nth_error pos i = Some v /\ sfind k0 kw = None) \/
         (nth_error pos i = None /\ (sfind k0 kw = Some v \/ (sfind k0 kw = None /\ d0 = Some v))))).
    { intros v pos' l' E' H -> ->. destruct (IH ND' _ _ _ E') as (Hm & Hl & Hn). cbn [map fst]. rewrite Hm. split; [reflexivity|].
      split; [destruct pos; cbn [length tl] in *; lia|]. intros [|i] k0 d0 X.
      - injection X as <- <-. exists v. split; [cbn [sfind]; now rewrite String.eqb_refl|exact H].
      - cbn [nth_error] in X. destruct (Hn i k0 d0 X) as (v0 & F & O). exists v0. split.
        + cbn [sfind]. destruct (String.eqb_spec k0 k) as [->|]; [|exact F]. exfalso. apply N.
          change k with (fst (k, d0)). apply in_map. eapply nth_error_In; eauto.
        + destruct pos as [|a pos]; [|exact O]. cbn [nth_error tl] in *. replace (nth_error (@nil json) i) with (@None json) in O by now destruct i. exact O. }
    destruct pos as [|v pos].
    + destruct (sfind k kw) as [v|] eqn:F.
      * apply rbind_ok in E as (l' & E' & E). apply Ok_inj in E. apply (Step v [] l'); auto.
      * destruct d as [v|]; [|discriminate E]. apply rbind_ok in E as (l' & E' & E). apply Ok_inj in E. eapply Step; eauto 8.
    + unfold shas in E. destruct (sfind k kw) eqn:F; [discriminate E|]. apply rbind_ok in E as (l' & E' & E). apply Ok_inj in E. apply (Step v pos l'); auto.
Qed.

Lemma sfind_app {A} k (a b : list (string * A)) : sfind k (a ++ b) = match sfind k a with Some v => Some v | None => sfind k b end.
Proof. induction a as [|[k' v] a IH]; [reflexivity|]. cbn [app sfind]. destruct (String.eqb k k'); auto. Qed.

Lemma sfind_combine_None {A} k names (l : list A) : ~ In k names -> sfind k (combine names l) = None.
Proof.
  revert l. induction names as [|n names IH]; intros l N; [reflexivity|]. destruct l as [|x l]; [reflexivity|].
  cbn [combine sfind]. cbn [In] in N. destruct (String.eqb_spec k n) as [->|]; [tauto|]. apply IH. tauto.
Qed.

(** keywords that are no parameters do not matter to the rest *)
Lemma py_bind_same params : forall pos kw kw', (forall k, In k (map fst params) -> sfind k kw = sfind k kw') -> py_bind params pos kw = py_bind params pos kw'.
Proof.
  induction params as [|[k d] r IH]; intros pos kw kw' H; [reflexivity|]. cbn [py_bind map fst In] in *. unfold shas. rewrite (H k) by now left.
  destruct pos as [|v pos].
  - destruct (sfind k kw') as [v|]; [|destruct d; [|reflexivity]]; f_equal; apply IH; auto.
  - destruct (sfind k kw'); [reflexivity|]. f_equal. apply IH. auto.
Qed.

Lemma py_bind_positional params : NoDup (map fst params) -> forall pos kw, (length pos <= length params)%nat ->
  (forall k, In k (firstn (length pos) (map fst params)) -> sfind k kw = None) ->
  py_bind params pos kw = py_bind params [] (combine (map fst params) pos ++ kw).
Proof.
  induction params as [|[k d] r IH]; intros ND pos kw L H.
  - destruct pos; [reflexivity|cbn in L; lia].
  - destruct pos as [|v pos]; [reflexivity|]. cbn [map fst] in ND. inversion ND as [|? ? N ND']; subst.
    cbn [map fst length firstn In] in *. cbn [py_bind combine]. rewrite sfind_app. cbn [sfind]. rewrite String.eqb_refl.
    unfold shas. rewrite (H k) by now left. rewrite (IH ND') by (auto; lia).
    f_equal. apply py_bind_same. intros k0 I0. rewrite !sfind_app. cbn [sfind].
    destruct (String.eqb_spec k0 k) as [->|]; [contradiction|reflexivity].
Qed.

(** ** The classes *)

Lemma class_In ty s : find (fun c => String.eqb ty (fst c)) operator_schemas = Some s -> In (ty, snd s) operator_schemas.
Proof. intros F. apply find_some in F as [I E]. apply String.eqb_eq in E. destruct s as [t s]. cbn [fst snd] in *. now subst t. Qed.

Lemma class_names ty s : In (ty, s) operator_schemas -> map fst (schema_parameters s) = "id" :: map fst (documented ty).
Proof.
  intros I. cbn [operator_schemas simple_op value_op In] in I. repeat (destruct I as [I|I]; [injection I as <- <-; reflexivity|]). destruct I.
Qed.
Lemma py_names ty s : In (ty, s) operator_schemas -> map fst (py_parameters ty s) = "id" :: map fst (documented ty).
Proof. intros I. rewrite <- (class_names ty s I). unfold py_parameters. rewrite map_map. reflexivity. Qed.
Lemma names_NoDup ty : NoDup ("id" :: map fst (documented ty)).
Proof.
  unfold documented. repeat (match goal with |- context [match ?s with _ => _ end] => destruct s as [|[[] [] [] [] [] [] [] []] ?] end; cbn [map fst]; try (repeat constructor; cbn; intuition discriminate)).
Qed.
Lemma class_known ty : has_class ty <-> exists s, In (ty, s) operator_schemas.
Proof.
  change (has_class ty) with (In ty (map fst operator_schemas)). rewrite in_map_iff. split.
  - intros ([t s] & <- & I). eauto.
  - intros (s & I). exists (ty, s). auto.
Qed.

(** the parameters with documented defaults have them, the others are required or None *)
Lemma py_default ty s i k v : In (ty, s) operator_schemas -> nth_error (documented ty) i = Some (k, Some v) ->
  nth_error (py_parameters ty s) (S i) = Some (k, Some v).
Proof.
  intros I. cbn [operator_schemas simple_op value_op In] in I.
  repeat (destruct I as [I|I]; [injection I as <- <-; destruct i as [|[|i]]; cbn; try discriminate; try (now destruct i); auto|]). destruct I.
Qed.

Lemma module_ok : py_module_ok (NO := NO) = true.
Proof. reflexivity. Qed.

End Classes.
