(** * Programs of dependable definitions (C98) *)

From Coq Require Import String Ascii ZArith Bool List Lia.
From Verif Require Import Base.StrMap Base.Num Base.NumInt Model.Core Model.Ops Model.Make Model.Graph Model.Codec Model.Json Model.Factory Model.Schema.
From Verif Require Import Spec.Shape Spec.Log Spec.Depth Spec.Snapshot Spec.Definition Spec.Bounds Spec.Pipeline Spec.Reliable Spec.Schema Spec.Dependable.
From Verif Require Import Proofs.Ports Proofs.MakeP Proofs.JsonP Proofs.SchemaP Proofs.SchemaNew.
Import ListNotations.
Open Scope string_scope.
Open Scope list_scope.
Open Scope Z_scope.
Open Scope rtbot_scope.

Section Dependable.
Context {NO : NumOps} {JT : JsonText}.

(** reliable and not a Pipeline *)
Definition firm (o : op) : Prop :=
  match op_kind o with
  | KInput _ _ | KOutput _ | KJoin _ | KBinary _ | KLinear _ | KFilter _ _ | KAdd _ | KScale _
  | KPower _ | KConstant _ | KIdentity | KMovAvg | KStdDev | KPeak | KCount _ | KCumSum _ | KTimeShift _ _ => True
  | KFIR coeff => coeff <> []
  | _ => False
  end.

Lemma firm_reliable o : firm o -> reliable o.
Proof. unfold firm, reliable. destruct (op_kind o); auto; intros []. Qed.
Lemma firm_unwired o o' : unwired o = unwired o' -> firm o' -> firm o.
Proof. destruct o as [b k], o' as [b' k']. intros E. apply (f_equal op_kind) in E. cbn in E. subst k. auto. Qed.
Lemma firm_size o : firm o -> op_size o = 1%nat.
Proof. destruct o as [b k]. unfold firm. cbn [op_kind]. destruct k; auto; intros []. Qed.

Lemma simple_kind id max k o : mk_simple id max k = Ok o -> op_kind o = k.
Proof. unfold mk_simple. intros H. apply rbind_ok in H as (b & _ & H). injection H as <-. reflexivity. Qed.

Ltac split_type H :=
  repeat match type of H with
  | (if String.eqb ?a ?b then _ else _) = _ => destruct (String.eqb_spec a b) as [->|_]
  end;
  try discriminate H;
  try (let H' := fresh in
       assert (H' := f_equal (fun x => match x with Some y => y | None => UB end) H); cbv beta iota in H'; clear H;
       rename H' into H);
  repeat match type of H with rbind _ _ = Ok _ => apply rbind_ok in H as (? & ? & H) end.

Lemma from_json_firm g ty x o : from_json g ty x = Some (Ok o) -> In ty dependable_types ->
  (ty = "FiniteImpulseResponse" -> list_at "coeff" x <> []) -> firm o.
Proof.
  unfold from_json. intros H T C. split_type H.
  all: try (exfalso; cbn in T; intuition discriminate).
  all: unfold firm.
  all: try (apply simple_kind in H; rewrite H; exact I).
  all: try (unfold mk_input, mk_output, mk_binary in H; apply rbind_ok in H as (b & _ & H); injection H as <-; exact I).
  all: try (unfold mk_join, mk_linear in H; destruct (Nat.ltb _ 2); [discriminate|]; apply rbind_ok in H as (b & _ & H); injection H as <-; exact I).
  apply simple_kind in H. rewrite H. specialize (C eq_refl). intros ->. apply C.
  unfold list_at, Vs_of in *.
  match goal with E : rbind (jindex "coeff" x) _ = Ok [] |- _ => apply rbind_ok in E as (y & E1 & E2) end.
  destruct x as [| | | | | |m]; try reflexivity. cbn [jindex member] in *. destruct (sfind "coeff" m) as [z|]; [|reflexivity].
  injection E1 as <-. destruct z as [| | | | |l|]; try reflexivity. destruct l as [|a l]; [reflexivity|].
  cbn [get_Vs map_res] in E2. apply rbind_ok in E2 as (v & _ & E2). apply rbind_ok in E2 as (vs & _ & E2). discriminate E2.
Qed.

Lemma read_firm g x o : read_op g x = Ok o -> dependable x -> firm o.
Proof.
  intros H [T C]. apply read_op_cases in H as (ty & Et & H).
  assert (E : text_at "type" x = ty).
  { unfold text_at. destruct x as [| | | | | |m]; try discriminate Et. cbn [jat member] in *. destruct (sfind "type" m) as [y|]; [|discriminate Et].
    injection Et as ->. reflexivity. }
  rewrite E in *. destruct H as [[-> _]|[_ H]]; [exfalso; cbn in T; intuition discriminate|]. eapply from_json_firm; eauto.
Qed.

Lemma semplace_length {A} k (v : A) m : (length (semplace k v m) <= S (length m))%nat.
Proof.
  unfold semplace, shas. destruct (sfind k m) eqn:F; [lia|]. rewrite length_sset_new by exact F. lia.
Qed.

Lemma read_ops_firm g l : Forall dependable l -> forall h h', read_ops (read_op g) l h = Ok h' ->
  (forall id o, sfind id h = Some o -> firm o) ->
  (forall id o, sfind id h' = Some o -> firm o) /\ (length h' <= length l + length h)%nat.
Proof.
  induction 1 as [|x l Dx _ IH]; intros h h' E Hh; cbn [read_ops] in E.
  - injection E as <-. split; [exact Hh|cbn; lia].
  - apply rbind_ok in E as (idj & _ & E). apply rbind_ok in E as (o & Eo & E). apply rbind_ok in E as (id & _ & E).
    destruct (IH _ _ E) as [H1 H2].
    + intros k a F. rewrite sfind_semplace_cases in F. destruct (sfind k h) as [b|] eqn:G; [injection F as <-; eauto|].
      destruct (String.eqb k id); [injection F as <-; eapply read_firm; eauto|discriminate].
    + split; [exact H1|]. pose proof (semplace_length id o h). cbn [length]. lia.
Qed.

Lemma firm_heap_size (h : heap) : swf h -> (forall id o, sfind id h = Some o -> firm o) -> heap_size h = length h.
Proof.
  intros W H. assert (X : forall id o, In (id, o) h -> firm o) by (intros id o I; apply (H id); apply In_sfind; auto).
  clear W H. unfold heap_size. induction h as [|[k o] h IH]; [reflexivity|]. cbn [fold_right snd length].
  rewrite IH by (intros id a I; apply (X id a); now right). rewrite (firm_size o) by (apply (X k); now left). reflexivity.
Qed.

End Dependable.
