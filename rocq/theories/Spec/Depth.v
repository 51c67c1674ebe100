(** * Programs without cycles, and their size *)

From Coq Require Import String ZArith Bool List.
From Verif Require Import Base.StrMap Base.Num Model.Core Model.Ops Model.Graph Model.Run Spec.Shape Spec.Log.
Import ListNotations.
Open Scope string_scope.
Open Scope list_scope.

Section Depth.
Context {NO : NumOps}.

(** a path of at least one connection *)
Inductive path (h : heap) : string -> string -> Prop :=
| path_one a b : wired h a b -> path h a b
| path_more a b c : wired h a b -> path h b c -> path h a c.

(** no operator is connected to itself, directly or through others; likewise inside pipelines *)
Inductive acyclic : heap -> Prop :=
| Acyclic h :
    (forall a, ~ path h a a) ->
    (forall id b js ops ins outs pm, sfind id h = Some (Op b (KPipeline js ops ins outs pm)) -> acyclic ops) ->
    acyclic h.

(** the number of operators, those inside pipelines included *)
Fixpoint op_size (o : op) : nat :=
  match o with
  | Op _ (KPipeline _ ops _ _ _) => S (fold_right (fun x n => op_size (snd x) + n)%nat 0%nat ops)
  | _ => 1%nat
  end.
Definition heap_size (h : heap) : nat := fold_right (fun x n => op_size (snd x) + n)%nat 0%nat h.

(** the longest chain of operators that can be waiting for one another: [depth_within h N]
    holds when there are levels below [N], decreasing along connections and from a pipeline
    to what is inside it *)
Inductive depth_within : heap -> nat -> Prop :=
| Depth_within h N (level : string -> nat) :
    (forall a b, wired h a b -> (level b < level a)%nat) ->
    (forall id, (level id < N)%nat) ->
    (forall id b js ops ins outs pm, sfind id h = Some (Op b (KPipeline js ops ins outs pm)) ->
       depth_within ops (level id)) ->
    depth_within h N.

(** no ConstantResampler anywhere in the program *)
Inductive no_constant_resampler : heap -> Prop :=
| No_cr h :
    (forall id b dt next i v, sfind id h <> Some (Op b (KConstResampler dt next i v))) ->
    (forall id b js ops ins outs pm, sfind id h = Some (Op b (KPipeline js ops ins outs pm)) ->
       no_constant_resampler ops) ->
    no_constant_resampler h.

End Depth.
