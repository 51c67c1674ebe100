(** * The definition of an operator, apart from its state. *)

From Coq Require Import String ZArith Bool List.
From Verif Require Import Base.StrMap Base.Num Model.Core Model.Graph.
Import ListNotations.
Open Scope string_scope.
Open Scope list_scope.
Open Scope Z_scope.

Section Shape.
Context {NO : NumOps}.

(** an input port without its messages *)
Definition erase_port (p : inport) : inport := mkPort (ip_id p) (ip_max p) v0 [].

Definition erase_base (b : base) : base :=
  mkBase (o_id b) (smapv erase_port (o_data b)) (smapv erase_port (o_ctrl b)) (o_outs b) (o_conns b) [].

(** the operator with its identity, parameters, ports and connections, all its state reset *)
Fixpoint erase (o : op) : op :=
  match o with
  | Op b k =>
      Op (erase_base b)
        (match k with
         | KInput pm _ => KInput pm []
         | KCount _ => KCount 0
         | KCumSum _ => KCumSum v0
         | KConstResampler dt _ _ _ => KConstResampler dt 0 false v0
         | KCosineResampler dt _ => KCosineResampler dt 0
         | KHermiteResampler dt _ _ => KHermiteResampler dt 0 None
         | KVariable v _ => KVariable v false
         | KRSI _ _ _ _ _ => KRSI v0 v0 v0 v0 false
         | KPipeline js ops ins outs pm =>
             KPipeline js (map (fun x => (fst x, erase (snd x))) ops) ins outs pm
         | k => k
         end)
  end.

Definition erase_kind (k : kind) : kind := op_kind (erase (Op (mkBase "" [] [] [] [] []) k)).

Definition erase_heap (h : heap) : heap := smapv erase h.

(** the maps of an operator are maps: sorted by key, no key twice *)
Fixpoint wf_op (o : op) : Prop :=
  match o with
  | Op b k =>
      swf (o_data b) /\ swf (o_ctrl b) /\
      match k with
      | KPipeline _ ops _ _ _ => swf ops /\ fold_right (fun x P => wf_op (snd x) /\ P) True ops
      | _ => True
      end
  end.

Definition wf_heap (h : heap) : Prop := swf h /\ forall id o, sfind id h = Some o -> wf_op o.

Definition is_pipeline (o : op) : bool :=
  match op_kind o with KPipeline _ _ _ _ _ => true | _ => false end.

End Shape.
