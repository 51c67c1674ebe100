(** * Specification of buffer sizes (C50) *)

From Coq Require Import String ZArith Bool List.
From Verif Require Import Base.StrMap Base.Num Model.Core Model.Ops Model.Graph.
Import ListNotations.
Open Scope string_scope.
Open Scope list_scope.

Section Bounds.
Context {NO : NumOps}.

(** an operator of a program; the operators inside a Pipeline are reached through it *)
Fixpoint lookup (path : list string) (h : heap) : option op :=
  match path with
  | [] => None
  | [id] => sfind id h
  | id :: rest =>
      match sfind id h with
      | Some (Op _ (KPipeline _ ops _ _ _)) => lookup rest ops
      | _ => None
      end
  end.

(** a data or control input of an operator, with what is buffered there *)
Definition buffer_of (o : op) (port : string) (p : inport) : Prop :=
  sfind port (o_data (op_base o)) = Some p \/ sfind port (o_ctrl (op_base o)) = Some p.

(** all types except Join and the operators derived from it, Demultiplexer and AutoRegressive *)
Definition windowed (o : op) : bool :=
  match op_kind o with
  | KJoin _ | KBinary _ | KLinear _ | KDemux _ | KAutoReg _ => false
  | _ => true
  end.

End Bounds.
