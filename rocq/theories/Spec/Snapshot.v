(** * What it takes to fit in a snapshot, and which state is in it *)

From Coq Require Import String Ascii ZArith Bool List.
From Verif Require Import Base.StrMap Base.Num Model.Core Model.Make Model.Graph Model.Codec Spec.Shape Spec.Preserving.
Import ListNotations.
Open Scope string_scope.
Open Scope list_scope.
Open Scope Z_scope.

Section Snapshot.
Context {NO : NumOps}.

(** ** Values that fit in their C++ types.  The model's times are unbounded integers and its
    containers unbounded lists; an object of the C++ program always satisfies [fits]. *)

Definition short {A} (l : list A) : Prop := Z.of_nat (length l) < two64.
Definition short_str (s : string) : Prop := Z.of_nat (String.length s) < two64.
Definition fits_msg (m : msg) : Prop := is_time (mtime m).

Definition fits_port (p : inport) : Prop :=
  short_str (ip_id p) /\ is_time (ip_max p) /\ short (ip_data p) /\ Forall fits_msg (ip_data p).

Definition fits_ports (m : smap inport) : Prop :=
  short m /\ Forall (fun x => short_str (fst x) /\ fits_port (snd x)) m.

Definition fits_base (b : base) : Prop :=
  fits_ports (o_data b) /\ fits_ports (o_ctrl b) /\ short (o_toproc b) /\ Forall short_str (o_toproc b).

Definition fits_kind (k : kind) : Prop :=
  match k with
  | KInput _ ls => short ls /\ Forall (fun x => short_str (fst x) /\ fits_msg (snd x)) ls
  | KCount c => is_time c
  | KConstResampler dt next _ _ => is_time dt /\ is_time next
  | KCosineResampler _ carry => is_time carry
  | KHermiteResampler _ carry before =>
      is_time carry /\ match before with Some m => fits_msg m | None => True end
  | KFunction points _ => short points
  | _ => True
  end.

Definition fits (o : op) : Prop := fits_base (op_base o) /\ fits_kind (op_kind o).

Definition fits_program (p : program) : Prop :=
  short_str (p_text p) /\ Forall (fun x => short_str (fst x) /\ fits (snd x)) (p_ops p).

(** ** Just created: nothing pending, nothing remembered *)
Definition fresh_op (o : op) : Prop :=
  o_toproc (op_base o) = [] /\
  match op_kind o with
  | KInput _ ls => ls = []
  | KHermiteResampler _ _ before => before = None
  | KRSI _ _ _ _ initialized => initialized = false
  | _ => True
  end.

(** ** What a restored operator is: the snapshot of a CumulativeSum has no buffer, those of a
    RelativeStrengthIndex and of a Pipeline have no internal state *)
Definition restored (fresh o : op) : op :=
  match op_kind o with
  | KCumSum acc => Op (op_base fresh) (KCumSum acc)
  | KRSI _ _ _ _ _ | KPipeline _ _ _ _ _ => Op (op_base o) (op_kind fresh)
  | k => Op (op_base o) k
  end.

(** the operators whose snapshot holds their whole state *)
Definition whole_snapshot (o : op) : bool :=
  match op_kind o with
  | KCumSum _ | KRSI _ _ _ _ _ | KPipeline _ _ _ _ _ => false
  | _ => true
  end.

(** ** Programs *)

(** the constructors of all operators except Pipeline *)
Inductive created : op -> Prop :=
| N_input id n o : mk_input id n = Ok o -> created o
| N_output id n o : mk_output id n = Ok o -> created o
| N_collector id n o : mk_collector id n = Ok o -> created o
| N_join id n o : mk_join id n = Ok o -> created o
| N_binary id f o : mk_binary id f = Ok o -> created o
| N_linear id c o : mk_linear id c = Ok o -> created o
| N_demux id n o : mk_demux id n = Ok o -> created o
| N_filter id f v o : mk_filter id f v = Ok o -> created o
| N_add id v o : mk_add id v = Ok o -> created o
| N_scale id v o : mk_scale id v = Ok o -> created o
| N_power id v o : mk_power id v = Ok o -> created o
| N_constant id v o : mk_constant id v = Ok o -> created o
| N_identity id o : mk_identity id = Ok o -> created o
| N_movavg id n o : mk_movavg id n = Ok o -> created o
| N_stddev id n o : mk_stddev id n = Ok o -> created o
| N_peak id n o : mk_peak id n = Ok o -> created o
| N_fir id c o : mk_fir id c = Ok o -> created o
| N_autoreg id c o : mk_autoreg id c = Ok o -> created o
| N_count id o : mk_count id = Ok o -> created o
| N_cumsum id o : mk_cumsum id = Ok o -> created o
| N_difference id u o : mk_difference id u = Ok o -> created o
| N_timeshift id dt times o : mk_timeshift id dt times = Ok o -> created o
| N_constres id dt g1 g2 o : mk_constres id dt g1 g2 = Ok o -> created o
| N_cosine id dt o : mk_cosine id dt = Ok o -> created o
| N_hermite id dt o : mk_hermite id dt = Ok o -> created o
| N_function id l ty o : mk_function id l ty = Ok o -> created o
| N_variable id v o : mk_variable id v = Ok o -> created o
| N_rsi id n g1 g2 g3 g4 o : mk_rsi id n g1 g2 g3 g4 = Ok o -> created o.

(** just created, and connected to others *)
Definition new_op (o : op) : Prop := exists o0 cs, created o0 /\ o = with_conns cs o0.

Definition new_program (p : program) : Prop :=
  swf (p_ops p) /\ forall id o, sfind id (p_ops p) = Some o -> new_op o.

(** two programs made from the same definition: members that the C++ constructors leave
    uninitialised may differ *)
Definition same_definition (p q : program) : Prop :=
  p_text p = p_text q /\ p_entry p = p_entry q /\ p_filter p = p_filter q /\
  erase_heap (p_ops p) = erase_heap (p_ops q).

(** the operators whose snapshots are enough: not RelativeStrengthIndex, not Pipeline *)
Definition supported (o : op) : bool :=
  match op_kind o with
  | KRSI _ _ _ _ _ | KPipeline _ _ _ _ _ => false
  | _ => true
  end.

Definition supported_program (p : program) : Prop :=
  forall id o, sfind id (p_ops p) = Some o -> supported o = true.

(** calls of [receive] one after the other; an exception does not end the session *)
Fixpoint session (n : nat) (p : program) (batches : list opmsg) : list (res progmsg) * program :=
  match batches with
  | [] => ([], p)
  | b :: bs =>
      let '(r, p1) := receive n p b in
      let '(rs, p2) := session n p1 bs in
      (r :: rs, p2)
  end.

End Snapshot.
