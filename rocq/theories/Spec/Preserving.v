(** * Operators that keep the times of their messages *)

From Coq Require Import String ZArith Bool List.
From Verif Require Import Base.StrMap Base.Num Model.Core Model.Ops Model.Make Model.Run Model.Graph.
From Verif Require Import Spec.Streams Spec.Join Spec.Demux Spec.Log.
Import ListNotations.
Open Scope string_scope.
Open Scope list_scope.
Open Scope Z_scope.

Section Preserving.
Context {NO : NumOps}.

(** the operator with other connections *)
Definition with_conns (cs : smap (list (string * string))) (o : op) : op :=
  Op (set_conns (op_base o) cs) (op_kind o).

(** the constructors of the operators that put the time of a message they received on what
    they emit *)
Inductive constructed : op -> Prop :=
| C_input id n o : mk_input id n = Ok o -> constructed o
| C_output id n o : mk_output id n = Ok o -> constructed o
| C_collector id n o : mk_collector id n = Ok o -> constructed o
| C_filter id f v o : mk_filter id f v = Ok o -> constructed o
| C_add id v o : mk_add id v = Ok o -> constructed o
| C_scale id v o : mk_scale id v = Ok o -> constructed o
| C_power id v o : mk_power id v = Ok o -> constructed o
| C_constant id v o : mk_constant id v = Ok o -> constructed o
| C_identity id o : mk_identity id = Ok o -> constructed o
| C_count id o : mk_count id = Ok o -> constructed o
| C_cumsum id o : mk_cumsum id = Ok o -> constructed o
| C_function id l ty o : mk_function id l ty = Ok o -> constructed o
| C_movavg id n o : 0 < n -> mk_movavg id n = Ok o -> constructed o
| C_stddev id n o : 0 < n -> mk_stddev id n = Ok o -> constructed o
| C_peak id n o : 0 < n -> mk_peak id n = Ok o -> constructed o
| C_fir id c o : c <> [] -> mk_fir id c = Ok o -> constructed o
| C_rsi id n g1 g2 g3 g4 o : 1 <= n < two64 - 1 -> mk_rsi id n g1 g2 g3 g4 = Ok o -> constructed o
| C_join id n o : mk_join id n = Ok o -> constructed o
| C_binary id f o : mk_binary id f = Ok o -> constructed o
| C_linear id c o : mk_linear id c = Ok o -> constructed o
| C_demux id n o : mk_demux id n = Ok o -> constructed o
| C_variable id v o : mk_variable id v = Ok o -> constructed o.

(** just constructed, and connected to others *)
Definition time_preserving (o : op) : Prop :=
  exists o0 cs, constructed o0 /\ o = with_conns cs o0.

(** all messages of a history of calls go to ports the operator has *)
Definition ports_exist (o : op) (evs : list ev) : Prop :=
  Forall (fun e => match e with
                   | EData p _ => is_data_input o p = true
                   | ECtrl p _ => is_control_input o p = true
                   | _ => True
                   end) evs.

(** whatever the schedule of the calls: if times increase on every input port, they increase
    on every output port *)
Definition monotone (o : op) : Prop :=
  forall evs outs o', ports_exist o evs -> run o evs = (Ok outs, o') ->
    (forall x, increasing (times (hist x evs))) -> (forall x, increasing (times (chist x evs))) ->
    forall y, increasing (times (on_port y outs)).

(** the same, whatever it receives *)
Definition always_increasing (o : op) : Prop :=
  forall evs outs o', run o evs = (Ok outs, o') -> forall y, increasing (times (on_port y outs)).

(** the connections into an input port: from which outputs *)
Definition fed_by (h : heap) (id port : string) (src : string * string) : Prop :=
  In (id, port) (wires h (fst src) (snd src)).

(** every input port is fed by at most one connection *)
Definition one_feed (h : heap) : Prop :=
  (forall id port src1 src2, fed_by h id port src1 -> fed_by h id port src2 -> src1 = src2) /\
  (forall id port, NoDup (wires h id port)).

End Preserving.
