(** * Programs whose operators answer at the time of what they receive *)

From Coq Require Import String ZArith Bool List Sorted.
From Verif Require Import Base.StrMap Base.Num Model.Core Model.Ops Model.Make Model.Run Model.Graph.
From Verif Require Import Spec.Shape Spec.Streams Spec.Operators Spec.Multi Spec.Join Spec.Log Spec.Preserving.
Import ListNotations.
Open Scope string_scope.
Open Scope list_scope.
Open Scope Z_scope.
Open Scope rtbot_scope.

Section Spec.
Context {NO : NumOps}.

(** the operators of [time_preserving] that answer at once: all of them except the
    PeakDetector (it emits the middle of its window) and the two with control inputs *)
Definition immediate (o : op) : Prop :=
  time_preserving o /\
  match op_kind o with KPeak | KDemux _ | KVariable _ _ => False | _ => True end.

(** an Input operator, with any connections, that has received nothing yet *)
Definition an_input (o : op) : Prop := exists id k o0 cs, mk_input id k = Ok o0 /\ o = with_conns cs o0.

(** what the results [rs] of the calls show for one output port: all its messages, in order *)
Definition stream (rs : list progmsg) (id port : string) : list msg := flat_map (fun r => result_at r id port) rs.

(** what an input port gets according to the wiring: the stream of the output it is connected
    to; nothing when it is not connected *)
Definition carried (h : heap) (rs : list progmsg) (id port : string) (s : list msg) : Prop :=
  (exists a q, fed_by h id port (a, q) /\ s = stream rs a q) \/ ((forall src, ~ fed_by h id port src) /\ s = []).

(** the times that all of the streams [s 1 .. s n] have, in the order of [s 1] *)
Definition shared (n : nat) (s : nat -> list msg) : list Z :=
  filter (fun t => forallb (fun k => has_time t (s k)) (seq 1 n)) (times (s 1%nat)).

(** all messages of a history of calls, in the order in which they are processed *)
Definition all_messages (batches : list opmsg) : list (string * msg) := flat_map batch_messages batches.
Definition in_time_order (batches : list opmsg) : Prop := StronglySorted Z.le (times (map snd (all_messages batches))).
Definition sent_to (port : string) (batches : list opmsg) : list msg :=
  map snd (filter (fun pm => String.eqb (fst pm) port) (all_messages batches)).

(** a program that has processed nothing yet: its entry is an Input, no connection is doubled,
    no input port has two connections, there are no cycles, and everything upstream of operator [id]
    answers at once *)
Definition synchronous_at (p : program) (id : string) : Prop :=
  wf_heap (p_ops p) /\ named (p_ops p) /\ (exists rank, ranked rank (p_ops p)) /\ one_feed (p_ops p) /\
  (exists oe, sfind (p_entry p) (p_ops p) = Some oe /\ an_input oe) /\
  (forall a o, reachable (p_ops p) a id -> a <> p_entry p -> sfind a (p_ops p) = Some o -> immediate o).

End Spec.
