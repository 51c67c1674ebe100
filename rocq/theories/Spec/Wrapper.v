(** * Running data through a program: what to expect *)

From Coq Require Import String Ascii ZArith Bool List.
From Verif Require Import Base.StrMap Base.Num Model.Core Model.Graph Model.Codec Model.Json Model.Factory Model.Schema Model.Wrapper.
Import ListNotations.
Open Scope string_scope.
Open Scope list_scope.
Open Scope rtbot_scope.

Section Wrapper.
Context {NO : NumOps}.

(** the messages of a row: the k-th value is for the k-th port *)
Definition row_batch (ports : list string) (r : row) : opmsg :=
  map (fun pv => (fst pv, [mkMsg (fst r) (snd pv)])) (combine ports (snd r)).

(** at least one value, and not more than there are ports *)
Definition row_fits (ports : list string) (r : row) : Prop := (1 <= length (snd r) <= length ports)%nat.

(** a program on its own, which is sent one row after the other *)
Fixpoint fed (n : nat) (ports : list string) (rows : list row) (p : program) : sres program (list progmsg) :=
  match rows with
  | [] => (Ok [], p)
  | r :: rest =>
      do! (out, p1) <- receive_debug n p (row_batch ports r);
      do! (outs, p2) <- fed n ports rest p1;
      (Ok (out :: outs), p2)
  end.

(** everything filed under a port of an operator, in order *)
Definition of_port (op port : string) (outs : list progmsg) : list msg :=
  flat_map (fun out =>
    flat_map (fun x => if String.eqb (fst x) op
                       then flat_map (fun y => if String.eqb (fst y) port then snd y else []) (snd x)
                       else []) out) outs.

Definition is_emitted (outs : list progmsg) (op port : string) (m : msg) : Prop :=
  exists out om ms, In out outs /\ In (op, om) out /\ In (port, ms) om /\ In m ms.

(** JSON can carry all values (it has no NaN and no infinities) *)
Definition all_shown {PJ : PyJson} (outs : list progmsg) : Prop :=
  forall op port m, is_emitted outs op port m -> shown (mval m) = true.

Fixpoint no_colon (s : string) : bool :=
  match s with
  | EmptyString => true
  | String c r => negb (Ascii.eqb c ":"%char) && no_colon r
  end.

(** ** Editing programs *)
Definition known_js (p : js_program) (c : connection) : Prop :=
  In (c_from c) (map fst (js_operators p)) /\ In (c_to c) (map fst (js_operators p)).

Definition json_member (key : string) (x : json) : string :=
  match x with JObj m => match sfind key m with Some (JStr s) => s | _ => "" end | _ => "" end.
Definition known_py (p : py_program) (c : json) : Prop :=
  In (json_member "from" c) (map (json_member "id") (py_operators p)) /\
  In (json_member "to" c) (map (json_member "id") (py_operators p)).

End Wrapper.
