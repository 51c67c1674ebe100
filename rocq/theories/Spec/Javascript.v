(** * Running programs from JavaScript: what to expect *)

From Coq Require Import String ZArith Bool List.
From Verif Require Import Base.StrMap Base.Num Model.Core Model.Graph Model.Codec Model.Json Model.Factory Model.Schema Model.Wrapper Model.Javascript.
From Verif Require Import Spec.Log.
Import ListNotations.
Open Scope string_scope.
Open Scope list_scope.
Open Scope Z_scope.
Open Scope rtbot_scope.

Section Javascript.
Context {NO : NumOps} {SL : SchemaLib} {JT : JsonText} {NC : NumCodec NO} {JR : JsRuntime}.

(** the numbers that fit are passed as they are.  (An [unsigned long] has 32 bits in wasm.) *)
Definition faithful : Prop :=
  (forall t, 0 <= t < 2 ^ 32 -> js_ulong t = Ok t) /\ (forall v, js_double (Some v) = Ok v).

(** whatever is passed for an [unsigned long], C++ gets a number of 32 bits (or there is an exception) *)
Definition narrow : Prop := forall t u, js_ulong t = Ok u -> 0 <= u < 2 ^ 32.

Definition fits32 (t : Z) : Prop := 0 <= t < 2 ^ 32.

(** a row has a value for every port *)
Definition row_full (ports : list string) (r : row) : Prop :=
  fits32 (fst r) /\ (1 <= length ports <= length (snd r))%nat.

(** messages with values *)
Definition to_js (l : list (string * list msg)) : js_messages :=
  map (fun x => (fst x, map (fun m => (mtime m, Some (mval m))) (snd x))) l.

(** the same messages one by one *)
Definition each (l : list (string * list msg)) : list (string * msg) :=
  flat_map (fun x => map (pair (fst x)) (snd x)) l.

(** calls [processDebug(id, { [port]: ms })], numbered *)
Definition call_of (debug : bool) (id port : string) (kc : nat * list msg) : js_event :=
  JsCall (fst kc) debug id (to_js [(port, snd kc)]).

(** the messages that are passed in the calls of a history, in order *)
Fixpoint called (es : list (option (nat * list msg))) : list msg :=
  match es with
  | [] => []
  | Some (_, ms) :: r => ms ++ called r
  | None :: r => called r
  end.
Fixpoint numbers (es : list (option (nat * list msg))) : list nat :=
  match es with
  | [] => []
  | Some (k, _) :: r => k :: numbers r
  | None :: r => numbers r
  end.
(** [None] stands for the progress of the calls made before *)
Definition event_of (debug : bool) (id port : string) (e : option (nat * list msg)) : js_event :=
  match e with Some kc => call_of debug id port kc | None => JsTick end.

(** an output section that lists no port twice *)
Definition listed_once (p : program) : Prop :=
  swf (p_filter p) /\ forall op ports, sfind op (p_filter p) = Some ports -> NoDup ports.

(** everything that the answers have for a port of an operator, in order *)
Definition answered (op port : string) (l : list (nat * res reply)) : list msg :=
  flat_map (fun x => match snd x with Ok (RResult out) => result_at out op port | _ => [] end) l.

(** ** Messages one after the other *)

(** the entry operator has no data input of this name *)
Definition lacks (port : string) (p : program) : Prop :=
  forall o, sfind (p_entry p) (p_ops p) = Some o -> sfind port (o_data (op_base o)) = None.
(** ... in the programs that are started *)
Definition starts_lack (port : string) (a : js_action) : Prop :=
  match a with JsStart g text => forall p, new_prog g text = Ok p -> lacks port p | _ => True end.

(** a call of [processMessage] fails *)
Definition fails (x : js_outcome) : Prop :=
  match x with Answer r => forall out, r <> Ok out | Done _ => True end.

(** what the program alone answers to messages one after the other, as long as there is no failure *)
Definition said : Type := bool * Z * V * option string.
Definition message_of (c : said) : js_action := let '(d, t, v, port) := c in JsMessage d t v port.
Definition port_of (dp : option string) (c : said) : option string := match snd c with Some p => Some p | None => dp end.
Fixpoint alone (n : nat) (dp : option string) (cs : list said) (p : program) : res (list progmsg * program) :=
  match cs with
  | [] => Ok ([], p)
  | (d, t, v, port) :: r =>
      match port_of dp (d, t, v, port) with
      | Some q =>
          let '(x, p1) := receive_as d n p [(q, [mkMsg t v])] in
          let! out := x in
          let! y := alone n dp r p1 in
          Ok (out :: fst y, snd y)
      | None => Throw (RuntimeError "no port")
      end
  end.

End Javascript.
