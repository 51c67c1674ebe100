(** * The same definition with other names, in another order (C97) *)

From Coq Require Import String ZArith Bool List Permutation.
From Verif Require Import Base.StrMap Base.Num Model.Core Model.Graph Model.Codec Model.Json Model.Factory Spec.Manager.
Import ListNotations.
Open Scope string_scope.
Open Scope list_scope.

Section Names.
Context {NO : NumOps}.

(** a change of names: different names stay different, and only the empty name becomes empty *)
Definition renaming (new : string -> string) : Prop :=
  (forall a b, new a = new b -> a = b) /\ (forall a, new a = "" <-> a = "").

Section New.
Variable new : string -> string.

(** the operator with its new id *)
Definition renamed_operator (x y : json) : Prop :=
  exists m m' id, x = JObj m /\ y = JObj m' /\
    sfind "id" m = Some (JStr id) /\ sfind "id" m' = Some (JStr (new id)) /\
    forall key, key <> "id" -> sfind key m = sfind key m'.

(** the connection between the same operators *)
Definition renamed_connection (x y : json) : Prop :=
  exists m m' from to, x = JObj m /\ y = JObj m' /\
    sfind "from" m = Some (JStr from) /\ sfind "from" m' = Some (JStr (new from)) /\
    sfind "to" m = Some (JStr to) /\ sfind "to" m' = Some (JStr (new to)) /\
    forall key, key <> "from" -> key <> "to" -> sfind key m = sfind key m'.

(** the output section for the same operators, in any order *)
Definition renamed_output (m m' : list (string * json)) : Prop :=
  (sfind "output" m = None /\ sfind "output" m' = None) \/
  exists f f', sfind "output" m = Some (JObj f) /\ sfind "output" m' = Some (JObj f') /\
    NoDup (map fst f) /\ Permutation (map (fun x => (new (fst x), snd x)) f) f'.

Definition id_in (x : json) : option json := match x with JObj m => sfind "id" m | _ => None end.

(** the definition with the new names and its operators in any order; their ids are different *)
Definition renamed_definition (x y : json) : Prop :=
  exists m m' entry ops ops1 ops' conns conns', x = JObj m /\ y = JObj m' /\
    sfind "entryOperator" m = Some (JStr entry) /\ sfind "entryOperator" m' = Some (JStr (new entry)) /\
    sfind "operators" m = Some (JArr ops) /\ sfind "operators" m' = Some (JArr ops') /\
    Forall2 renamed_operator ops ops1 /\ Permutation ops1 ops' /\ NoDup (map id_in ops) /\
    sfind "connections" m = Some (JArr conns) /\ sfind "connections" m' = Some (JArr conns') /\
    Forall2 renamed_connection conns conns' /\
    renamed_output m m'.

(** the result with the new names *)
Definition renamed_result (r r' : progmsg) : Prop :=
  (forall id, sfind (new id) r' = sfind id r) /\
  (forall name, sfind name r' <> None -> exists id, name = new id).

(** the same answer, with the new names *)
Definition renamed_answer (r r' : res progmsg) : Prop :=
  match r, r' with
  | Ok x, Ok x' => renamed_result x x'
  | Throw e, Throw e' => e = e'
  | UB, UB | Diverges, Diverges | OutOfFuel, OutOfFuel => True
  | _, _ => False
  end.

(** the same reply of the manager, with the new names *)
Definition renamed_reply (r r' : res reply) : Prop :=
  match r, r' with
  | Ok (RResult x), Ok (RResult x') => renamed_result x x'
  | Ok (RText s), Ok (RText s') => s' = new s
  | Ok (RBool b), Ok (RBool b') => b' = b
  | Ok (RPorts l), Ok (RPorts l') => l' = l
  | Ok (RFilter f), Ok (RFilter f') => Permutation (map (fun x => (new (fst x), snd x)) f) f'
  | Throw e, Throw e' => e = e'
  | UB, UB | Diverges, Diverges | OutOfFuel, OutOfFuel => True
  | _, _ => False
  end.

(** the constructors find the same in the memory they do not initialise.  The operators inside a
    Pipeline keep their names *)
Definition same_memory (x : json) (g g' : string -> junk) : Prop :=
  (forall id, g' (new id) = g id) /\
  ((exists m ops op, x = JObj m /\ sfind "operators" m = Some (JArr ops) /\ In (JObj op) ops /\ sfind "type" op = Some (JStr "Pipeline")) ->
   forall id, g' id = g id).

End New.

(** a history of calls, some of them in debug mode *)
Fixpoint conversation (n : nat) (p : program) (history : list (bool * opmsg)) : list (res progmsg) * program :=
  match history with
  | [] => ([], p)
  | (debug, b) :: bs => let '(r, p1) := receive_as debug n p b in
               let '(rs, p2) := conversation n p1 bs in (r :: rs, p2)
  end.

(** the definition with its operators in another order *)
Definition relisted (x y : json) : Prop :=
  exists m m' ops ops', x = JObj m /\ y = JObj m' /\
    sfind "operators" m = Some (JArr ops) /\ sfind "operators" m' = Some (JArr ops') /\
    Permutation ops ops' /\ NoDup (map id_in ops) /\
    forall key, key <> "operators" -> sfind key m = sfind key m'.

(** the second definition is the first one without an operator whose id occurs before it *)
Definition without_second (x y : json) : Prop :=
  exists m m' ops1 again ops2, x = JObj m /\ y = JObj m' /\
    sfind "operators" m = Some (JArr (ops1 ++ again :: ops2)) /\ sfind "operators" m' = Some (JArr (ops1 ++ ops2)) /\
    In (id_in again) (map id_in ops1) /\
    forall key, key <> "operators" -> sfind key m = sfind key m'.

(** may this connection leave this port of this operator?  (No port means the only one.) *)
Definition from_port (id port : string) (c : connection) : bool :=
  String.eqb (c_from c) id && (String.eqb (c_fromPort c) port || String.eqb (c_fromPort c) "").

(** the same connections, those of each port in the same order *)
Definition same_ports_order (conns conns' : list connection) : Prop :=
  Permutation conns conns' /\ forall id port, filter (from_port id port) conns = filter (from_port id port) conns'.

(** neither creates a program nor asks for a snapshot *)
Definition uses (c : call) : bool :=
  match c with CreateText _ _ _ | CreateBytes _ _ _ | Serialize _ => false | _ => true end.

End Names.
