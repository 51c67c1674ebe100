(** * The Python module libs/wrappers/python/rtbot.py and the class Program of
      libs/wrappers/javascript/src/program.ts.

    Python's own exceptions are [RuntimeError] with the exception's name.  Not modelled: the
    random ids of programs (an argument here), [toMermaidJs], the validation of a program by the
    JavaScript schema.  (JavaScript's calls that run programs are in Model/Javascript.v.) *)

From Coq Require Import String ZArith Bool List.
From Verif Require Import Base.StrMap Base.Num Model.Core Model.Graph Model.Codec Model.Json Model.Factory Model.Schema.
Import ListNotations.
Open Scope string_scope.
Open Scope list_scope.
Open Scope Z_scope.
Open Scope rtbot_scope.

Section Python.
Context {NO : NumOps} {SL : SchemaLib} {JT : JsonText} {NC : NumCodec NO}.

(** Python's [json.loads] and [json.dumps], and the values that come back from C++'s
    [nlohmann::json(result).dump()] read by [json.loads]: NaN and infinities are dumped as null *)
Class PyJson := {
  py_loads : string -> res json;
  py_dumps : json -> string;
  shown : V -> bool
}.
Context {PJ : PyJson}.

Definition py_error (name : string) : exn := RuntimeError name.

(** ** class Run, rtbot.py:8-50 *)

(** a row of data: the time and the values.  (An empty row has no time; it behaves as a row
    without values.) *)
Definition row : Type := Z * list V.

(** the dictionary [result]: the messages under "operator:port" (their times and their values are
    two lists of the same length).  The order of the keys is not modelled. *)
Definition table : Type := smap (list msg).
Definition table_key (op port : string) : string := (op ++ ":" ++ port)%string.

(** rtbot.py:35-36; [ports] are the ports for the values to come *)
Fixpoint send_row (id : string) (ports : list string) (t : Z) (vs : list V) (m : manager) {struct vs} : sres manager unit :=
  match vs with
  | [] => (Ok tt, m)
  | v :: vs' =>
      match ports with
      | [] => (Throw (py_error "IndexError"), m)
      | port :: ports' =>
          do! (_u, m1) <- add_to_buffer id port (mkMsg t v) m;
          send_row id ports' t vs' m1
      end
  end.

(** rtbot.py:41-47: the key is entered first; [float(None)] is a TypeError *)
Definition record1 (op port : string) (ms : list msg) (t : table) : res table :=
  if forallb (fun m => shown (mval m)) ms
  then Ok (sset (table_key op port) (odefault [] (sfind (table_key op port) t) ++ ms) t)
  else Throw (py_error "TypeError").
Fixpoint record_op (op : string) (om : opmsg) (t : table) : res table :=
  match om with
  | [] => Ok t
  | (port, ms) :: r => let! t1 := record1 op port ms t in record_op op r t1
  end.
Fixpoint record (out : progmsg) (t : table) : res table :=
  match out with
  | [] => Ok t
  | (op, om) :: r => let! t1 := record_op op om t in record r t1
  end.

(** rtbot.py:33-47 *)
Fixpoint run_rows (n : nat) (id : string) (ports : list string) (rows : list row) (t : table) (m : manager) :
  sres manager table :=
  match rows with
  | [] => (Ok t, m)
  | (time, vs) :: r =>
      do! (_u, m1) <- send_row id ports time vs m;
      do! (reply, m2) <- process_buffer true n id m1;
      match reply with
      | RResult out =>
          match record out t with
          | Ok t1 => run_rows n id ports r t1 m2
          | Throw e => (Throw e, m2)
          | _ => (UB, m2)
          end
      | _ => (UB, m2)
      end
  end.

(** [Run.exec] rtbot.py:19-50 of a program with this id and [toJson()]; the ports are asked for
    before the answer to [createProgram] is looked at *)
Definition run_exec (n : nat) (id : string) (g : string -> junk) (text : string) (rows : list row) (m : manager) :
  sres manager table :=
  do! (created, m1) <- create_checked id g text m;
  do! (ports, m2) <- with_program m1 id entry_ports;
  match created, ports with
  | RText s, RPorts ps =>
      if String.eqb s "" then
        do! (t, m3) <- run_rows n id ps rows [] m2;
        do! (_u, m4) <- delete id m3;
        (Ok t, m4)
      else (Throw (py_error "Exception"), m2)
  | _, _ => (UB, m2)
  end.

(** ** class Program, rtbot.py:64-143.  A member that is None is [JNull]. *)
Record py_program := mkPy {
  py_operators : list json;
  py_connections : list json;
  py_entry : json;
  py_title : json;
  py_description : json;
  py_version : json;
  py_date : json;
  py_author : json;
  py_license : json
}.

(** [Program()] *)
Definition py_new : py_program := mkPy [] [] JNull JNull JNull (JStr "v1") JNull JNull JNull.

(** the truth value of a Python object *)
Definition truthy (j : json) : bool :=
  match j with
  | JNull => false
  | JBool b => b
  | JInt z => negb (z =? 0)
  | JNum v => negb (veq v v0)
  | JStr s => negb (String.eqb s "")
  | JArr l => match l with [] => false | _ => true end
  | JObj m => match m with [] => false | _ => true end
  end.

(** the optional members of [toJson], in the order of rtbot.py:95-111: the last test is that of the
    date, not of the entry operator *)
Definition py_optional (p : py_program) : list (string * json) :=
  (if truthy (py_title p) then [("title", py_title p)] else []) ++
  (if truthy (py_author p) then [("author", py_author p)] else []) ++
  (if truthy (py_description p) then [("description", py_description p)] else []) ++
  (if truthy (py_license p) then [("license", py_license p)] else []) ++
  (if truthy (py_date p) then [("date", py_date p)] else []) ++
  (if truthy (py_date p) then [("entryOperator", py_entry p)] else []).

(** [toJson] rtbot.py:89-113 before [json.dumps] *)
Definition py_object (p : py_program) : json :=
  jobj ([("apiVersion", py_version p); ("operators", JArr (py_operators p)); ("connections", JArr (py_connections p))]
        ++ py_optional p).
Definition py_to_json (p : py_program) : string := py_dumps (py_object p).

(** constructor, called with the members of an object as arguments, rtbot.py:65-87: unexpected names are a TypeError.  Members "operators" and
    "connections" that are not lists are not modelled ([UB]). *)
Definition py_members : list string :=
  ["operators"; "connections"; "entryOperator"; "title"; "description"; "apiVersion"; "date"; "author"; "license"].
Definition py_list (key : string) (m : list (string * json)) : res (list json) :=
  match sfind key m with
  | None | Some JNull => Ok []
  | Some (JArr l) => Ok l
  | Some _ => UB
  end.
Definition py_member (key : string) (m : list (string * json)) : json := odefault JNull (sfind key m).
Definition py_construct (m : list (string * json)) : res py_program :=
  if forallb (fun k => existsb (String.eqb k) py_members) (skeys m) then
    let! ops := py_list "operators" m in
    let! conns := py_list "connections" m in
    Ok (mkPy ops conns (py_member "entryOperator" m) (py_member "title" m) (py_member "description" m)
          (odefault (JStr "v1") (sfind "apiVersion" m)) (py_member "date" m) (py_member "author" m) (py_member "license" m))
  else Throw (py_error "TypeError").

(** [validate] rtbot.py:115-116 *)
Definition py_validate (p : py_program) : res bool := validate (py_to_json p).

(** [parse] rtbot.py:53-61 *)
Definition py_parse (payload : string) : res py_program :=
  let! j := py_loads payload in
  match j with
  | JObj m =>
      let! p := py_construct m in
      let! ok := py_validate p in
      if (ok : bool) then Ok p else Throw (py_error "Exception")
  | _ => Throw (py_error "TypeError")
  end.

(** the member "id" of an operator (operators that have none are not modelled: "") *)
Definition json_id (x : json) : string :=
  match x with JObj m => match sfind "id" m with Some (JStr s) => s | _ => "" end | _ => "" end.
Definition json_type (x : json) : string :=
  match x with JObj m => match sfind "type" m with Some (JStr s) => s | _ => "" end | _ => "" end.

(** [addOperator] rtbot.py:118-130 *)
Definition py_add_operator (x : json) (p : py_program) : sres py_program unit :=
  match validate_operator (json_type x) (py_dumps x) with
  | Ok true =>
      if existsb (String.eqb (json_id x)) (map json_id (py_operators p)) then (Throw (py_error "Exception"), p)
      else (Ok tt, mkPy (py_operators p ++ [x]) (py_connections p) (py_entry p) (py_title p) (py_description p)
                     (py_version p) (py_date p) (py_author p) (py_license p))
  | _ => (Throw (py_error "Exception"), p)
  end.

(** class Connection rtbot.py:175-181 *)
Definition py_connection (from to fromPort toPort : string) : json :=
  jobj [("from", JStr from); ("to", JStr to); ("fromPort", JStr fromPort); ("toPort", JStr toPort)].

(** [addConnection] rtbot.py:132-143 *)
Definition py_add_connection (from to fromPort toPort : string) (p : py_program) : sres py_program unit :=
  let ids := map json_id (py_operators p) in
  if existsb (String.eqb from) ids && existsb (String.eqb to) ids then
    (Ok tt, mkPy (py_operators p) (py_connections p ++ [py_connection from to fromPort toPort]) (py_entry p)
              (py_title p) (py_description p) (py_version p) (py_date p) (py_author p) (py_license p))
  else (Throw (py_error "Exception"), p).

(** the calls that edit a program; exceptions are caught by the caller, who goes on *)
Inductive py_edit : Type :=
| PyAddOperator (x : json)
| PyAddConnection (from to fromPort toPort : string).
Definition py_do (e : py_edit) (p : py_program) : sres py_program unit :=
  match e with
  | PyAddOperator x => py_add_operator x p
  | PyAddConnection a b c d => py_add_connection a b c d p
  end.
Definition py_edits (es : list py_edit) (p : py_program) : py_program :=
  fold_left (fun p e => snd (py_do e p)) es p.

End Python.

Arguments PyJson {NO}.

(** ** class Program of program.ts:9-119.  Operators are their id and their type. *)
Section JavaScript.

Record js_program := mkJs {
  js_operators : list (string * string);      (* id, type *)
  js_connections : list connection;
  js_entry : option string
}.

Definition js_new : js_program := mkJs [] [] None.

(** [addOperator] program.ts:49-55 *)
Definition js_add_operator (id type : string) (p : js_program) : js_program :=
  mkJs (js_operators p ++ [(id, type)]) (js_connections p)
    (if String.eqb type "Input" then Some id else js_entry p).

(** [deleteOperator] program.ts:57-60 *)
Definition js_delete_operator (id : string) (p : js_program) : js_program :=
  mkJs (filter (fun o => negb (String.eqb (fst o) id)) (js_operators p))
    (filter (fun c => negb (String.eqb (c_from c) id) && negb (String.eqb (c_to c) id)) (js_connections p))
    (js_entry p).

(** [deleteConnection] program.ts:62-67 *)
Definition js_delete_connection (d : connection) (p : js_program) : js_program :=
  mkJs (js_operators p)
    (filter (fun c => negb (negb (String.eqb (c_from c) (c_from d)) && negb (String.eqb (c_to c) (c_to d)) &&
                            negb (String.eqb (c_fromPort c) (c_fromPort d)) && negb (String.eqb (c_toPort c) (c_toPort d))))
       (js_connections p))
    (js_entry p).

Definition same_connection (c d : connection) : bool :=
  String.eqb (c_from c) (c_from d) && String.eqb (c_to c) (c_to d) &&
  String.eqb (c_fromPort c) (c_fromPort d) && String.eqb (c_toPort c) (c_toPort d).

(** [addConnection] program.ts:69-83 *)
Definition js_add_connection (c : connection) (p : js_program) : sres js_program unit :=
  let ids := map fst (js_operators p) in
  if negb (existsb (String.eqb (c_from c)) ids) then (Throw (RuntimeError "From operator hasn't been added to the program"), p)
  else if negb (existsb (String.eqb (c_to c)) ids) then (Throw (RuntimeError "To operator hasn't been added to the program"), p)
  else if existsb (fun d => same_connection d c) (js_connections p) then (Throw (RuntimeError "There is already a connection"), p)
  else (Ok tt, mkJs (js_operators p) (js_connections p ++ [c]) (js_entry p)).

Inductive js_edit : Type :=
| JsAddOperator (id type : string)
| JsDeleteOperator (id : string)
| JsAddConnection (c : connection)
| JsDeleteConnection (c : connection).
Definition js_do (e : js_edit) (p : js_program) : sres js_program unit :=
  match e with
  | JsAddOperator id ty => (Ok tt, js_add_operator id ty p)
  | JsDeleteOperator id => (Ok tt, js_delete_operator id p)
  | JsAddConnection c => js_add_connection c p
  | JsDeleteConnection c => (Ok tt, js_delete_connection c p)
  end.
Definition js_edits (es : list js_edit) (p : js_program) : js_program :=
  fold_left (fun p e => snd (js_do e p)) es p.

End JavaScript.
