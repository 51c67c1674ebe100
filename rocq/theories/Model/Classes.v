(** * The operator classes that tools/generator writes for the Python and the JavaScript packages:
      tools/generator/src/index.ts:155-209 with templates/python.hbs and templates/typescript.hbs.

    The parameters come from the same front matter as the JSON schema, Model/Schema.v.  Arguments
    are values that JSON can express; for others [json.dumps] raises a TypeError. *)

From Coq Require Import String ZArith Bool List.
From Verif Require Import Base.StrMap Base.Num Model.Core Model.Graph Model.Codec Model.Json Model.Factory Model.Schema Model.Wrapper.
Import ListNotations.
Open Scope string_scope.
Open Scope list_scope.
Open Scope Z_scope.
Open Scope rtbot_scope.

Section Classes.
Context {NO : NumOps}.

(** the keyword "default" in the front matter: Input.md:21, Output.md:20, Demultiplexer.md:20,
    Join.md:19, Variable.md:21, TimeShift.md:18,25.  (That of "type" of Function.md is lost with
    the property, index.ts:49.) *)
Definition defaults : list (string * list (string * json)) :=
  [ ("Input", [("numPorts", JInt 1)]);
    ("Output", [("numPorts", JInt 1)]);
    ("Demultiplexer", [("numPorts", JInt 1)]);
    ("Join", [("numPorts", JInt 2)]);
    ("Variable", [("value", JInt 0)]);
    ("TimeShift", [("dt", JInt 1); ("times", JInt 1)]) ].
Definition default_of (type key : string) : option json :=
  match sfind type defaults with Some l => sfind key l | None => None end.

(** the properties of a schema in their order but "type", and whether they are required,
    index.ts:160-164 *)
Definition schema_parameters (s : schema) : list (string * bool) :=
  match s with
  | SObject props _ required _ =>
      map (fun k => (k, str_in k required)) (filter (fun k => negb (String.eqb k "type")) (map fst props))
  | _ => []
  end.

(** a parameter of a Python function and the value it has by default *)
Definition parameter : Type := string * option json.

(** index.ts:160-165: a parameter that is not required has the default of the schema or None *)
Definition py_parameters (type : string) (s : schema) : list parameter :=
  map (fun kr => (fst kr, if snd kr : bool then None else Some (odefault JNull (default_of type (fst kr)))))
    (schema_parameters s).

(** a parameter without a default after one with a default is a SyntaxError, which makes the whole
    module unusable *)
Fixpoint py_signature_ok (l : list parameter) : bool :=
  match l with
  | [] => true
  | (_, Some _) :: r => forallb (fun p => match snd p with Some _ => true | None => false end) r
  | (_, None) :: r => py_signature_ok r
  end.
Definition py_module_ok : bool :=
  forallb (fun c => py_signature_ok (py_parameters (fst c) (snd c))) operator_schemas.

(** a call of a Python function: the arguments by position are for the first parameters, a name
    given twice or missing is a TypeError *)
Fixpoint py_bind (params : list parameter) (pos : list json) (kw : list (string * json)) : res (list (string * json)) :=
  match params with
  | [] => match pos with [] => Ok [] | _ => Throw (py_error "TypeError") end
  | (k, d) :: r =>
      match pos with
      | v :: pos' =>
          if shas k kw then Throw (py_error "TypeError")
          else let! l := py_bind r pos' kw in Ok ((k, v) :: l)
      | [] =>
          match sfind k kw with
          | Some v => let! l := py_bind r [] kw in Ok ((k, v) :: l)
          | None =>
              match d with
              | Some v => let! l := py_bind r [] kw in Ok ((k, v) :: l)
              | None => Throw (py_error "TypeError")
              end
          end
      end
  end.
(** names that are no parameters are a TypeError as well *)
Definition py_known (params : list parameter) (kw : list (string * json)) : bool :=
  forallb (fun k => str_in k (map fst params)) (skeys kw).

Context {SL : SchemaLib} {JT : JsonText} {PJ : PyJson}.

(** [type(pos..., kw...)]: python.hbs:6-16 and 20-31.  A class that was not generated is an
    AttributeError of the module. *)
Definition py_operator (type : string) (pos : list json) (kw : list (string * json)) : res json :=
  if py_module_ok then
    match find (fun c => String.eqb type (fst c)) operator_schemas with
    | None => Throw (py_error "AttributeError")
    | Some (_, s) =>
        if py_known (py_parameters type s) kw then
          let! args := py_bind (py_parameters type s) pos kw in
          let x := jobj (("type", JStr type) :: args) in
          let! ok := validate_operator type (py_dumps x) in
          if ok : bool then Ok x else Throw (py_error "Exception")
        else Throw (py_error "TypeError")
    end
  else Throw (py_error "SyntaxError").

(** the members of a JavaScript object: those whose value is undefined are not written by
    [JSON.stringify]; arguments that are too many are ignored *)
Fixpoint js_members (names : list string) (args : list (option json)) : list (string * json) :=
  match names, args with
  | k :: names', Some v :: args' => (k, v) :: js_members names' args'
  | _ :: names', None :: args' => js_members names' args'
  | _, _ => []
  end.

(** [new type(args...)] of the JavaScript package, typescript.hbs:34-43 with index.ts:178-205: the
    object that [toJSON] of program.ts:150-152 gives.  The schema is translated to zod by
    json-schema-to-zod 0.6; the result of its [parse], which has the default values, is not used.
    The check of zod is taken to be that of the JSON schema (they differ for integers that do not fit
    into 64 bits).  [undefined] is [None]. *)
Definition js_operator (type : string) (args : list (option json)) : res json :=
  match find (fun c => String.eqb type (fst c)) operator_schemas with
  | None => Throw (RuntimeError "TypeError")
  | Some (_, s) =>
      let x := jobj (("type", JStr type) :: js_members (map fst (schema_parameters s)) args) in
      if valid s x then Ok x else Throw (RuntimeError "ZodError")
  end.

End Classes.
