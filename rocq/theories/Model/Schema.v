(** * Validation of definitions: the JSON schema generated by tools/generator from the operators'
      documentation, and [validate], [validateOperator], [createProgram] of
      libs/api/src/bindings.cpp.

    The schema is data of this code base (tools/generator/templates/jsonschema.hbs and the
    front matter of the *.md files next to the operators, put together by
    tools/generator/src/index.ts:41-66); the validator is the library json-schema-validator 2.2.0
    (deps.bzl:27-32), of which the keywords that occur in the schema are modelled.  Keywords without
    influence on the result (description, examples, default) are left out: [validate] throws
    the patch with the default values away (bindings.cpp:95). *)

From Coq Require Import String Ascii ZArith Bool List.
From Verif Require Import Base.StrMap Base.Num Model.Core Model.Graph Model.Codec Model.Json Model.Factory.
Import ListNotations.
Open Scope string_scope.
Open Scope list_scope.
Open Scope Z_scope.
Open Scope rtbot_scope.

(** the schemas that occur *)
Inductive schema : Type :=
| SString                                              (* "type": "string" *)
| SDate                                                (* "type": "string", "format": "date" *)
| SNumber                                              (* "type": "number" *)
| SInteger (minimum : option Z)                        (* "type": "integer", "minimum" *)
| SEnum (values : list string)                         (* "enum" *)
| SArray (minItems : nat) (maxItems : option nat) (items : schema)
| SObject (properties : list (string * schema)) (pattern : option schema)
    (required : list string) (additional : bool)
| SOneOf (l : list schema).

(** the pattern ^[A-Z0-9a-t_-]+$ of jsonschema.hbs:37 *)
Definition in_range (lo hi c : ascii) : bool :=
  Nat.leb (nat_of_ascii lo) (nat_of_ascii c) && Nat.leb (nat_of_ascii c) (nat_of_ascii hi).
Definition pattern_char (c : ascii) : bool :=
  in_range "A" "Z" c || in_range "0" "9" c || in_range "a" "t" c || Ascii.eqb c "_" || Ascii.eqb c "-".
Fixpoint all_chars (f : ascii -> bool) (s : string) : bool :=
  match s with EmptyString => true | String c r => f c && all_chars f r end.
Definition pattern_matches (s : string) : bool := negb (String.eqb s "") && all_chars pattern_char s.

Section Validator.
Context {NO : NumOps}.

(** what depends on the library: the integer a number written with a point or an exponent is taken
    for, and the check of dates *)
Class SchemaLib := {
  whole : V -> option Z;
  date_ok : string -> bool
}.
Context {SL : SchemaLib}.

(** "minimum" of an integer: the library converts to [int64_t] first *)
Definition above (minimum : option Z) (z : Z) : bool :=
  match minimum with
  | None => true
  | Some m => m <=? (z + 2 ^ 63) mod 2 ^ 64 - 2 ^ 63
  end.

Definition str_in (s : string) (l : list string) : bool := existsb (String.eqb s) l.

(** [json_validator::validate] *)
Fixpoint valid (s : schema) (j : json) {struct s} : bool :=
  match s with
  | SString => match j with JStr _ => true | _ => false end
  | SDate => match j with JStr d => date_ok d | _ => false end
  | SNumber => match j with JInt _ | JNum _ => true | _ => false end
  | SInteger m =>
      match j with
      | JInt z => above m z
      | JNum v => match whole v with Some z => above m z | None => false end
      | _ => false
      end
  | SEnum l => match j with JStr x => str_in x l | _ => false end
  | SArray lo hi item =>
      match j with
      | JArr l =>
          Nat.leb lo (length l) && match hi with Some n => Nat.leb (length l) n | None => true end &&
          forallb (valid item) l
      | _ => false
      end
  | SObject props pat req add =>
      match j with
      | JObj m =>
          forallb (fun k => shas k m) req &&
          (fix go (ps : list (string * schema)) : bool :=
             match ps with
             | [] => true
             | (k, s') :: r => match sfind k m with Some x => valid s' x | None => true end && go r
             end) props &&
          match pat with
          | Some s' => forallb (fun kx => negb (pattern_matches (fst kx)) || valid s' (snd kx)) m
          | None => true
          end &&
          (add || forallb (fun kx => str_in (fst kx) (map fst props) ||
                                     match pat with Some _ => pattern_matches (fst kx) | None => false end) m)
      | _ => false
      end
  | SOneOf l =>
      Nat.eqb ((fix go (l : list schema) : nat :=
                  match l with [] => O | s' :: r => ((if valid s' j then 1 else 0) + go r)%nat end) l) 1
  end.

(** the schema of an operator: index.ts:49-50 sets the property "type" and requires it *)
Definition op_schema (type : string) (props : list (string * schema)) (required : list string) : schema :=
  SObject (("id", SString) :: props ++ [("type", SEnum [type])]) None ("type" :: "id" :: required) true.

Definition simple_op (type : string) : string * schema := (type, op_schema type [] []).
Definition value_op (type : string) : string * schema := (type, op_schema type [("value", SNumber)] ["value"]).

(** the front matter of libs/core/include/rtbot/*.md and libs/std/include/rtbot/std/*.md.
    Function.md also declares a property "type", which index.ts:49 replaces. *)
Definition operator_schemas : list (string * schema) :=
  [ ("Input", op_schema "Input" [("numPorts", SInteger (Some 1))] []);
    ("Output", op_schema "Output" [("numPorts", SInteger (Some 1))] []);
    ("Join", op_schema "Join" [("numPorts", SInteger (Some 2))] []);
    ("Demultiplexer", op_schema "Demultiplexer" [("numPorts", SInteger (Some 1))] []);
    ("Variable", op_schema "Variable" [("value", SNumber)] []);
    simple_op "Identity";
    ("ConstantResampler", op_schema "ConstantResampler" [("interval", SInteger (Some 1))] ["interval"]);
    ("StandardDeviation", op_schema "StandardDeviation" [("n", SNumber)] ["n"]);
    ("HermiteResampler", op_schema "HermiteResampler" [("dt", SInteger None)] ["dt"]);
    simple_op "CumulativeSum";
    ("LessThan", op_schema "LessThan" [("value", SInteger None)] ["value"]);
    simple_op "Or";
    value_op "EqualTo";
    value_op "Constant";
    ("MovingAverage", op_schema "MovingAverage" [("n", SInteger None)] ["n"]);
    ("AutoRegressive", op_schema "AutoRegressive" [("coeff", SArray 1 None SNumber)] ["coeff"]);
    simple_op "Division";
    simple_op "And";
    simple_op "GreaterThanStream";
    ("Function", op_schema "Function" [("points", SArray 2 None (SArray 2 (Some 2%nat) SNumber))] ["points"]);
    value_op "Scale";
    simple_op "Plus";
    simple_op "LessThanStream";
    simple_op "Difference";
    ("PeakDetector", op_schema "PeakDetector" [("n", SInteger None)] ["n"]);
    simple_op "Multiplication";
    ("TimeShift", op_schema "TimeShift" [("dt", SInteger (Some 1)); ("times", SInteger None)] []);
    simple_op "Minus";
    ("CosineResampler", op_schema "CosineResampler" [("dt", SInteger None)] ["dt"]);
    ("FiniteImpulseResponse", op_schema "FiniteImpulseResponse" [("coeff", SArray 0 None SNumber)] ["coeff"]);
    ("Linear", op_schema "Linear" [("coeff", SArray 2 None SNumber)] []);
    simple_op "Count";
    value_op "Add";
    value_op "Power";
    value_op "GreaterThan" ].

(** the elements of "connections", jsonschema.hbs:57-82 *)
Definition connection_schema : schema :=
  SObject [("from", SString); ("to", SString); ("fromPort", SString); ("toPort", SString)] None ["from"; "to"] false.

(** tools/generator/templates/jsonschema.hbs *)
Definition program_schema : schema :=
  SObject
    [ ("title", SString); ("description", SString); ("date", SDate); ("apiVersion", SEnum ["v1"]);
      ("author", SString); ("license", SString); ("entryOperator", SString);
      ("output", SObject [] (Some (SArray 0 None SString)) [] true);
      ("operators", SArray 0 None (SOneOf (map snd operator_schemas)));
      ("connections", SArray 0 None connection_schema) ]
    None ["operators"; "connections"; "entryOperator"] true.

Context {JT : JsonText}.

(** [validate] bindings.cpp:84-102, the member "valid" of the result *)
Definition validate (text : string) : res bool :=
  match parse text with
  | Ok j => Ok (valid program_schema j)
  | Throw _ => Ok false
  | UB => UB
  | Diverges => Diverges
  | OutOfFuel => OutOfFuel
  end.

(** [validateOperator] bindings.cpp:52-82 *)
Definition validate_operator (type text : string) : res bool :=
  match find (fun x => String.eqb type (fst x)) operator_schemas with
  | None => Ok false
  | Some (_, s) =>
      match parse text with
      | Ok j => Ok (valid s j)
      | Throw _ => Ok false
      | UB => UB
      | Diverges => Diverges
      | OutOfFuel => OutOfFuel
      end
  end.

Context {NC : NumCodec NO}.

(** the answer to an invalid definition is the JSON text of {"valid": false, "error": ...} *)
Definition invalid_reply : reply := RText "{""valid"": false}".

(** [createProgram(id, json)] bindings.cpp:104-112 *)
Definition create_checked (id : string) (g : string -> junk) (text : string) (m : manager) : sres manager reply :=
  match validate text with
  | Ok true => create_text id g text m
  | Ok false => (Ok invalid_reply, m)
  | Throw e => (Throw e, m)
  | UB => (UB, m)
  | Diverges => (Diverges, m)
  | OutOfFuel => (OutOfFuel, m)
  end.

(** the functions of bindings.cpp: every other call goes to FactoryOp as it is *)
Definition bound_call (n : nat) (c : call) (m : manager) : sres manager reply :=
  match c with
  | CreateText id g text => create_checked id g text m
  | _ => do_call n c m
  end.

Fixpoint bound_calls (n : nat) (cs : list call) (m : manager) : list (res reply) * manager :=
  match cs with
  | [] => ([], m)
  | c :: r =>
      let '(x, m1) := bound_call n c m in
      let '(xs, m2) := bound_calls n r m1 in
      (x :: xs, m2)
  end.

End Validator.

Arguments SchemaLib {NO}.
