(** * C95: the diagram of a program *)

From Coq Require Import String Ascii ZArith QArith Qcanon Bool List Lia.
From Verif Require Import Base.StrMap Base.Num Base.NumQc Model.Core Model.Make Model.Graph Model.Codec Model.Json Model.Factory Model.Schema Model.Wrapper Model.Mermaid.
From Verif Require Import Spec.Show Spec.Manager Spec.Definition Spec.Schema Spec.Wrapper Spec.Mermaid Proofs.JsonP Proofs.MermaidP.
From Verif Require Import Properties.Definition Properties.Manager Properties.Schema Properties.Editing.
Import ListNotations.
Open Scope string_scope.
Open Scope list_scope.
Open Scope rtbot_scope.

Lemma find_app {A} (f : A -> bool) l k y : find f l = Some y -> find f (l ++ k) = Some y.
Proof. induction l as [|x l IH]; [discriminate|]. cbn. destruct (f x); auto. Qed.

Section C95.
Context {NO : NumOps} {SL : SchemaLib} {JT : JsonText} {PJ : PyJson}.
Variable py_str : json -> string.

Lemma accepted_typed x t : validate_operator (json_type x) t = Ok true -> typed x.
Proof.
  unfold validate_operator. destruct (find (fun y => String.eqb (json_type x) (fst y)) operator_schemas) as [[ty s]|] eqn:F; [|discriminate]. intros _.
  apply find_some in F as [I E]. apply String.eqb_eq in E. cbn [fst] in E. apply (in_map fst) in I. cbn [fst] in I. rewrite <- E in I.
  assert (Ne : json_type x <> "") by (intros E0; rewrite E0 in I; cbn in I; repeat (destruct I as [I|I]; [discriminate I|]); destruct I).
  unfold json_type in *. destruct x as [| | | | | |m]; try congruence. destruct (sfind "type" m) as [[| | | |tx| |]|] eqn:G; try congruence.
  exists m, tx. auto.
Qed.
Lemma edits_made es : let p := py_edits es py_new in Forall typed (py_operators p) /\ Forall made (py_connections p).
Proof.
  cbv zeta. unfold py_edits.
  assert (G : forall p, Forall typed (py_operators p) -> Forall made (py_connections p) ->
    let q := fold_left (fun p e => snd (py_do e p)) es p in Forall typed (py_operators q) /\ Forall made (py_connections q)).
  { induction es as [|e es IH]; intros p T M; cbv zeta; cbn [fold_left]; [auto|]. apply IH.
    - destruct e as [x|a b c d]; cbn [py_do]; [|unfold py_add_connection; destruct (_ && _); exact T]. unfold py_add_operator.
      destruct (validate_operator (json_type x) (py_dumps x)) as [[|]| | | |] eqn:V; try exact T. destruct (existsb _ _); [exact T|]. cbn [snd py_operators].
      apply Forall_app. split; [exact T|]. constructor; [exact (accepted_typed _ _ V)|constructor].
    - destruct e as [x|a b c d]; cbn [py_do].
      + unfold py_add_operator. destruct (validate_operator (json_type x) (py_dumps x)) as [[|]| | | |]; try exact M. destruct (existsb _ _); exact M.
      + unfold py_add_connection. destruct (_ && _); [|exact M]. cbn [snd py_connections]. apply Forall_app. split; [exact M|]. constructor; [|constructor]. now exists a, b, c, d. }
  apply G; constructor.
Qed.

(** Whatever was done with addOperator and addConnection before, the diagram is written. If no id
    contains "(", no argument a quotation mark, and the names of the ports no ":" or "|", it can be read: it
    has one arrow for every connection, in the order in which they were added, between the
    operators with these ids, with their types, and with the ports of the connection. *)
Theorem C95_diagram (es : list py_edit) : (forall s, py_str (JStr s) = s) ->
  let p := py_edits es py_new in
  exists s, py_mermaid py_str p = Ok s /\
    (Forall (plain_operator py_str) (py_operators p) -> Forall plain_connection (py_connections p) ->
     read_diagram s = Some (map (drawn p) (py_connections p))).
Proof.
  intros Str p. destruct (edits_made es) as [T M]. fold p in T, M. destruct (C69_python es) as [K _]. fold p in K.
  destruct (lines_read py_str Str p (py_connections p) M K T) as (s & Es & Rs). exists ("flowchart LR;" ++ s)%string. split; [unfold py_mermaid; now rewrite Es|].
  intros Po Pc. unfold read_diagram. rewrite strip_app. now apply Rs.
Qed.

(** An operator without connections is not in the diagram: adding one changes nothing. *)
Theorem C95_alone_refuted (es : list py_edit) (x : json) : (forall s, py_str (JStr s) = s) ->
  let p := py_edits es py_new in let q := snd (py_add_operator x p) in
  fst (py_add_operator x p) = Ok tt ->
  py_operators q = py_operators p ++ [x] /\ py_mermaid py_str q = py_mermaid py_str p.
Proof.
  intros Str p q A. unfold q, py_add_operator in *. clear q.
  destruct (validate_operator (json_type x) (py_dumps x)) as [[|]| | | |] eqn:V; try discriminate A. destruct (existsb _ _) eqn:Ex; [discriminate A|]. cbn [snd py_operators]. split; [reflexivity|].
  unfold py_mermaid. cbn [py_operators py_connections]. destruct (C69_python es) as [K _]. fold p in K. destruct (edits_made es) as [_ M]. fold p in M.
  replace (py_lines py_str (py_operators p ++ [x]) (py_connections p)) with (py_lines py_str (py_operators p) (py_connections p)); [reflexivity|].
  clear A. induction M as [|c cs Mc M IH]; [reflexivity|]. inversion K as [|? ? [K1 K2] K']; subst. cbn [py_lines]. rewrite <- IH by exact K'.
  replace (py_line py_str (py_operators p ++ [x]) c) with (py_line py_str (py_operators p) c); [reflexivity|].
  assert (G : forall key s, py_at key c = Ok (JStr s) -> In s (map (json_member "id") (py_operators p)) -> py_end key c (py_operators p ++ [x]) = py_end key c (py_operators p)).
  { intros key s E I. destruct (end_found (py_operators p) key c s E I) as (y & Y1 & Y2 & Y3). rewrite Y1. unfold py_end.
    destruct (py_operators p ++ [x]) as [|o os] eqn:Eo; [destruct (py_operators p); discriminate Eo|]. rewrite <- Eo, E. cbn [rbind]. change json_id with (json_member "id").
    now rewrite (find_app _ _ [x] y Y3). }
  destruct Mc as (a & b & fp & tp & ->). unfold py_line. rewrite (G "from" a eq_refl K1), (G "to" b eq_refl K2). reflexivity.
Qed.

(** A program read with [parse] may have connections that do not name their ports (the schema does not
    ask for them), or name operators that are not there: then there is no diagram. *)
Lemma no_line p c : In c (py_connections p) -> (forall s, py_line py_str (py_operators p) c <> Ok s) -> forall s, py_mermaid py_str p <> Ok s.
Proof.
  intros I N s E. unfold py_mermaid in E. destruct (py_lines py_str (py_operators p) (py_connections p)) as [t| | | |] eqn:L; try discriminate E. clear E. revert t L.
  induction (py_connections p) as [|d cs IH]; [destruct I|]. cbn [py_lines]. intros t L. destruct (py_line py_str (py_operators p) d) as [u| | | |] eqn:Ed; try discriminate L.
  destruct I as [<-|I]; [exact (N u Ed)|]. cbn [rbind] in L. destruct (py_lines py_str (py_operators p) cs) as [w| | | |] eqn:Ew; try discriminate L. exact (IH I w eq_refl).
Qed.
(** [c] is an object without member [k] *)
Definition without (k : string) (c : json) : Prop := exists m, c = JObj m /\ sfind k m = None.
Lemma without_throws k c : without k c -> exists e, py_at k c = Throw e.
Proof. intros (m & -> & E). unfold py_at. rewrite E. now eexists. Qed.
Theorem C95_ports_refuted (payload : string) (p : py_program) (c : json) : py_parse payload = Ok p -> In c (py_connections p) ->
  without "fromPort" c \/ without "toPort" c \/
  (exists m a, c = JObj m /\ sfind "from" m = Some (JStr a) /\ ~ In a (map (json_member "id") (py_operators p))) ->
  forall s, py_mermaid py_str p <> Ok s.
Proof.
  intros _ I B. apply (no_line p c I). intros s E. unfold py_line in E.
  assert (B' : (exists e, py_at "fromPort" c = Throw e) \/ (exists e, py_at "toPort" c = Throw e) \/
    (exists a, py_at "from" c = Ok (JStr a) /\ ~ In a (map (json_member "id") (py_operators p)))).
  { destruct B as [B|[B|(m & a & -> & B & N)]]; [left; now apply without_throws|right; left; now apply without_throws|].
    right; right. exists a. split; [|exact N]. unfold py_at. now rewrite B. }
  clear B. destruct B' as [(e & B)|[(e & B)|(a & B & N)]].
  - destruct (py_end "from" c _) as [x| | | |]; try discriminate E. cbn [rbind] in E. destruct (py_end "to" c _) as [y| | | |]; try discriminate E. cbn [rbind] in E.
    destruct (py_at "type" x) as [tx| | | |]; try discriminate E. cbn [rbind] in E. destruct (py_at "type" y) as [ty| | | |]; try discriminate E. cbn [rbind] in E.
    destruct (py_at "from" c) as [u| | | |]; try discriminate E. cbn [rbind] in E. rewrite B in E. discriminate E.
  - destruct (py_end "from" c _) as [x| | | |]; try discriminate E. cbn [rbind] in E. destruct (py_end "to" c _) as [y| | | |]; try discriminate E. cbn [rbind] in E.
    destruct (py_at "type" x) as [tx| | | |]; try discriminate E. cbn [rbind] in E. destruct (py_at "type" y) as [ty| | | |]; try discriminate E. cbn [rbind] in E.
    destruct (py_at "from" c) as [u| | | |]; try discriminate E. cbn [rbind] in E. destruct (py_at "fromPort" c) as [w| | | |]; try discriminate E. cbn [rbind] in E. rewrite B in E. discriminate E.
  - assert (X : py_end "from" c (py_operators p) = Ok JNull).
    { unfold py_end. destruct (py_operators p) as [|o os] eqn:Eo; [reflexivity|]. rewrite B. cbn [rbind]. rewrite <- Eo in *. destruct (find _ (py_operators p)) as [y|] eqn:F; [|reflexivity].
      exfalso. apply N. apply find_some in F as [I1 E1]. apply String.eqb_eq in E1. rewrite <- E1. now apply (in_map (json_member "id")). }
    rewrite X in E. cbn [rbind] in E. destruct (py_end "to" c _) as [y| | | |]; discriminate E.
Qed.
End C95.
Print Assumptions C95_diagram.
Print Assumptions C95_alone_refuted.
Print Assumptions C95_ports_refuted.

(** ** Examples *)
Section Examples.
Local Open Scope Z_scope.
Definition a_str (j : @json QcOps) : string := match j with JStr s => s | JInt 3 => "3" | _ => "?" end.
Definition an_average : @json QcOps := definition "MovingAverage" "b" [("n", JInt 3)].
Definition some_edits : list (@py_edit QcOps) :=
  [PyAddOperator an_average; PyAddOperator (jobj [("id", JStr "a"); ("n", JInt 3); ("type", JStr "MovingAverage")]);
   PyAddConnection "a" "b" "o1" "i1"; PyAddConnection "a" "c" "o1" "i1"; PyAddConnection "b" "a" "o1" "i1"].
(** the hypotheses as tests *)
Definition lacksb (c : ascii) (s : string) : bool := match split_at c s with None => true | Some _ => false end.
Definition plain_test (x : @json QcOps) : bool :=
  lacksb "(" (json_member "id" x) && match x with JObj m => forallb (fun ky => lacksb dquote (a_str (snd ky))) m | _ => true end.
Lemma lacksb_true c s : lacksb c s = true -> lacks c s.
Proof. unfold lacksb, lacks. destruct (split_at c s); [discriminate|reflexivity]. Qed.
Lemma plain_test_true l : forallb plain_test l = true -> Forall (plain_operator a_str) l.
Proof.
  rewrite forallb_forall, Forall_forall. intros H x I. specialize (H x I). unfold plain_test in H. apply andb_prop in H as [H1 H2]. split; [now apply lacksb_true|].
  destruct x as [| | | | | |m]; try exact Logic.I. rewrite forallb_forall in H2. apply Forall_forall. intros ky J. apply lacksb_true. now apply H2.
Qed.
Lemma connection_test_true (l : list (@json QcOps)) : forallb (fun c => lacksb ":" (json_member "fromPort" c) && lacksb "|" (json_member "toPort" c)) l = true -> Forall plain_connection l.
Proof.
  rewrite forallb_forall, Forall_forall. intros H x I. specialize (H x I). apply andb_prop in H as [H1 H2]. split; now apply lacksb_true.
Qed.

Example C95_example : let JT := a_text2 an_average in let SL := a_lib in let PJ := reads JNull in
  let p := py_edits some_edits py_new in
  py_mermaid a_str p = Ok ("flowchart LR;a(" ++ quote ++ "MovingAverage(3)" ++ quote ++ ") --> |o1:i1| b(" ++ quote ++ "MovingAverage(3)" ++ quote ++ ");" ++ newline ++
    "b(" ++ quote ++ "MovingAverage(3)" ++ quote ++ ") --> |o1:i1| a(" ++ quote ++ "MovingAverage(3)" ++ quote ++ ");" ++ newline)%string /\
  (match py_mermaid a_str p with Ok s => read_diagram s | _ => None end) =
    Some [mkArrow "a" "MovingAverage" "o1" "i1" "b" "MovingAverage"; mkArrow "b" "MovingAverage" "o1" "i1" "a" "MovingAverage"] /\
  Forall (plain_operator a_str) (py_operators p) /\ Forall plain_connection (py_connections p) /\
  fst (py_add_operator (jobj [("id", JStr "z"); ("n", JInt 3); ("type", JStr "MovingAverage")]) p) = Ok tt.
Proof.
  cbv zeta. split; [vm_compute; reflexivity|]. split; [vm_compute; reflexivity|].
  split; [apply plain_test_true; vm_compute; reflexivity|]. split; [apply connection_test_true; vm_compute; reflexivity|]. vm_compute. reflexivity.
Qed.

(** a valid definition, without the names of the ports: the program runs, there is no diagram *)
Definition portless : list (string * @json QcOps) :=
  [("connections", JArr [jobj [("from", JStr "a"); ("to", JStr "b")]]); ("date", JStr "2023-11-20"); ("entryOperator", JStr "a");
   ("operators", JArr [definition "Count" "a" []; definition "Count" "b" []])].
Definition portless_written : @json QcOps := match py_construct portless with Ok p => py_object p | _ => JNull end.
Example C95_ports_example : let JT := a_text (JObj portless) portless_written in let SL := a_lib in let PJ := reads (JObj portless) in
  match py_parse "text" with
  | Ok p => map (fun c => match c with JObj m => match sfind "fromPort" m with None => true | Some _ => false end | _ => false end) (py_connections p) = [true] /\
      py_mermaid a_str p = Throw (py_error "KeyError")
  | _ => False
  end /\
  match new_prog j0 "text" with Ok q => skeys (p_ops q) = ["a"; "b"] | _ => False end.
Proof. vm_compute. repeat split; reflexivity. Qed.
End Examples.
