(** * The names of the operators and their order do not matter (C97) *)

From Coq Require Import String ZArith QArith Qcanon Bool List Lia Permutation.
From Verif Require Import Base.StrMap Base.Num Base.NumQc Model.Core Model.Ops Model.Make Model.Run Model.Graph Model.Codec Model.Json Model.Factory.
From Verif Require Import Spec.Show Spec.Snapshot Spec.Members Spec.Names.
From Verif Require Import Proofs.JsonP Proofs.MembersP Proofs.NamesP Proofs.NamesR Properties.Definition.
Import ListNotations.
Open Scope string_scope.
Open Scope list_scope.
Open Scope Z_scope.
Open Scope rtbot_scope.

Section C97.
Context {NO : NumOps} {JT : JsonText}.

Lemma init_renamed new g g' t t' j j' : renaming new -> renamed_definition new j j' -> same_memory new j g g' ->
  match init g t j, init g' t' j' with
  | Ok p, Ok p' => prel new p p'
  | Ok _, _ | _, Ok _ => False
  | _, _ => True
  end.
Proof.
  intros [inj E0] (m & m' & entry & ops & ops1 & ops' & cs & cs' & -> & -> & En & En' & O & O' & Fo & Pm & ND & C & C' & Fc & Out) [G Gp].
  unfold init, jvalue. rewrite En, En'. cbn [rbind get_str].
  destruct (String.eqb_spec entry "") as [->|Ne].
  { destruct (String.eqb_spec (new "") "") as [_|N]; [exact Logic.I|]. elim N. now apply E0. }
  destruct (String.eqb_spec (new entry) "") as [N|_]; [elim Ne; now apply E0|].
  destruct (filter_of_rel new m m' Out) as (f & f' & -> & -> & F). cbn [rbind jat]. rewrite O, O', C, C'. cbn [rbind jitems].
  assert (Gp' : (exists op, In (JObj op) ops /\ sfind "type" op = Some (JStr "Pipeline")) -> forall id, g' id = g id).
  { intros (op & I & T). apply Gp. exists m, ops, op. repeat split; assumption. }
  assert (R : match read_ops (read_op g) ops [], read_ops (read_op g') ops' [] with
              | Ok h, Ok h' => hrel new h h'
              | Ok _, _ | _, Ok _ => False
              | _, _ => True
              end).
  { assert (H0 : hrel new [] []) by (intros id; reflexivity).
    pose proof (read_ops_rel new inj g g' ops ops1 Fo G Gp' [] [] H0) as R.
    pose proof (nodup_renamed new inj ops ops1 Fo ND) as ND1.
    assert (ND' : NoDup (map id_in ops')) by (eapply Permutation_NoDup; [apply Permutation_map; exact Pm|exact ND1]).
    destruct (read_ops (read_op g) ops []) as [h| | | |].
    { destruct (read_ops (read_op g') ops1 []) as [h'| | | |] eqn:E; try contradiction R.
      rewrite (read_ops_perm (read_op g') ops1 ops' Pm ND1 [] h' (swf_nil _) E). exact R. }
    all: destruct (read_ops (read_op g') ops' []) as [h'| | | |] eqn:E; try exact Logic.I;
      rewrite (read_ops_perm (read_op g') ops' ops1 (Permutation_sym Pm) ND' [] h' (swf_nil _) E) in R; exact R. }
  destruct (read_ops (read_op g) ops []) as [h| | | |], (read_ops (read_op g') ops' []) as [h'| | | |]; try contradiction R; try exact Logic.I.
  cbn [rbind]. pose proof (read_conns_rel new inj cs cs' Fc h h' R) as S.
  destruct (read_conns cs h) as [k| | | |], (read_conns cs' h') as [k'| | | |]; try contradiction S; try exact Logic.I. cbn [rbind]. cbn in S.
  rewrite (S entry). destruct (sfind entry k) as [o|]; [|exact Logic.I]. cbn [option_map].
  change (o_ctrl (op_base (rt new o))) with (o_ctrl (op_base o)). destruct (o_ctrl (op_base o)).
  - split; [exact S|]. split; [reflexivity|exact F].
  - split; [intros id; reflexivity|]. split; [cbn; symmetry; now apply E0|apply frel_nil].
Qed.

(** The same definition with other names for its operators, everywhere the names occur, and with the
    operators listed in any order, is accepted or refused with the first one.  The two programs give
    the same answers to the same calls, debug or not, up to the names: the same failures, and the
    same messages on the same ports of the same operators. *)
Theorem C97_names (new : string -> string) (g g' : string -> junk) (text text' : string) (j j' : json) :
  parse text = Ok j -> parse text' = Ok j' ->
  renaming new -> renamed_definition new j j' -> same_memory new j g g' ->
  ((exists p, new_prog g text = Ok p) <-> (exists p', new_prog g' text' = Ok p')) /\
  forall p p' n history, new_prog g text = Ok p -> new_prog g' text' = Ok p' ->
    Forall2 (renamed_answer new) (fst (conversation n p history)) (fst (conversation n p' history)).
Proof.
  intros P P' R D M. pose proof (init_renamed new g g' text text' j j' R D M) as S. unfold new_prog. rewrite P, P'. cbn [rbind]. split.
  - split; intros [p E]; rewrite E in S.
    + destruct (init g' text' j') as [p'| | | |]; try contradiction S. now exists p'.
    + destruct (init g text j) as [p'| | | |]; try contradiction S. now exists p'.
  - intros p p' n history E E'. rewrite E, E' in S. now apply conversation_rel; [apply R|].
Qed.

Lemma conversation_same n history : forall p q, same_program p q -> fst (conversation n p history) = fst (conversation n q history).
Proof.
  induction history as [|[debug b] bs IH]; intros p q S; [reflexivity|]. cbn [conversation].
  assert (X : fst (receive_as debug n p b) = fst (receive_as debug n q b) /\ same_program (snd (receive_as debug n p b)) (snd (receive_as debug n q b))).
  { destruct debug; [|now apply receive_same]. destruct S as (A & B & C). unfold receive_as, receive_debug. rewrite A, B. destruct (shas (p_entry q) (p_ops q)); [|now repeat split].
    destruct (send_batch n (p_entry q) b [] (p_ops q)) as [r h]. now repeat split. }
  destruct X as [A B]. destruct (receive_as debug n p b) as [r p1], (receive_as debug n q b) as [r' q1]. cbn [fst snd] in *. subst r'. specialize (IH p1 q1 B).
  destruct (conversation n p1 bs), (conversation n q1 bs). cbn [fst] in *. now subst.
Qed.

(** when only the list of operators differs and the programs read from it are the same *)
Lemma init_operators g t t' m m' ops ops' p :
  sfind "operators" m = Some (JArr ops) -> sfind "operators" m' = Some (JArr ops') -> (forall key, key <> "operators" -> sfind key m = sfind key m') ->
  (forall h, read_ops (read_op g) ops [] = Ok h -> read_ops (read_op g) ops' [] = Ok h) ->
  init g t (JObj m) = Ok p -> exists p', init g t' (JObj m') = Ok p' /\ same_program p p'.
Proof.
  intros O O' K H. unfold init, jvalue, filter_of. cbn [jat]. rewrite O, O', <- (K "entryOperator"), <- (K "output"), <- (K "connections") by discriminate.
  destruct (match sfind "entryOperator" m with Some x => get_str x | None => Ok "" end) as [entry| | | |]; try discriminate. cbn [rbind].
  destruct (String.eqb entry ""); [discriminate|].
  match goal with |- (let! filter := ?x in _) = _ -> _ => destruct x as [f| | | |]; try discriminate end. cbn [rbind jitems].
  destruct (read_ops (read_op g) ops []) as [h| | | |]; try discriminate. rewrite (H h eq_refl). cbn [rbind].
  destruct (match sfind "connections" m with Some x => Ok x | None => Throw (JsonError "out_of_range") end) as [cs| | | |]; try discriminate. cbn [rbind].
  destruct (read_conns (jitems cs) h) as [k| | | |]; try discriminate. cbn [rbind]. destruct (sfind entry k) as [o|]; [|discriminate].
  destruct (o_ctrl (op_base o)); intros [= <-]; eexists; (split; [reflexivity|]); repeat split.
Qed.

(** In particular the order of operators with different ids does not matter at all: the programs
    are the same. *)
Theorem C97_order (g : string -> junk) (text text' : string) (j j' : json) (p : program) :
  parse text = Ok j -> parse text' = Ok j' -> relisted j j' -> new_prog g text = Ok p ->
  exists p', new_prog g text' = Ok p' /\ same_program p p' /\
    forall n history, fst (conversation n p history) = fst (conversation n p' history).
Proof.
  intros P P' (m & m' & ops & ops' & -> & -> & O & O' & Pm & ND & K). unfold new_prog. rewrite P, P'. cbn [rbind]. intros E.
  destruct (init_operators g text text' m m' ops ops' p O O' K) as (p' & E' & S); [|exact E|].
  - intros h R. exact (read_ops_perm (read_op g) ops ops' Pm ND [] h (swf_nil _) R).
  - exists p'. split; [exact E'|]. split; [exact S|]. intros n history. now apply conversation_same.
Qed.

(** When an id occurs twice only the first operator with it counts; the other one is created and
    dropped without a word. *)
Theorem C97_twice (g : string -> junk) (text text' : string) (j j' : json) (p : program) :
  parse text = Ok j -> parse text' = Ok j' -> without_second j j' -> new_prog g text = Ok p ->
  exists p', new_prog g text' = Ok p' /\ same_program p p' /\
    forall n history, fst (conversation n p history) = fst (conversation n p' history).
Proof.
  intros P P' (m & m' & l1 & x & l2 & -> & -> & O & O' & I & K). unfold new_prog. rewrite P, P'. cbn [rbind]. intros E.
  destruct (init_operators g text text' m m' _ _ p O O' K) as (p' & E' & S); [|exact E|].
  - intros h. rewrite !read_ops_app. destruct (read_ops (read_op g) l1 []) as [h1| | | |] eqn:R; try discriminate. cbn [rbind read_ops].
    destruct (jindex "id" x) as [idj| | | |] eqn:J; try discriminate. cbn [rbind]. destruct (read_op g x) as [o| | | |]; try discriminate. cbn [rbind].
    destruct (get_str idj) as [i| | | |] eqn:Gi; try discriminate. cbn [rbind]. apply get_str_ok in Gi. subst idj.
    destruct (read_ops_has (read_op g) l1 [] h1 R) as [_ B]. unfold semplace.
    destruct (sfind i h1) eqn:F; [auto|]. exfalso. apply (B i); [|exact F].
    destruct x as [| | | | | |mx]; try discriminate J. cbn in J, I. destruct (sfind "id" mx); try discriminate J. injection J as ->. exact I.
  - exists p'. split; [exact E'|]. split; [exact S|]. intros n history. now apply conversation_same.
Qed.

End C97.

Print Assumptions C97_names.
Print Assumptions C97_order.
Print Assumptions C97_twice.

(** Not vacuous: a program with an output section, whose input and moving average exchange their
    names, with the operators in another order. *)
Definition swap (s : string) : string := if String.eqb s "in" then "ma" else if String.eqb s "ma" then "in" else s.
Definition conn (a b port : string) : @json QcOps := JObj [("from", JStr a); ("fromPort", JStr "o1"); ("to", JStr b); ("toPort", JStr port)].
Definition before_text : @json QcOps := JObj [
  ("connections", JArr [conn "in" "ma" "i1"; conn "in" "minus" "i1"; conn "ma" "minus" "i2"]);
  ("entryOperator", JStr "in");
  ("operators", JArr [JObj [("id", JStr "in"); ("type", JStr "Input")];
                      JObj [("id", JStr "ma"); ("n", JInt 2); ("type", JStr "MovingAverage")];
                      JObj [("id", JStr "minus"); ("type", JStr "Minus")]]);
  ("output", JObj [("ma", JArr [JStr "o1"]); ("minus", JArr [JStr "o1"])])].
Definition after_text : @json QcOps := JObj [
  ("connections", JArr [conn "ma" "in" "i1"; conn "ma" "minus" "i1"; conn "in" "minus" "i2"]);
  ("entryOperator", JStr "ma");
  ("operators", JArr [JObj [("id", JStr "minus"); ("type", JStr "Minus")];
                      JObj [("id", JStr "in"); ("n", JInt 2); ("type", JStr "MovingAverage")];
                      JObj [("id", JStr "ma"); ("type", JStr "Input")]]);
  ("output", JObj [("in", JArr [JStr "o1"]); ("minus", JArr [JStr "o1"])])].

Lemma swap_renaming : renaming swap.
Proof.
  assert (I : forall s, swap (swap s) = s).
  { intros s. unfold swap at 2. destruct (String.eqb_spec s "in") as [->|N]; [reflexivity|]. destruct (String.eqb_spec s "ma") as [->|N']; [reflexivity|].
    unfold swap. destruct (String.eqb_spec s "in"); [contradiction|]. destruct (String.eqb_spec s "ma"); [contradiction|reflexivity]. }
  split; [intros a b E; rewrite <- (I a), <- (I b); now rewrite E|]. intros a. split; [|intros ->; reflexivity].
  intros E. rewrite <- (I a), E. reflexivity.
Qed.

Example C97_example_hypotheses : renaming swap /\ renamed_definition swap before_text after_text /\ same_memory swap before_text j0 j0.
Proof.
  split; [exact swap_renaming|]. split.
  - exists [("connections", JArr [conn "in" "ma" "i1"; conn "in" "minus" "i1"; conn "ma" "minus" "i2"]);
  ("entryOperator", JStr "in");
  ("operators", JArr [JObj [("id", JStr "in"); ("type", JStr "Input")];
                      JObj [("id", JStr "ma"); ("n", JInt 2); ("type", JStr "MovingAverage")];
                      JObj [("id", JStr "minus"); ("type", JStr "Minus")]]);
  ("output", JObj [("ma", JArr [JStr "o1"]); ("minus", JArr [JStr "o1"])])].
    eexists. exists "in". eexists.
    exists [JObj [("id", JStr "ma"); ("type", JStr "Input")]; JObj [("id", JStr "in"); ("n", JInt 2); ("type", JStr "MovingAverage")]; JObj [("id", JStr "minus"); ("type", JStr "Minus")]].
    do 3 eexists. split; [reflexivity|]. split; [reflexivity|]. split; [reflexivity|]. split; [reflexivity|]. split; [reflexivity|]. split; [reflexivity|].
    assert (L : forall (m m' : list (string * @json QcOps)) id, sfind "id" m = Some (JStr id) -> sfind "id" m' = Some (JStr (swap id)) -> (forall key, key <> "id" -> sfind key m = sfind key m') -> renamed_operator swap (JObj m) (JObj m')).
    { intros m m' id A B C. exists m, m', id. repeat split; assumption. }
    assert (K : forall a b port, renamed_connection swap (conn a b port) (conn (swap a) (swap b) port)).
    { intros a b port. do 2 eexists. exists a, b. do 6 (split; [reflexivity|]). intros key N N'. cbn [sfind].
      destruct (String.eqb_spec key "from"); [contradiction|]. destruct (String.eqb_spec key "to"); [contradiction|]. reflexivity. }
    split; [|split; [|split; [|split; [reflexivity|split; [reflexivity|split]]]]].
    + repeat (apply Forall2_cons; [eapply L; [reflexivity|reflexivity|intros key N; cbn [sfind]; destruct (String.eqb_spec key "id"); [contradiction|reflexivity]]|]). apply Forall2_nil.
    + apply (Permutation_rev [_; _; _]).
    + cbn. repeat constructor; cbn; intuition discriminate.
    + apply Forall2_cons; [exact (K "in" "ma" "i1")|]. apply Forall2_cons; [exact (K "in" "minus" "i1")|]. apply Forall2_cons; [exact (K "ma" "minus" "i2")|]. apply Forall2_nil.
    + right. do 2 eexists. split; [reflexivity|]. split; [reflexivity|]. split; [|apply Permutation_refl]. cbn. repeat constructor; cbn; intuition discriminate.
  - split; [reflexivity|]. intros (m & ops & op & [= <-] & [= <-] & I & T). cbn in I. repeat destruct I as [[= <-]|I]; try discriminate T. contradiction I.
Qed.

Definition heard (j : @json QcOps) : list (list (string * list (string * list (Z * Q)))) :=
  match new_prog (JT := a_text j JNull) j0 "text" with
  | Ok p => map (fun r => match r with Ok out => map (fun x => (fst x, show_om (snd x))) out | _ => [] end)
                (fst (conversation 8 p [(false, [("i1", [im 1 10; im 2 20])]); (true, [("i1", [im 3 40])])]))
  | _ => []
  end.
Example C97_example :
  heard before_text = [[("ma", [("o1", [(2, 15%Q)])]); ("minus", [("o1", [(2, 5%Q)])])];
                       [("in", [("o1", [(3, 40%Q)])]); ("ma", [("o1", [(3, 30%Q)])]); ("minus", [("o1", [(3, 10%Q)])])]] /\
  heard after_text = [[("in", [("o1", [(2, 15%Q)])]); ("minus", [("o1", [(2, 5%Q)])])];
                      [("in", [("o1", [(3, 30%Q)])]); ("ma", [("o1", [(3, 40%Q)])]); ("minus", [("o1", [(3, 10%Q)])])]].
Proof. vm_compute. auto. Qed.

(** The ids have to be different: with two operators of the same name the order decides. *)
Definition twice_text (first second : Z) : @json QcOps := JObj [
  ("connections", JArr [conn "in" "x" "i1"]);
  ("entryOperator", JStr "in");
  ("operators", JArr [JObj [("id", JStr "in"); ("type", JStr "Input")];
                      JObj [("id", JStr "x"); ("type", JStr "Scale"); ("value", JInt first)];
                      JObj [("id", JStr "x"); ("type", JStr "Scale"); ("value", JInt second)]]);
  ("output", JObj [("x", JArr [JStr "o1"])])].
Example C97_example_twice :
  map (fun r => match r with [x] => [x] | _ => [] end) (heard (twice_text 2 3)) = [[("x", [("o1", [(1, 20%Q); (2, 40%Q)])])]; []] /\
  map (fun r => match r with [x] => [x] | _ => [] end) (heard (twice_text 3 2)) = [[("x", [("o1", [(1, 30%Q); (2, 60%Q)])])]; []] /\
  without_second (twice_text 2 3) (JObj [
  ("connections", JArr [conn "in" "x" "i1"]);
  ("entryOperator", JStr "in");
  ("operators", JArr [JObj [("id", JStr "in"); ("type", JStr "Input")]; JObj [("id", JStr "x"); ("type", JStr "Scale"); ("value", JInt 2)]]);
  ("output", JObj [("x", JArr [JStr "o1"])])]).
Proof.
  split; [vm_compute; reflexivity|]. split; [vm_compute; reflexivity|].
  do 2 eexists. exists [JObj [("id", JStr "in"); ("type", JStr "Input")]; JObj [("id", JStr "x"); ("type", JStr "Scale"); ("value", JInt 2)]]. do 2 eexists.
  split; [reflexivity|]. split; [reflexivity|]. split; [reflexivity|]. split; [reflexivity|]. split; [cbn; tauto|].
  intros key N. cbn [sfind]. destruct (String.eqb_spec key "operators"); [contradiction|reflexivity].
Qed.
