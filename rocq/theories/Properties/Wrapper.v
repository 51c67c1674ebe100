(** * C66-C68: running data through a program with the Python module *)

From Coq Require Import String Ascii ZArith QArith Bool List Lia Sorted.
From Verif Require Import Base.StrMap Base.Num Base.NumQc Model.Core Model.Make Model.Graph Model.Codec Model.Json Model.Factory Model.Schema Model.Wrapper.
From Verif Require Import Spec.Shape Spec.Show Spec.Manager Spec.Definition Spec.Schema Spec.Wrapper.
From Verif Require Import Proofs.Ports Proofs.FactoryP Proofs.JsonP Proofs.SchemaP Proofs.SchemaNew Proofs.Emitted Proofs.WrapperP Proofs.WrapperRun.
From Verif Require Import Properties.Definition Properties.Manager Properties.Schema.
Import ListNotations.
Open Scope string_scope.
Open Scope list_scope.
Open Scope Z_scope.
Open Scope rtbot_scope.

Section Wrapper.
Context {NO : NumOps} {SL : SchemaLib} {JT : JsonText} {NC : NumCodec NO} {PJ : PyJson}.

(** ** C66: a run returns what the program, alone and new, answers to the rows, in order and
    under "operator:port"; nothing of the run is left *)
Theorem C66_run (n : nat) (id : string) (g : string -> junk) (text : string) (rows : list row) (m : manager)
    (p p' : program) (ports : list string) (outs : list progmsg) :
  reachable_manager m -> sfind id (f_programs m) = None -> sfind id (f_buffer m) = None ->
  validate text = Ok true -> new_prog g text = Ok p -> entry_ports p = Ok (RPorts ports) ->
  Forall (row_fits ports) rows ->
  fed n ports rows p = (Ok outs, p') -> all_shown outs ->
  exists t, run_exec n id g text rows m = (Ok t, m) /\
    forall op port, no_colon port = true -> odefault [] (sfind (op ++ ":" ++ port)%string t) = of_port op port outs.
Proof.
  intros R N B V E P F X A. destruct (run_ok n id g text rows m p ports outs p' (reachable_wf m R) N B V E P F X A) as (t & Et & K).
  exists t. split; [exact Et|]. intros op port C. etransitivity; [apply (K (table_key op port))|]. apply under_port; [exact C|].
  assert (Z := fed_ports n ports rows p outs p' (proj1 (new_prog_good _ _ _ E)) (new_outs _ _ _ E) X).
  intros out op' om port' ms I1 I2 I3. rewrite Forall_forall in Z. exact (Z out I1 op' om port' ms I2 I3).
Qed.

(** A run of a definition that is not valid, or from which no program can be created, returns no
    table, whatever programs there are. *)
Theorem C66_rejected (n : nat) (id : string) (g : string -> junk) (text : string) (rows : list row) (m : manager) (t : table) :
  validate text <> Ok true \/ (forall p, new_prog g text <> Ok p) -> fst (run_exec n id g text rows m) <> Ok t.
Proof.
  intros H. unfold run_exec.
  assert (C : (exists s, fst (create_checked id g text m) = Ok (RText s) /\ String.eqb s "" = false) \/ forall r, fst (create_checked id g text m) <> Ok r).
  { unfold create_checked. destruct (validate text) as [[|]| | | |]; try (right; intros r; discriminate).
    - destruct H as [H|H]; [congruence|]. unfold create_text. destruct (new_prog g text) as [p|[]| | |]; try (right; intros r; discriminate); [now destruct (H p)|].
      match goal with |- context [JsonError ?e] => destruct (string_dec e "parse_error") as [->|Ne] end.
      + left. eexists. split; reflexivity.
      + right. intros r. repeat match goal with |- context [match ?x with _ => _ end] => destruct x; try discriminate; try congruence end.
    - left. eexists. split; reflexivity. }
  destruct (create_checked id g text m) as [[r| | | |] m1]; cbn [bind sbind fst] in *; try discriminate.
  destruct C as [(s & E & Es)|C]; [|now destruct (C r)]. apply Ok_inj in E. subst r.
  destruct (with_program m1 id entry_ports) as [[ports| | | |] m2]; cbn [bind sbind fst]; try discriminate.
  destruct ports; cbn; try discriminate. rewrite Es. discriminate.
Qed.

(** ** C67: a run that succeeds can be repeated with the same result *)
Theorem C67_again_partial (n : nat) (id : string) (g : string -> junk) (text : string) (rows : list row) (m m' : manager) (t : table) :
  reachable_manager m -> sfind id (f_programs m) = None -> sfind id (f_buffer m) = None ->
  run_exec n id g text rows m = (Ok t, m') ->
  m' = m /\ run_exec n id g text rows m' = (Ok t, m').
Proof. intros R N B E. pose proof (run_back n id g text rows m t m' (reachable_wf m R) N B E) as ->. auto. Qed.

(** A run that does not succeed leaves its program. *)
Theorem C67_left (n : nat) (id : string) (g : string -> junk) (text : string) (rows : list row) (m m' : manager)
    (p : program) (ports : list string) (r : res table) :
  validate text = Ok true -> new_prog g text = Ok p -> sfind id (f_programs m) = None -> entry_ports p = Ok (RPorts ports) ->
  run_exec n id g text rows m = (r, m') -> (forall t, r <> Ok t) ->
  shas id (f_programs m') = true.
Proof.
  intros V E N P R F. rewrite (run_start n id g text rows m p ports N V E P) in R.
  assert (K := rows_keep n id ports rows [] (with_p id p m)). unfold shas in K at 1. rewrite with_p_find in K. specialize (K eq_refl).
  destruct (run_rows n id ports rows [] (with_p id p m)) as [[t| | | |] m3]; cbn [bind sbind snd] in *; try (now injection R as <- <-).
  unfold delete in R. cbn [bind sbind] in R. injection R as <- <-. exfalso. eapply F; eauto.
Qed.

(** A row with too many values is an IndexError.  The run that follows finds the old program, the
    counts continue and the rejected row is counted as well. *)
Theorem C67_rerun_refuted (n : nat) (g : string -> junk) (text : string) (v : V) :
  parse text = Ok counter -> (forall k, shown (vofZ k) = true) ->
  let first := run_exec (S n) "a" g text [(1, [v]); (2, [v; v])] no_programs in
  fst first = Throw (py_error "IndexError") /\
  fst (run_exec (S n) "a" g text [(1, [v])] no_programs) = Ok [("c:o1", [mkMsg 1 (vofZ 1)])] /\
  fst (run_exec (S n) "a" g text [(1, [v])] (snd first)) = Ok [("c:o1", [mkMsg 2 (vofZ 2); mkMsg 1 (vofZ 3)])].
Proof.
  intros P Sh. cbv zeta.
  assert (R1 : forall op port x k t, record1 op port [mkMsg x (vofZ k)] t =
    Ok (sset (table_key op port) (odefault [] (sfind (table_key op port) t) ++ [mkMsg x (vofZ k)]) t)).
  { intros. unfold record1. cbn. now rewrite Sh. }
  assert (R2 : forall op port x k y l t, record1 op port [mkMsg x (vofZ k); mkMsg y (vofZ l)] t =
    Ok (sset (table_key op port) (odefault [] (sfind (table_key op port) t) ++ [mkMsg x (vofZ k); mkMsg y (vofZ l)]) t)).
  { intros. unfold record1. cbn. now rewrite !Sh. }
  assert (X : exists m1, run_exec (S n) "a" g text [(1, [v]); (2, [v; v])] no_programs = (Throw (py_error "IndexError"), m1) /\
    fst (run_exec (S n) "a" g text [(1, [v])] m1) = Ok [("c:o1", [mkMsg 2 (vofZ 2); mkMsg 1 (vofZ 3)])]).
  { unfold run_exec, create_checked, create_text, validate, new_prog. rewrite P.
    replace (valid program_schema counter) with true by reflexivity.
    destruct n; eexists; (split; [repeat (cbn; rewrite ?R1); reflexivity|repeat (cbn; rewrite ?R2); reflexivity]). }
  destruct X as (m1 & -> & X). split; [reflexivity|]. split; [|exact X].
  unfold run_exec, create_checked, create_text, validate, new_prog. rewrite P.
  replace (valid program_schema counter) with true by reflexivity. destruct n; repeat (cbn; rewrite ?R1); reflexivity.
Qed.

(** ** C68: the k-th value of a row is for the k-th input of the entry operator *)
Theorem C68_columns_partial (n : nat) (id : string) (g : string -> junk) (text : string) (rows : list row) (m : manager)
    (j e : json) (p p' : program) (outs : list progmsg) :
  parse text = Ok j -> validate text = Ok true -> Forall ready (operators j) -> new_prog g text = Ok p ->
  entry j <> "" -> described (operators j) (entry j) = Some e -> control_inputs e = [] -> (length (data_inputs e) <= 9)%nat ->
  reachable_manager m -> sfind id (f_programs m) = None -> sfind id (f_buffer m) = None ->
  Forall (row_fits (data_inputs e)) rows ->
  fed n (data_inputs e) rows p = (Ok outs, p') -> all_shown outs ->
  exists t, run_exec n id g text rows m = (Ok t, m) /\
    forall op port, no_colon port = true -> odefault [] (sfind (op ++ ":" ++ port)%string t) = of_port op port outs.
Proof.
  intros P V R E N D C L M Np Nb F X A. assert (V' := V). unfold validate in V'. rewrite P in V'. injection V' as V'.
  eapply C66_run; eauto. eapply entry_columns; eauto. split; auto.
Qed.

(** With ten inputs the second value is for the tenth: the names are sorted as texts. *)
Definition ten : json :=
  JObj [("connections", JArr []); ("entryOperator", JStr "in"); ("operators", JArr [definition "Input" "in" [("numPorts", JInt 10)]])].
Theorem C68_columns_refuted (n : nat) (g : string -> junk) (text : string) (a b : V) :
  parse text = Ok ten -> shown a = true -> shown b = true ->
  data_inputs (definition "Input" "in" [("numPorts", JInt 10)]) = ["i1"; "i2"; "i3"; "i4"; "i5"; "i6"; "i7"; "i8"; "i9"; "i10"] /\
  fst (run_exec (S n) "a" g text [(1, [a; b])] no_programs) = Ok [("in:o1", [mkMsg 1 a]); ("in:o10", [mkMsg 1 b])].
Proof.
  intros P Ha Hb. split; [reflexivity|].
  assert (R : forall op port x t, x = a \/ x = b -> record1 op port [mkMsg 1 x] t =
    Ok (sset (table_key op port) (odefault [] (sfind (table_key op port) t) ++ [mkMsg 1 x]) t)).
  { intros op port x t [-> | ->]; unfold record1; cbn; [now rewrite Ha|now rewrite Hb]. }
  unfold run_exec, create_checked, create_text, validate, new_prog. rewrite P.
  replace (valid program_schema ten) with true by reflexivity. cbn [rbind].
  let x := eval vm_compute in (init g text ten) in replace (init g text ten) with x by (vm_compute; reflexivity).
  destruct n; repeat (cbn; rewrite ?R by auto); reflexivity.
Qed.

End Wrapper.

(** ** Examples: hypotheses met *)
Section Examples.
Definition a_py : @PyJson QcOps := {| py_loads := fun _ => Throw (RuntimeError "unused"); py_dumps := fun _ => "inner"; shown := fun _ => true |}.
Definition two_rows : list (@row QcOps) := [(1, [qc_ofZ 10]); (2, [qc_ofZ 20])].

(** the difference of two moving averages of Properties/Definition.v *)
Example C66_example : let JT := a_text macd JNull in let SL := a_lib in let PJ := a_py in
  match new_prog j0 "text" with
  | Ok p =>
      validate "text" = Ok true /\ match entry_ports p with Ok (RPorts l) => l | _ => [] end = ["i1"] /\
      match fst (fed 50 ["i1"] two_rows p) with
      | Ok outs => map show_msg (of_port "ma2" "o1" outs) = [(2, 15 # 1)] /\ map show_msg (of_port "in" "o1" outs) = [(1, 10 # 1); (2, 20 # 1)]
      | _ => False
      end /\
      match fst (run_exec 50 "a" j0 "text" two_rows no_programs) with
      | Ok t => map (fun x => (fst x, map show_msg (snd x))) t =
          [("in:o1", [(1, 10 # 1); (2, 20 # 1)]); ("ma1:o1", [(1, 10 # 1); (2, 20 # 1)]); ("ma2:o1", [(2, 15 # 1)]);
           ("minus:o1", [(2, 5 # 1)]); ("out:o1", [(2, 5 # 1)])]
      | _ => False
      end
  | _ => False
  end.
Proof. vm_compute. repeat split; reflexivity. Qed.
Example C66_example_rows : Forall (row_fits ["i1"]) two_rows.
Proof. repeat constructor. Qed.
Example C66_example_shown (outs : list (@progmsg QcOps)) : let PJ := a_py in all_shown outs.
Proof. intros PJ op port m _. reflexivity. Qed.

Definition one_input : @json QcOps := definition "Input" "in" [("numPorts", JInt 1)].
Example C68_example : described (list_at "operators" macd) (text_at "entryOperator" macd) = Some one_input /\
  data_inputs one_input = ["i1"] /\ control_inputs one_input = [].
Proof. repeat split; reflexivity. Qed.
End Examples.

Print Assumptions C66_run.
Print Assumptions C66_rejected.
Print Assumptions C67_again_partial.
Print Assumptions C67_left.
Print Assumptions C67_rerun_refuted.
Print Assumptions C68_columns_partial.
Print Assumptions C68_columns_refuted.
