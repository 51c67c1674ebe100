(** * C56: messages for existing inputs are accepted *)

From Coq Require Import String Ascii ZArith QArith Qcanon Bool List Lia.
From Verif Require Import Base.StrMap Base.Num Base.NumInt Base.NumQc Model.Core Model.Ops Model.Make Model.Graph Model.Json.
From Verif Require Import Spec.Shape Spec.Show Spec.Build Spec.Log Spec.Depth Spec.Snapshot Spec.Definition Spec.Bounds Spec.Pipeline Spec.Reliable.
From Verif Require Import Proofs.ShapeP Proofs.Deep Proofs.DepthP Proofs.BoundsP Proofs.JsonP Proofs.ReliableP Proofs.ReliableRun Proofs.ReliableNew.
From Verif Require Import Properties.Graph Properties.Definition Properties.Bounds.
Import ListNotations.
Open Scope string_scope.
Open Scope list_scope.
Open Scope Z_scope.
Open Scope rtbot_scope.

Section C56.
Context {NO : NumOps} {NI : NumInt NO} {JT : JsonText}.

Lemma addressed_same p p' batch : p_entry p' = p_entry p -> erase_heap (p_ops p') = erase_heap (p_ops p) ->
  addressed p batch -> addressed p' batch.
Proof. intros Ee E A port ms I. rewrite Ee. eapply entered_same; [exact E|]. exact (A port ms I). Qed.

Lemma session_fine n history : forall p level, good (p_ops p) -> (exists o, sfind (p_entry p) (p_ops p) = Some o) ->
  fits false (p_ops p) level -> (level (p_entry p) < n)%nat -> Forall (addressed p) history ->
  Forall (fun r => exists out, r = Ok out) (fst (session n p history)).
Proof.
  induction history as [|batch history IH]; intros p level G He F L A; [constructor|]. inversion A as [|? ? A1 A2]; subst.
  cbn [session]. pose proof (receive_fine n p batch G He A1) as X. cbv zeta in X.
  assert (Q : fst (receive n p batch) <> OutOfFuel).
  { intros Y. destruct (receive_debug_quiet false n p batch level (proj1 G) F L) as [Q _]. apply Q. revert Y. unfold receive.
    destruct (receive_debug n p batch) as [[r|e| | |] p1]; cbn; congruence. }
  destruct (receive n p batch) as [r p1]. cbn [fst snd] in *. destruct X as [X|(R & G1 & E1 & Ee1)]; [contradiction|].
  assert (Y : Forall (fun r => exists out, r = Ok out) (fst (session n p1 history))).
  { apply (IH p1 level); [exact G1| |eapply fits_same; eauto|now rewrite Ee1|].
    - rewrite Ee1. eapply there; eauto.
    - eapply Forall_impl; [|exact A2]. intros batch' A'. eapply addressed_same; eauto. }
  destruct (session n p1 history) as [rs p2]. constructor; auto.
Qed.

(** A program without cycles, of reliable operators, answers every sequence of calls: no
    exception, no undefined behaviour, no endless loop, whatever the times and values of the
    messages and in whatever order, as long as they are for inputs the entry operator has. *)
Theorem C56_no_failure (g : string -> junk) (text : string) (p0 : program) (n : nat) (history : list opmsg) :
  new_prog g text = Ok p0 -> p_ops p0 <> [] -> reliable_program p0 ->
  acyclic (p_ops p0) -> (heap_size (p_ops p0) < n)%nat -> Forall (addressed p0) history ->
  Forall (fun r => exists out, r = Ok out) (fst (session n p0 history)).
Proof.
  intros H NE R A L Ad. pose proof (new_good _ _ _ H R) as G. pose proof (new_entry _ _ _ H NE) as He.
  assert (X : ~ ~ Forall (fun r => exists out, r = Ok out) (fst (session n p0 history))).
  { intros N. apply (acyclic_fits false (p_ops p0) (proj1 G) A); [discriminate|]. intros (level & F & Hl).
    apply N. apply (session_fine n history p0 level); auto. specialize (Hl (p_entry p0)). lia. }
  assert (D : forall l : list (res progmsg), Forall (fun r => exists out, r = Ok out) l \/ ~ Forall (fun r => exists out, r = Ok out) l).
  { induction l as [|r l [IH|IH]]; [left; constructor| |right; intros Z; inversion Z; auto].
    destruct r; [left; constructor; eauto| | | |]; right; intros Z; inversion Z as [|? ? [out Y] ?]; discriminate Y. }
  destruct (D (fst (session n p0 history))) as [Y|Y]; [exact Y|contradiction].
Qed.

(** ** The conditions are needed *)

(** a RelativeStrengthIndex with n = 0 answers the first message and throws at the second *)
Theorem C56_rsi_refuted (g : string -> junk) (text : string) :
  parse text = Ok (one_operator (definition "RelativeStrengthIndex" "j" [("n", JInt 0)])) ->
  exists p0, new_prog g text = Ok p0 /\
    forall (n : nat) (m1 m2 : msg), exists r x, fst (session (S n) p0 [[("i1", [m1])]; [("i1", [m2])]]) = [Ok r; Throw x].
Proof.
  intros P. eexists. split; [unfold new_prog; rewrite P; reflexivity|]. intros n m1 m2. eexists _, _. reflexivity.
Qed.

End C56.
Print Assumptions C56_no_failure.
Print Assumptions C56_rsi_refuted.

(** ** Example: in -> Pipeline around a moving average, RelativeStrengthIndex; their difference -> out *)
Definition sturdy : @json QcOps := obj [
  ("entryOperator", JStr "in");
  ("operators", JArr [definition "Input" "in" [("numPorts", JInt 1)]; a_pipe;
                      definition "RelativeStrengthIndex" "rsi" [("n", JInt 2)];
                      definition "Minus" "minus" []; definition "Output" "out" [("numPorts", JInt 1)]]);
  ("connections", JArr [a_conn "in" "p"; a_conn "in" "rsi"; a_conn_to "p" "minus" "i1";
                        a_conn_to "rsi" "minus" "i2"; a_conn "minus" "out"])].
Definition sturdy_program : res (@program QcOps) := new_prog (JT := a_text sturdy inner_ma) j0 "text".
Definition sturdy_rank (id : string) : nat :=
  if String.eqb id "in" then 3%nat else if String.eqb id "minus" then 1%nat else if String.eqb id "out" then 0%nat else 2%nat.

Example C56_example : match sturdy_program with
  | Ok p => p_ops p <> [] /\ reliable_program p /\ acyclic (p_ops p) /\ heap_size (p_ops p) = 7%nat /\
            addressed p [("i1", [im 5 1; im 3 2; im 3 7])]
  | _ => False
  end.
Proof.
  assert (X : exists p, sturdy_program = Ok p /\ fold_right (fun x P => every reliable (snd x) /\ P) True (p_ops p) /\
    edges (p_ops p) = [("in", "p"); ("in", "rsi"); ("minus", "out"); ("p", "minus"); ("rsi", "minus")] /\
    heap_size (p_ops p) = 7%nat /\ (forall id b js ops ins outs pm, sfind id (p_ops p) = Some (Op b (KPipeline js ops ins outs pm)) ->
      edges ops = [("a", "b")] /\ forall x y, In (x, y) ops -> is_pipeline y = false) /\
    exists o, sfind (p_entry p) (p_ops p) = Some o /\ skeys (o_data (op_base o)) = ["i1"]).
  { eexists. split; [reflexivity|]. split; [|split; [reflexivity|split; [reflexivity|split; [|eexists; split; reflexivity]]]].
    - repeat split.
      + intros id [<-|[<-|[]]]; reflexivity.
      + intros port q F. cbn in F. destruct (String.eqb port "i1"); [|discriminate F]. injection F as <-. cbn. lia.
    - intros id b js ops ins outs pm F. apply sfind_In in F. destruct F as [F|[F|[F|[F|[F|[]]]]]]; try discriminate F.
      injection F as _ _ _ F _ _ _. subst ops. split; [reflexivity|]. intros x y [I|[I|[]]]; injection I as _ <-; reflexivity. }
  destruct X as (p & -> & R & E & S & I & o & F & K). split; [|split; [|split; [|split]]].
  - intros N. rewrite N in S. discriminate S.
  - apply every_fold in R. intros path o' L. exact (every_L _ _ (lookup_every _ _ _ _ R L)).
  - apply (ranked_acyclic sturdy_rank).
    + intros a b W. apply edges_wired in W. rewrite E in W. destruct W as [W|[W|[W|[W|[W|[]]]]]]; injection W as <- <-; vm_compute; lia.
    + intros id b js ops ins outs pm Fo. destruct (I _ _ _ _ _ _ _ Fo) as [Ei Ii].
      apply (ranked_acyclic (fun id => if String.eqb id "a" then 1%nat else 0%nat)).
      * intros a c W. apply edges_wired in W. rewrite Ei in W. destruct W as [W|[]]. injection W as <- <-. vm_compute. lia.
      * intros id' b' js' ops' ins' outs' pm' Fi. apply sfind_In in Fi. apply Ii in Fi. discriminate Fi.
  - exact S.
  - intros port ms [[= <- <-]|[]]. exists o. split; [exact F|]. rewrite K. now left.
Qed.

(** times that decrease and repeat are no problem *)
Example C56_example_run : match sturdy_program with
  | Ok p => map (fun r => match r with Ok out => true | _ => false end)
      (fst (session 50 p [[("i1", [im 5 1; im 3 2; im 3 7])]; [("i1", [im 1 1; im 9 2; im 10 4])]; []]))
  | _ => []
  end = [true; true; true].
Proof. vm_compute. reflexivity. Qed.
