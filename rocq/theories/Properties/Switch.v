(** * The example program with the demultiplexer, from the JSON definition to the answers (C90) *)

From Coq Require Import String ZArith QArith Qcanon Bool List Lia.
From Verif Require Import Base.StrMap Base.Num Base.NumQc Base.NumB64 Base.NumCount Model.Core Model.Ops Model.Make Model.Run Model.Graph Model.Json.
From Verif Require Import Spec.Streams Spec.Multi Spec.Show Spec.Snapshot Spec.Definition Spec.Windows Spec.Synchronous Spec.Shipped2.
From Verif Require Import Proofs.InputP Proofs.SwitchP.
From Verif Require Properties.Definition.
Import ListNotations.
Open Scope string_scope.
Open Scope list_scope.
Open Scope Z_scope.
Open Scope rtbot_scope.

Section C90.
Context {NO : NumOps} {NC : NumCount NO} {JT : JsonText}.

Lemma switch_created g text : parse text = Ok switch_definition -> exists p, new_prog g text = Ok p /\
  p_entry p = "in" /\ p_filter p = [] /\ after [] (p_ops p).
Proof.
  intros P. eexists. unfold new_prog. rewrite P. split; [vm_compute; reflexivity|].
  split; [reflexivity|]. split; [reflexivity|]. exists []. split; [|reflexivity].
  cbn [p_ops]. refine (Between 0 [] v0 [] v0 [] v0 [] v0 [] v0 [] v0 [] v0 [] v0 v0 v0 v0 [] v0 [] v0 [] v0 [] _ _ _ _ _ _ _ _ _ _ _ _); cbv [narrow length]; lia.
Qed.

(** For every history of calls that address the only input "i1", with any times and values, of less
    than 2^53 messages: all calls are answered, the first output of the demultiplexer shows the
    first 19 messages received (those with times later than all before them), the second one all
    others.  The control inputs of the demultiplexer have three connections each. *)
Theorem C90_switch (g : string -> junk) (text : string) (n : nat) (history : list opmsg) :
  parse text = Ok switch_definition -> (4 < n)%nat ->
  Forall (Forall (fun pm => fst pm = "i1")) history ->
  Z.of_nat (length (sent_to "i1" history)) < 2 ^ 53 ->
  exists p, new_prog g text = Ok p /\
    Forall (fun r => exists out, r = Ok out) (fst (session n p history)) /\
    let x := records (sent_to "i1" history) in
    answered (fst (session n p history)) "dm" "o1" = firstn 19 x /\
    answered (fst (session n p history)) "dm" "o2" = skipn 19 x.
Proof.
  intros P Hn F K. destruct (switch_created g text P) as (p & Hp & Ee & Ef & A). exists p. split; [exact Hp|].
  rewrite (sent_to_only history F) in *. rewrite map_length in K.
  destruct (after_history n history Hn F [] p Ee Ef A K) as (Fine & a & b & [D1 D2] & Y1 & Y2). split; [exact Fine|].
  change (records []) with (@nil msg) in D1, D2. rewrite firstn_nil in D1. rewrite skipn_nil in D2. rewrite Y1, Y2. split; [exact (eq_sym D1)|exact (eq_sym D2)].
Qed.
End C90.
Print Assumptions C90_switch.

(** the values of the program are doubles *)
Theorem C90_switch_doubles pow cos {JT : @JsonText (b64_ops pow cos)} (g : string -> @junk (b64_ops pow cos)) (text : string) (n : nat)
    (history : list (@opmsg (b64_ops pow cos))) :
  @parse (b64_ops pow cos) JT text = Ok switch_definition -> (4 < n)%nat ->
  Forall (Forall (fun pm => fst pm = "i1")) history ->
  Z.of_nat (length (sent_to "i1" history)) < 2 ^ 53 ->
  exists p, new_prog g text = Ok p /\
    Forall (fun r => exists out, r = Ok out) (fst (session n p history)) /\
    let x := records (sent_to "i1" history) in
    answered (fst (session n p history)) "dm" "o1" = firstn 19 x /\
    answered (fst (session n p history)) "dm" "o2" = skipn 19 x.
Proof. exact (C90_switch g text n history). Qed.
Print Assumptions C90_switch_doubles.

Import Properties.Definition.
(** Not vacuous: 25 messages in four calls, two of them not later than those before. *)
Definition many : list (@opmsg QcOps) :=
  [[("i1", map (fun i => im (Z.of_nat i) (Z.of_nat (i * i))) (seq 1 12))]; [("i1", [im 5 99; im 13 1])];
   [("i1", [im 13 7; im 14 2; im 15 3; im 16 4])]; [("i1", map (fun i => im (Z.of_nat i) 7) (seq 20 7))]].

Example C90_example_hypotheses : Forall (Forall (fun pm => fst pm = "i1")) many /\ Z.of_nat (length (sent_to "i1" many)) = 25.
Proof. split; [repeat constructor|vm_compute; reflexivity]. Qed.

Example C90_example :
  match new_prog (JT := a_text switch_definition JNull) j0 "text" with
  | Ok p => let rs := fst (session 8 p many) in
    (map (fun r => match r with Ok _ => true | _ => false end) rs, length (answered rs "dm" "o1"), map show_msg (answered rs "dm" "o2"))
  | _ => ([], 0%nat, [])
  end = ([true; true; true; true], 19%nat, [(23, 7%Q); (24, 7%Q); (25, 7%Q); (26, 7%Q)]).
Proof. vm_compute. reflexivity. Qed.
