(** * The program of the Fibonacci notebook, from the JSON definition to the answers (C93) *)

From Coq Require Import String ZArith QArith Qcanon Bool List Reals Lia.
From Flocq Require Import IEEE754.Binary IEEE754.Bits.
From Verif Require Import Base.StrMap Base.Num Base.NumQc Base.NumB64 Base.NumCount Model.Core Model.Ops Model.Make Model.Run Model.Graph Model.Json.
From Verif Require Import Spec.Streams Spec.Multi Spec.Show Spec.Snapshot Spec.Definition Spec.Windows Spec.Synchronous Spec.Fibonacci.
From Verif Require Import Proofs.InputP Proofs.FieldFacts Proofs.Symbolic Proofs.FeedbackP Proofs.FeedbackRun Proofs.FibP Proofs.FibHist.
From Verif Require Properties.Definition Proofs.SwitchP Proofs.MovAvgB64.
Import ListNotations.
Open Scope string_scope.
Open Scope list_scope.
Open Scope Z_scope.
Open Scope rtbot_scope.

Section C93.
Context {NO : NumOps} {NC : NumCount NO} {JT : JsonText}.

(** The definition that the notebook makes is refused: it does not name its entry. *)
Theorem C93_notebook_refuted (g : string -> junk) (text : string) :
  parse text = Ok fibonacci_definition -> new_prog g text = Throw (RuntimeError "Entry operator was not specified").
Proof. intros P. unfold new_prog. rewrite P. vm_compute. reflexivity. Qed.

Lemma fibonacci_created g text : parse text = Ok (with_entry "in1" fibonacci_definition) -> exists p, new_prog g text = Ok p /\
  p_entry p = "in1" /\ p_filter p = [] /\ after [] (p_ops p).
Proof.
  intros P. eexists. unfold new_prog. rewrite P. split; [vm_compute; reflexivity|].
  split; [reflexivity|]. split; [reflexivity|]. exists []. split; [|reflexivity]. apply None0. cbn [p_ops].
  unfold none, statics, counted, demux, total, slot, holds.
  repeat match goal with |- _ /\ _ => split end.
  all: try (eexists _, _; split; [first [reflexivity|rewrite <- vofZ_0; reflexivity]|cbv [narrow length]; lia]).
  all: try (eexists _, _, _; first [reflexivity|rewrite <- vofZ_0; reflexivity]).
  all: try (eexists _, _; first [reflexivity|rewrite <- vofZ_0; reflexivity]).
  all: eexists _, _, _, _; split; [unfold var; rewrite <- vofZ_0; reflexivity|]; now left.
Qed.

(** With the entry named: for every history of calls that address the only input "i1", if the
    times of the messages received (those with times later than all before them) are between 0
    and 2^53, then all calls are answered and "plus1" shows 2, 3, 5, … at the times of the third,
    fourth, … message, up to the first time from the third on that is not one more than the time
    before. Nothing is shown from then on. All messages from the third on stay in the
    demultiplexer. *)
Theorem C93_fibonacci (g : string -> junk) (text : string) (n : nat) (history : list opmsg) :
  parse text = Ok (with_entry "in1" fibonacci_definition) -> (18 < n)%nat ->
  Forall (Forall (fun pm => fst pm = "i1")) history ->
  let x := records (sent_to "i1" history) in
  Forall (fun m => 0 <= mtime m < 2 ^ 53) x -> Z.of_nat (length x) < 2 ^ 53 ->
  exists p, new_prog g text = Ok p /\
    Forall (fun r => exists out, r = Ok out) (fst (session n p history)) /\
    answered (fst (session n p history)) "plus1" "o1" = shown x /\
    exists o port, sfind "demul1" (p_ops (snd (session n p history))) = Some o /\ sfind "i1" (o_data (op_base o)) = Some port /\ ip_data port = kept x.
Proof.
  intros P Hn F x T K. destruct (fibonacci_created g text P) as (p & Hp & Ee & Ef & A). exists p. split; [exact Hp|].
  unfold x in *. rewrite (SwitchP.sent_to_only history F) in *.
  destruct (after_all_calls "plus1" "in1" n after covered view covered_before has_entry (fun ms h m => after_one n ms h m Hn)
    history F [] p Ee Ef A (conj T K)) as (Fine & Y & (ls & S0 & _)). split; [exact Fine|]. split; [symmetry; exact Y|].
  destruct (state_kept _ _ _ S0) as (s & s1 & s2 & D). eexists _, _. split; [exact D|]. split; reflexivity.
Qed.
End C93.
Print Assumptions C93_notebook_refuted.
Print Assumptions C93_fibonacci.

(** exact numbers: the values shown are the Fibonacci numbers *)
Theorem C93_values {NO : NumOps} {NF : NumField NO} (k : nat) : fib k = vofZ (fibonacci k).
Proof.
  enough (H : fib k = vofZ (fibonacci k) /\ fib (S k) = vofZ (fibonacci (S k))) by apply H.
  induction k as [|k [IH1 IH2]]; [auto|]. split; [exact IH2|].
  change (vadd (fib k) (fib (S k)) = vofZ (fibonacci k + fibonacci (S k))). rewrite v_ofZ_add, IH1, IH2. reflexivity.
Qed.
Print Assumptions C93_values.

(** the values of the program are doubles *)
Theorem C93_fibonacci_doubles pow cos {JT : @JsonText (b64_ops pow cos)} (g : string -> @junk (b64_ops pow cos)) (text : string) (n : nat)
    (history : list (@opmsg (b64_ops pow cos))) :
  @parse (b64_ops pow cos) JT text = Ok (with_entry "in1" fibonacci_definition) -> (18 < n)%nat ->
  Forall (Forall (fun pm => fst pm = "i1")) history ->
  let x := records (sent_to "i1" history) in
  Forall (fun m => 0 <= mtime m < 2 ^ 53) x -> Z.of_nat (length x) < 2 ^ 53 ->
  exists p, new_prog g text = Ok p /\
    Forall (fun r => exists out, r = Ok out) (fst (session n p history)) /\
    answered (fst (session n p history)) "plus1" "o1" = shown x.
Proof.
  intros P Hn F x T K. destruct (@C93_fibonacci _ _ JT g text n history P Hn F T K) as (p & Hp & Fine & Y & _). exists p. auto.
Qed.
Print Assumptions C93_fibonacci_doubles.

Lemma fibonacci_mono k j : (k <= j)%nat -> 1 <= fibonacci k <= fibonacci j.
Proof.
  assert (P : forall i, 1 <= fibonacci i /\ fibonacci i <= fibonacci (S i)).
  { intros i. enough (H : 1 <= fibonacci i /\ 1 <= fibonacci (S i) /\ fibonacci i <= fibonacci (S i)) by tauto.
    induction i as [|i (I1 & I2 & I3)]; [cbn; lia|]. change (fibonacci (S (S i))) with (fibonacci i + fibonacci (S i)). lia. }
  intros H. induction H as [|j H IH]; [pose proof (P k); lia|]. pose proof (P j). lia.
Qed.

(** doubles hold the first 78 of them exactly *)
Theorem C93_values_doubles pow cos (k : nat) : (k < 78)%nat ->
  is_finite 53 1024 (@fib (b64_ops pow cos) k) = true /\ B2R 53 1024 (@fib (b64_ops pow cos) k) = IZR (fibonacci k).
Proof.
  assert (B : fibonacci 77 <= 2 ^ 53).
  { replace (fibonacci 77) with 8944394323791464; [lia|].
    assert (E : forall i a b m, (fibonacci m = a /\ fibonacci (S m) = b) ->
      fibonacci (i + m) = fst (Nat.iter i (fun ab => (snd ab, fst ab + snd ab)) (a, b)) /\
      fibonacci (S (i + m)) = snd (Nat.iter i (fun ab => (snd ab, fst ab + snd ab)) (a, b))).
    { induction i as [|i IH]; intros a b m H; [exact H|]. destruct (IH a b m H) as [I1 I2]. cbn [Nat.iter Nat.add nat_rect fst snd].
      split; [exact I2|]. change (fibonacci (S (S (i + m)))) with (fibonacci (i + m) + fibonacci (S (i + m))). rewrite I1, I2. reflexivity. }
    destruct (E 77%nat 1 1 0%nat (conj eq_refl eq_refl)) as [E1 _]. rewrite Nat.add_0_r in E1. rewrite E1. vm_compute. reflexivity. }
  intros Hk. change (MovAvgB64.exactly (fibonacci k) (@fib (b64_ops pow cos) k)).
  assert (One : MovAvgB64.exactly 1 (b64_ofZ 1)) by (destruct (b64_ofZ_exact 1) as [H1 H2]; [lia|]; split; auto).
  enough (H : MovAvgB64.exactly (fibonacci k) (@fib (b64_ops pow cos) k) /\ (S k < 78 -> MovAvgB64.exactly (fibonacci (S k)) (@fib (b64_ops pow cos) (S k)))%nat) by apply H.
  induction k as [|k IH]; [auto|]. destruct (IH ltac:(lia)) as [I1 I2]. specialize (I2 Hk). split; [exact I2|]. intros H2.
  pose proof (fibonacci_mono (S (S k)) 77 ltac:(lia)) as M.
  change (MovAvgB64.exactly (fibonacci k + fibonacci (S k)) (b64_plus mode_NE (@fib (b64_ops pow cos) k) (@fib (b64_ops pow cos) (S k)))).
  apply MovAvgB64.exactly_plus; [exact I1|exact I2|]. change (fibonacci k + fibonacci (S k)) with (fibonacci (S (S k))). lia.
Qed.
Print Assumptions C93_values_doubles.

Import Properties.Definition.
Definition ticks (ts : list Z) : list (@opmsg QcOps) :=
  [[("i1", map (fun t => im t t) (firstn 3 ts))]; [("i1", [im 1 0])]; [("i1", map (fun t => im t t) (skipn 3 ts))]].
Definition told (ts : list Z) : list bool * list (Z * Q) :=
  match new_prog (JT := a_text (with_entry "in1" fibonacci_definition) JNull) j0 "text" with
  | Ok p => let rs := fst (session 19 p (ticks ts)) in
    (map (fun r => match r with Ok _ => true | _ => false end) rs, map show_msg (answered rs "plus1" "o1"))
  | _ => ([], [])
  end.

(** Not vacuous: the first gap does not matter, the last message is not later than those before *)
Example C93_example_hypotheses : Forall (Forall (fun pm => fst pm = "i1")) (ticks [1; 4; 5; 6; 7; 8; 9; 9]) /\
  let x := records (sent_to "i1" (ticks [1; 4; 5; 6; 7; 8; 9; 9])) in
  map mtime x = [1; 4; 5; 6; 7; 8; 9] /\ map show_msg (shown x) = [(5, 2%Q); (6, 3%Q); (7, 5%Q); (8, 8%Q); (9, 13%Q)].
Proof. split; [repeat constructor|]. vm_compute. auto. Qed.
Example C93_example : told [1; 4; 5; 6; 7; 8; 9; 9] = ([true; true; true], [(5, 2%Q); (6, 3%Q); (7, 5%Q); (8, 8%Q); (9, 13%Q)]).
Proof. vm_compute. reflexivity. Qed.
(** a gap after the fourth message *)
Example C93_example_gap : told [1; 2; 3; 4; 6; 7; 8; 9] = ([true; true; true], [(3, 2%Q); (4, 3%Q)]).
Proof. vm_compute. reflexivity. Qed.
