(** * The generated program with feedback, from the JSON definition to the answers (C91) *)

From Coq Require Import String ZArith QArith Qcanon Bool List Lia.
From Verif Require Import Base.StrMap Base.Num Base.NumQc Base.NumB64 Base.NumCount Model.Core Model.Ops Model.Make Model.Run Model.Graph Model.Json.
From Verif Require Import Spec.Streams Spec.Multi Spec.Show Spec.Snapshot Spec.Definition Spec.Windows Spec.Synchronous Spec.Feedback.
From Verif Require Import Proofs.InputP Proofs.Symbolic Proofs.FeedbackP Proofs.FeedbackRun Proofs.FeedbackHist.
From Verif Require Properties.Definition Proofs.SwitchP.
Import ListNotations.
Open Scope string_scope.
Open Scope list_scope.
Open Scope Z_scope.
Open Scope rtbot_scope.

Section C91.
Context {NO : NumOps} {NC : NumCount NO} {NT : NumTime NO} {JT : JsonText}.

Lemma feedback_created a b g text : parse text = Ok (feedback_definition a b) -> exists p, new_prog g text = Ok p /\
  p_entry p = "754" /\ p_filter p = [("467", ["o1"])] /\ after a b [] (p_ops p).
Proof.
  intros P. eexists. unfold new_prog. rewrite P. split; [vm_compute; reflexivity|].
  split; [reflexivity|]. split; [reflexivity|]. exists []. split; [|reflexivity]. apply Fresh. cbn [p_ops].
  unfold fresh, statics, three, counted, demux, no_difference, loss_average, gain_average, quotient, slot, recorded.
  repeat match goal with |- _ /\ _ => split end.
  all: try (eexists _, _; split; [first [reflexivity|rewrite <- vofZ_0; reflexivity]|cbv [narrow length]; lia]).
  all: try (eexists _, _, _; first [reflexivity|rewrite <- vofZ_0; reflexivity]).
  all: try (eexists _, _; first [reflexivity|rewrite <- vofZ_0; reflexivity]).
  all: try (eexists; first [reflexivity|rewrite <- vofZ_0; reflexivity]).
  all: eexists _, [], _, _; split; [unfold var; rewrite <- vofZ_0; reflexivity|]; split; [now left|]; split; [constructor|]; split; [reflexivity|cbn; lia].
Qed.

(** For every history of calls that address the only input "i1": if the times of the messages
    received (those with times later than all before them) are between 0 and 2^53 and one apart
    from the fifteenth on, and their values can be compared, then all calls are answered and the
    output shows the relative strength index, 100 - 100 / (1 + g / l): g and l are at first the
    sums of the first 14 gains and losses times [b], and then smoothed with weights [a] and [b].
    Nothing is shown while l is zero; the first value comes one message late, unless the fifteenth
    message repeats the value before. *)
Theorem C91_feedback (a b : V) (g : string -> junk) (text : string) (n : nat) (history : list opmsg) :
  parse text = Ok (feedback_definition a b) -> (20 < n)%nat ->
  Forall (Forall (fun pm => fst pm = "i1")) history ->
  let x := records (sent_to "i1" history) in
  Forall (fun m => 0 <= mtime m < 2 ^ 53) x -> Z.of_nat (length x) < 2 ^ 53 ->
  Forall comparable (diffs x) -> steady (skipn 14 x) ->
  exists p, new_prog g text = Ok p /\
    Forall (fun r => exists out, r = Ok out) (fst (session n p history)) /\
    answered (fst (session n p history)) "467" "o1" = shown a b x.
Proof.
  intros P Hn F x T K C St. destruct (feedback_created a b g text P) as (p & Hp & Ee & Ef & A). exists p. split; [exact Hp|].
  unfold x in *. rewrite (SwitchP.sent_to_only history F) in *.
  destruct (after_calls "467" "754" n (after a b) covered (view a b) covered_before (has_entry a b) (fun ms h m => after_one a b n ms h m Hn)
    history F [] p Ee Ef A (conj T (conj C (conj St K)))) as (Fine & Y). split; [exact Fine|]. symmetry. exact Y.
Qed.
End C91.
Print Assumptions C91_feedback.

(** the values of the program are doubles *)
Theorem C91_feedback_doubles pow cos {JT : @JsonText (b64_ops pow cos)} (a b : @V (b64_ops pow cos)) (g : string -> @junk (b64_ops pow cos)) (text : string) (n : nat)
    (history : list (@opmsg (b64_ops pow cos))) :
  @parse (b64_ops pow cos) JT text = Ok (feedback_definition a b) -> (20 < n)%nat ->
  Forall (Forall (fun pm => fst pm = "i1")) history ->
  let x := records (sent_to "i1" history) in
  Forall (fun m => 0 <= mtime m < 2 ^ 53) x -> Z.of_nat (length x) < 2 ^ 53 ->
  Forall comparable (diffs x) -> steady (skipn 14 x) ->
  exists p, new_prog g text = Ok p /\
    Forall (fun r => exists out, r = Ok out) (fst (session n p history)) /\
    answered (fst (session n p history)) "467" "o1" = shown a b x.
Proof. exact (@C91_feedback _ _ (b64_time pow cos) JT a b g text n history). Qed.
Print Assumptions C91_feedback_doubles.

(** exact numbers can always be compared *)
Lemma exact_comparable (d : @V QcOps) : comparable d.
Proof.
  unfold comparable. change ((qc_lt d 0 = true /\ qc_eq d 0 = false /\ qc_lt 0 d = false) \/ (qc_lt d 0 = false /\ qc_eq d 0 = true /\ qc_lt 0 d = false) \/
    (qc_lt d 0 = false /\ qc_eq d 0 = false /\ qc_lt 0 d = true))%Qc.
  unfold qc_lt, qc_eq, Qccompare. rewrite <- (Qcompare_antisym (this d) (this (Q2Qc 0))). destruct (this d ?= this (Q2Qc 0))%Q; cbn; auto.
Qed.

Import Properties.Definition.
Definition half : @V QcOps := Q2Qc (1 # 2).
(** 20 messages in four calls, one of them not later than those before; from the sixteenth on they are [late] *)
Definition prices (late : Z) : list (@opmsg QcOps) :=
  let v i := (i * i * 7) mod 23 in
  [[("i1", map (fun i => im (Z.of_nat i) (v (Z.of_nat i))) (seq 1 9))]; [("i1", [im 5 99])];
   [("i1", map (fun i => im (Z.of_nat i) (v (Z.of_nat i))) (seq 10 6))];
   [("i1", map (fun i => im (Z.of_nat i + late) (v (Z.of_nat i))) (seq 16 4))]].

Definition strength (late : Z) : list bool * list (Z * Q) :=
  match new_prog (JT := a_text (feedback_definition half half) JNull) j0 "text" with
  | Ok p => let rs := fst (session 21 p (prices late)) in
    (map (fun r => match r with Ok _ => true | _ => false end) rs, map show_msg (answered rs "467" "o1"))
  | _ => ([], [])
  end.

(** Not vacuous. *)
Example C91_example_hypotheses : Forall (Forall (fun pm => fst pm = "i1")) (prices 0) /\
  let x := records (sent_to "i1" (prices 0)) in
  map mtime x = map Z.of_nat (seq 1 19) /\ Forall comparable (diffs x) /\ steady (skipn 14 x).
Proof.
  split; [repeat constructor|]. split; [vm_compute; reflexivity|]. split; [apply Forall_forall; intros d _; apply exact_comparable|].
  cbn. repeat split.
Qed.

Example C91_example : strength 0 = ([true; true; true; true],
  [(15, (2050 # 39)%Q); (16, (3050 # 49)%Q); (17, (3250 # 51)%Q); (18, (3250 # 83)%Q); (19, (8050 # 131)%Q)]).
Proof. vm_compute. reflexivity. Qed.

(** The times have to be one apart from the fifteenth message on: if the sixteenth is one unit late
    the averages never meet a difference again, and the program is silent from then on. *)
Theorem C91_gap_refuted : exists (history : list (@opmsg QcOps)),
  let x := records (sent_to "i1" history) in
  let c := new_prog (JT := a_text (feedback_definition half half) JNull) j0 "text" in
  Forall (Forall (fun pm => fst pm = "i1")) history /\ Forall (fun m => 0 <= mtime m < 2 ^ 53) x /\ Forall comparable (diffs x) /\
  length (shown half half x) = 5%nat /\
  exists p, c = Ok p /\ map show_msg (answered (fst (session 21 p history)) "467" "o1") = [(15, (2050 # 39)%Q)].
Proof.
  exists (prices 1). split; [repeat constructor|]. split.
  { assert (E : Forall (fun t => 0 <= t < 2 ^ 53) (map mtime (records (sent_to "i1" (prices 1))))); [|now rewrite Forall_map in E].
    replace (map mtime _) with [1; 2; 3; 4; 5; 6; 7; 8; 9; 10; 11; 12; 13; 14; 15; 17; 18; 19; 20] by (vm_compute; reflexivity). repeat constructor; lia. }
  split; [apply Forall_forall; intros d _; apply exact_comparable|]. split; [vm_compute; reflexivity|].
  pose proof (eq_refl (snd (strength 1))) as E. unfold strength at 1 in E.
  destruct (new_prog _ "text") as [p| | | |]; [|vm_compute in E; discriminate E ..]. exists p. split; [reflexivity|]. cbn [snd] in E. rewrite E. vm_compute. reflexivity.
Qed.
Print Assumptions C91_gap_refuted.
