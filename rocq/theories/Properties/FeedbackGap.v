(** * The generated program with feedback, for any times (C91) *)

From Coq Require Import String ZArith QArith Qcanon Bool List Lia.
From Verif Require Import Base.StrMap Base.Num Base.NumQc Base.NumB64 Base.NumCount Model.Core Model.Ops Model.Make Model.Run Model.Graph Model.Json.
From Verif Require Import Spec.Streams Spec.Multi Spec.Show Spec.Snapshot Spec.Definition Spec.Windows Spec.Synchronous Spec.Feedback Spec.Gap.
From Verif Require Import Proofs.InputP Proofs.Symbolic Proofs.FeedbackP Proofs.FeedbackRun Proofs.FeedbackHist Proofs.FeedbackGap.
From Verif Require Properties.Definition Properties.Feedback Proofs.SwitchP.
Import ListNotations.
Open Scope string_scope.
Open Scope list_scope.
Open Scope Z_scope.
Open Scope rtbot_scope.

(** As C91_feedback, but the times of the messages are any increasing times between 0 and 2^53. All
    calls are answered, and the index is shown for the messages from the fifteenth up to the first
    one that is not followed exactly one unit of time later. For the messages after it nothing is shown,
    however many there are. *)
Theorem C91_any_times {NO : NumOps} {NC : NumCount NO} {NT : NumTime NO} {JT : JsonText} (a b : V) (g : string -> junk) (text : string) (n : nat) (history : list opmsg) :
  parse text = Ok (feedback_definition a b) -> (20 < n)%nat ->
  Forall (Forall (fun pm => fst pm = "i1")) history ->
  let x := records (sent_to "i1" history) in
  Forall (fun m => 0 <= mtime m < 2 ^ 53) x -> Z.of_nat (length x) < 2 ^ 53 -> Forall comparable (diffs x) ->
  exists p, new_prog g text = Ok p /\
    Forall (fun r => exists out, r = Ok out) (fst (session n p history)) /\
    answered (fst (session n p history)) "467" "o1" = shown_until_gap a b x.
Proof.
  intros P Hn F x T K C. destruct (Properties.Feedback.feedback_created a b g text P) as (p & Hp & Ee & Ef & A). exists p. split; [exact Hp|].
  unfold x in *. rewrite (SwitchP.sent_to_only history F) in *.
  destruct (after_calls "467" "754" n (after' a b) covered' (view' a b) covered'_before (has_entry' a b) (fun ms h m => after_one' a b n ms h m Hn)
    history F [] p Ee Ef (after_start a b _ A) (conj T (conj C K))) as (Fine & Y). split; [exact Fine|]. symmetry. exact Y.
Qed.
Print Assumptions C91_any_times.

(** the values of the program are doubles *)
Theorem C91_any_times_doubles pow cos {JT : @JsonText (b64_ops pow cos)} (a b : @V (b64_ops pow cos)) (g : string -> @junk (b64_ops pow cos)) (text : string) (n : nat)
    (history : list (@opmsg (b64_ops pow cos))) :
  @parse (b64_ops pow cos) JT text = Ok (feedback_definition a b) -> (20 < n)%nat ->
  Forall (Forall (fun pm => fst pm = "i1")) history ->
  let x := records (sent_to "i1" history) in
  Forall (fun m => 0 <= mtime m < 2 ^ 53) x -> Z.of_nat (length x) < 2 ^ 53 -> Forall comparable (diffs x) ->
  exists p, new_prog g text = Ok p /\
    Forall (fun r => exists out, r = Ok out) (fst (session n p history)) /\
    answered (fst (session n p history)) "467" "o1" = shown_until_gap a b x.
Proof. exact (@C91_any_times _ _ (b64_time pow cos) JT a b g text n history). Qed.
Print Assumptions C91_any_times_doubles.

(** Once the program missed a unit of time it never answers again: with any further calls it shows
    no more than before. *)
Theorem C91_silent {NO : NumOps} {NC : NumCount NO} {NT : NumTime NO} {JT : JsonText} (a b : V) (g : string -> junk) (text : string) (n : nat) (history more : list opmsg) :
  parse text = Ok (feedback_definition a b) -> (20 < n)%nat ->
  Forall (Forall (fun pm => fst pm = "i1")) (history ++ more) ->
  let x := records (sent_to "i1" (history ++ more)) in
  Forall (fun m => 0 <= mtime m < 2 ^ 53) x -> Z.of_nat (length x) < 2 ^ 53 -> Forall comparable (diffs x) ->
  ~ steady (skipn 14 (records (sent_to "i1" history))) ->
  exists p, new_prog g text = Ok p /\
    answered (fst (session n p (history ++ more))) "467" "o1" = answered (fst (session n p history)) "467" "o1".
Proof.
  intros P Hn F x T K C St. destruct (C91_any_times a b g text n (history ++ more) P Hn F T K C) as (p & Hp & _ & E). exists p. split; [exact Hp|]. rewrite E. clear E.
  assert (Ap : sent_to "i1" (history ++ more) = sent_to "i1" history ++ sent_to "i1" more).
  { unfold sent_to, all_messages. now rewrite flat_map_app, filter_app, map_app. }
  unfold x in *. rewrite Ap in *. destruct (records_app (sent_to "i1" history) (sent_to "i1" more)) as [r Er]. rewrite Er in *. apply Forall_app in F as [F1 _].
  destruct (covers'_app _ _ (conj T (conj C K))) as (T1 & C1 & K1).
  destruct (C91_any_times a b g text n history P Hn F1 T1 K1 C1) as (p' & Hp' & _ & E'). rewrite Hp in Hp'. injection Hp' as <-. rewrite E'. clear -St.
  induction r as [|m r IH] using rev_ind; [now rewrite app_nil_r|]. rewrite app_assoc, shown_after_gap; [exact IH|]. intros H. apply St.
  rewrite skipn_app in H. exact (steady_app _ _ H).
Qed.
Print Assumptions C91_silent.

Import Properties.Definition Properties.Feedback.
(** Not vacuous: the sixteenth message is one unit late *)
Example C91_any_times_hypotheses : Forall (Forall (fun pm => fst pm = "i1")) (prices 1) /\
  let x := records (sent_to "i1" (prices 1)) in
  map mtime x = map Z.of_nat (seq 1 15 ++ seq 17 4) /\ Forall comparable (diffs x) /\ ~ steady (skipn 14 x).
Proof.
  split; [repeat constructor|]. split; [vm_compute; reflexivity|]. split; [apply Forall_forall; intros d _; apply exact_comparable|].
  cbn. intros [H _]. discriminate H.
Qed.
Example C91_any_times_example : strength 1 = ([true; true; true; true], [(15, (2050 # 39)%Q)]).
Proof. vm_compute. reflexivity. Qed.
(** and what the theorem says about it *)
Example C91_any_times_shown : map show_msg (shown_until_gap half half (records (sent_to "i1" (prices 1)))) = [(15, (2050 # 39)%Q)].
Proof. vm_compute. reflexivity. Qed.
