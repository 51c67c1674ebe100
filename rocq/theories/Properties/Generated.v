(** * The generated program agrees with the operator for the relative strength index (C92) *)

From Coq Require Import String ZArith QArith Qcanon Bool List Lia.
From Verif Require Import Base.StrMap Base.Num Base.NumQc Base.NumCount Model.Core Model.Ops Model.Make Model.Run Model.Graph Model.Json.
From Verif Require Import Spec.Streams Spec.Multi Spec.Show Spec.Snapshot Spec.Definition Spec.Windows Spec.Synchronous Spec.Feedback Spec.Gap Spec.RSI.
From Verif Require Import Proofs.FeedbackHist Proofs.Generated.
From Verif Require Properties.Definition Properties.Feedback Properties.FeedbackGap Properties.RSI.
Import ListNotations.
Open Scope string_scope.
Open Scope list_scope.
Open Scope Z_scope.
Open Scope rtbot_scope.

Section C92.
Context {NO : NumOps} {NF : NumField NO} {NC : NumCount NO} {NT : NumTime NO} {JT : JsonText}.

(** Exact numbers, a power that inverts for the exponent -1, and the program with the weights 13/14
    and 1/14.  For every history of calls that address the only input "i1", with messages received
    that are one unit of time apart from the fifteenth on: the program shows what the operator
    RelativeStrengthIndex with n = 14 emits when it gets the received messages, without the values 100.
    (With exactly fifteen messages the answer may still be outstanding, see C91.) *)
Theorem C92_same_index (g : string -> junk) (text : string) (n : nat) (history : list opmsg) (id : string) (g1 g2 g3 g4 : V) (o : op) :
  (forall x, x <> v0 -> vpow x (vofZ (-1)) = vdiv v1 x) ->
  parse text = Ok (feedback_definition (vdiv (vofZ 13) (vofZ 14)) (vdiv v1 (vofZ 14))) -> (20 < n)%nat ->
  mk_rsi id 14 g1 g2 g3 g4 = Ok o ->
  Forall (Forall (fun pm => fst pm = "i1")) history ->
  let x := records (sent_to "i1" history) in
  Forall (fun m => 0 <= mtime m < 2 ^ 53) x -> Z.of_nat (length x) < 2 ^ 53 -> steady (skipn 14 x) -> length x <> 15%nat ->
  exists p outs o', new_prog g text = Ok p /\
    Forall (fun r => exists out, r = Ok out) (fst (session n p history)) /\
    run o (feed "i1" x) = (Ok outs, o') /\
    answered (fst (session n p history)) "467" "o1" = filter (fun m => negb (veq (mval m) (vofZ 100))) (on_port "o1" outs).
Proof.
  intros Pow P Hn Ho F x T K St L15.
  destruct (Properties.Feedback.C91_feedback _ _ g text n history P Hn F T K (proj2 (Forall_forall _ _) (fun d _ => always_comparable d)) St) as (p & Hp & Fine & Y).
  destruct (Properties.RSI.C27_wilder id 14 g1 g2 g3 g4 o x ltac:(unfold two64; lia) Ho) as (o' & R).
  exists p, (answers (relative_strength 14) (feed "i1" x)), o'. split; [exact Hp|]. split; [exact Fine|]. split; [exact R|].
  rewrite Y. fold x. transitivity (strengths (vdiv (vofZ 13) (vofZ 14)) (vdiv v1 (vofZ 14)) x); [|exact (same_strengths Pow x)].
  destruct (Nat.lt_ge_cases (length x) 15) as [L|L]; [rewrite shown_short, strengths_short by exact L; reflexivity|]. apply shown_long. lia.
Qed.

(** With any increasing times, from the sixteenth message on: the program shows what the operator
    emits for the messages up to the first one, from the fifteenth on, that is not followed exactly
    one unit of time later, again without the values 100, and nothing for the messages after it. *)
Theorem C92_any_times (g : string -> junk) (text : string) (n : nat) (history : list opmsg) (id : string) (g1 g2 g3 g4 : V) (o : op) :
  (forall x, x <> v0 -> vpow x (vofZ (-1)) = vdiv v1 x) ->
  parse text = Ok (feedback_definition (vdiv (vofZ 13) (vofZ 14)) (vdiv v1 (vofZ 14))) -> (20 < n)%nat ->
  mk_rsi id 14 g1 g2 g3 g4 = Ok o ->
  Forall (Forall (fun pm => fst pm = "i1")) history ->
  let x := records (sent_to "i1" history) in
  let y := firstn 14 x ++ until_gap (skipn 14 x) in
  Forall (fun m => 0 <= mtime m < 2 ^ 53) x -> Z.of_nat (length x) < 2 ^ 53 -> (16 <= length x)%nat ->
  exists p outs o', new_prog g text = Ok p /\
    Forall (fun r => exists out, r = Ok out) (fst (session n p history)) /\
    run o (feed "i1" y) = (Ok outs, o') /\
    answered (fst (session n p history)) "467" "o1" = filter (fun m => negb (veq (mval m) (vofZ 100))) (on_port "o1" outs).
Proof.
  intros Pow P Hn Ho F x y T K L.
  destruct (Properties.FeedbackGap.C91_any_times _ _ g text n history P Hn F T K (proj2 (Forall_forall _ _) (fun d _ => always_comparable d))) as (p & Hp & Fine & Y).
  destruct (Properties.RSI.C27_wilder id 14 g1 g2 g3 g4 o y ltac:(unfold two64; lia) Ho) as (o' & R).
  exists p, (answers (relative_strength 14) (feed "i1" y)), o'. split; [exact Hp|]. split; [exact Fine|]. split; [exact R|].
  rewrite Y. fold x. transitivity (strengths (vdiv (vofZ 13) (vofZ 14)) (vdiv v1 (vofZ 14)) y); [|exact (same_strengths Pow y)].
  unfold shown_until_gap, y. assert (E : length (skipn 14 x) = (length x - 14)%nat) by apply skipn_length.
  destruct (skipn 14 x) as [|m1 [|m2 r]]; cbn [length] in E; [lia|lia|reflexivity].
Qed.
End C92.
Print Assumptions C92_same_index.
Print Assumptions C92_any_times.

(** the rational numbers have such a power *)
Lemma qc_inverse (x : @V QcOps) : x <> v0 -> vpow x (vofZ (-1)) = vdiv v1 x.
Proof.
  intros _. change (qc_pow x (qc_ofZ (-1)) = (1 / x)%Qc). change (qc_pow x (qc_ofZ (-1))) with (/ (x * 1))%Qc. now rewrite Qcmult_1_r, <- (Qcmult_1_l (/ x)%Qc).
Qed.

(** Without the values 100: the program is silent where the operator says 100, for instance while
    prices only rise. *)
Import Properties.Definition.
Definition w13 : @V QcOps := vdiv (vofZ 13) (vofZ 14).
Definition w1 : @V QcOps := vdiv v1 (vofZ 14).
Definition quotes : list (@opmsg QcOps) :=
  [[("i1", map (fun i => im (Z.of_nat i) (Z.of_nat (i * 3))) (seq 1 16))]; [("i1", [im 5 99; im 17 40; im 18 41])]].

Example C92_example_hypotheses : Forall (Forall (fun pm => fst pm = "i1")) quotes /\
  map mtime (records (sent_to "i1" quotes)) = map Z.of_nat (seq 1 18) /\ steady (skipn 14 (records (sent_to "i1" quotes))).
Proof. split; [repeat constructor|]. split; [vm_compute; reflexivity|]. cbn. repeat split. Qed.

Example C92_example :
  let x := records (sent_to "i1" quotes) in
  match new_prog (JT := a_text (feedback_definition w13 w1) JNull) j0 "text", mk_rsi "r" 14 v0 v0 v0 v0 with
  | Ok p, Ok o => (length x, map show_msg (answered (fst (session 21 p quotes)) "467" "o1"),
      match run o (feed "i1" x) with (Ok outs, _) => map show_msg (on_port "o1" outs) | _ => [] end)
  | _, _ => (0%nat, [], [])
  end = (18%nat, [(17, (3900 # 47)%Q); (18, (2084 # 25)%Q)], [(15, 100%Q); (16, 100%Q); (17, (3900 # 47)%Q); (18, (2084 # 25)%Q)]).
Proof. vm_compute. reflexivity. Qed.

(** a gap after the seventeenth message: the operator goes on, the program is silent *)
Definition quotes_gap : list (@opmsg QcOps) :=
  [[("i1", map (fun i => im (Z.of_nat i) (Z.of_nat (i * 3))) (seq 1 16))]; [("i1", [im 17 40; im 20 41; im 21 45])]].
Example C92_example_gap :
  let x := records (sent_to "i1" quotes_gap) in
  match new_prog (JT := a_text (feedback_definition w13 w1) JNull) j0 "text", mk_rsi "r" 14 v0 v0 v0 v0 with
  | Ok p, Ok o => (length x, length (firstn 14 x ++ until_gap (skipn 14 x)), map show_msg (answered (fst (session 21 p quotes_gap)) "467" "o1"),
      match run o (feed "i1" x) with (Ok outs, _) => map mtime (on_port "o1" outs) | _ => [] end)
  | _, _ => (0%nat, 0%nat, [], [])
  end = (19%nat, 17%nat, [(17, (3900 # 47)%Q)], [15; 16; 17; 20; 21]).
Proof. vm_compute. reflexivity. Qed.
