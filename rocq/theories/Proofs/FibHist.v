(** * The program of the Fibonacci notebook on all histories (C93) *)

From Coq Require Import String ZArith Bool List Lia.
From Verif Require Import Base.StrMap Base.Num Base.NumCount Model.Core Model.Ops Model.Make Model.Graph.
From Verif Require Import Spec.Multi Spec.Snapshot Spec.Windows Spec.Synchronous Spec.Fibonacci.
From Verif Require Import Proofs.Merge Proofs.InputP Proofs.Symbolic Proofs.FeedbackP Proofs.FeedbackRun Proofs.FibP Spec.Log.
From Verif Require Proofs.FeedbackHist.
Import ListNotations.
Open Scope string_scope.
Open Scope list_scope.
Open Scope Z_scope.
Open Scope rtbot_scope.

(** ** All calls, when nothing is filtered *)

Section Calls.
Context {NO : NumOps}.
Variables (w entry : string) (n : nat).
Variables (after : list msg -> heap -> Prop) (covered : list msg -> Prop) (view : list msg -> list msg).
Hypothesis covered_before : forall ms more, covered (ms ++ more) -> covered ms.
Hypothesis has_entry : forall ms h, after ms h -> shas entry h = true.
Hypothesis after_one : forall ms h m, after ms h -> covered (ms ++ [m]) ->
  exists h' r out, send1 n entry "i1" m h = (Ok out, h') /\ wf_pm out /\ result_at out w "o1" = r /\ after (ms ++ [m]) h' /\ view (ms ++ [m]) = view ms ++ r.

Lemma after_all_calls history : Forall (Forall (fun pm => fst pm = "i1")) history -> forall ms p, p_entry p = entry -> p_filter p = [] ->
  after ms (p_ops p) -> covered (ms ++ map snd (all_messages history)) ->
  Forall (fun r => exists out, r = Ok out) (fst (session n p history)) /\
  view (ms ++ map snd (all_messages history)) = view ms ++ answered (fst (session n p history)) w "o1" /\
  after (ms ++ map snd (all_messages history)) (p_ops (snd (session n p history))).
Proof.
  intros F. induction F as [|batch history Hb F IH]; intros ms p Ee Ef A C.
  - split; [constructor|]. cbn. now rewrite !app_nil_r.
  - unfold all_messages in *. cbn [flat_map] in *. rewrite map_app, app_assoc in *.
    destruct (after_batch w entry n after covered view covered_before after_one batch Hb ms (p_ops p) [] A (covered_before _ _ C) wf_pm_nil) as (h1 & r1 & out & E & _ & X1 & A1 & V1).
    cbn [session]. unfold receive, receive_debug. rewrite Ee, Ef, E, (has_entry _ _ A).
    destruct (IH (ms ++ map snd (batch_messages batch)) (set_ops p h1) Ee Ef A1 C) as (Ok1 & V2 & A2).
    destruct (session n (set_ops p h1) history) as [rs p2]. cbn [fst snd] in *. split; [constructor; [now eexists|exact Ok1]|]. split; [|exact A2].
    unfold answered in *. cbn [flat_map]. change (result_at [] w "o1") with (@nil msg) in X1. cbn [app] in X1. rewrite X1, V2, V1, !app_assoc. reflexivity.
Qed.
End Calls.

Section History.
Context {NO : NumOps} {NC : NumCount NO}.

(** ** The specification, message by message *)

Lemma unbroken_prefix x : forall t, exists r, x = unbroken t x ++ r.
Proof.
  induction x as [|m x IH]; intros t; [now exists []|]. cbn [unbroken]. destruct (mtime m =? t + 1); [|now exists (m :: x)].
  destruct (IH (mtime m)) as [r E]. exists r. cbn [app]. now rewrite <- E.
Qed.
Definition until (t : Z) (x : list msg) : Z := match last_opt x with Some m => mtime m | None => t end.
Lemma until_cons t m x : until t (m :: x) = until (mtime m) x.
Proof.
  unfold until. destruct x as [|y x] using rev_ind; [reflexivity|]. change (m :: x ++ [y]) with ((m :: x) ++ [y]). now rewrite !last_opt_snoc.
Qed.
Lemma until_snoc t x m : until t (x ++ [m]) = mtime m.
Proof. unfold until. now rewrite last_opt_snoc. Qed.

Lemma unbroken_whole x : forall t m, unbroken t x = x ->
  unbroken t (x ++ [m]) = if mtime m =? until t x + 1 then x ++ [m] else x.
Proof.
  induction x as [|y x IH]; intros t m E.
  - cbn [app unbroken until last_opt]. change (until t []) with t. reflexivity.
  - cbn [app unbroken] in *. destruct (mtime y =? t + 1) eqn:D; [|discriminate E]. injection E as E. rewrite until_cons, IH by exact E.
    destruct (mtime m =? until (mtime y) x + 1); reflexivity.
Qed.
Lemma unbroken_broken x : forall t m, unbroken t x <> x -> unbroken t (x ++ [m]) = unbroken t x.
Proof.
  induction x as [|y x IH]; intros t m E; [now cbn in E|].
  cbn [app unbroken] in *. destruct (mtime y =? t + 1) eqn:D; [|reflexivity]. f_equal. apply IH. congruence.
Qed.
Lemma unbroken_short x t : (length (unbroken t x) <= length x)%nat.
Proof. destruct (unbroken_prefix x t) as [r E]. rewrite E at 2. rewrite app_length. lia. Qed.
Lemma unbroken_still x t m : unbroken t x <> x -> unbroken t (x ++ [m]) <> x ++ [m].
Proof.
  intros E. rewrite unbroken_broken by exact E. intros F. pose proof (unbroken_short x t) as L. rewrite F, app_length in L. cbn [length] in L. lia.
Qed.
Lemma numbers_snoc x : forall k m, numbers k (x ++ [m]) = numbers k x ++ [mkMsg (mtime m) (fib (k + length x))].
Proof.
  induction x as [|y x IH]; intros k m; cbn [app numbers length]; [now rewrite Nat.add_0_r|]. rewrite IH. do 3 f_equal. f_equal. f_equal. lia.
Qed.

(** ** The state after the messages accepted *)

Inductive state (ls : smap msg) (h : heap) : list msg -> Prop :=
| None0 : none ls h -> state ls h []
| One p : one (mtime p) ls h -> state ls h [p]
| Going p q x : unbroken (mtime q) x = x ->
    going (Z.of_nat (2 + length x)) (until (mtime q) x) (fib (length x)) (fib (S (length x))) x ls h -> state ls h (p :: q :: x)
| Stuck p q x : unbroken (mtime q) x <> x ->
    stuck (Z.of_nat (2 + length x)) (until (mtime q) x) x ls h -> state ls h (p :: q :: x).

Definition covers (x : list msg) : Prop := Forall (fun m => 0 <= mtime m < 2 ^ 53) x /\ Z.of_nat (length x) < 2 ^ 53.
Lemma covers_app x more : covers (x ++ more) -> covers x.
Proof. intros (F & L). apply Forall_app in F as [F _]. rewrite app_length in L. split; [exact F|lia]. Qed.

Lemma until_last p q x : last_opt (p :: q :: x) = Some (last x q) /\ until (mtime q) x = mtime (last x q).
Proof.
  unfold until. destruct x as [|m x] using rev_ind; [auto|]. rewrite last_opt_snoc, last_last.
  change (p :: q :: x ++ [m]) with ((p :: q :: x) ++ [m]). rewrite last_opt_snoc. auto.
Qed.

Lemma step n ls h x m : state ls h x -> accepted ls (mtime m) = true -> sfind "i1" ls = last_opt x -> covers (x ++ [m]) -> (18 < n)%nat ->
  exists h' r, sends n m h h' r /\ state (latest m ls) h' (x ++ [m]) /\ shown (x ++ [m]) = shown x ++ r.
Proof.
  intros S0 A Ls (Cm & Cl) Hn. apply Forall_app in Cm as [_ Cm]. inversion Cm as [|? ? Sm _]; subst. clear Cm.
  destruct m as [t v]. cbn [mtime] in *. unfold accepted in A. pose proof A as A'. rewrite Ls in A'.
  destruct S0 as [P|p P|p q x E P|p q x E P].
  - destruct (round_first n ls h t v P A Sm Hn) as (h' & Se & O). exists h', []. split; [exact Se|]. split; [|reflexivity]. now constructor.
  - cbn [last_opt] in A'. apply Z.ltb_lt in A'. destruct (round_second n ls h _ t v P A A' Sm Hn) as (h' & Se & O). exists h', []. split; [exact Se|].
    split; [|reflexivity]. apply Going; [reflexivity|exact O].
  - destruct (until_last p q x) as (L1 & L2). rewrite L1, <- L2 in A'. apply Z.ltb_lt in A'. rewrite app_length in Cl. cbn [length] in Cl.
    change ((p :: q :: x) ++ [mkMsg t v]) with (p :: q :: (x ++ [mkMsg t v])). cbn [shown]. rewrite E.
    assert (Hk : Z.of_nat (2 + length (x ++ [mkMsg t v])) = Z.of_nat (2 + length x) + 1) by (rewrite app_length; cbn [length]; lia).
    assert (Hl : length (x ++ [mkMsg t v]) = S (length x)) by (rewrite app_length; cbn [length]; lia).
    pose proof (unbroken_whole x (mtime q) (mkMsg t v) E) as U. cbn [mtime] in U. destruct (Z.eqb_spec t (until (mtime q) x + 1)) as [Et|Nt].
    + rewrite Et in A, Sm. destruct (round_next n _ _ _ _ _ ls h v P A ltac:(lia) ltac:(lia) Sm Hn) as (h' & Se & O).
      exists h', [mkMsg t (fib (2 + length x))]. rewrite Et. split; [exact Se|]. split.
      * apply Going; [now rewrite <- Et|]. rewrite <- Et, Hk, until_snoc, Hl. cbn [mtime]. rewrite Et. exact O.
      * rewrite <- Et, U, numbers_snoc. reflexivity.
    + assert (N : unbroken (mtime q) (x ++ [mkMsg t v]) <> x ++ [mkMsg t v]).
      { rewrite U. intros F. apply (f_equal (@length _)) in F. rewrite app_length in F. cbn [length] in F. lia. }
      assert (O : exists h', sends n (mkMsg t v) h h' [] /\ stuck (Z.of_nat (2 + length x) + 1) t (x ++ [mkMsg t v]) (latest (mkMsg t v) ls) h').
      { destruct (Z.eq_dec t (until (mtime q) x + 2)) as [Et|Ft].
        - rewrite Et in A, Sm |- *. exact (round_late n _ _ _ _ _ ls h v P A ltac:(lia) ltac:(lia) Sm Hn).
        - refine (round_very_late n _ _ _ _ _ ls h t v P A ltac:(lia) ltac:(lia) _ Sm Hn). lia. }
      destruct O as (h' & Se & O). exists h', []. split; [exact Se|]. split.
      * apply Stuck; [exact N|]. rewrite Hk, until_snoc. exact O.
      * rewrite U, app_nil_r. reflexivity.
  - destruct (until_last p q x) as (L1 & L2). rewrite L1, <- L2 in A'. apply Z.ltb_lt in A'. rewrite app_length in Cl. cbn [length] in Cl.
    change ((p :: q :: x) ++ [mkMsg t v]) with (p :: q :: (x ++ [mkMsg t v])). cbn [shown].
    destruct (round_stuck n _ _ _ ls h t v P A ltac:(lia) ltac:(lia) A' Sm Hn) as (h' & Se & O). exists h', []. split; [exact Se|]. split.
    + apply Stuck; [now apply unbroken_still|]. rewrite until_snoc.
      replace (Z.of_nat (2 + length (x ++ [mkMsg t v]))) with (Z.of_nat (2 + length x) + 1) by (rewrite app_length; cbn [length]; lia). exact O.
    + rewrite unbroken_broken, app_nil_r by exact E. reflexivity.
Qed.

Lemma state_same ls h h' x : (forall id, id <> "in1" -> sfind id h' = sfind id h) -> slot h' "in1" c_in (KInput [("i1", "o1")] ls) -> state ls h x -> state ls h' x.
Proof.
  intros Same I.
  assert (X1 : statics h -> statics h') by (unfold statics, slot; rewrite !Same by discriminate; auto).
  assert (X2 : forall k, counted k ls h -> counted k ls h') by (unfold counted; intros k [H _]; split; [|exact I]; unfold slot in *; rewrite Same by discriminate; exact H).
  assert (X3 : forall d, demux h d -> demux h' d) by (unfold demux; rewrite Same by discriminate; auto).
  assert (X4 : forall id cs d, id <> "in1" -> holds h id cs d -> holds h' id cs d) by (unfold holds; intros id cs d Hid; rewrite Same by exact Hid; auto).
  assert (X5 : total h -> total h') by (unfold total; rewrite Same by discriminate; auto).
  assert (X6 : forall id cs d, id <> "in1" -> silent h id cs d -> silent h' id cs d) by (unfold silent; intros id cs d Hid; rewrite Same by exact Hid; auto).
  assert (X7 : partly h -> partly h') by (unfold partly; rewrite Same by discriminate; auto).
  assert (N1 : "varn_1" <> "in1") by discriminate. assert (N2 : "varn_2" <> "in1") by discriminate.
  intros [P|p P|p q y E P|p q y E P].
  - apply None0. destruct P as (P1 & P2 & P3 & P4 & P5 & P6). unfold none. auto 10.
  - apply One. destruct P as (P1 & P2 & P3 & P4 & P5 & P6). unfold one. auto 10.
  - apply Going; [exact E|]. destruct P as (P1 & P2 & P3 & (d & D1 & D2) & (u & d2 & U & D3 & D4) & P6). unfold going. repeat (split; [now auto|]).
    split; [exists d; auto|]. split; [exists u, d2; auto|auto].
  - apply Stuck; [exact E|]. destruct P as (P1 & P2 & P3 & P4 & P5 & P6). unfold stuck. auto 10.
Qed.

(** ** All messages *)

Definition after (ms : list msg) (h : heap) : Prop := exists ls, state ls h (records ms) /\ sfind "i1" ls = last_opt (records ms).
Definition covered (ms : list msg) : Prop := covers (records ms).
Definition view (ms : list msg) : list msg := shown (records ms).

Lemma covered_before ms more : covered (ms ++ more) -> covered ms.
Proof. unfold covered. destruct (FeedbackHist.records_app ms more) as [r ->]. apply covers_app. Qed.

Lemma state_counted ls h x : state ls h x -> exists k, counted k ls h.
Proof. intros [P|p P|p q y E P|p q y E P]; unfold none, one, going, stuck in P; decompose [and] P; eauto. Qed.
Lemma has_entry ms h : after ms h -> shas "in1" h = true.
Proof. intros (ls & S0 & _). destruct (state_counted _ _ _ S0) as (k & _ & s & d & F & _). unfold shas. now rewrite F. Qed.
(** what the demultiplexer keeps *)
Lemma state_kept ls h x : state ls h x -> demux h (kept x).
Proof. intros [P|p P|p q y E P|p q y E P]; unfold none, one, going, stuck in P; decompose [and] P; assumption. Qed.

Lemma after_one n ms h m : (18 < n)%nat -> after ms h -> covered (ms ++ [m]) ->
  exists h' r out, send1 n "in1" "i1" m h = (Ok out, h') /\ wf_pm out /\ result_at out "plus1" "o1" = r /\ after (ms ++ [m]) h' /\ view (ms ++ [m]) = view ms ++ r.
Proof.
  intros Hn (ls & S0 & Ls) C. unfold covered in C. unfold after, view. rewrite records_snoc in *. unfold later_than in *.
  destruct (accepted ls (mtime m)) eqn:A; pose proof A as A'; unfold accepted in A'; rewrite Ls in A'.
  - rewrite A' in *. destruct (step n ls h _ m S0 A Ls C Hn) as (h' & r & (out & E & W & Rs) & S1 & V1).
    exists h', r, out. repeat split; auto; try apply W. exists (latest m ls). split; [exact S1|]. rewrite last_opt_snoc. unfold latest. apply sfind_sset_same.
  - rewrite A' in *. rewrite app_nil_r in *. destruct m as [t v]. destruct (state_counted _ _ _ S0) as (k & X).
    destruct (round_stale n k ls h t v X A ltac:(lia)) as (h' & (out & E & W & Rs) & Same & E0).
    exists h', [], out. rewrite app_nil_r. repeat split; auto; try apply W. exists ls. split; [exact (state_same ls h h' _ Same E0 S0)|exact Ls].
Qed.
End History.
