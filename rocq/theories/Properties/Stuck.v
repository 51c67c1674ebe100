(** * C52: a buffered message for an input that does not exist makes processing fail for ever *)

From Coq Require Import String Ascii ZArith QArith Qcanon Bool List Lia.
From Verif Require Import Base.StrMap Base.Num Base.NumQc Model.Core Model.Ops Model.Make Model.Run Model.Graph Model.Codec Model.Json Model.Factory.
From Verif Require Import Spec.Shape Spec.Show Spec.Build Spec.Log Spec.Snapshot Spec.Definition Spec.Manager.
From Verif Require Import Proofs.Ports Proofs.MakeP Proofs.ShapeP Proofs.JsonP Proofs.SchemaP Proofs.FactoryP Proofs.Refuse.
From Verif Require Import Properties.Definition Properties.Failure Properties.Manager.
Import ListNotations.
Open Scope string_scope.
Open Scope list_scope.
Open Scope Z_scope.
Open Scope rtbot_scope.

Section Stuck.
Context {NO : NumOps} {NC : NumCodec NO} {JT : JsonText}.

(** the calls that process what is buffered for the program [id] *)
Definition processes (id : string) (c : Factory.call) : Prop :=
  match c with Process _ i | ProcessBatch _ i _ _ _ => i = id | _ => False end.

Definition closed_program (port : string) (p : program) : Prop := wf_heap (p_ops p) /\ closed_to port (p_entry p) (p_ops p).
Definition lives (port id : string) (m : manager) : Prop :=
  exists p, sfind id (f_programs m) = Some p /\ closed_program port p.
Definition blocked (port id : string) (m : manager) : Prop :=
  exists b x xs, sfind id (f_buffer m) = Some b /\ sfind port b = Some (x :: xs).

Lemma receive_closed d n p batch port : closed_program port p -> closed_program port (snd (receive_as d n p batch)).
Proof.
  intros [W C]. assert (X : closed_program port (snd (receive_debug n p batch))).
  { unfold receive_debug. destruct (shas (p_entry p) (p_ops p)); [|split; assumption].
    pose proof (send_batch_keeps n (p_entry p) batch [] (p_ops p) W) as K. destruct (send_batch n (p_entry p) batch [] (p_ops p)) as [r h].
    unfold keeps in K. cbn [snd] in *. split; cbn [p_ops p_entry set_ops]; [eapply wf_heap_same; eauto|eapply closed_same; eauto]. }
  destruct d; cbn [receive_as]; [exact X|]. unfold receive. destruct (receive_debug n p batch) as [[r| | | |] p1]; exact X.
Qed.

Lemma map_lives d n id batch port m : lives port id m -> lives port id (snd (process_map d n id batch m)).
Proof.
  intros (p & F & C). unfold process_map. rewrite F. pose proof (receive_closed d n p batch port C) as C1.
  destruct (receive_as d n p batch) as [r p1]. cbn [snd] in *. exists p1. cbn [f_programs set_programs]. now rewrite sfind_sset, String.eqb_refl.
Qed.
Lemma map_buffer d n id batch m : f_buffer (snd (process_map d n id batch m)) = f_buffer m.
Proof. unfold process_map. destruct (sfind id (f_programs m)); [|reflexivity]. now destruct (receive_as d n p batch). Qed.

Lemma buffer_lives d n id port m : lives port id m -> lives port id (snd (process_buffer d n id m)).
Proof.
  intros H. unfold process_buffer. destruct (shas id (f_programs m)); [|exact H]. destruct (sfind id (f_buffer m)) as [[|y b]|]; try exact H.
  pose proof (map_lives d n id (y :: b) port m H) as X. destruct (process_map d n id (y :: b) m) as [[r| | | |] m1]; exact X.
Qed.

Lemma add_programs id port x m : f_programs (snd (add_to_buffer id port x m)) = f_programs m.
Proof. unfold add_to_buffer. now destruct (shas id (f_programs m)). Qed.
Lemma add_all_programs id l : forall m, f_programs (snd (add_all id l m)) = f_programs m.
Proof.
  induction l as [|[port x] l IH]; intros m; [reflexivity|]. cbn [add_all]. pose proof (add_programs id port x m) as X.
  destruct (add_to_buffer id port x m) as [[r| | | |] m1]; cbn [bind sbind snd] in *; try exact X. now rewrite IH.
Qed.
Lemma add_blocked id port port' x m : blocked port id m -> blocked port id (snd (add_to_buffer id port' x m)).
Proof.
  intros (b & y & ys & F & P). unfold add_to_buffer. destruct (shas id (f_programs m)); [|exists b, y, ys; auto].
  rewrite F. cbn [odefault snd]. unfold blocked. cbn [f_buffer set_buffer]. rewrite sfind_sset, String.eqb_refl.
  destruct (String.eqb_spec port port') as [<-|N].
  - rewrite P. cbn [odefault app]. eexists _, y, (ys ++ [x]). split; [reflexivity|]. now rewrite sfind_sset, String.eqb_refl.
  - eexists _, y, ys. split; [reflexivity|]. rewrite sfind_sset. destruct (String.eqb_spec port port'); [contradiction|exact P].
Qed.
Lemma add_all_blocked id port l : forall m, blocked port id m -> blocked port id (snd (add_all id l m)).
Proof.
  induction l as [|[q x] l IH]; intros m H; [exact H|]. cbn [add_all]. pose proof (add_blocked id port q x m H) as X.
  destruct (add_to_buffer id q x m) as [[r| | | |] m1]; cbn [bind sbind snd] in *; try exact X. now apply IH.
Qed.

(** processing fails, and the buffer is as before *)
Lemma buffer_fails d n id port m : port <> "" -> lives port id m -> blocked port id m ->
  (forall y, fst (process_buffer d (S n) id m) <> Ok y) /\ blocked port id (snd (process_buffer d (S n) id m)).
Proof.
  intros Np (p & F & W & C) (b & x & xs & Fb & Fp). unfold process_buffer, shas. rewrite F, Fb.
  destruct b as [|e b]; [discriminate Fp|].
  assert (X : forall y, fst (process_map d (S n) id (e :: b) m) <> Ok y).
  { unfold process_map. rewrite F. pose proof (receive_refused d n p port x xs (e :: b) Np (sfind_In _ _ _ Fp) W C) as R.
    unfold receive_as. destruct d; [destruct (receive_debug (S n) p (e :: b)) as [r p1]|destruct (receive (S n) p (e :: b)) as [r p1]];
      intros y; cbn [fst] in *; destruct r as [r| | | |]; try discriminate; exfalso; exact (R r eq_refl). }
  pose proof (map_buffer d (S n) id (e :: b) m) as Eb.
  destruct (process_map d (S n) id (e :: b) m) as [[r| | | |] m1]; cbn [fst snd bind sbind] in *; [exfalso; exact (X r eq_refl)| | | |];
    (split; [discriminate|exists (e :: b), x, xs; rewrite Eb; auto]).
Qed.

Lemma call_lives n c id port m : c <> Delete id -> lives port id m -> lives port id (snd (do_call n c m)).
Proof.
  intros Nd H. destruct (String.eqb_spec (about c) id) as [E|E].
  - destruct c as [i g t|i g bs|i|i q x|d i|d i b|d i ts vs ps|i|i|i|i]; cbn [about do_call] in *; subst i.
    + destruct H as (p & F & C). unfold create_text. destruct (new_prog g t) as [p'|e| | |]; try (exists p; auto; fail).
      * exists p. cbn [snd f_programs set_programs]. rewrite sfind_semplace_cases, F. auto.
      * exists p. split; [|exact C]. destruct e; try exact F. repeat (match goal with |- context [match ?s with _ => _ end] => is_var s; destruct s end; try exact F).
    + destruct H as (p & F & C). unfold create_bytes, shas. rewrite F. exists p. auto.
    + congruence.
    + destruct H as (p & F & C). exists p. rewrite add_programs. auto.
    + now apply buffer_lives.
    + now apply map_lives.
    + unfold process_batch. destruct (_ && _); [|exact H]. 
      assert (H1 : lives port id (snd (add_all id (entries ts vs ps) m))) by (destruct H as (p & F & C); exists p; rewrite add_all_programs; auto).
      destruct (add_all id (entries ts vs ps) m) as [[u| | | |] m1]; cbn [bind sbind snd] in *; try exact H1. now apply buffer_lives.
    + unfold with_program. destruct (sfind id (f_programs m)); exact H.
    + unfold with_program. destruct (sfind id (f_programs m)); exact H.
    + unfold with_program. destruct (sfind id (f_programs m)); exact H.
    + unfold with_program. destruct (sfind id (f_programs m)); exact H.
  - destruct (do_call_other n c id m E) as [S1 _]. destruct H as (p & F & C). exists p. rewrite <- S1. auto.
Qed.

Lemma call_blocked n c id port m : port <> "" -> c <> Delete id -> lives port id m -> blocked port id m ->
  blocked port id (snd (do_call (S n) c m)) /\ (processes id c -> forall y, fst (do_call (S n) c m) <> Ok y).
Proof.
  intros Np Nd H B. destruct (String.eqb_spec (about c) id) as [E|E].
  - destruct c as [i g t|i g bs|i|i q x|d i|d i b|d i ts vs ps|i|i|i|i]; cbn [about do_call processes] in *; subst i; try (split; [|now intros []]).
    + unfold create_text. destruct (new_prog g t) as [p'|e| | |]; try exact B.
      destruct e; try exact B. repeat (match goal with |- context [match ?s with _ => _ end] => is_var s; destruct s end; try exact B).
    + destruct H as (p & F & C). unfold create_bytes, shas. rewrite F. exact B.
    + congruence.
    + now apply add_blocked.
    + destruct (buffer_fails d n id port m Np H B) as [X Y]. auto.
    + destruct B as (b0 & x & xs & B). exists b0, x, xs. now rewrite map_buffer.
    + unfold process_batch. destruct (_ && _); [|split; [exact B|discriminate]].
      assert (H1 : lives port id (snd (add_all id (entries ts vs ps) m))) by (destruct H as (p & F & C); exists p; rewrite add_all_programs; auto).
      pose proof (add_all_blocked id port (entries ts vs ps) m B) as B1.
      destruct (add_all id (entries ts vs ps) m) as [[u| | | |] m1]; cbn [bind sbind fst snd] in *; try (split; [exact B1|discriminate]).
      destruct (buffer_fails d n id port m1 Np H1 B1) as [X Y]. auto.
    + unfold with_program. destruct (sfind id (f_programs m)); exact B.
    + unfold with_program. destruct (sfind id (f_programs m)); exact B.
    + unfold with_program. destruct (sfind id (f_programs m)); exact B.
    + unfold with_program. destruct (sfind id (f_programs m)); exact B.
  - destruct (do_call_other (S n) c id m E) as [_ S2]. split.
    + destruct B as (b & x & xs & B). exists b, x, xs. now rewrite <- S2.
    + intros P. exfalso. apply E. destruct c; cbn in *; congruence || contradiction.
Qed.

Lemma calls_lives n id port cs : forall m, ~ In (Delete id) cs -> lives port id m -> lives port id (snd (do_calls n cs m)).
Proof.
  induction cs as [|c cs IH]; intros m N H; [exact H|]. cbn [do_calls].
  assert (H1 := call_lives n c id port m ltac:(intros ->; apply N; now left) H). destruct (do_call n c m) as [x m1]. cbn [snd] in H1.
  specialize (IH m1 ltac:(intros I; apply N; now right) H1). now destruct (do_calls n cs m1).
Qed.

Lemma calls_blocked n id port cs : forall m, port <> "" -> ~ In (Delete id) cs -> lives port id m -> blocked port id m ->
  Forall (fun cr => processes id (fst cr) -> forall y, snd cr <> Ok y) (combine cs (fst (do_calls (S n) cs m))).
Proof.
  induction cs as [|c cs IH]; intros m Np N H B; [constructor|]. cbn [do_calls].
  assert (Nc : c <> Delete id) by (intros ->; apply N; now left).
  pose proof (call_lives (S n) c id port m Nc H) as H1. destruct (call_blocked n c id port m Np Nc H B) as [B1 X].
  destruct (do_call (S n) c m) as [r m1]. cbn [fst snd] in *. specialize (IH m1 Np ltac:(intros I; apply N; now right) H1 B1).
  destruct (do_calls (S n) cs m1). cbn [fst combine] in *. constructor; auto.
Qed.

(** One message for an input that the entry operator does not have is accepted into the buffer of a
    program; from then on no call that processes the buffer succeeds, however many correct messages
    are added and whatever else is called, until the program is deleted. *)
Theorem C52_buffer_refuted (n : nat) (id : string) (g : string -> junk) (text : string) (m : manager) (p0 : program) (entry : op)
    (earlier later : list Factory.call) (port : string) (x : msg) :
  new_prog g text = Ok p0 -> sfind (p_entry p0) (p_ops p0) = Some entry ->
  port <> "" -> sfind port (o_data (op_base entry)) = None ->
  sfind id (f_programs m) = None ->
  ~ In (Delete id) earlier -> ~ In (Delete id) later ->
  let before := snd (do_calls (S n) (CreateText id g text :: earlier) m) in
  let '(added, after) := do_call (S n) (Add id port x) before in
  added = Ok (RBool true) /\
  Forall (fun cr => processes id (fst cr) -> forall y, snd cr <> Ok y) (combine later (fst (do_calls (S n) later after))).
Proof.
  intros E Fe Np Nf Fm Ne Nl before. destruct (created_well_formed _ _ _ E) as [W N].
  assert (L0 : lives port id (set_programs m (semplace id p0 (f_programs m)))).
  { exists p0. cbn [f_programs set_programs]. rewrite sfind_semplace_cases, Fm, String.eqb_refl. split; [reflexivity|]. split; [exact W|].
    intros o F. rewrite Fe in F. injection F as <-. split; [eapply new_shuts; eauto|exact Nf]. }
  assert (L : lives port id before).
  { unfold before. cbn [do_calls do_call]. unfold create_text. rewrite E.
    pose proof (calls_lives (S n) id port earlier _ Ne L0) as X. destruct (do_calls (S n) earlier _). exact X. }
  clearbody before. cbn [do_call]. pose proof L as (p & F & C).
  assert (Ea : exists after, add_to_buffer id port x before = (Ok (RBool true), after) /\ blocked port id after /\ f_programs after = f_programs before).
  { unfold add_to_buffer, shas. rewrite F. eexists. split; [reflexivity|]. split; [|reflexivity]. unfold blocked. cbn [f_buffer set_buffer].
    rewrite sfind_sset, String.eqb_refl. destruct (odefault [] (sfind port (odefault [] (sfind id (f_buffer before))))) as [|y ys];
      [eexists _, x, []|eexists _, y, (ys ++ [x])]; (split; [reflexivity|]); rewrite sfind_sset, String.eqb_refl; reflexivity. }
  destruct Ea as (after & -> & B & Ep). split; [reflexivity|]. apply calls_blocked with (port := port); auto. exists p. rewrite Ep. auto.
Qed.

End Stuck.

(** A case of the hypotheses: the entry operator of this program has the inputs "i1" and "i2" but not
    "i3". Before the message for "i3" the buffer is processed; after it the same call throws each time,
    although only correct messages follow. *)
Definition stuck_run {NC : NumCodec QcOps} : list bool :=
  let JT := a_text (@demux_definition QcOps) JNull in
  map (fun r => match r with Ok _ => true | _ => false end)
    (fst (do_calls 50 [CreateText "a" j0 "text"; Add "a" "i1" (im 1 10); Process false "a";
                       Add "a" "i3" (im 2 20); Add "a" "i1" (im 3 30); Process false "a";
                       Add "a" "i1" (im 4 40); Process true "a"; Process false "a"] no_programs)).
Example C52_buffer_example {NC : NumCodec QcOps} :
  let JT := a_text (@demux_definition QcOps) JNull in
  (exists p entry, new_prog j0 "text" = Ok p /\ sfind (p_entry p) (p_ops p) = Some entry /\ sfind "i3" (o_data (op_base entry)) = None) /\
  stuck_run = [true; true; true; true; true; false; true; false; false].
Proof. split; [eexists _, _; repeat split; vm_compute; reflexivity|vm_compute; reflexivity]. Qed.
