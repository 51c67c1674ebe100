(** * C50: buffers stay bounded *)

From Coq Require Import String Ascii ZArith QArith Qcanon Bool List Lia.
From Verif Require Import Base.StrMap Base.Num Base.NumQc Model.Core Model.Ops Model.Make Model.Graph Model.Json.
From Verif Require Import Spec.Shape Spec.Show Spec.Snapshot Spec.Definition Spec.Bounds.
From Verif Require Import Proofs.Ports Proofs.ShapeP Proofs.Restored Proofs.JsonP Proofs.Deep Proofs.BoundsP Proofs.Credit Properties.Definition.
Import ListNotations.
Open Scope string_scope.
Open Scope list_scope.
Open Scope Z_scope.
Open Scope rtbot_scope.

Section C50.
Context {NO : NumOps} {JT : JsonText}.

(** ** C50 for all types except Join and its derived types, Demultiplexer and AutoRegressive:
    whatever messages a program has received, no buffer of an operator (in Pipelines too) holds
    more messages than it was created for *)
Theorem C50_windows_partial (g : string -> junk) (text : string) (p0 : program)
    (n : nat) (history : list opmsg) (path : list string) (o : op) (port : string) (q : inport) :
  new_prog g text = Ok p0 ->
  lookup path (p_ops (snd (session n p0 history))) = Some o -> windowed o = true -> buffer_of o port q ->
  exists o0 q0, lookup path (p_ops p0) = Some o0 /\ buffer_of o0 port q0 /\
    (length (ip_data q) <= Z.to_nat (ip_max q0))%nat.
Proof.
  intros H F W B. destruct (created_well_formed _ _ _ H) as [W0 N0].
  destruct (session_shape n history p0 W0 N0) as (_ & _ & E & _).
  destruct (lookup_erase _ _ _ _ E F) as (o0 & F0 & E0).
  destruct (erase_buffer _ _ port q (eq_sym E0) B) as (q0 & B0 & Q0).
  exists o0, q0. split; [exact F0|]. split; [exact B0|].
  pose proof (bounded_session n history p0 (bounded_new _ _ _ H)) as A.
  pose proof (every_L _ _ (lookup_every _ _ _ _ A F) W) as [D C].
  assert (X : within q). { destruct B as [B|B]; [exact (Forall_find _ _ _ _ D B)|exact (Forall_find _ _ _ _ C B)]. }
  unfold within, ip_size in X. assert (M : ip_max q0 = ip_max q) by exact (f_equal ip_max Q0). rewrite M. lia.
Qed.

(** ** C50 for AutoRegressive: as long as no call failed, between calls an AutoRegressive with
    n coefficients holds at most n messages, however it is connected (a call that fails half way
    may leave a message more) *)
Theorem C50_autoregressive_partial (g : string -> junk) (text : string) (p0 : program)
    (n : nat) (history : list opmsg) (id : string) (b : base) (coeff : list V) (port : string) (q : inport) :
  new_prog g text = Ok p0 ->
  Forall (fun r => exists x, r = Ok x) (fst (session n p0 history)) ->
  sfind id (p_ops (snd (session n p0 history))) = Some (Op b (KAutoReg coeff)) -> sfind port (o_data b) = Some q ->
  (length (ip_data q) <= length coeff)%nat.
Proof.
  intros H F Ho B. destruct (created_well_formed _ _ _ H) as [W0 N0].
  destruct (ar_session n history p0 W0 N0 F (ar_new _ _ _ H) _ _ Ho) as (b' & p & E & D & X). injection E as <-.
  rewrite D in B. cbn [sfind] in B. destruct (String.eqb port "i1"); [|discriminate B]. injection B as <-.
  destruct X as [[_ [[_ X]|X]]|[_ X]]; [exact X|lia|rewrite X; cbn; lia].
Qed.

(** ** C50 refuted: a Join (a Minus) keeps every message it gets on one input as long as nothing
    arrives on the other one, however many there are *)

Definition one_operator (d : json) : json :=
  JObj [("connections", JArr []); ("entryOperator", JStr "j"); ("operators", JArr [d])].
Definition join_definition : json := definition "Join" "j" [("numPorts", JInt 2)].
Definition minus_definition : json := definition "Minus" "j" [].

(** one call per message, all on input "i1" *)
Definition feed (l : list msg) : list opmsg := map (fun m => [("i1", [m])]) l.

Definition joins (k : kind) : Prop := match k with KJoin _ | KBinary _ | KLinear _ => True | _ => False end.

Lemma half_fed n k : joins k -> forall l p b p1 p2,
  p_entry p = "j" -> p_ops p = [("j", Op b k)] -> o_data b = [("i1", p1); ("i2", p2)] -> ip_data p2 = [] ->
  exists b' q, p_ops (snd (session (S n) p (feed l))) = [("j", Op b' k)] /\
    sfind "i1" (o_data b') = Some q /\ ip_data q = ip_data p1 ++ l.
Proof.
  intros K. induction l as [|m l IH]; intros p b p1 p2 E P D Q.
  - exists b, p1. cbn. rewrite P, D, app_nil_r. auto.
  - set (b1 := set_data b [("i1", ip_push p1 m); ("i2", p2)]).
    assert (X : snd (receive (S n) p [("i1", [m])]) = set_ops p [("j", Op b1 k)]).
    { unfold receive, receive_debug. rewrite E, P. cbn [shas sfind]. cbn [String.eqb Ascii.eqb Bool.eqb].
      cbn [send_batch send_port]. unfold send1 at 1. cbn [sfind String.eqb Ascii.eqb Bool.eqb].
      assert (R : recv_data (S n) (Op b k) m "i1" = (Ok tt, Op b1 k)).
      { destruct k; try contradiction K; cbn [recv_data op_kind]; unfold recv_data_local, recv_data_join; rewrite D; reflexivity. }
      rewrite R. cbn [sset String.eqb Ascii.eqb Bool.eqb]. cbn [exec sfind String.eqb Ascii.eqb Bool.eqb].
      assert (X : exec_local (exec n) false (Op b1 k) = (Ok [], Op b1 k)).
      { assert (J : join_exec b1 k = (Ok [], (b1, k))).
        { unfold join_exec. cbn [o_data b1 set_data]. unfold ip_push at 1. cbn [ip_data].
          destruct (ip_data p1 ++ [m]) eqn:Z1; [destruct (ip_data p1); discriminate Z1|].
          cbn [join_latest ip_push ip_data]. rewrite Z1. destruct (_ <? _); rewrite Q; reflexivity. }
        destruct k; try contradiction K; cbn [exec_local op_kind exec_data_local]; rewrite J; reflexivity. }
      rewrite X. cbn [op_base emit_op sset String.eqb Ascii.eqb Bool.eqb]. cbn [bind sbind]. destruct (p_filter p); reflexivity. }
    destruct (IH (set_ops p [("j", Op b1 k)]) b1 (ip_push p1 m) p2) as (b' & q & H1 & H2 & H3); auto.
    exists b', q. cbn [feed map session]. destruct (receive (S n) p [("i1", [m])]) as [r px]. cbn [snd] in X. subst px.
    fold (feed l). destruct (session (S n) (set_ops p [("j", Op b1 k)]) (feed l)) as [rs py]. cbn [snd] in *.
    split; [exact H1|]. split; [exact H2|]. rewrite H3. cbn [ip_push ip_data]. now rewrite <- app_assoc.
Qed.

Theorem C50_join_refuted (g : string -> junk) (text : string) :
  parse text = Ok (one_operator join_definition) \/ parse text = Ok (one_operator minus_definition) ->
  exists p0, new_prog g text = Ok p0 /\
    forall (n : nat) (l : list msg), exists o q,
      lookup ["j"] (p_ops (snd (session (S n) p0 (feed l)))) = Some o /\ buffer_of o "i1" q /\ ip_data q = l.
Proof.
  assert (G : forall p0 b k p1 p2, new_prog g text = Ok p0 -> p_entry p0 = "j" -> p_ops p0 = [("j", Op b k)] -> joins k ->
      o_data b = [("i1", p1); ("i2", p2)] -> ip_data p1 = [] -> ip_data p2 = [] ->
      exists p0, new_prog g text = Ok p0 /\ forall (n : nat) (l : list msg), exists o q,
        lookup ["j"] (p_ops (snd (session (S n) p0 (feed l)))) = Some o /\ buffer_of o "i1" q /\ ip_data q = l).
  { intros p0 b k p1 p2 N E P K D Q1 Q2. exists p0. split; [exact N|]. intros n l.
    destruct (half_fed n k K l p0 b p1 p2 E P D Q2) as (b' & q & H1 & H2 & H3). exists (Op b' k), q.
    cbn [lookup]. rewrite H1. split; [reflexivity|]. split; [left; exact H2|]. now rewrite H3, Q1. }
  intros [P|P].
  - eapply G; [unfold new_prog; rewrite P; reflexivity|reflexivity|reflexivity|exact I|reflexivity..].
  - eapply G; [unfold new_prog; rewrite P; reflexivity|reflexivity|reflexivity|exact I|reflexivity..].
Qed.

End C50.

Print Assumptions C50_windows_partial.
Print Assumptions C50_autoregressive_partial.
Print Assumptions C50_join_refuted.

(** ** A moving average in a Pipeline holds its last three messages after any number of them;
    a Join after ten messages on one input holds all ten *)
Definition held (path : list string) (r : res (@program QcOps)) (history : list (@opmsg QcOps)) : list (list Z) :=
  match r with
  | Ok p => match lookup path (p_ops (snd (session 50 p history))) with
            | Some o => map (fun x => map mtime (ip_data (snd x))) (o_data (op_base o))
            | None => []
            end
  | _ => []
  end.
Definition tens (k : nat) : list (@msg QcOps) := map (fun i => im (Z.of_nat i) 7) (seq 1 k).

Example C50_example :
  (held ["p"; "b"] (new_prog (JT := a_text (obj [("connections", JArr []); ("entryOperator", JStr "p"); ("operators", JArr [a_pipe])]) JNull) j0 "text") (feed (tens 10)) = [[8; 9; 10]]) /\
  (held ["j"] (new_prog (JT := a_text (one_operator join_definition) JNull) j0 "text") (feed (tens 10)) =
    [[1; 2; 3; 4; 5; 6; 7; 8; 9; 10]; []]).
Proof. vm_compute. split; reflexivity. Qed.

(** an AutoRegressive with two coefficients after five messages *)
Example C50_autoregressive_example :
  match new_prog (JT := a_text (one_operator (definition "AutoRegressive" "j" [("coeff", JArr [JInt 1; JInt 2])])) JNull) j0 "text" with
  | Ok p => forallb (fun r => match r with Ok _ => true | _ => false end) (fst (session 50 p (feed (tens 5))))
  | _ => false
  end = true /\
  held ["j"] (new_prog (JT := a_text (one_operator (definition "AutoRegressive" "j" [("coeff", JArr [JInt 1; JInt 2])])) JNull) j0 "text") (feed (tens 5)) =
    [[4; 5]].
Proof. vm_compute. split; reflexivity. Qed.
