(** * Other members of a definition have no effect (C96) *)

From Coq Require Import String ZArith QArith Qcanon Bool List Lia.
From Verif Require Import Base.StrMap Base.Num Base.NumInt Base.NumQc Model.Core Model.Ops Model.Make Model.Run Model.Graph Model.Codec Model.Json Model.Factory Model.Schema.
From Verif Require Import Spec.Show Spec.Snapshot Spec.Windows Spec.Multi Spec.Synchronous Spec.Fibonacci Spec.Notebook Spec.Shipped Spec.Members.
From Verif Require Import Proofs.JsonP Proofs.MembersP Proofs.MembersV Properties.Definition Properties.Schema Properties.Notebook.
Import ListNotations.
Open Scope string_scope.
Open Scope list_scope.
Open Scope Z_scope.
Open Scope rtbot_scope.

Section C96.
Context {NO : NumOps} {JT : JsonText}.

(** the same outcome: the same program up to the text it was made from, or the same failure *)
Definition same_outcome (r r' : res program) : Prop :=
  match r, r' with
  | Ok p, Ok q => same_program p q
  | Ok _, _ | _, Ok _ => False
  | _, _ => r = r'
  end.

Lemma init_same g t t' j j' : same_definition j j' -> same_output j j' -> same_outcome (init g t j) (init g t' j').
Proof.
  intros (m & m' & ops & ops' & cs & cs' & -> & -> & E & O & O' & Fo & C & C' & Fc) So. unfold init.
  rewrite !(jvalue_or get_str _ "" (JStr "")) by reflexivity. rewrite E, (filter_of_same _ _ So).
  destruct (given "entryOperator" (Some (JStr "")) m') as [e|]; [|reflexivity].
  destruct (get_str e) as [entry| | | |]; try reflexivity. cbn [rbind]. destruct (String.eqb entry ""); [reflexivity|].
  destruct (filter_of (JObj m')) as [f| | | |]; try reflexivity. cbn [rbind jat]. rewrite O, O', C, C'. cbn [rbind jitems].
  rewrite (read_ops_same g ops ops' Fo). destruct (read_ops (read_op g) ops' []) as [h| | | |]; try reflexivity. cbn [rbind].
  rewrite (read_conns_same cs cs' Fc). destruct (read_conns cs' h) as [h'| | | |]; try reflexivity. cbn [rbind].
  destruct (sfind entry h') as [o|]; [|reflexivity]. destruct (o_ctrl (op_base o)); now repeat split.
Qed.

(** Two definitions that give the same types, ids and parameters of the operators, the same ends of
    the connections, the same entry and the same output section, a parameter left out being the
    same as its default: whatever other members they have, both are accepted or both are refused
    with the same failure, the programs are the same, and they answer every history the same. *)
Theorem C96_members (g : string -> junk) (text text' : string) (j j' : json) :
  parse text = Ok j -> parse text' = Ok j' -> same_definition j j' -> same_output j j' ->
  same_outcome (new_prog g text) (new_prog g text') /\
  forall p q n history, new_prog g text = Ok p -> new_prog g text' = Ok q -> fst (session n p history) = fst (session n q history).
Proof.
  intros P P' D O. assert (S : same_outcome (new_prog g text) (new_prog g text')).
  { unfold new_prog. rewrite P, P'. cbn [rbind]. now apply init_same. }
  split; [exact S|]. intros p q n history Ep Eq. rewrite Ep, Eq in S. now apply session_same.
Qed.

(** The same through createProgram of the wrappers, which checks the definition first: if both
    have the same title, date and so on and their connections have no other members, the reply is
    the same, and the programs afterwards are the same. *)
Definition same_programs (m m' : manager) : Prop :=
  f_buffer m = f_buffer m' /\
  forall id, match sfind id (f_programs m), sfind id (f_programs m') with
             | Some p, Some q => same_program p q
             | None, None => True
             | _, _ => False
             end.

Theorem C96_created {SL : SchemaLib} {NC : NumCodec NO} (id : string) (g : string -> junk) (text text' : string) (j j' : json) (m : manager) :
  parse text = Ok j -> parse text' = Ok j' -> same_definition j j' -> same_header j j' -> only_ends j -> only_ends j' ->
  validate text = validate text' /\
  fst (create_checked id g text m) = fst (create_checked id g text' m) /\
  same_programs (snd (create_checked id g text m)) (snd (create_checked id g text' m)).
Proof.
  intros P P' D H E E'. assert (V : validate text = validate text') by (unfold validate; rewrite P, P'; f_equal; now apply valid_same).
  split; [exact V|]. assert (R : same_programs m m).
  { split; [reflexivity|]. intros k. destruct (sfind k (f_programs m)); [repeat split|exact Logic.I]. }
  assert (O : same_output j j').
  { destruct H as (n & n' & -> & -> & H). exists n, n'. split; [reflexivity|]. split; [reflexivity|]. apply H. cbn [In checked]. tauto. }
  unfold create_checked. rewrite <- V. destruct (validate text) as [[|]| | | |]; try (split; [reflexivity|exact R]).
  pose proof (init_same g text text' j j' D O) as S. unfold create_text, new_prog. rewrite P, P'. cbn [rbind].
  destruct (init g text j) as [p| | | |], (init g text' j') as [q| | | |]; cbn in S; try contradiction S; try discriminate S;
    try (split; [reflexivity|exact R]).
  - split; [reflexivity|]. cbn [snd]. split; [reflexivity|]. intros k. cbn [set_programs f_programs]. unfold semplace.
    destruct (sfind id (f_programs m)); [apply R|]. rewrite !sfind_sset. destruct (String.eqb k id); [exact S|apply R].
  - injection S as <-. destruct e; try (split; [reflexivity|exact R]).
    repeat (match goal with |- context [match ?s with _ => _ end] => destruct s end; try (split; [reflexivity|exact R])).
Qed.

(** A connection with another member is refused there. *)
Theorem C96_connection {SL : SchemaLib} {NC : NumCodec NO} (id : string) (g : string -> junk) (text : string) (mj mc : list (string * json)) (conns : list json) (key : string) (x : json) (m : manager) :
  parse text = Ok (JObj mj) -> sfind "connections" mj = Some (JArr conns) -> In (JObj mc) conns ->
  In (key, x) mc -> ~ In key ["from"; "to"; "fromPort"; "toPort"] ->
  create_checked id g text m = (Ok invalid_reply, m).
Proof.
  intros P F I J K. unfold create_checked. rewrite (C58_connection text mj mc conns P F I); [reflexivity|]. right. right. now exists key, x.
Qed.

End C96.

(** examples/data/debug-test.json gives two of its operators "policies", which do nothing: the
    program answers as the program of the peak detection example does. *)
Theorem C96_policies {NO : NumOps} {NF : NumField NO} {NI : NumInt NO} {JT : JsonText}
    (g : string -> junk) (text : string) (n : nat) (history : list opmsg) :
  parse text = Ok debug_definition -> (7 < n)%nat ->
  Forall (Forall (fun pm => fst pm = "i1")) history ->
  exists p, new_prog g text = Ok p /\
    Forall (fun r => exists out, r = Ok out) (fst (session n p history)) /\
    answered (fst (session n p history)) "out1" "o1" = peaks_of (records (sent_to "i1" history)).
Proof.
  intros P Hn Hi.
  pose (JT' := {| parse := fun _ => Ok (with_entry "in1" (notebook_definition 6 250 13)); dump := dump |}).
  destruct (@C94_peaks NO NF NI JT' 6 250 13 g text n history) as (q & Eq & A & B); auto; try lia.
  assert (S : same_outcome (init g text debug_definition) (init g text (with_entry "in1" (notebook_definition 6 250 13)))).
  { apply init_same.
    - do 6 eexists. split; [reflexivity|]. split; [reflexivity|]. split; [reflexivity|]. split; [reflexivity|]. split; [reflexivity|].
      split; [|split; [reflexivity|split; [reflexivity|]]].
      + repeat (apply Forall2_cons; [first [left; reflexivity | right; do 3 eexists; (split; [reflexivity|]); (split; [reflexivity|]);
          (split; [reflexivity|]); (split; [reflexivity|]); (split; [reflexivity|]); intros key Hk; cbn in Hk; repeat destruct Hk as [<-|Hk]; try contradiction Hk; reflexivity]|]).
        apply Forall2_nil.
      + repeat (apply Forall2_cons; [left; reflexivity|]). apply Forall2_nil.
    - do 2 eexists. split; [reflexivity|]. split; reflexivity. }
  change (init g text (with_entry "in1" (notebook_definition 6 250 13))) with (@new_prog NO JT' g text) in S. rewrite Eq in S.
  unfold new_prog at 1. rewrite P. cbn [rbind]. destruct (init g text debug_definition) as [p| | | |] eqn:Ep; try (contradiction S).
  exists p. split; [reflexivity|]. rewrite (session_same n history p q S). split; [exact A|exact B].
Qed.

Print Assumptions C96_members.
Print Assumptions C96_policies.
Print Assumptions C96_created.
Print Assumptions C96_connection.

(** Not vacuous: a definition of a moving average with comments everywhere but in the connections,
    without the number of ports and the ports of the connections. *)
Definition bare_text : @json QcOps := JObj [
  ("connections", JArr [JObj [("from", JStr "in"); ("fromPort", JStr "o1"); ("to", JStr "ma"); ("toPort", JStr "i1")]]);
  ("entryOperator", JStr "in");
  ("operators", JArr [JObj [("id", JStr "in"); ("numPorts", JInt 1); ("type", JStr "Input")];
                      JObj [("id", JStr "ma"); ("n", JInt 2); ("type", JStr "MovingAverage")]])].
Definition rich_text : @json QcOps := JObj [
  ("comment", JArr [JNull]);
  ("connections", JArr [JObj [("from", JStr "in"); ("fromPort", JStr "o1"); ("to", JStr "ma"); ("toPort", JStr "i1")]]);
  ("entryOperator", JStr "in");
  ("operators", JArr [JObj [("comment", JStr "the entry"); ("id", JStr "in"); ("type", JStr "Input"); ("value", JStr "none")];
                      JObj [("comment", JObj [("by", JStr "me")]); ("id", JStr "ma"); ("n", JInt 2); ("numPorts", JInt 7); ("type", JStr "MovingAverage")]])].

Example C96_example_hypotheses : same_definition bare_text rich_text /\ same_header bare_text rich_text /\ only_ends bare_text /\ only_ends rich_text.
Proof.
  split; [|split; [|split]].
  - do 6 eexists. split; [reflexivity|]. split; [reflexivity|]. split; [reflexivity|]. split; [reflexivity|]. split; [reflexivity|].
    split; [|split; [reflexivity|split; [reflexivity|]]].
    + repeat (apply Forall2_cons; [right; do 3 eexists; (split; [reflexivity|]); (split; [reflexivity|]);
          (split; [reflexivity|]); (split; [reflexivity|]); (split; [reflexivity|]); intros key Hk; cbn in Hk; repeat destruct Hk as [<-|Hk]; try contradiction Hk; reflexivity|]).
      apply Forall2_nil.
    + apply Forall2_cons; [left; reflexivity|apply Forall2_nil].
  - do 2 eexists. split; [reflexivity|]. split; [reflexivity|]. intros key Hk. cbn in Hk. repeat destruct Hk as [<-|Hk]; try contradiction Hk; reflexivity.
  - do 2 eexists. split; [reflexivity|]. split; [reflexivity|]. apply Forall_cons; [|apply Forall_nil]. intros mc [= <-] key y Hk. cbn in Hk |- *.
    repeat destruct Hk as [[= <- _]|Hk]; tauto.
  - do 2 eexists. split; [reflexivity|]. split; [reflexivity|]. apply Forall_cons; [|apply Forall_nil]. intros mc [= <-] key y Hk. cbn in Hk |- *.
    repeat destruct Hk as [[= <- _]|Hk]; tauto.
Qed.

Definition shown_of (j : @json QcOps) : bool * list (list (Z * Q)) :=
  (valid (SL := a_lib) program_schema j,
   match new_prog (JT := a_text j JNull) j0 "text" with
   | Ok p => map (fun r => map show_msg (answered [r] "ma" "o1")) (fst (session 8 p [[("i1", [im 1 10])]; [("i1", [im 2 20; im 3 40])]]))
   | _ => []
   end).
Example C96_example : shown_of bare_text = (true, [[]; [(2, 15%Q); (3, 30%Q)]]) /\ shown_of rich_text = shown_of bare_text.
Proof. vm_compute. auto. Qed.
