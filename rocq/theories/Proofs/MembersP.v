(** * Other members have no effect (for C96) *)

From Coq Require Import String ZArith Bool List Lia.
From Verif Require Import Base.StrMap Base.Num Model.Core Model.Ops Model.Make Model.Run Model.Graph Model.Json.
From Verif Require Import Spec.Snapshot Spec.Members Proofs.JsonP.
Import ListNotations.
Open Scope string_scope.
Open Scope list_scope.
Open Scope Z_scope.
Open Scope rtbot_scope.

Section MembersP.
Context {NO : NumOps} {JT : JsonText}.

Lemma jvalue_or {A} (get : json -> res A) key d x m : get x = Ok d ->
  jvalue get key d (JObj m) = match given key (Some x) m with Some y => get y | None => Ok d end.
Proof. intros E. unfold jvalue, given. destruct (sfind key m); [reflexivity|now rewrite E]. Qed.

Lemma jindex_given key m : jindex key (JObj m) = match given key None m with Some x => Ok x | None => UB end.
Proof. unfold jindex, given. destruct (sfind key m); reflexivity. Qed.

Lemma get_int_small z : - 2 ^ 31 <= z < 2 ^ 31 -> get_int (JInt z) = Ok z.
Proof. intros H. cbn. unfold wrap32. rewrite Z.mod_small by lia. f_equal. lia. Qed.

Lemma u64_same key m m' : given key None m = given key None m' -> u64_of key (JObj m) = u64_of key (JObj m').
Proof. intros H. unfold u64_of. now rewrite !jindex_given, H. Qed.
Lemma V_same key m m' : given key None m = given key None m' -> V_of key (JObj m) = V_of key (JObj m').
Proof. intros H. unfold V_of. now rewrite !jindex_given, H. Qed.
Lemma Vs_same key m m' : given key None m = given key None m' -> Vs_of key (JObj m) = Vs_of key (JObj m').
Proof. intros H. unfold Vs_of. now rewrite !jindex_given, H. Qed.
Lemma index_same key m m' : given key None m = given key None m' -> jindex key (JObj m) = jindex key (JObj m').
Proof. intros H. now rewrite !jindex_given, H. Qed.
Lemma int_same key d m m' : - 2 ^ 31 <= d < 2 ^ 31 -> given key (Some (JInt d)) m = given key (Some (JInt d)) m' ->
  jvalue get_int key d (JObj m) = jvalue get_int key d (JObj m').
Proof. intros R H. rewrite !(jvalue_or get_int key d (JInt d)) by now apply get_int_small. now rewrite H. Qed.

Lemma from_json_same g type m m' : sfind "type" m = Some (JStr type) -> sfind "type" m' = Some (JStr type) -> sfind "id" m = sfind "id" m' ->
  (forall key, In key (parameters type) -> given key (default type key) m = given key (default type key) m') ->
  from_json g type (JObj m) = from_json g type (JObj m').
Proof.
  intros T T' I H. unfold from_json. cbv beta zeta.
  assert (Ei : id_of (JObj m) = id_of (JObj m')) by (unfold id_of, jindex; now rewrite I).
  assert (Et : jvalue get_str "type" "linear" (JObj m) = jvalue get_str "type" "linear" (JObj m')) by (unfold jvalue; now rewrite T, T').
  rewrite Ei, Et. clear Ei Et I T T'.
  repeat (match goal with |- (if String.eqb type ?s then _ else _) = _ => destruct (String.eqb_spec type s) as [->|_] end;
    [solve [reflexivity
     | match goal with
       | |- context [u64_of ?k (JObj m)] => rewrite (u64_same k m m' (H k (or_introl eq_refl))); reflexivity
       | |- context [V_of ?k (JObj m)] => rewrite (V_same k m m' (H k (or_introl eq_refl))); reflexivity
       | |- context [Vs_of ?k (JObj m)] => rewrite (Vs_same k m m' (H k (or_introl eq_refl))); reflexivity
       | |- context [jindex ?k (JObj m)] => rewrite (index_same k m m' (H k (or_introl eq_refl))); reflexivity
       | |- context [jvalue get_int "dt" 1 (JObj m)] =>
           rewrite (int_same "dt" 1 m m' ltac:(lia) (H "dt" (or_introl eq_refl))), (int_same "times" 1 m m' ltac:(lia) (H "times" (or_intror (or_introl eq_refl)))); reflexivity
       | |- context [jvalue get_int ?k ?d (JObj m)] => rewrite (int_same k d m m' ltac:(lia) (H k (or_introl eq_refl))); reflexivity
       end]|]).
  reflexivity.
Qed.

Lemma read_op_same g x y : same_operator x y -> jindex "id" x = jindex "id" y /\ read_op g x = read_op g y.
Proof.
  intros [->|(m & m' & type & -> & -> & T & T' & I & H)]; [split; reflexivity|].
  split; [cbn; now rewrite I|]. rewrite (read_op_unfold g (JObj m)), (read_op_unfold g (JObj m')).
  cbn [jat]. rewrite T, T'. cbn [rbind get_str]. destruct (String.eqb_spec type "Pipeline") as [->|_].
  - rewrite I. specialize (H "prog" (or_introl eq_refl)). unfold given in H. cbn in H.
    destruct (sfind "id" m') as [idj|]; [|reflexivity]. cbn [rbind]. destruct (get_str idj); cbn [rbind]; try reflexivity.
    destruct (sfind "prog" m), (sfind "prog" m'); try discriminate H; [|reflexivity]. now injection H as ->.
  - now rewrite (from_json_same g type m m' T T' I H).
Qed.

Lemma read_ops_same g l l' : Forall2 same_operator l l' -> forall h, read_ops (read_op g) l h = read_ops (read_op g) l' h.
Proof.
  induction 1 as [|x y l l' S _ IH]; intros h; [reflexivity|]. cbn [read_ops]. destruct (read_op_same g x y S) as [-> ->].
  destruct (jindex "id" y); cbn [rbind]; auto. destruct (read_op g y); cbn [rbind]; auto. destruct (get_str a); cbn [rbind]; auto.
Qed.

Lemma conn_of_same x y : same_connection x y -> conn_of x = conn_of y.
Proof.
  intros [->|(m & m' & -> & -> & A & B)]; [reflexivity|]. unfold conn_of. cbn [jindex].
  rewrite !(jvalue_or get_str _ "" (JStr "")) by reflexivity.
  rewrite (A "from"), (A "to"), (B "fromPort"), (B "toPort") by (cbn; tauto). reflexivity.
Qed.

Lemma read_conns_same l l' : Forall2 same_connection l l' -> forall h, read_conns l h = read_conns l' h.
Proof.
  induction 1 as [|x y l l' S _ IH]; intros h; [reflexivity|]. cbn [read_conns]. rewrite (conn_of_same x y S).
  destruct (conn_of y); cbn [rbind]; auto. destruct (connect1 a h); cbn [rbind]; auto.
Qed.

Lemma filter_of_same x y : same_output x y -> filter_of x = filter_of y.
Proof. intros (m & m' & -> & -> & E). unfold filter_of. cbn [jat]. now rewrite E. Qed.

(** ** Calls of programs with the same operators and entry *)

Definition alike (p q : program) : Prop := p_ops p = p_ops q /\ p_entry p = p_entry q.

Lemma receive_debug_alike n p q b : alike p q ->
  fst (receive_debug n p b) = fst (receive_debug n q b) /\ alike (snd (receive_debug n p b)) (snd (receive_debug n q b)).
Proof.
  intros [A B]. unfold receive_debug. rewrite A, B. destruct (shas (p_entry q) (p_ops q)); [|now split].
  destruct (send_batch n (p_entry q) b [] (p_ops q)) as [r h]. now split.
Qed.

Lemma receive_same n p q b : same_program p q ->
  fst (receive n p b) = fst (receive n q b) /\ same_program (snd (receive n p b)) (snd (receive n q b)).
Proof.
  intros (A & B & C). unfold receive, receive_debug. rewrite A, B. destruct (shas (p_entry q) (p_ops q)); [|now repeat split].
  destruct (send_batch n (p_entry q) b [] (p_ops q)) as [[r| | | |] h]; cbn [fst snd]; rewrite ?C; repeat split; assumption.
Qed.

Lemma session_same n history : forall p q, same_program p q -> fst (session n p history) = fst (session n q history).
Proof.
  induction history as [|b bs IH]; intros p q S; [reflexivity|]. cbn [session]. destruct (receive_same n p q b S) as [A B].
  destruct (receive n p b) as [r p1], (receive n q b) as [r' q1]. cbn [fst snd] in *. subst r'. specialize (IH p1 q1 B).
  destruct (session n p1 bs), (session n q1 bs). cbn [fst] in *. now subst.
Qed.

End MembersP.
