(** * The manager of programs *)

From Coq Require Import String Ascii ZArith Bool List Lia.
From Verif Require Import Base.StrMap Base.Num Model.Core Model.Graph Model.Codec Model.Json Model.Factory Spec.Manager.
From Verif Require Import Proofs.Ports.
Import ListNotations.
Open Scope string_scope.
Open Scope list_scope.
Open Scope Z_scope.
Open Scope rtbot_scope.

Section FactoryP.
Context {NO : NumOps} {NC : NumCodec NO} {JT : JsonText}.

(** ** The maps are maps *)
Definition wf_manager (m : manager) : Prop :=
  swf (f_programs m) /\ swf (f_buffer m) /\ forall id b, sfind id (f_buffer m) = Some b -> swf b.

Lemma wf_set_programs m ps : wf_manager m -> swf ps -> wf_manager (set_programs m ps).
Proof. intros (A & B & C) W. split; [exact W|]. split; [exact B|exact C]. Qed.

Lemma add_wf id port x m : wf_manager m -> wf_manager (snd (add_to_buffer id port x m)).
Proof.
  intros W. unfold add_to_buffer. destruct (shas id (f_programs m)); [|exact W]. destruct W as (A & B & C).
  split; [exact A|]. cbn [snd set_buffer f_buffer]. split; [now apply swf_sset|].
  intros i b. rewrite sfind_sset. destruct (String.eqb i id); [|apply C]. intros [= <-]. apply swf_sset.
  destruct (sfind id (f_buffer m)) eqn:E; cbn [odefault]; [eauto|apply swf_nil].
Qed.

Lemma process_map_wf d n id b m : wf_manager m -> wf_manager (snd (process_map d n id b m)).
Proof.
  intros W. unfold process_map. destruct (sfind id (f_programs m)); [|exact W]. destruct (receive_as d n p b) as [r p'].
  apply wf_set_programs; [exact W|]. apply swf_sset. apply W.
Qed.

Lemma process_buffer_wf d n id m : wf_manager m -> wf_manager (snd (process_buffer d n id m)).
Proof.
  intros W. unfold process_buffer. destruct (shas id (f_programs m)); [|exact W].
  destruct (sfind id (f_buffer m)) as [[|x b]|]; [exact W| |exact W].
  pose proof (process_map_wf d n id (x :: b) m W) as X. destruct (process_map d n id (x :: b) m) as [r m1]. cbn [snd] in X.
  destruct r; cbn [bind sbind snd]; auto. destruct X as (A & B & C). split; [exact A|]. cbn [set_buffer f_buffer].
  split; [now apply swf_serase|]. intros i y E. apply (C i). destruct (String.eqb_spec i id) as [->|N].
  - pose proof (sfind_serase_same id (f_buffer m1) B) as E'. rewrite E' in E. discriminate E.
  - pose proof (sfind_serase_other i id (f_buffer m1) N) as E'. now rewrite E' in E.
Qed.

Lemma add_all_wf id l : forall m, wf_manager m -> wf_manager (snd (add_all id l m)).
Proof.
  induction l as [|[port x] l IH]; intros m W; cbn [add_all]; [exact W|].
  pose proof (add_wf id port x m W) as X. destruct (add_to_buffer id port x m) as [r m1]. cbn [snd] in X.
  destruct r; cbn [bind sbind snd]; auto.
Qed.

Lemma do_call_wf n c m : wf_manager m -> wf_manager (snd (do_call n c m)).
Proof.
  intros W. destruct c; cbn [do_call].
  - unfold create_text. destruct (new_prog g text); try exact W.
    + apply wf_set_programs; [exact W|]. apply swf_semplace. apply W.
    + destruct e; try exact W. repeat (match goal with |- context [match ?s with _ => _ end] => destruct s end; try exact W).
  - unfold create_bytes. destruct (shas id (f_programs m)); [exact W|]. destruct (load (new_prog g) bs); try exact W.
    apply wf_set_programs; [exact W|]. apply swf_semplace. apply W.
  - apply wf_set_programs; [exact W|]. apply swf_serase. apply W.
  - now apply add_wf.
  - now apply process_buffer_wf.
  - now apply process_map_wf.
  - unfold process_batch. destruct (_ && _); [|exact W]. pose proof (add_all_wf id (entries times values ports) m W) as X.
    destruct (add_all id (entries times values ports) m) as [r m1]. cbn [snd] in X. destruct r; cbn [bind sbind snd]; auto.
    now apply process_buffer_wf.
  - unfold with_program. destruct (sfind id (f_programs m)); exact W.
  - unfold with_program. destruct (sfind id (f_programs m)); exact W.
  - unfold with_program. destruct (sfind id (f_programs m)); exact W.
  - unfold with_program. destruct (sfind id (f_programs m)); exact W.
Qed.

Lemma do_calls_wf n cs : forall m, wf_manager m -> wf_manager (snd (do_calls n cs m)).
Proof.
  induction cs as [|c cs IH]; intros m W; cbn [do_calls]; [exact W|].
  pose proof (do_call_wf n c m W) as X. destruct (do_call n c m) as [x m1]. cbn [snd] in X.
  specialize (IH m1 X). destruct (do_calls n cs m1). exact IH.
Qed.

Lemma no_programs_wf : wf_manager no_programs.
Proof. split; [apply swf_nil|]. split; [apply swf_nil|]. intros id b E. discriminate E. Qed.

Lemma reachable_wf m : reachable_manager m -> wf_manager m.
Proof. intros (n & cs & ->). apply do_calls_wf, no_programs_wf. Qed.

(** ** Calls about other programs *)

Lemma same_refl id m : same_at id m m. Proof. split; reflexivity. Qed.
Lemma same_trans id m1 m2 m3 : same_at id m1 m2 -> same_at id m2 m3 -> same_at id m1 m3.
Proof. intros [A B] [C D]. split; congruence. Qed.
Lemma same_sym id m1 m2 : same_at id m1 m2 -> same_at id m2 m1.
Proof. intros [A B]. split; congruence. Qed.

Lemma eqb_ne (a b : string) : a <> b -> String.eqb b a = false.
Proof. intros N. destruct (String.eqb_spec b a); congruence. Qed.

Lemma sfind_sset_ne {A} k k' (v : A) m : k' <> k -> sfind k (sset k' v m) = sfind k m.
Proof. intros N. rewrite sfind_sset. destruct (String.eqb_spec k k'); congruence. Qed.
Lemma sfind_semplace_ne {A} k k' (v : A) m : k' <> k -> sfind k (semplace k' v m) = sfind k m.
Proof. intros N. rewrite sfind_semplace. destruct (sfind k m); auto. destruct (String.eqb_spec k k'); congruence. Qed.

Lemma add_other id i port x m : i <> id -> same_at id m (snd (add_to_buffer i port x m)).
Proof.
  intros N. unfold add_to_buffer. destruct (shas i (f_programs m)); [|apply same_refl].
  split; [reflexivity|]. cbn [snd set_buffer f_buffer]. now rewrite sfind_sset_ne.
Qed.
Lemma process_map_other d n id i b m : i <> id -> same_at id m (snd (process_map d n i b m)).
Proof.
  intros N. unfold process_map. destruct (sfind i (f_programs m)); [|apply same_refl]. destruct (receive_as d n p b) as [r p'].
  split; [|reflexivity]. cbn [snd set_programs f_programs]. now rewrite sfind_sset_ne.
Qed.
Lemma process_buffer_other d n id i m : i <> id -> same_at id m (snd (process_buffer d n i m)).
Proof.
  intros N. unfold process_buffer. destruct (shas i (f_programs m)); [|apply same_refl].
  destruct (sfind i (f_buffer m)) as [[|x b]|]; try apply same_refl.
  pose proof (process_map_other d n id i (x :: b) m N) as X. destruct (process_map d n i (x :: b) m) as [r m1]. cbn [snd] in X.
  destruct r; cbn [bind sbind snd]; auto. destruct X as [A B]. split; [exact A|]. cbn [set_buffer f_buffer].
  etransitivity; [exact B|]. symmetry. apply sfind_serase_other. congruence.
Qed.
Lemma add_all_other id i l : i <> id -> forall m, same_at id m (snd (add_all i l m)).
Proof.
  intros N. induction l as [|[port x] l IH]; intros m; cbn [add_all]; [apply same_refl|].
  pose proof (add_other id i port x m N) as X. destruct (add_to_buffer i port x m) as [r m1]. cbn [snd] in X.
  destruct r; cbn [bind sbind snd]; auto. eapply same_trans; [exact X|apply IH].
Qed.

Lemma do_call_other n c id m : about c <> id -> same_at id m (snd (do_call n c m)).
Proof.
  intros N. destruct c; cbn [do_call about] in *.
  - unfold create_text. destruct (new_prog g text); try apply same_refl.
    + split; [|reflexivity]. cbn [snd set_programs f_programs]. now rewrite sfind_semplace_ne.
    + destruct e; try apply same_refl.
      repeat (match goal with |- context [match ?s with _ => _ end] => destruct s end; try apply same_refl).
  - unfold create_bytes. destruct (shas id0 (f_programs m)); [apply same_refl|]. destruct (load (new_prog g) bs); try apply same_refl.
    split; [|reflexivity]. cbn [snd set_programs f_programs]. now rewrite sfind_semplace_ne.
  - split; [|reflexivity]. cbn [snd set_programs f_programs delete]. now rewrite sfind_serase_other by congruence.
  - now apply add_other.
  - now apply process_buffer_other.
  - now apply process_map_other.
  - unfold process_batch. destruct (_ && _); [|apply same_refl]. pose proof (add_all_other id id0 (entries times values ports) N m) as X.
    destruct (add_all id0 (entries times values ports) m) as [r m1]. cbn [snd] in X. destruct r; cbn [bind sbind snd]; auto.
    eapply same_trans; [exact X|]. now apply process_buffer_other.
  - unfold with_program. destruct (sfind id0 (f_programs m)); apply same_refl.
  - unfold with_program. destruct (sfind id0 (f_programs m)); apply same_refl.
  - unfold with_program. destruct (sfind id0 (f_programs m)); apply same_refl.
  - unfold with_program. destruct (sfind id0 (f_programs m)); apply same_refl.
Qed.

(** ** A call depends only on what the manager has of its program *)

Definition agree {A} (id : string) (x y : sres manager A) : Prop := fst x = fst y /\ same_at id (snd x) (snd y).

Lemma agree_bind {A B} id (x y : sres manager A) (k : A -> manager -> sres manager B) (P : manager -> Prop) :
  agree id x y -> P (snd x) -> P (snd y) ->
  (forall a m1 m2, same_at id m1 m2 -> P m1 -> P m2 -> agree id (k a m1) (k a m2)) -> agree id (bind x k) (bind y k).
Proof.
  intros [E S] P1 P2 K. destruct x as [rx mx], y as [ry my]. cbn in E, S, P1, P2. subst ry.
  destruct rx; cbn [bind sbind]; auto; split; auto.
Qed.

Lemma same_shas id m m' : same_at id m m' -> shas id (f_programs m) = shas id (f_programs m').
Proof. intros [A _]. unfold shas. now rewrite A. Qed.

Lemma add_same id port x m m' : same_at id m m' -> agree id (add_to_buffer id port x m) (add_to_buffer id port x m').
Proof.
  intros S. unfold add_to_buffer. rewrite (same_shas _ _ _ S). destruct (shas id (f_programs m')); [|split; auto].
  destruct S as [A B]. split; [reflexivity|]. split; [exact A|]. cbn [snd set_buffer f_buffer]. rewrite !sfind_sset, String.eqb_refl.
  now rewrite B.
Qed.

Lemma process_map_same d n id b m m' : same_at id m m' -> agree id (process_map d n id b m) (process_map d n id b m').
Proof.
  intros S. unfold process_map. pose proof S as [A B]. rewrite A. destruct (sfind id (f_programs m')); [|split; auto].
  destruct (receive_as d n p b) as [r p']. split; [reflexivity|]. split; [|exact B].
  cbn [snd set_programs f_programs]. now rewrite !sfind_sset, String.eqb_refl.
Qed.

Lemma process_buffer_same d n id m m' : wf_manager m -> wf_manager m' -> same_at id m m' ->
  agree id (process_buffer d n id m) (process_buffer d n id m').
Proof.
  intros W W' S. unfold process_buffer. rewrite (same_shas _ _ _ S). destruct (shas id (f_programs m')); [|split; auto].
  pose proof S as [A B]. rewrite B. destruct (sfind id (f_buffer m')) as [[|x b]|]; [split; auto| |split; auto].
  apply (agree_bind id _ _ _ wf_manager).
  - now apply process_map_same.
  - now apply process_map_wf.
  - now apply process_map_wf.
  - intros r m1 m2 [S1 S2] W1 W2. split; [reflexivity|]. split; [exact S1|]. cbn [snd set_buffer f_buffer].
    rewrite !sfind_serase_same; [reflexivity|apply W2|apply W1].
Qed.

Lemma add_all_same id l : forall m m', same_at id m m' -> agree id (add_all id l m) (add_all id l m').
Proof.
  induction l as [|[port x] l IH]; intros m m' S; cbn [add_all]; [split; auto|].
  apply (agree_bind id _ _ _ (fun _ => True)); auto. now apply add_same.
Qed.

Lemma do_call_same n c m m' : wf_manager m -> wf_manager m' -> same_at (about c) m m' ->
  agree (about c) (do_call n c m) (do_call n c m').
Proof.
  intros W W' S. destruct c; cbn [do_call about] in *.
  - unfold create_text. destruct (new_prog g text); try (split; auto; fail).
    + destruct S as [A B]. split; [reflexivity|]. split; [|exact B]. cbn [snd set_programs f_programs].
      now rewrite !sfind_semplace, A.
    + destruct e; try (split; auto; fail).
      repeat (match goal with |- agree _ (match ?s with _ => _ end) _ => destruct s end; try (split; auto; fail)).
  - unfold create_bytes. rewrite (same_shas _ _ _ S). destruct (shas id (f_programs m')); [split; auto|].
    destruct (load (new_prog g) bs); try (split; auto; fail).
    destruct S as [A B]. split; [reflexivity|]. split; [|exact B]. cbn [snd set_programs f_programs]. now rewrite !sfind_semplace, A.
  - unfold delete. rewrite (same_shas _ _ _ S). split; [reflexivity|]. split; [|apply S]. cbn [snd set_programs f_programs].
    rewrite !sfind_serase_same; [reflexivity|apply W'|apply W].
  - now apply add_same.
  - now apply process_buffer_same.
  - now apply process_map_same.
  - unfold process_batch. destruct (_ && _); [|split; auto].
    apply (agree_bind id _ _ _ wf_manager).
    + now apply add_all_same.
    + now apply add_all_wf.
    + now apply add_all_wf.
    + intros _ m1 m2 S1 W1 W2. now apply process_buffer_same.
  - unfold with_program. rewrite (proj1 S). destruct (sfind id (f_programs m')); split; auto.
  - unfold with_program. rewrite (proj1 S). destruct (sfind id (f_programs m')); split; auto.
  - unfold with_program. rewrite (proj1 S). destruct (sfind id (f_programs m')); split; auto.
  - unfold with_program. rewrite (proj1 S). destruct (sfind id (f_programs m')); split; auto.
Qed.

Lemma do_calls_own n id cs : forall m m', wf_manager m -> wf_manager m' -> same_at id m m' ->
  replies_about id cs (fst (do_calls n cs m)) = fst (do_calls n (filter (is_about id) cs) m') /\
  same_at id (snd (do_calls n cs m)) (snd (do_calls n (filter (is_about id) cs) m')).
Proof.
  induction cs as [|c cs IH]; intros m m' W W' S; cbn [do_calls filter]; [split; auto|].
  pose proof (do_call_wf n c m W) as W1. destruct (is_about id c) eqn:E.
  - assert (E' : about c = id) by (unfold is_about in E; now apply String.eqb_eq). subst id.
    pose proof (do_call_wf n c m' W') as W1'. destruct (do_call_same n c m m' W W' S) as [R S1]. cbn [do_calls].
    destruct (do_call n c m) as [x m1], (do_call n c m') as [x' m1']. cbn [fst snd] in *. subst x'.
    destruct (IH m1 m1' W1 W1' S1) as [H1 H2]. destruct (do_calls n cs m1) as [xs m2].
    destruct (do_calls n (filter (is_about (about c)) cs) m1') as [xs' m2']. cbn [fst snd] in *.
    split; [|exact H2]. unfold replies_about in *. cbn [combine filter fst]. rewrite E. cbn [map snd]. now rewrite H1.
  - assert (E' : about c <> id) by (intros X; unfold is_about in E; rewrite X, String.eqb_refl in E; discriminate).
    pose proof (do_call_other n c id m E') as S1. destruct (do_call n c m) as [x m1]. cbn [snd] in *.
    destruct (IH m1 m' W1 W' (same_trans _ _ _ _ (same_sym _ _ _ S1) S)) as [H1 H2].
    destruct (do_calls n cs m1) as [xs m2]. cbn [fst snd] in *. split; [|exact H2].
    unfold replies_about in *. cbn [combine filter fst]. rewrite E. exact H1.
Qed.

(** ** The buffer *)

Lemma for_port_app port l l' : for_port port (l ++ l') = for_port port l ++ for_port port l'.
Proof. unfold for_port. now rewrite filter_app, map_app. Qed.

Definition at_port (b : option opmsg) (port : string) : list msg := odefault [] (sfind port (odefault [] b)).

(** a batch of the messages of [l], or none *)
Definition holds (b : option opmsg) (l : list (string * msg)) : Prop :=
  match b with None => l = [] | Some b => is_batch_of l b end.

Lemma sfind_ext {A} (m m' : smap A) : swf m -> swf m' -> (forall k, sfind k m = sfind k m') -> m = m'.
Proof. intros W W' E. exact (swf_ext m m' W W' E). Qed.

Lemma add_holds id port x m l : wf_manager m -> shas id (f_programs m) = true -> holds (sfind id (f_buffer m)) l ->
  fst (add_to_buffer id port x m) = Ok (RBool true) /\
  f_programs (snd (add_to_buffer id port x m)) = f_programs m /\
  holds (sfind id (f_buffer (snd (add_to_buffer id port x m)))) (l ++ [(port, x)]).
Proof.
  intros W E H. unfold add_to_buffer. rewrite E. split; [reflexivity|]. split; [reflexivity|].
  cbn [snd set_buffer f_buffer]. rewrite sfind_sset, String.eqb_refl. cbn [holds].
  assert (Hb : is_batch_of l (odefault [] (sfind id (f_buffer m)))).
  { destruct (sfind id (f_buffer m)) as [b|]; cbn [holds odefault] in *; [exact H|]. subst l. split; [apply swf_nil|]. intros; reflexivity. }
  destruct Hb as [Wb Hb]. split; [now apply swf_sset|]. intros p. rewrite sfind_sset, for_port_app, !Hb.
  unfold for_port at 2 4. cbn [filter map snd fst]. destruct (String.eqb_spec p port) as [->|N].
  - rewrite String.eqb_refl. cbn [map snd]. destruct (for_port port l); reflexivity.
  - rewrite (eqb_ne p port N). cbn [map]. rewrite app_nil_r. reflexivity.
Qed.
End FactoryP.
