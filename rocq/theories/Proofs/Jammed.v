(** * Calls from JavaScript one after the other *)

From Coq Require Import String ZArith Bool List Lia.
From Verif Require Import Base.StrMap Base.Num Model.Core Model.Graph Model.Codec Model.Json Model.Factory Model.Schema Model.Wrapper Model.Javascript.
From Verif Require Import Spec.Shape Spec.Manager Spec.Snapshot Spec.Wrapper Spec.Javascript Spec.Log.
From Verif Require Import Proofs.Ports Proofs.ShapeP Proofs.MakeP Proofs.FactoryP Proofs.JsonP Proofs.WrapperP Proofs.JavascriptP Proofs.Refuse Properties.Manager.
Import ListNotations.
Open Scope string_scope.
Open Scope list_scope.
Open Scope Z_scope.
Open Scope rtbot_scope.

Section Jammed.
Context {NO : NumOps} {SL : SchemaLib} {JT : JsonText} {NC : NumCodec NO} {JR : JsRuntime}.

(** ** A message for an input that is not there stays in the buffer *)
Section Bad.
Variables (id bad : string) (n : nat).
Hypothesis Nb : bad <> "".

Definition has_bad (m : manager) : Prop :=
  exists b x xs, sfind id (f_buffer m) = Some b /\ sfind bad b = Some (x :: xs).
Definition all_closed (m : manager) : Prop :=
  forall p, sfind id (f_programs m) = Some p -> wf_heap (p_ops p) /\ closed_to bad (p_entry p) (p_ops p).

Lemma add_keeps_bad port x m : has_bad m -> has_bad (snd (add_to_buffer id port x m)).
Proof.
  intros (b & y & ys & F & G). unfold add_to_buffer. destruct (shas id (f_programs m)); [|now exists b, y, ys].
  unfold has_bad. cbn [snd set_buffer f_buffer]. rewrite sfind_sset_same, F. cbn [odefault]. eexists.
  destruct (String.eqb_spec bad port) as [->|X].
  - exists y, (ys ++ [x]). split; [reflexivity|]. rewrite sfind_sset_same, G. reflexivity.
  - exists y, ys. split; [reflexivity|]. now rewrite sfind_sset_other.
Qed.

Lemma add_programs port x m : f_programs (snd (add_to_buffer id port x m)) = f_programs m.
Proof. unfold add_to_buffer. now destruct (shas id (f_programs m)). Qed.

Lemma js_add_cases port x m : snd (js_add id port x m) = m \/ exists y, snd (js_add id port x m) = snd (add_to_buffer id port y m).
Proof.
  unfold js_add. destruct (js_ulong (fst x)); auto. destruct (js_double (snd x)); auto. right. eauto.
Qed.

Lemma js_prepare_ind (P : manager -> Prop) : (forall m port x, P m -> P (snd (add_to_buffer id port x m))) ->
  forall ms m, P m -> P (snd (js_prepare id ms m)).
Proof.
  intros H. assert (A : forall port xs m, P m -> P (snd (js_add_all id port xs m))).
  { intros port xs. induction xs as [|x xs IH]; intros m Pm; cbn [js_add_all]; [exact Pm|].
    assert (X : P (snd (js_add id port x m))) by (destruct (js_add_cases port x m) as [->|[y ->]]; auto).
    destruct (js_add id port x m) as [[u| | | |] m1]; cbn [bind sbind snd] in *; auto. }
  induction ms as [|[port xs] ms IH]; intros m Pm; cbn [js_prepare]; [exact Pm|].
  specialize (A port xs m Pm). destruct (js_add_all id port xs m) as [[u| | | |] m1]; cbn [bind sbind snd] in *; auto.
Qed.

Lemma receive_as_keeps d k p b : wf_heap (p_ops p) ->
  erase_heap (p_ops (snd (receive_as d k p b))) = erase_heap (p_ops p) /\ p_entry (snd (receive_as d k p b)) = p_entry p.
Proof.
  intros W. assert (X : erase_heap (p_ops (snd (receive_debug k p b))) = erase_heap (p_ops p) /\ p_entry (snd (receive_debug k p b)) = p_entry p).
  { unfold receive_debug. destruct (shas (p_entry p) (p_ops p)); [|auto].
    pose proof (send_batch_keeps k (p_entry p) b [] (p_ops p) W) as K. destruct (send_batch k (p_entry p) b [] (p_ops p)) as [r h].
    cbn [snd p_ops p_entry set_ops]. split; [exact K|reflexivity]. }
  destruct d; [exact X|]. unfold receive_as, receive. destruct (receive_debug k p b) as [[r| | | |] q]; exact X.
Qed.

Lemma process_bad d m : has_bad m -> all_closed m ->
  (forall r, fst (process_buffer d (S n) id m) <> Ok r) /\ has_bad (snd (process_buffer d (S n) id m)) /\ all_closed (snd (process_buffer d (S n) id m)).
Proof.
  intros H C. unfold process_buffer. destruct (shas id (f_programs m)) eqn:S; [|split; [discriminate|auto]].
  assert (H' := H). destruct H' as (b & x & xs & F & G). rewrite F. destruct b as [|y b]; [discriminate G|].
  unfold process_map. destruct (sfind id (f_programs m)) as [p|] eqn:Fp; [|unfold shas in S; rewrite Fp in S; discriminate S].
  destruct (C p Fp) as [W Cp]. pose proof (receive_refused d n p bad x xs (y :: b) Nb (sfind_In _ _ _ G) W Cp) as R.
  pose proof (receive_as_keeps d (Datatypes.S n) p (y :: b) W) as [K Ke].
  assert (R' : forall r, fst (receive_as d (Datatypes.S n) p (y :: b)) <> Ok r) by (destruct d; exact R). clear R.
  destruct (receive_as d (Datatypes.S n) p (y :: b)) as [r p1]. cbn [fst snd] in *.
  assert (A : all_closed (set_programs m (sset id p1 (f_programs m)))).
  { intros q Fq. cbn [set_programs f_programs] in Fq. rewrite sfind_sset_same in Fq. injection Fq as <-.
    split; [eapply wf_heap_same; eauto|]. rewrite Ke. eapply closed_same; eauto. }
  destruct r as [r| | | |]; cbn [rbind bind sbind fst snd]; [exfalso; exact (R' r eq_refl)| | | |];
    (split; [discriminate|]; split; [exact H|exact A]).
Qed.

Lemma process_message_bad d dp t v port m : has_bad m -> all_closed m ->
  let x := js_process_message d (S n) id dp t v port m in
  (forall out, fst x <> Ok out) /\ has_bad (snd x) /\ all_closed (snd x).
Proof.
  intros H C. unfold js_process_message. destruct (match port with Some p => Some p | None => dp end) as [p|]; [|split; [discriminate|auto]].
  destruct (String.eqb p ""); [split; [discriminate|auto]|].
  unfold js_process. set (ms := [(p, [(t, Some v)])]).
  pose proof (js_prepare_ind has_bad (fun m0 port0 x => add_keeps_bad port0 x m0) ms m H) as H1.
  assert (C1 : all_closed (snd (js_prepare id ms m))).
  { revert C. generalize m. intros m0 C. apply (js_prepare_ind all_closed); [|exact C].
    intros m1 port0 x A q Fq. apply A. now rewrite add_programs in Fq. }
  destruct (js_prepare id ms m) as [[u| | | |] m1]; cbn [bind sbind fst snd] in *; try (split; [discriminate|auto]; fail).
  destruct (process_bad d m1 H1 C1) as (X1 & X2 & X3). destruct (process_buffer d (S n) id m1) as [[r| | | |] m2]; cbn [bind sbind fst snd] in *;
    try (split; [discriminate|auto]; fail). exfalso. exact (X1 r eq_refl).
Qed.

Lemma new_closed g text p : new_prog g text = Ok p -> lacks bad p -> wf_heap (p_ops p) /\ closed_to bad (p_entry p) (p_ops p).
Proof.
  intros E L. split; [apply (new_prog_good _ _ _ E)|]. intros o F. split; [eapply new_shuts; eauto|exact (L o F)].
Qed.

Lemma start_closed g text m : (forall p, new_prog g text = Ok p -> lacks bad p) -> all_closed m -> has_bad m ->
  all_closed (snd (js_start id g text m)) /\ has_bad (snd (js_start id g text m)).
Proof.
  intros L C H. assert (X : all_closed (snd (js_create id g text m)) /\ has_bad (snd (js_create id g text m))).
  { unfold js_create, create_checked. destruct (validate text) as [[|]| | | |]; cbn [bind sbind snd]; auto.
    unfold create_text. destruct (new_prog g text) as [p|e| | |] eqn:E; cbn [bind sbind snd]; auto.
    - split; [|exact H]. intros q Fq. cbn [set_programs f_programs String.eqb snd] in Fq. rewrite Ports.sfind_semplace, String.eqb_refl in Fq.
      destruct (sfind id (f_programs m)) as [p0|] eqn:F0; injection Fq as <-; [exact (C p0 F0)|]. eapply new_closed; eauto.
    - destruct e; cbn [bind sbind snd]; auto.
      repeat match goal with |- context [match ?s with _ => _ end] => is_var s; destruct s; cbn [bind sbind snd]; auto end. }
  unfold js_start. destruct (js_create id g text m) as [[u| | | |] m1]; cbn [bind sbind snd] in *; auto.
  unfold js_ports, with_program. destruct (sfind id (f_programs m1)) as [p|]; cbn [bind sbind snd]; auto.
  destruct (entry_ports p) as [[]| | | |]; cbn [bind sbind snd]; auto.
Qed.

Lemma stop_closed m : wf_manager m -> has_bad m -> all_closed m ->
  has_bad (snd (js_stop id m)) /\ all_closed (snd (js_stop id m)).
Proof.
  intros W H C. unfold js_stop, delete. cbn [bind sbind snd]. split; [exact H|]. intros p F. cbn [set_programs f_programs] in F.
  pose proof (sfind_serase_same id (f_programs m) (proj1 W)) as X. rewrite X in F. discriminate F.
Qed.

Lemma js_create_wf g text m : wf_manager m -> wf_manager (snd (js_create id g text m)).
Proof.
  intros W. unfold js_create, create_checked. destruct (validate text) as [[|]| | | |]; cbn [bind sbind snd]; auto.
  pose proof (do_call_wf n (CreateText id g text) m W) as X. cbn [do_call] in X.
  destruct (create_text id g text m) as [[r| | | |] m1]; cbn [bind sbind snd] in *; auto.
  destruct r as [s| | | | |]; auto. destruct (String.eqb s ""); auto.
Qed.
Lemma js_start_wf g text m : wf_manager m -> wf_manager (snd (js_start id g text m)).
Proof.
  intros W. pose proof (js_create_wf g text m W) as X. unfold js_start.
  destruct (js_create id g text m) as [[u| | | |] m1]; cbn [bind sbind snd] in *; auto.
  unfold js_ports, with_program. destruct (sfind id (f_programs m1)) as [p|]; cbn [bind sbind snd]; auto.
  destruct (entry_ports p) as [[]| | | |]; cbn [bind sbind snd]; auto.
Qed.
Lemma js_message_wf d dp t v port m : wf_manager m -> wf_manager (snd (js_process_message d n id dp t v port m)).
Proof.
  intros W. unfold js_process_message. destruct (match port with Some p => Some p | None => dp end) as [p|]; auto.
  destruct (String.eqb p ""); auto. unfold js_process.
  pose proof (js_prepare_ind wf_manager (fun m0 port0 x => add_wf id port0 x m0) [(p, [(t, Some v)])] m W) as X.
  destruct (js_prepare id [(p, [(t, Some v)])] m) as [[u| | | |] m1]; cbn [bind sbind snd] in *; auto.
  pose proof (process_buffer_wf d n id m1 X) as Y. destruct (process_buffer d n id m1) as [[r| | | |] m2]; cbn [bind sbind snd] in *; auto.
  destruct r; auto.
Qed.
End Bad.

Lemma acts_bad n id bad l : bad <> "" -> forall dp m, Forall (starts_lack bad) l -> wf_manager m -> has_bad id bad m -> all_closed id bad m ->
  Forall fails (fst (js_acts (S n) id l (dp, m))).
Proof.
  intros Nb. induction l as [|a l IH]; intros dp m F W H C; cbn [js_acts]; [constructor|]. inversion F as [|? ? Fa Fl]; subst.
  destruct a as [g text|d t v port|]; cbn [js_act].
  - pose proof (js_start_wf id n g text m W) as W1. destruct (start_closed id bad g text m Fa C H) as [C1 H1].
    destruct (js_start id g text m) as [r m1]. cbn [snd] in *.
    assert (X : forall d, Forall fails (fst (js_acts (S n) id l (d, m1)))) by (intros d; now apply IH).
    destruct r as [d| | | |]; specialize (X d) || specialize (X dp); destruct (js_acts (S n) id l _) as [xs s]; cbn [fst] in *; constructor; cbn; auto.
  - pose proof (js_message_wf id (S n) d dp t v port m W) as W1.
    destruct (process_message_bad id bad n Nb d dp t v port m H C) as (X & H1 & C1).
    destruct (js_process_message d (S n) id dp t v port m) as [r m1]. cbn [fst snd] in *.
    specialize (IH dp m1 Fl W1 H1 C1). destruct (js_acts (S n) id l (dp, m1)) as [xs s]. cbn [fst] in *. constructor; auto.
  - assert (W1 : wf_manager (snd (js_stop id m))).
    { unfold js_stop. pose proof (do_call_wf (S n) (Delete id) m W) as X. exact X. }
    destruct (stop_closed id bad m W H C) as [H1 C1]. destruct (js_stop id m) as [r m1]. cbn [snd] in *.
    specialize (IH dp m1 Fl W1 H1 C1). destruct (js_acts (S n) id l (dp, m1)) as [xs s]. cbn [fst] in *. constructor; cbn; auto.
Qed.

(** the first message for the input that is not there *)
Lemma first_bad n id bad d t v u w dp m : bad <> "" -> wf_manager m -> shas id (f_programs m) = true -> all_closed id bad m ->
  js_ulong t = Ok u -> js_double (Some v) = Ok w ->
  let x := js_process_message d (S n) id dp t v (Some bad) m in
  (forall out, fst x <> Ok out) /\ has_bad id bad (snd x) /\ all_closed id bad (snd x).
Proof.
  intros Nb W S C Eu Ew. unfold js_process_message. apply String.eqb_neq in Nb as Nb'. rewrite Nb'.
  unfold js_process. cbn [js_prepare js_add_all]. unfold js_add. cbn [fst snd]. rewrite Eu, Ew.
  set (m1 := snd (add_to_buffer id bad (mkMsg u w) m)).
  assert (E : exists r, add_to_buffer id bad (mkMsg u w) m = (Ok r, m1)).
  { unfold m1, add_to_buffer. rewrite S. eexists. reflexivity. }
  destruct E as [r ->]. cbn [bind sbind].
  assert (H1 : has_bad id bad m1).
  { unfold m1, add_to_buffer. rewrite S. unfold has_bad. cbn [snd set_buffer f_buffer]. rewrite sfind_sset_same.
    destruct (odefault [] (sfind bad (odefault [] (sfind id (f_buffer m))))) as [|y ys] eqn:Y.
    - eexists. exists (mkMsg u w), []. split; [reflexivity|]. rewrite sfind_sset_same, ?Y. reflexivity.
    - eexists. exists y, (ys ++ [mkMsg u w]). split; [reflexivity|]. rewrite sfind_sset_same, ?Y. reflexivity. }
  assert (C1 : all_closed id bad m1).
  { intros q Fq. unfold m1 in Fq. rewrite add_programs in Fq. now apply C. }
  destruct (process_bad id bad n Nb d m1 H1 C1) as (X1 & X2 & X3).
  destruct (process_buffer d (Datatypes.S n) id m1) as [[y| | | |] m2]; cbn [bind sbind fst snd] in *; try (split; [discriminate|auto]; fail).
  exfalso. exact (X1 y eq_refl).
Qed.

(** ** Messages that are delivered *)
Lemma message_step d n id dp t v port q p m : faithful -> fits32 t -> wf_manager m -> sfind id (f_buffer m) = None ->
  port_of dp (d, t, v, port) = Some q -> q <> "" -> forall out p1, receive_as d n p [(q, [mkMsg t v])] = (Ok out, p1) ->
  js_process_message d n id dp t v port (with_p id p m) = (Ok out, with_p id p1 m).
Proof.
  intros R Ft W B Eq Nq out p1 E. unfold js_process_message. unfold port_of in Eq. cbn [snd] in Eq. rewrite Eq.
  apply String.eqb_neq in Nq. rewrite Nq. unfold js_process. cbn [js_prepare js_add_all]. rewrite js_add_ok by auto.
  unfold add_to_buffer. assert (S : shas id (f_programs (with_p id p m)) = true) by (unfold shas; now rewrite with_p_find).
  rewrite S. cbn [bind sbind]. change (f_buffer (with_p id p m)) with (f_buffer m). rewrite B. cbn [odefault sfind app sset].
  unfold process_buffer. cbn [set_buffer f_programs f_buffer]. rewrite S, sfind_sset_same.
  unfold process_map. cbn [set_buffer f_programs f_buffer]. rewrite with_p_find, E. cbn [rbind bind sbind set_programs set_buffer f_programs f_buffer].
  f_equal. unfold with_p, set_programs, set_buffer. cbn [f_programs f_buffer].
  rewrite sset_sset_same. f_equal. apply sfind_ext; [|apply W|].
  - apply swf_serase, swf_sset, W.
  - intros k. destruct (String.eqb_spec k id) as [->|X].
    + rewrite sfind_serase_same by (apply swf_sset, W). now rewrite B.
    + rewrite sfind_serase_other by exact X. now rewrite sfind_sset_other.
Qed.

Lemma messages_ok n id dp cs : forall p m outs p', faithful -> wf_manager m -> sfind id (f_buffer m) = None ->
  Forall (fun c => fits32 (snd (fst (fst c))) /\ port_of dp c <> Some "") cs ->
  alone n dp cs p = Ok (outs, p') ->
  js_acts n id (map message_of cs) (dp, with_p id p m) = (map (fun out => Answer (Ok out)) outs, (dp, with_p id p' m)).
Proof.
  induction cs as [|[[[d t] v] port] cs IH]; intros p m outs p' R W B F E.
  - injection E as <- <-. reflexivity.
  - inversion F as [|? ? [F1 F2] F3]; subst. cbn [fst snd] in F1. cbn [alone] in E.
    destruct (port_of dp (d, t, v, port)) as [q|] eqn:Eq; [|discriminate E].
    destruct (receive_as d n p [(q, [mkMsg t v])]) as [[out| | | |] p1] eqn:Er; cbn [rbind] in E; try discriminate E.
    destruct (alone n dp cs p1) as [[outs1 p2]| | | |] eqn:Ea; cbn [rbind fst snd] in E; try discriminate E. injection E as <- <-.
    cbn [map message_of js_acts js_act].
    rewrite (message_step d n id dp t v port q p m R F1 W B Eq ltac:(intros ->; now apply F2) out p1 Er).
    now rewrite (IH p1 m outs1 p2 R W B F3 Ea).
Qed.
End Jammed.
