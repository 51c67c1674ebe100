(** * C98: a valid definition of dependable operators without cycles works from creation on *)

From Coq Require Import String Ascii ZArith QArith Qcanon Bool List Lia.
From Verif Require Import Base.StrMap Base.Num Base.NumInt Base.NumQc Model.Core Model.Ops Model.Make Model.Graph Model.Codec Model.Json Model.Factory Model.Schema.
From Verif Require Import Spec.Shape Spec.Show Spec.Build Spec.Log Spec.Depth Spec.Snapshot Spec.Definition Spec.Bounds Spec.Pipeline Spec.Reliable Spec.Manager Spec.Schema Spec.Dependable.
From Verif Require Import Proofs.Ports Proofs.MakeP Proofs.Deep Proofs.JsonP Proofs.SchemaP Proofs.SchemaNew Proofs.FactoryP Proofs.WrapperRun Proofs.DependableP.
From Verif Require Import Properties.Graph Properties.Definition Properties.Schema Properties.Reliable.
Import ListNotations.
Open Scope string_scope.
Open Scope list_scope.
Open Scope Z_scope.
Open Scope rtbot_scope.

Section C98.
Context {NO : NumOps} {NI : NumInt NO} {SL : SchemaLib} {JT : JsonText} {NC : NumCodec NO}.

(** if the calls of the session are answered, so are those of [process_map], debug or not *)
Lemma maps_session n id history : forall m p, sfind id (f_programs m) = Some p ->
  Forall (fun r => exists out, r = Ok out) (fst (session n p (map snd history))) ->
  exists outs, length outs = length history /\
    fst (bound_calls n (map (fun x => ProcessMap (fst x) id (snd x)) history) m) = map (fun out => Ok (RResult out)) outs.
Proof.
  induction history as [|[d b] l IH]; intros m p F A; [exists []; split; reflexivity|].
  cbn [map bound_calls session bound_call do_call fst snd] in *. unfold process_map. rewrite F.
  assert (X : exists out p1, receive_as d n p b = (Ok out, p1) /\ snd (receive n p b) = p1).
  { destruct d; cbn [receive_as]; destruct (receive n p b) as [r p1] eqn:Er, (session n (snd (receive n p b)) (map snd l)) as [rs p2] eqn:Es;
      rewrite Er in Es; cbn [snd] in Es; rewrite Es in A; inversion A as [|? ? [out Eo] _]; subst; [|eauto].
    unfold receive in Er. destruct (receive_debug n p b) as [[x| | | |] p3]; inversion Er; subst; cbn [snd]; eauto. }
  destruct X as (out & p1 & Er & Ep). rewrite Er. cbn [rbind].
  assert (A' : Forall (fun r => exists out, r = Ok out) (fst (session n p1 (map snd l)))).
  { destruct (receive n p b) as [r p2]. cbn [snd] in Ep. subst p2. destruct (session n p1 (map snd l)). now inversion A. }
  destruct (IH (set_programs m (sset id p1 (f_programs m))) p1) as (outs & L & E);
    [cbn [f_programs set_programs]; rewrite sfind_sset, String.eqb_refl; reflexivity|exact A'|].
  destruct (bound_calls n _ _) as [rs m2]. cbn [fst] in *. subst rs. exists (out :: outs). split; [cbn [length]; now rewrite L|reflexivity].
Qed.

(** the program of such a definition answers every history *)
Lemma created_fine (g : string -> junk) (text : string) (j e : json) (rank : string -> nat) (n : nat) :
  parse text = Ok j -> validate text = Ok true ->
  Forall ready (operators j) -> Forall (linked (operators j)) (connections j) ->
  entry j <> "" -> described (operators j) (entry j) = Some e ->
  Forall dependable (operators j) -> Forall (downhill rank) (connections j) -> (length (operators j) < n)%nat ->
  exists p, new_prog g text = Ok p /\ p_entry p = entry j /\
    forall history, Forall (for_inputs e) history -> Forall (fun r => exists out, r = Ok out) (fst (session n p history)).
Proof.
  intros P V R L N D Dep Down Ln. assert (V' := V). unfold validate in V'. rewrite P in V'. injection V' as V'.
  assert (C : control_inputs e = []).
  { rewrite Forall_forall in Dep. apply find_some in D as [I _]. destruct (Dep e I) as [T _]. unfold control_inputs.
    unfold dependable_types in T. cbn [In] in T. repeat (destruct T as [<-|T]; [reflexivity|]). destruct T. }
  destruct (new_valid g text j P V' R L e (conj N D) C) as (p & E & Ep & NE & K).
  destruct (entry_described g text j p e P V' R E (conj N D) C) as (ports & Epo & [Sp _]).
  destruct (C41_creation g text j p P E NE) as (ops & conns & cports & Eo & Ec & F2 & Kp & Hop).
  destruct (valid_program j V') as (mm & ops0 & conns0 & Ej & Eo0 & Ec0 & Lo & Lc & Ee & Vo & Vc). rewrite Lo, Lc in *.
  assert (Eo' := Eo). unfold operators_of in Eo'. rewrite Eo0 in Eo'. cbn [rbind jitems] in Eo'.
  destruct (read_ops_firm g ops0 Dep [] ops Eo') as [Firm Len]; [discriminate|]. cbn [length] in Len.
  assert (FirmP : forall id o, sfind id (p_ops p) = Some o -> firm o).
  { intros k o F. destruct (Hop k o F) as [(o0 & F0 & U) _]. eapply firm_unwired; [exact U|]. eauto. }
  assert (NoPipe : forall id b js inner ins outs pm, sfind id (p_ops p) <> Some (Op b (KPipeline js inner ins outs pm))).
  { intros k b js inner ins outs pm F. exact (FirmP _ _ F). }
  destruct (new_prog_good _ _ _ E) as [[Wp _] _].
  unfold connections_of in Ec. rewrite Ec0 in Ec. cbn [rbind jitems] in Ec. rewrite (conns_valid _ Vc) in Ec. injection Ec as <-.
  exists p. split; [exact E|]. split; [exact Ep|]. intros history Hist. apply (C56_no_failure g text); auto.
  - intros path o F. destruct path as [|a [|b path]]; [discriminate F| |].
    + apply firm_reliable. eapply FirmP. exact F.
    + exfalso. cbn [lookup] in F. destruct (sfind a (p_ops p)) as [[bb k]|] eqn:Fa; [|discriminate F].
      destruct k; try discriminate F. exact (NoPipe _ _ _ _ _ _ _ Fa).
  - apply (ranked_acyclic rank).
    + intros a b (port & q & I). unfold wires in I. destruct (sfind a (p_ops p)) as [o|] eqn:Fa; [|destruct I].
      destruct (Hop a o Fa) as [_ T]. specialize (T port). unfold targets in T. unfold odefault in I. rewrite T in I.
      unfold listed in I. apply in_map_iff in I as ([c [po pi]] & Ex & I). apply filter_In in I as [I Q].
      apply andb_prop in Q as [Q _]. apply String.eqb_eq in Q. apply in_combine_l in I. apply in_map_iff in I as (cj & <- & I).
      cbn [fst snd] in *. injection Ex as <- _. rewrite <- Q. rewrite Forall_forall in Down. exact (Down cj I).
    + intros k b js inner ins outs pm F. destruct (NoPipe _ _ _ _ _ _ _ F).
  - rewrite (firm_heap_size _ Wp FirmP). assert (X : length (p_ops p) = length ops).
      { unfold skeys in Kp. apply (f_equal (@length _)) in Kp. now rewrite !map_length in Kp. } lia.
  - eapply Forall_impl; [|exact Hist]. intros batch A port ms I. specialize (A port ms I). apply Sp in A.
      unfold entry_ports in Epo. destruct (String.eqb (p_entry p) ""); [discriminate|].
      destruct (sfind (p_entry p) (p_ops p)) as [o|]; [|discriminate]. injection Epo as <-. eauto.
Qed.

(** From the text of the definition alone: it is valid, its parameters and connections are usable,
    its operators are dependable and its connections form no cycle.  Then the creation succeeds and
    every later call, debug or not, with messages for the inputs of the entry operator is answered with a result:
    no exception, no undefined behaviour, no endless loop, whatever the times and the values. *)
Theorem C98_works (id : string) (g : string -> junk) (text : string) (m : manager) (j e : json)
    (rank : string -> nat) (n : nat) (history : list (bool * opmsg)) :
  parse text = Ok j -> validate text = Ok true ->
  Forall ready (operators j) ->
  Forall (linked (operators j)) (connections j) ->
  entry j <> "" -> described (operators j) (entry j) = Some e ->
  Forall dependable (operators j) ->
  Forall (downhill rank) (connections j) ->
  sfind id (f_programs m) = None ->
  (length (operators j) < n)%nat ->
  Forall (for_inputs e) (map snd history) ->
  exists outs, length outs = length history /\
    fst (bound_calls n (CreateText id g text :: map (fun x => ProcessMap (fst x) id (snd x)) history) m) =
      Ok (RText "") :: map (fun out => Ok (RResult out)) outs.
Proof.
  intros P V R L N D Dep Down Fm Ln Hist. destruct (created_fine g text j e rank n P V R L N D Dep Down Ln) as (p & E & _ & Fine). specialize (Fine _ Hist).
  cbn [bound_calls bound_call]. unfold create_checked. rewrite V. unfold create_text. rewrite E.
  destruct (maps_session n id history (set_programs m (semplace id p (f_programs m))) p) as (outs & Lx & Ex);
    [cbn [f_programs set_programs]; now rewrite sfind_semplace_cases, Fm, String.eqb_refl|exact Fine|].
  destruct (bound_calls n (map (fun x => ProcessMap (fst x) id (snd x)) history) _) as [rs m2]. cbn [fst] in *. subst rs. eauto.
Qed.

(** ** All calls of the interface *)

(** the program answers every history and has its entry operator's name *)
Definition steady (n : nat) (e : json) (p : program) : Prop :=
  p_entry p <> "" /\
  forall history, Forall (for_inputs e) history -> Forall (fun r => exists out, r = Ok out) (fst (session n p history)).

Lemma steady_receive n e p d batch : steady n e p -> for_inputs e batch ->
  exists out p1, receive_as d n p batch = (Ok out, p1) /\ steady n e p1.
Proof.
  intros [Ne A] B.
  assert (X : exists out p1, receive n p batch = (Ok out, p1)).
  { specialize (A [batch] (Forall_cons _ B (Forall_nil _))). cbn [session] in A. destruct (receive n p batch) as [r p1]. cbn [fst] in A.
    inversion A as [|? ? [out Eo] _]; subst. eauto. }
  destruct X as (out & p1 & X). assert (St : steady n e p1).
  { split.
    - unfold receive in X. destruct (receive_debug n p batch) as [r p2] eqn:Rd. assert (p2 = p1) by (destruct r; congruence). subst p2.
      unfold receive_debug in Rd. destruct (shas (p_entry p) (p_ops p)); [|injection Rd as _ <-; exact Ne].
      destruct (send_batch n (p_entry p) batch [] (p_ops p)) as [y h]. injection Rd as _ <-. exact Ne.
    - intros history H. specialize (A (batch :: history) (Forall_cons _ B H)). cbn [session] in A. rewrite X in A.
      destruct (session n p1 history). cbn [fst] in *. now inversion A. }
  destruct d; cbn [receive_as]; [|eauto]. unfold receive in X. destruct (receive_debug n p batch) as [[r| | | |] p2]; try discriminate X.
  injection X as _ ->. eauto.
Qed.

(** what the manager has of the program [id] *)
Definition ready_at (n : nat) (e : json) (id : string) (m : manager) : Prop :=
  (exists p, sfind id (f_programs m) = Some p /\ steady n e p) /\
  for_inputs e (odefault [] (sfind id (f_buffer m))).

Lemma add_ready n e id port x m : ready_at n e id m -> In port (data_inputs e) ->
  exists b m1, add_to_buffer id port x m = (Ok (RBool b), m1) /\ ready_at n e id m1.
Proof.
  intros [(p & F & A) B] I. unfold add_to_buffer, shas. rewrite F. eexists _, _. split; [reflexivity|].
  split; [exists p; auto|]. cbn [f_buffer set_buffer]. rewrite sfind_sset, String.eqb_refl. cbn [odefault].
  intros port' ms H. apply Deep.In_sset in H as [H|H]; [injection H as -> _; exact I|exact (B _ _ H)].
Qed.

Lemma add_all_ready n e id l : forall m, ready_at n e id m -> Forall (fun x => In (fst x) (data_inputs e)) l ->
  exists m1, add_all id l m = (Ok tt, m1) /\ ready_at n e id m1.
Proof.
  induction l as [|[port x] l IH]; intros m H F; [exists m; auto|]. inversion F as [|? ? F1 F2]; subst.
  destruct (add_ready n e id port x m H F1) as (b & m1 & E & H1). cbn [add_all]. rewrite E. cbn [bind sbind]. auto.
Qed.

Lemma map_ready d n e id batch m : ready_at n e id m -> for_inputs e batch ->
  exists out m1, process_map d n id batch m = (Ok (RResult out), m1) /\ ready_at n e id m1 /\ f_buffer m1 = f_buffer m.
Proof.
  intros [(p & F & A) B] I. unfold process_map. rewrite F. destruct (steady_receive n e p d batch A I) as (out & p1 & -> & A1).
  eexists _, _. split; [reflexivity|]. split; [|reflexivity]. split; [|exact B]. exists p1. cbn [f_programs set_programs].
  now rewrite sfind_sset, String.eqb_refl.
Qed.

Lemma buffer_ready d n e id m : wf_manager m -> ready_at n e id m ->
  exists out m1, process_buffer d n id m = (Ok (RResult out), m1) /\ ready_at n e id m1.
Proof.
  intros W H. assert (H' := H). destruct H' as [(p & F & A) B]. unfold process_buffer, shas. rewrite F.
  destruct (sfind id (f_buffer m)) as [[|y b]|] eqn:Fb; try (eexists _, _; split; [reflexivity|exact H]).
  cbn [odefault] in B. destruct (map_ready d n e id (y :: b) m H B) as (out & m1 & E & [A1 _] & Eb). rewrite E. unfold bind, sbind.
  eexists _, _. split; [reflexivity|]. split; [exact A1|]. cbn [f_buffer set_buffer]. rewrite Eb, sfind_serase_same by apply W. intros port ms [].
Qed.

Lemma proper_ready n e c m : wf_manager m -> ready_at n e (about c) m -> proper e c ->
  exists x m1, bound_call n c m = (Ok x, m1) /\ ready_at n e (about c) m1.
Proof.
  intros W H Pc. assert (H' := H). destruct H' as [(p & F & A) B].
  destruct c as [| | |id port x|d id|d id batch|d id times values ports|id|id|id|id]; try destruct Pc; cbn [bound_call do_call about] in *.
  - destruct (add_ready n e id port x m H Pc) as (b & m1 & E & H1). rewrite E. eauto.
  - destruct (buffer_ready d n e id m W H) as (out & m1 & E & H1). rewrite E. eauto.
  - destruct (map_ready d n e id batch m H Pc) as (out & m1 & E & H1 & _). rewrite E. eauto.
  - match goal with Q : _ /\ _ |- _ => destruct Q as [L2 Fp] end. unfold process_batch.
    match goal with L : length times = length values |- _ => rewrite L, Nat.eqb_refl; rewrite L in L2 end. rewrite L2, Nat.eqb_refl. cbn [andb].
    destruct (add_all_ready n e id (entries times values ports) m H) as (m1 & E & H1).
    { unfold entries. apply Forall_forall. intros [port x] I. apply in_combine_l in I. rewrite Forall_forall in Fp. now apply Fp. }
    assert (W1 : wf_manager m1) by (pose proof (add_all_wf id (entries times values ports) m W) as W1; now rewrite E in W1).
    rewrite E. cbn [bind sbind]. destruct (buffer_ready d n e id m1 W1 H1) as (out & m2 & E2 & H2). rewrite E2. eauto.
  - unfold with_program. rewrite F. eauto.
  - unfold with_program. rewrite F. eauto.
  - unfold with_program. rewrite F. unfold entry_ports. destruct A as [Ne A]. destruct (String.eqb_spec (p_entry p) ""); [contradiction|].
    assert (Z : Forall (for_inputs e) [[]]) by (constructor; [intros port ms []|constructor]). specialize (A _ Z). cbn [session] in A.
    unfold receive, receive_debug, shas in A. destruct (sfind (p_entry p) (p_ops p)) as [o|]; [eauto|].
    exfalso. cbn [fst] in A. inversion A as [|? ? [out Eo] _]. discriminate Eo.
  - unfold with_program. rewrite F. eauto.
Qed.

Lemma bound_call_wf n c m : wf_manager m -> wf_manager (snd (bound_call n c m)).
Proof.
  intros W. destruct (accepted c) eqn:Ac; [rewrite bound_accepted by exact Ac; now apply do_call_wf|now rewrite bound_invalid].
Qed.
Lemma bound_calls_wf n cs : forall m, wf_manager m -> wf_manager (snd (bound_calls n cs m)).
Proof.
  induction cs as [|c cs IH]; intros m W; [exact W|]. cbn [bound_calls]. pose proof (bound_call_wf n c m W) as W1.
  destruct (bound_call n c m) as [x m1]. specialize (IH m1 W1). destruct (bound_calls n cs m1). exact IH.
Qed.
Lemma bound_call_other n c id m : about c <> id -> same_at id m (snd (bound_call n c m)).
Proof.
  intros N. destruct (accepted c) eqn:Ac; [rewrite bound_accepted by exact Ac; now apply do_call_other|rewrite bound_invalid by exact Ac; apply same_refl].
Qed.

Lemma calls_ready n e id cs : forall m, wf_manager m -> ready_at n e id m ->
  Forall (fun c => about c = id -> proper e c) cs ->
  Forall (fun r => exists x, r = Ok x) (replies_about id cs (fst (bound_calls n cs m))).
Proof.
  induction cs as [|c cs IH]; intros m W H F; [constructor|]. inversion F as [|? ? F1 F2]; subst.
  cbn [bound_calls]. pose proof (bound_call_wf n c m W) as W1. unfold replies_about, is_about.
  destruct (String.eqb_spec (about c) id) as [Q|Q].
  - rewrite <- Q in H. destruct (proper_ready n e c m W H (F1 Q)) as (x & m1 & E & H1). rewrite E in *. rewrite Q in H1. cbn [snd] in W1.
    specialize (IH m1 W1 H1 F2). unfold replies_about, is_about in IH. destruct (bound_calls n cs m1) as [rs m2].
    cbn [fst combine filter map snd] in *. destruct (String.eqb_spec (about c) id); [|contradiction]. cbn [map snd]. constructor; [eauto|exact IH].
  - pose proof (bound_call_other n c id m Q) as [S1 S2]. destruct (bound_call n c m) as [x m1]. cbn [snd] in *.
    assert (H1 : ready_at n e id m1) by (unfold ready_at; rewrite <- S1, <- S2; exact H).
    specialize (IH m1 W1 H1 F2). unfold replies_about, is_about in IH. destruct (bound_calls n cs m1) as [rs m2].
    cbn [fst combine filter map snd] in *. destruct (String.eqb_spec (about c) id); [contradiction|exact IH].
Qed.

(** The same for all functions of the interface, mixed with any calls about other programs: after
    any earlier calls, once such a definition is created under a new id that has no buffered
    messages, every call about it is answered, until it is deleted.  Messages are buffered one by one
    or in batches of equally many times, values and ports. *)
Theorem C98_calls (n0 n : nat) (earlier later : list Factory.call) (m : manager) (id : string) (g : string -> junk) (text : string)
    (j e : json) (rank : string -> nat) :
  m = snd (bound_calls n0 earlier no_programs) ->
  parse text = Ok j -> validate text = Ok true ->
  Forall ready (operators j) ->
  Forall (linked (operators j)) (connections j) ->
  entry j <> "" -> described (operators j) (entry j) = Some e ->
  Forall dependable (operators j) ->
  Forall (downhill rank) (connections j) ->
  sfind id (f_programs m) = None -> sfind id (f_buffer m) = None ->
  (length (operators j) < n)%nat ->
  Forall (fun c => about c = id -> proper e c) later ->
  let calls := CreateText id g text :: later in
  Forall (fun r => exists x, r = Ok x) (replies_about id calls (fst (bound_calls n calls m))).
Proof.
  intros Em P V R L N D Dep Down Fm Fb Ln Pr calls. subst calls.
  destruct (created_fine g text j e rank n P V R L N D Dep Down Ln) as (p & E & Ep & Fine).
  assert (W : wf_manager m) by (subst m; apply bound_calls_wf, no_programs_wf).
  pose proof (bound_call_wf n (CreateText id g text) m W) as W1.
  cbn [bound_calls bound_call] in *. unfold create_checked in *. rewrite V in *. unfold create_text in *. rewrite E in *. cbn [snd] in W1.
  assert (H1 : ready_at n e id (set_programs m (semplace id p (f_programs m)))).
  { split; [|cbn [f_buffer set_programs]; rewrite Fb; intros port ms []]. exists p. cbn [f_programs set_programs].
    rewrite sfind_semplace_cases, Fm, String.eqb_refl. split; [reflexivity|]. split; [congruence|exact Fine]. }
  pose proof (calls_ready n e id later _ W1 H1 Pr) as X. unfold replies_about, is_about in *.
  destruct (bound_calls n later _) as [rs m2]. cbn [fst combine filter map snd about] in *. rewrite String.eqb_refl. cbn [map snd]. constructor; [eauto|exact X].
Qed.

End C98.
Print Assumptions C98_works.
Print Assumptions C98_calls.

(** Not vacuous: the moving averages of Properties/Definition.v, two messages. *)
Definition macd_rank (x : string) : nat :=
  if String.eqb x "in" then 3%nat else if String.eqb x "minus" then 1%nat else if String.eqb x "out" then 0%nat else 2%nat.
Example C98_example : let JT := a_text macd JNull in let SL := a_lib in
  validate "text" = Ok true /\ Forall ready (operators macd) /\ Forall (linked (operators macd)) (connections macd) /\
  Forall dependable (operators macd) /\ Forall (downhill macd_rank) (connections macd) /\
  exists e, described (operators macd) (entry macd) = Some e /\ for_inputs e [("i1", [im 1 5; im 2 7])].
Proof.
  destruct C57_example as (A & B & C & _). split; [exact A|]. split; [exact B|]. split; [exact C|]. split; [|split].
  - change (operators macd) with [definition "Input" "in" [("numPorts", JInt 1)]; definition "MovingAverage" "ma1" [("n", JInt 1)];
      definition "MovingAverage" "ma2" [("n", JInt 2)]; definition "Minus" "minus" []; definition "Output" "out" [("numPorts", @JInt QcOps 1)]].
    repeat apply Forall_cons; try apply Forall_nil; (split; [cbn; tauto|discriminate]).
  - change (connections macd) with [a_conn "in" "ma1"; a_conn "in" "ma2"; a_conn_to "ma1" "minus" "i1"; a_conn_to "ma2" "minus" "i2"; a_conn "minus" "out"].
    repeat apply Forall_cons; try apply Forall_nil; (unfold downhill; vm_compute; lia).
  - eexists. split; [reflexivity|]. intros port ms [E|[]]. injection E as <- _. now left.
Qed.
Example C98_calls_example : forall e, described (operators macd) (entry macd) = Some e ->
  Forall (fun c => about c = "p" -> proper e c)
    [Add "p" "i1" (im 1 5); Delete "q"; Process true "p"; ProcessBatch false "p" [2; 3] [v0; v0] ["i1"; "i1"]; GetEntryPorts "p"; Serialize "p"].
Proof.
  intros e D. assert (E : e = definition "Input" "in" [("numPorts", @JInt QcOps 1)]) by (injection D as <-; reflexivity). subst e.
  apply Forall_cons; [intros _; now left|]. apply Forall_cons; [discriminate|]. apply Forall_cons; [intros _; exact I|].
  apply Forall_cons; [intros _|repeat apply Forall_cons; try apply Forall_nil; intros _; exact I].
  split; [reflexivity|]. split; [reflexivity|]. repeat apply Forall_cons; try apply Forall_nil; now left.
Qed.
