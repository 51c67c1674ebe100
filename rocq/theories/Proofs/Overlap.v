(** * Overlapping calls from JavaScript *)

From Coq Require Import String ZArith Bool List Lia.
From Verif Require Import Base.StrMap Base.Num Model.Core Model.Graph Model.Codec Model.Json Model.Factory Model.Schema Model.Wrapper Model.Javascript.
From Verif Require Import Spec.Shape Spec.Manager Spec.Wrapper Spec.Javascript Spec.Log Spec.Filter.
From Verif Require Import Proofs.Ports Proofs.ShapeP Proofs.LogP Proofs.LogRun Proofs.BatchP Proofs.FactoryP Proofs.JsonP Proofs.WrapperP Proofs.JavascriptP Properties.Manager Properties.Graph.
Import ListNotations.
Open Scope string_scope.
Open Scope list_scope.
Open Scope Z_scope.
Open Scope rtbot_scope.

Section Overlap.
Context {NO : NumOps} {SL : SchemaLib} {JT : JsonText} {NC : NumCodec NO} {JR : JsRuntime}.

Lemma good_receive n p batch r p' : good_heap (p_ops p) -> receive_debug n p batch = (Ok r, p') ->
  shas (p_entry p) (p_ops p) = true /\ good_heap (p_ops p').
Proof.
  intros [W N] E. unfold receive_debug in E. destruct (shas (p_entry p) (p_ops p)) eqn:S; [|discriminate E].
  split; [reflexivity|]. pose proof (send_batch_keeps n (p_entry p) batch [] (p_ops p) W) as K.
  destruct (send_batch n (p_entry p) batch [] (p_ops p)) as [x h]. injection E as -> <-. cbn [p_ops set_ops].
  unfold keeps in K. cbn [snd] in K. split; [eapply wf_heap_same; eauto|eapply named_same; eauto].
Qed.

Lemma receive_nothing n p port r p' : receive_debug n p [(port, [])] = (Ok r, p') -> r = [] /\ p' = p.
Proof.
  unfold receive_debug. destruct (shas (p_entry p) (p_ops p)); [|discriminate]. cbn [send_batch send_port bind sbind].
  intros E. injection E as <- <-. split; [reflexivity|]. destruct p; reflexivity.
Qed.

(** ** Calls made at once *)
Section At_once.
Variables (id : string) (n : nat).

Definition call_at (c : nat * bool * list (string * list msg)) : js_event := JsCall (fst (fst c)) (snd (fst c)) id (to_js (snd c)).
Definition prepare_at (c : nat * bool * list (string * list msg)) : js_task := Prepare (fst (fst c)) (snd (fst c)) id (to_js (snd c)).
Definition finish_at (c : nat * bool * list (string * list msg)) : js_task := Finish (fst (fst c)) (snd (fst c)) id.

Lemma calls_queue cs : forall es q m, js_events n (map call_at cs ++ es) q m = js_events n es (q ++ map prepare_at cs) m.
Proof.
  induction cs as [|c cs IH]; intros es q m; cbn [map app]; [now rewrite app_nil_r|].
  unfold call_at at 1. cbn [js_events]. rewrite IH, <- app_assoc. reflexivity.
Qed.

Lemma all_prepare cs : forall es q m l0, faithful -> Forall (fun c => fine (snd c)) cs -> wf_manager m -> shas id (f_programs m) = true ->
  holds (sfind id (f_buffer m)) l0 ->
  exists m1, js_events n (repeat JsTick (length cs) ++ es) (map prepare_at cs ++ q) m = js_events n es (q ++ map finish_at cs) m1 /\
    wf_manager m1 /\ f_programs m1 = f_programs m /\ holds (sfind id (f_buffer m1)) (l0 ++ flat_map (fun c => each (snd c)) cs).
Proof.
  induction cs as [|c cs IH]; intros es q m l0 R F W S B; cbn [map app length repeat flat_map].
  - exists m. rewrite !app_nil_r. auto.
  - inversion F; subst. cbn [js_events]. unfold prepare_at at 1. rewrite js_prepare_ok by auto.
    destruct (add_all_hold id (each (snd c)) m l0 W S B) as (Ea & W1 & P1 & B1).
    destruct (add_all id (each (snd c)) m) as [u m1]. cbn [fst snd] in Ea, W1, P1, B1. subst u.
    destruct (IH es (q ++ [finish_at c]) m1 _ R ltac:(assumption) W1 ltac:(now rewrite P1) B1) as (m2 & E & W2 & P2 & B2).
    exists m2. rewrite <- !app_assoc in *. cbn [app] in *.
    split; [exact E|split; [exact W2|split; [congruence|exact B2]]].
Qed.

Lemma finish_nothing cs m : shas id (f_programs m) = true -> odefault [] (sfind id (f_buffer m)) = [] ->
  js_events n (repeat JsTick (length cs)) (map finish_at cs) m = (map (fun c => (fst (fst c), Ok (RResult []))) cs, ([], m)).
Proof.
  intros S B. assert (X : forall d, process_buffer d n id m = (Ok (RResult []), m)).
  { intros d. unfold process_buffer. rewrite S. destruct (sfind id (f_buffer m)) as [[|? ?]|]; [reflexivity|discriminate B|reflexivity]. }
  induction cs as [|c cs IH]; [reflexivity|]. cbn [length repeat map js_events]. unfold finish_at at 1. now rewrite X, IH.
Qed.
End At_once.

(** ** One port: the calls that are under way, with the messages that are still to be put into the buffer *)
Variables (debug : bool) (id port : string).

(** what the answers show of what the operators emit *)
Definition kept (p : program) (op prt : string) : bool :=
  debug || match p_filter p with [] => true | f => listed f op prt end.

Lemma at_entry r op prt : result_at r op prt = odefault [] (entry_at r op prt).
Proof. unfold result_at, entry_at. destruct (sfind op r); reflexivity. Qed.

Lemma receive_kept n p batch r p' : debug = true \/ listed_once p -> receive_debug n p batch = (Ok r, p') ->
  exists out, receive_as debug n p batch = (Ok out, p') /\
    forall op prt, result_at out op prt = if kept p op prt then result_at r op prt else [].
Proof.
  intros H E. unfold receive_as, kept. destruct debug; cbn [orb].
  - exists r. auto.
  - destruct H as [H|[W N]]; [discriminate H|]. destruct (p_filter p) as [|x f] eqn:F.
    + exists r. split; [|reflexivity]. unfold receive. now rewrite E, F.
    + destruct (C36_restricts_partial n p batch r p') as (r' & E' & A & _); try rewrite F; auto; [discriminate|].
      exists r'. split; [exact E'|]. intros op prt. rewrite !at_entry, A, F. destruct (listed (x :: f) op prt); reflexivity.
Qed.

Lemma receive_debug_filter n p batch r p' : receive_debug n p batch = (Ok r, p') -> p_filter p' = p_filter p.
Proof.
  unfold receive_debug. destruct (shas (p_entry p) (p_ops p)); [|discriminate].
  destruct (send_batch n (p_entry p) batch [] (p_ops p)) as [x h]. intros E. injection E as _ <-. reflexivity.
Qed.

Definition task_of (x : nat * option (list msg)) : js_task :=
  match snd x with
  | Some ms => Prepare (fst x) debug id (to_js [(port, ms)])
  | None => Finish (fst x) debug id
  end.

Definition waiting (q : list (nat * option (list msg))) : list msg :=
  flat_map (fun x => match snd x with Some ms => ms | None => [] end) q.
Definition ending (q : list (nat * option (list msg))) : list nat :=
  flat_map (fun x => match snd x with Some _ => [] | None => [fst x] end) q.
Definition beginning (q : list (nat * option (list msg))) : list nat :=
  flat_map (fun x => match snd x with Some _ => [fst x] | None => [] end) q.

Lemma for_port_one k b : for_port k (map (pair port) b) = if String.eqb port k then b else [].
Proof.
  unfold for_port. induction b as [|y b IH]; cbn [map filter fst]; [now destruct (String.eqb port k)|].
  destruct (String.eqb port k); cbn [map snd]; [now f_equal|exact IH].
Qed.

Lemma on_port_batch b x : is_batch_of (map (pair port) b) x -> b <> [] -> x = [(port, b)].
Proof.
  intros H N. eapply batch_unique; [exact H|]. split; [repeat constructor|].
  intros k. rewrite for_port_one. cbn [sfind]. rewrite (String.eqb_sym k port). destruct (String.eqb port k); [|reflexivity].
  destruct b; [congruence|reflexivity].
Qed.

Definition no_buffer (m : manager) : Prop := odefault [] (sfind id (f_buffer m)) = [].

Lemma holds_nothing m : holds (sfind id (f_buffer m)) [] -> no_buffer m.
Proof.
  unfold no_buffer. destruct (sfind id (f_buffer m)) as [b|]; [|reflexivity]. cbn [holds odefault]. intros [W E].
  destruct b as [|[k ms] b]; [reflexivity|]. specialize (E k). cbn [sfind] in E. rewrite String.eqb_refl in E. discriminate E.
Qed.

Lemma finish_step n p m b : debug = true \/ listed_once p -> wf_manager m -> sfind id (f_programs m) = Some p ->
  holds (sfind id (f_buffer m)) (map (pair port) b) ->
  forall r1 p1, receive_debug n p [(port, b)] = (Ok r1, p1) ->
  exists out m1, process_buffer debug n id m = (Ok (RResult out), m1) /\ wf_manager m1 /\
    (forall op prt, result_at out op prt = if kept p op prt then result_at r1 op prt else []) /\
    sfind id (f_programs m1) = Some p1 /\ holds (sfind id (f_buffer m1)) [].
Proof.
  intros K W F H r1 p1 E. assert (S : shas id (f_programs m) = true) by (unfold shas; now rewrite F).
  pose proof (process_buffer_wf debug n id m W) as W1. destruct b as [|x b].
  - destruct (receive_nothing _ _ _ _ _ E) as [-> ->]. exists [], m. cbn [map] in H.
    assert (X : process_buffer debug n id m = (Ok (RResult []), m)).
    { unfold process_buffer. rewrite S. apply holds_nothing in H. unfold no_buffer in H.
      destruct (sfind id (f_buffer m)) as [[|? ?]|]; [reflexivity|discriminate H|reflexivity]. }
    split; [exact X|]. split; [exact W|]. split; [intros op prt; now destruct (kept p op prt)|]. auto.
  - destruct (receive_kept _ _ _ _ _ K E) as (out & E' & A). destruct (sfind id (f_buffer m)) as [y|] eqn:B; [|discriminate H]. cbn [holds] in H.
    pose proof (on_port_batch _ _ H ltac:(discriminate)) as ->.
    destruct (process_held n debug id m _ _ W S B H ltac:(discriminate)) as (P1 & P2 & P3).
    assert (Q : process_map debug n id [(port, x :: b)] m = (Ok (RResult out), set_programs m (sset id p1 (f_programs m)))).
    { unfold process_map. rewrite F. now rewrite E'. }
    rewrite Q in P1, P2, P3. cbn [fst snd] in *. destruct (process_buffer debug n id m) as [z m1]. cbn [fst snd] in *. subst z.
    exists out, m1. split; [reflexivity|]. split; [exact W1|]. split; [exact A|]. split; [rewrite P2; apply sfind_sset_same|]. now rewrite P3.
Qed.

Lemma overlap n es : forall q m p b r p' l q' m', faithful -> debug = true \/ listed_once p ->
  wf_manager m -> sfind id (f_programs m) = Some p -> good_heap (p_ops p) ->
  holds (sfind id (f_buffer m)) (map (pair port) b) -> (b <> [] -> ending q <> []) ->
  Forall (fun m => fits32 (mtime m)) (waiting q ++ called es) ->
  receive_debug n p [(port, b ++ waiting q ++ called es)] = (Ok r, p') ->
  js_events n (map (event_of debug id port) es) (map task_of q) m = (l, (q', m')) ->
  q' = [] ->
  map fst l = ending q ++ beginning q ++ numbers es /\
  Forall (fun x => exists out, snd x = Ok (RResult out)) l /\
  (forall op prt, answered op prt l = if kept p op prt then result_at r op prt else []) /\
  sfind id (f_programs m') = Some p' /\ no_buffer m'.
Proof.
  induction es as [|[[k ms]|] es IH]; intros q m p b r p' l q' m' R K W F G B Q A E X D; cbn [map event_of] in X.
  - injection X as <- Eq <-. rewrite D in Eq. clear D. destruct q as [|x q]; [|discriminate Eq]. cbn [waiting ending beginning flat_map called numbers app] in *.
    assert (b = []) by (destruct b; [reflexivity|exfalso; now apply Q]). subst b. cbn [app] in E.
    destruct (receive_nothing _ _ _ _ _ E) as [-> ->].
    repeat split; auto; [|now apply holds_nothing]. intros op prt. now destruct (kept p op prt).
  - cbn [js_events call_of] in X. unfold call_of in X. cbn [js_events fst snd] in X.
    change [Prepare k debug id (to_js [(port, ms)])] with (map task_of [(k, Some ms)]) in X. rewrite <- map_app in X.
    cbn [called] in *. destruct (IH (q ++ [(k, Some ms)]) m p b r p' l q' m') as (H1 & H2 & H3 & H4 & H5); auto.
    + unfold ending in *. rewrite flat_map_app. cbn. now rewrite app_nil_r.
    + unfold waiting in *. rewrite flat_map_app. cbn. now rewrite app_nil_r, <- app_assoc.
    + unfold waiting in *. rewrite flat_map_app. cbn. rewrite app_nil_r, <- app_assoc. exact E.
    + repeat split; auto. rewrite H1. unfold ending, beginning. rewrite !flat_map_app. cbn [flat_map snd fst app numbers].
      now rewrite app_nil_r, <- app_assoc.
  - cbn [js_events] in X. destruct q as [|[k [ms|]] q]; cbn [map] in X.
    + change (@nil js_task) with (map task_of []) in X. eapply IH; eauto.
    + cbn [task_of snd fst] in X. unfold task_of at 1 in X. cbn [snd fst] in X.
      assert (Fm : Forall (fun m => fits32 (mtime m)) ms).
      { cbn [waiting flat_map snd] in A. rewrite Forall_app in A. destruct A as [A _]. rewrite Forall_app in A. apply A. }
      assert (S : shas id (f_programs m) = true) by (unfold shas; now rewrite F).
      rewrite js_prepare_ok in X by (auto; repeat constructor; exact Fm).
      destruct (add_all_hold id (each [(port, ms)]) m _ W S B) as (Ea & W1 & P1 & B1).
      unfold each in Ea, W1, P1, B1, X. cbn [flat_map fst snd] in Ea, W1, P1, B1, X. rewrite app_nil_r in *.
      destruct (add_all id (map (pair port) ms) m) as [u m1]. cbn [fst snd] in *. subst u.
      change [Finish k debug id] with (map task_of [(k, None)]) in X. rewrite <- map_app in X.
      destruct (IH (q ++ [(k, None)]) m1 p (b ++ ms) r p' l q' m') as (H1 & H2 & H3 & H4 & H5); auto.
      * now rewrite P1.
      * now rewrite map_app.
      * intros _. unfold ending. rewrite flat_map_app. cbn. intros Y. apply app_eq_nil in Y as [_ Y]. discriminate Y.
      * unfold waiting in *. rewrite flat_map_app. cbn in *. rewrite app_nil_r. rewrite <- app_assoc in A.
        rewrite Forall_app in A. apply A.
      * unfold waiting in *. rewrite flat_map_app. cbn in *. rewrite app_nil_r. rewrite <- !app_assoc in *. exact E.
      * repeat split; auto. rewrite H1. unfold ending, beginning. rewrite !flat_map_app. cbn [flat_map snd fst app].
        now rewrite app_nil_r, <- app_assoc.
    + unfold task_of at 1 in X. cbn [snd fst] in X. cbn [waiting flat_map snd app] in A, E.
      destruct (C35_split n p port b _ r p' (proj1 G) (proj2 G) (proj1 (good_receive _ _ _ _ _ G E)) E) as (r1 & p1 & r2 & E1 & E2 & Er).
      destruct (finish_step n p m b K W F B r1 p1 E1) as (out & m1 & Em & W1 & Ao & F1 & B1). rewrite Em in X.
      destruct (js_events n (map (event_of debug id port) es) (map task_of q) m1) as [l2 s] eqn:X2. injection X as <- Es. subst s.
      destruct (IH q m1 p1 [] r2 p' l2 q' m') as (H1 & H2 & H3 & H4 & H5); auto.
      * destruct K as [K|[K1 K2]]; [now left|right]. unfold listed_once. now rewrite (receive_debug_filter _ _ _ _ _ E1).
      * apply (good_receive _ _ _ _ _ G E1).
      * repeat split; auto.
        -- cbn [map fst]. rewrite H1. reflexivity.
        -- constructor; [exists out; reflexivity|exact H2].
        -- intros op prt. unfold answered in *. cbn [flat_map snd]. rewrite H3, Ao. unfold kept in *. rewrite (receive_debug_filter _ _ _ _ _ E1).
           destruct (debug || _); [symmetry; apply Er|reflexivity].
Qed.

End Overlap.
