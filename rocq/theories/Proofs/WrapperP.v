(** * The wrappers *)

From Coq Require Import String Ascii ZArith Bool List Lia Sorted.
From Verif Require Import Base.StrMap Base.Num Model.Core Model.Graph Model.Codec Model.Json Model.Factory Model.Schema Model.Wrapper.
From Verif Require Import Spec.Manager Spec.Wrapper Proofs.FactoryP Properties.Manager.
Import ListNotations.
Open Scope string_scope.
Open Scope list_scope.
Open Scope Z_scope.
Open Scope rtbot_scope.

Section WrapperP.
Context {NO : NumOps} {SL : SchemaLib} {JT : JsonText} {NC : NumCodec NO} {PJ : PyJson}.

(** ** A row *)

Lemma send_row_add_all id t vs : forall ports m, (length vs <= length ports)%nat ->
  send_row id ports t vs m = add_all id (combine ports (map (mkMsg t) vs)) m.
Proof.
  induction vs as [|v vs IH]; intros ports m L; cbn [map].
  - destruct ports; reflexivity.
  - destruct ports as [|port ports]; [cbn in L; lia|]. cbn [send_row combine add_all].
    destruct (add_to_buffer id port (mkMsg t v) m) as [[b| | | |] m1]; cbn [bind sbind]; auto.
    apply IH. cbn in L. lia.
Qed.

Lemma row_batch_keys ports t vs : skeys (row_batch ports (t, vs)) = firstn (length vs) ports.
Proof.
  unfold row_batch. cbn [fst snd]. unfold skeys. rewrite map_map. cbn [fst].
  revert vs. induction ports as [|p ports IH]; intros [|v vs]; try reflexivity. cbn [combine map firstn length fst].
  f_equal. apply IH.
Qed.

Lemma sorted_firstn (l : list string) k : StronglySorted slt l -> StronglySorted slt (firstn k l).
Proof.
  revert k. induction l as [|x l IH]; intros [|k] S; cbn [firstn]; try constructor.
  - apply IH. now inversion S.
  - inversion S as [|? ? S1 F]; subst. rewrite Forall_forall in *. intros y Hy. apply F.
    rewrite <- (firstn_skipn k l). apply in_or_app. auto.
Qed.

Lemma for_port_absent port ports (ms : list msg) : ~ In port ports -> for_port port (combine ports ms) = [].
Proof.
  revert ms. induction ports as [|p ports IH]; intros [|m ms] N; try reflexivity.
  unfold for_port. cbn [combine filter fst]. destruct (String.eqb_spec p port) as [->|X].
  - exfalso. apply N. now left.
  - apply IH. intros Y. apply N. now right.
Qed.

Lemma row_is_batch ports t vs : StronglySorted slt ports ->
  is_batch_of (combine ports (map (mkMsg t) vs)) (row_batch ports (t, vs)).
Proof.
  intros S. assert (W : swf (row_batch ports (t, vs))).
  { unfold swf. rewrite row_batch_keys. now apply sorted_firstn. }
  split; [exact W|]. intros port. unfold row_batch in *. cbn [fst snd] in *. clear W.
  revert vs. induction ports as [|p ports IH]; intros [|v vs]; try reflexivity. cbn [combine map sfind fst snd].
  inversion S as [|? ? S1 F]; subst. specialize (IH S1 vs). rewrite IH.
  unfold for_port. cbn [combine map filter fst snd]. fold (for_port port (combine ports (map (mkMsg t) vs))).
  destruct (String.eqb_spec port p) as [->|N].
  - rewrite String.eqb_refl. cbn [map snd]. fold (for_port p (combine ports (map (mkMsg t) vs))).
    rewrite for_port_absent; [reflexivity|]. intros I. rewrite Forall_forall in F. apply F in I.
    exact (sltb_neq _ _ I eq_refl).
  - destruct (String.eqb_spec p port); [congruence|]. reflexivity.
Qed.

Lemma add_all_other id l : forall m id', id' <> id -> sfind id' (f_buffer (snd (add_all id l m))) = sfind id' (f_buffer m).
Proof.
  induction l as [|[port x] l IH]; intros m id' N; cbn [add_all]; [reflexivity|].
  assert (X : sfind id' (f_buffer (snd (add_to_buffer id port x m))) = sfind id' (f_buffer m)).
  { unfold add_to_buffer. destruct (shas id (f_programs m)); [|reflexivity]. cbn [snd set_buffer f_buffer].
    now rewrite sfind_sset_other. }
  destruct (add_to_buffer id port x m) as [[b| | | |] m1]; cbn [bind sbind snd] in *; auto.
  rewrite IH by auto. exact X.
Qed.

(** the manager [m] with program [p] under [id] *)
Definition with_p (id : string) (p : program) (m : manager) : manager := set_programs m (sset id p (f_programs m)).

Lemma with_p_twice id p p' m : set_programs (with_p id p m) (sset id p' (f_programs (with_p id p m))) = with_p id p' m.
Proof. unfold with_p, set_programs. cbn [f_programs f_buffer]. now rewrite sset_sset_same. Qed.

Lemma with_p_find id p m : sfind id (f_programs (with_p id p m)) = Some p.
Proof. apply sfind_sset_same. Qed.

Lemma with_p_wf id p m : wf_manager m -> wf_manager (with_p id p m).
Proof. intros W. apply wf_set_programs; auto. apply swf_sset, W. Qed.

Lemma row_step n id ports r p m : wf_manager m -> sfind id (f_buffer m) = None -> StronglySorted slt ports ->
  row_fits ports r ->
  let '(x, p') := receive_debug n p (row_batch ports r) in
  exists m1, send_row id ports (fst r) (snd r) (with_p id p m) = (Ok tt, m1) /\
  match x with
  | Ok out => process_buffer true n id m1 = (Ok (RResult out), with_p id p' m)
  | _ => exists m2, process_buffer true n id m1 = ((let! y := x in Ok (RResult y)), m2) /\
         sfind id (f_programs m2) = Some p' /\ sfind id (f_buffer m2) = Some (row_batch ports r)
  end.
Proof.
  intros W B S L. destruct r as [t vs]. unfold row_fits in L. cbn [fst snd] in *.
  assert (Wp : wf_manager (with_p id p m)) by now apply with_p_wf.
  assert (Hp : shas id (f_programs (with_p id p m)) = true) by (unfold shas; now rewrite with_p_find).
  destruct vs as [|v vs].
  { cbn in L. lia. }
  rewrite send_row_add_all by lia. set (l := combine ports (map (mkMsg t) (v :: vs))).
  assert (Nl : l <> []) by (unfold l; destruct ports; [cbn in L; lia|discriminate]).
  destruct (add_all_hold id l (with_p id p m) [] Wp Hp) as (Ea & W1 & P1 & H1).
  { change (f_buffer (with_p id p m)) with (f_buffer m). now rewrite B. }
  pose proof (add_all_other id l (with_p id p m)) as O1.
  destruct (add_all id l (with_p id p m)) as [a m1]. cbn [fst snd] in *. subst a. cbn [app] in H1.
  pose proof (row_is_batch ports t (v :: vs) S) as HB. fold l in HB.
  assert (Fb : sfind id (f_buffer m1) = Some (row_batch ports (t, v :: vs))).
  { destruct (sfind id (f_buffer m1)) as [b|]; [|contradiction]. f_equal. eapply batch_unique; eauto. }
  assert (NE : row_batch ports (t, v :: vs) <> []).
  { destruct l as [|y l']; [congruence|]. eapply batch_nonempty; eauto. }
  set (batch := row_batch ports (t, v :: vs)) in *. clearbody batch l.
  assert (Hm1 : shas id (f_programs m1) = true) by (unfold shas; rewrite P1, with_p_find; reflexivity).
  assert (Fp : sfind id (f_programs m1) = Some p) by (rewrite P1; apply with_p_find).
  destruct (receive_debug n p batch) as [x p'] eqn:R. exists m1. split; [reflexivity|].
  assert (Q : process_map true n id batch m1 =
              ((let! y := x in Ok (RResult y)), set_programs m1 (sset id p' (f_programs m1)))).
  { unfold process_map. rewrite Fp. unfold receive_as. now rewrite R. }
  assert (PB : process_buffer true n id m1 =
               (do! (r, m2) <- process_map true n id batch m1; (Ok r, set_buffer m2 (serase id (f_buffer m2))))).
  { unfold process_buffer. rewrite Hm1, Fb. destruct batch; [congruence|reflexivity]. }
  rewrite PB, Q. clear PB Q.
  destruct x as [out|e| | |]; cbn [rbind bind sbind].
  - f_equal. unfold set_buffer, set_programs, with_p. cbn [f_programs f_buffer]. rewrite P1.
    unfold with_p, set_programs at 1. cbn [f_programs]. rewrite sset_sset_same. unfold set_programs. f_equal.
    apply sfind_ext; [apply swf_serase, W1|apply W|]. intros k. destruct (String.eqb_spec k id) as [->|N].
    + etransitivity; [apply sfind_serase_same, W1|]. symmetry. exact B.
    + etransitivity; [apply sfind_serase_other; exact N|]. etransitivity; [apply O1; exact N|]. reflexivity.
  - eexists. split; [reflexivity|]. cbn [set_programs f_programs f_buffer]. rewrite sfind_sset_same. auto.
  - eexists. split; [reflexivity|]. cbn [set_programs f_programs f_buffer]. rewrite sfind_sset_same. auto.
  - eexists. split; [reflexivity|]. cbn [set_programs f_programs f_buffer]. rewrite sfind_sset_same. auto.
  - eexists. split; [reflexivity|]. cbn [set_programs f_programs f_buffer]. rewrite sfind_sset_same. auto.
Qed.

(** ** The table *)
Definition under (k : string) (outs : list progmsg) : list msg :=
  flat_map (fun out => flat_map (fun x => flat_map (fun y => if String.eqb (table_key (fst x) (fst y)) k then snd y else []) (snd x)) out) outs.

Notation get k t := (odefault [] (sfind k t)).

Lemma record_op_ok op (om : opmsg) : forall t,
  (forall port ms m, In (port, ms) om -> In m ms -> shown (mval m) = true) ->
  exists t', record_op op om t = Ok t' /\
  forall k, get k t' = get k t ++ flat_map (fun y => if String.eqb (table_key op (fst y)) k then snd y else []) om.
Proof.
  induction om as [|[port ms] om IH]; intros t H; cbn [record_op].
  - exists t. split; [reflexivity|]. intros k. cbn [flat_map]. now rewrite app_nil_r.
  - unfold record1. assert (F : forallb (fun m => shown (mval m)) ms = true).
    { apply forallb_forall. intros m Hm. eapply H; [now left|exact Hm]. }
    rewrite F. cbn [rbind].
    destruct (IH (sset (table_key op port) (get (table_key op port) t ++ ms) t)) as (t' & E & K).
    { intros. eapply H; [right; eassumption|assumption]. }
    exists t'. split; [exact E|]. intros k. rewrite K, sfind_sset. cbn [flat_map fst snd].
    rewrite (String.eqb_sym (table_key op port) k).
    destruct (String.eqb_spec k (table_key op port)) as [->|N]; cbn [odefault app]; [now rewrite <- app_assoc|reflexivity].
Qed.

Lemma record_ok (out : progmsg) : forall t,
  (forall op om port ms m, In (op, om) out -> In (port, ms) om -> In m ms -> shown (mval m) = true) ->
  exists t', record out t = Ok t' /\ forall k, get k t' = get k t ++ under k [out].
Proof.
  induction out as [|[op om] out IH]; intros t H; cbn [record].
  - exists t. split; [reflexivity|]. intros k. cbn. now rewrite app_nil_r.
  - destruct (record_op_ok op om t) as (t1 & E1 & K1). { intros. eapply H; [now left|eassumption|assumption]. }
    rewrite E1. cbn [rbind]. destruct (IH t1) as (t2 & E2 & K2). { intros. eapply H; [right; eassumption|eassumption|assumption]. }
    exists t2. split; [exact E2|]. intros k. rewrite K2, K1, <- app_assoc. f_equal.
    unfold under. cbn [flat_map fst snd]. now rewrite !app_nil_r.
Qed.

Lemma under_cons k out outs : under k (out :: outs) = under k [out] ++ under k outs.
Proof. unfold under. cbn [flat_map]. now rewrite app_nil_r. Qed.

Lemma run_rows_ok n id ports rows : forall t p m outs p', wf_manager m -> sfind id (f_buffer m) = None ->
  StronglySorted slt ports -> Forall (row_fits ports) rows ->
  fed n ports rows p = (Ok outs, p') -> all_shown outs ->
  exists t', run_rows n id ports rows t (with_p id p m) = (Ok t', with_p id p' m) /\
  forall k, get k t' = get k t ++ under k outs.
Proof.
  induction rows as [|[time vs] rows IH]; intros t p m outs p' W B S F R A.
  - cbn [fed] in R. injection R as <- <-. exists t. split; [reflexivity|]. intros k. cbn. now rewrite app_nil_r.
  - cbn [fed] in R. inversion F as [|? ? F1 F2]; subst.
    pose proof (row_step n id ports (time, vs) p m W B S F1) as X. cbn [fst snd] in X.
    destruct (receive_debug n p (row_batch ports (time, vs))) as [x p1].
    destruct x as [out| | | |]; cbn [bind sbind] in R; try discriminate R.
    destruct X as (m1 & E1 & E2). cbn [run_rows]. rewrite E1. cbn [bind sbind]. rewrite E2. cbn [bind sbind].
    destruct (fed n ports rows p1) as [y p2] eqn:R2.
    destruct y as [outs2| | | |]; cbn [bind sbind] in R; try discriminate R. injection R as <- <-.
    destruct (record_ok out t) as (t1 & Er & K1).
    { intros op om port ms q H1 H2 H3. apply (A op port q). exists out, om, ms. cbn [In]. auto. }
    rewrite Er. destruct (IH t1 p1 m outs2 p2 W B S F2 R2) as (t2 & E3 & K2).
    { intros op port q (o & om & ms & H1 & H2). apply (A op port q). exists o, om, ms. cbn [In]. tauto. }
    exists t2. split; [exact E3|]. intros k. now rewrite K2, K1, (under_cons k out outs2), app_assoc.
Qed.

(** ** Keys of the table *)
Lemma colon_split a b p q : no_colon p = true -> no_colon q = true -> (a ++ ":" ++ p = b ++ ":" ++ q)%string -> a = b /\ p = q.
Proof.
  intros P Q. revert b. 
  assert (N : forall b s, no_colon s = true -> s <> (b ++ ":" ++ q)%string).
  { induction b as [|c b IH]; intros [|d s] H E; try discriminate E; cbn [append] in E; injection E as E0 E; subst d;
      cbn [no_colon] in H; apply andb_prop in H as [H1 H2]; [discriminate H1|]. exact (IH s H2 E). }
  assert (N' : forall b s, no_colon s = true -> s <> (b ++ ":" ++ p)%string).
  { induction b as [|c b IH]; intros [|d s] H E; try discriminate E; cbn [append] in E; injection E as E0 E; subst d;
      cbn [no_colon] in H; apply andb_prop in H as [H1 H2]; [discriminate H1|]. exact (IH s H2 E). }
  induction a as [|c a IH]; intros [|d b] E; cbn [append] in E.
  - injection E as ->. auto.
  - injection E as E0 E. subst d. exfalso. exact (N b p P E).
  - injection E as E0 E. subst c. exfalso. exact (N' a q Q (eq_sym E)).
  - injection E as -> E. destruct (IH b E) as [-> ->]. auto.
Qed.

Lemma key_eqb op op' port port' : no_colon port = true -> no_colon port' = true ->
  String.eqb (table_key op port) (table_key op' port') = (String.eqb op op' && String.eqb port port')%bool.
Proof.
  intros H H'. destruct (String.eqb_spec (table_key op port) (table_key op' port')) as [E|N].
  - apply colon_split in E as [-> ->]; auto. now rewrite !String.eqb_refl.
  - destruct (String.eqb_spec op op') as [->|]; [|reflexivity]. destruct (String.eqb_spec port port') as [->|]; [congruence|reflexivity].
Qed.

Lemma flat_map_ext_in {A B} (f g : A -> list B) l : (forall x, In x l -> f x = g x) -> flat_map f l = flat_map g l.
Proof. induction l as [|x l IH]; intros H; cbn [flat_map]; [reflexivity|]. rewrite H by (now left). f_equal. apply IH. intros. apply H. now right. Qed.

Lemma flat_map_none {A B} (l : list A) : flat_map (fun _ : A => @nil B) l = [].
Proof. induction l; auto. Qed.

Lemma under_port op port outs : no_colon port = true ->
  (forall out op' om port' ms, In out outs -> In (op', om) out -> In (port', ms) om -> no_colon port' = true) ->
  under (table_key op port) outs = of_port op port outs.
Proof.
  intros H A. unfold under, of_port. apply flat_map_ext_in. intros out Ho. apply flat_map_ext_in. intros [op' om] Hx. cbn [fst snd].
  transitivity (flat_map (fun y : string * list msg => if (String.eqb op' op && String.eqb (fst y) port)%bool then snd y else []) om).
  - apply flat_map_ext_in. intros [port' ms] Hy. cbn [fst snd]. rewrite key_eqb; eauto.
  - destruct (String.eqb op' op); cbn [andb]; [reflexivity|apply flat_map_none].
Qed.

(** ** The program is there as long as the run lasts *)
Lemma add_keeps id id' port x m : shas id (f_programs m) = true -> shas id (f_programs (snd (add_to_buffer id' port x m))) = true.
Proof. unfold add_to_buffer. destruct (shas id' (f_programs m)); auto. Qed.

Lemma send_keeps id t vs : forall ports m, shas id (f_programs m) = true -> shas id (f_programs (snd (send_row id ports t vs m))) = true.
Proof.
  induction vs as [|v vs IH]; intros ports m H; cbn [send_row]; [exact H|]. destruct ports as [|port ports]; [exact H|].
  pose proof (add_keeps id id port (mkMsg t v) m H) as K. destruct (add_to_buffer id port (mkMsg t v) m) as [[b| | | |] m1]; cbn [bind sbind snd] in *; auto.
Qed.

Lemma process_keeps n id m : shas id (f_programs m) = true -> shas id (f_programs (snd (process_buffer true n id m))) = true.
Proof.
  intros H. unfold process_buffer. rewrite H.
  assert (P : forall b, shas id (f_programs (snd (process_map true n id b m))) = true).
  { intros b. unfold process_map. destruct (sfind id (f_programs m)) as [p|]; [|exact H]. destruct (receive_as true n p b) as [r p'].
    cbn [snd set_programs f_programs]. rewrite shas_sset, String.eqb_refl. reflexivity. }
  destruct (sfind id (f_buffer m)) as [[|y b]|]; try exact H. specialize (P (y :: b)).
  destruct (process_map true n id (y :: b) m) as [[r| | | |] m1]; cbn [bind sbind snd] in *; auto.
Qed.

Lemma rows_keep n id ports rows : forall t m, shas id (f_programs m) = true ->
  shas id (f_programs (snd (run_rows n id ports rows t m))) = true.
Proof.
  induction rows as [|[time vs] rows IH]; intros t m H; cbn [run_rows]; [exact H|].
  pose proof (send_keeps id time vs ports m H) as H1. destruct (send_row id ports time vs m) as [[u| | | |] m1]; cbn [bind sbind snd] in *; auto.
  pose proof (process_keeps n id m1 H1) as H2. destruct (process_buffer true n id m1) as [[r| | | |] m2]; cbn [bind sbind snd] in *; auto.
  destruct r; auto. destruct (record r t); auto.
Qed.

End WrapperP.
