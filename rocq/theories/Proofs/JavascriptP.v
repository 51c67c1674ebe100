(** * Programs run from JavaScript *)

From Coq Require Import String ZArith Bool List Lia Sorted.
From Verif Require Import Base.StrMap Base.Num Model.Core Model.Graph Model.Codec Model.Json Model.Factory Model.Schema Model.Wrapper Model.Javascript.
From Verif Require Import Spec.Shape Spec.Manager Spec.Wrapper Spec.Javascript Spec.Log.
From Verif Require Import Proofs.Ports Proofs.ShapeP Proofs.BatchP Proofs.FactoryP Proofs.JsonP Proofs.WrapperP Proofs.WrapperRun Properties.Manager Properties.Graph.
Import ListNotations.
Open Scope string_scope.
Open Scope list_scope.
Open Scope Z_scope.
Open Scope rtbot_scope.

Section JavascriptP.
Context {NO : NumOps} {SL : SchemaLib} {JT : JsonText} {NC : NumCodec NO} {JR : JsRuntime}.

(** ** Messages that are passed as they are *)

Definition fine (l : list (string * list msg)) : Prop := Forall (fun x => Forall (fun m => fits32 (mtime m)) (snd x)) l.

Lemma add_all_app id a : forall b m, add_all id (a ++ b) m = (do! (_u, m1) <- add_all id a m; add_all id b m1).
Proof.
  induction a as [|[port x] a IH]; intros b m; cbn [app add_all]; [reflexivity|].
  destruct (add_to_buffer id port x m) as [[r| | | |] m1]; cbn [bind sbind]; auto.
Qed.

Lemma js_add_ok id port t v m : faithful -> fits32 t -> js_add id port (t, Some v) m = add_to_buffer id port (mkMsg t v) m.
Proof. intros [A B] H. unfold js_add. cbn [fst snd]. now rewrite A, B. Qed.

Lemma js_add_all_ok id port ms : forall m, faithful -> Forall (fun m => fits32 (mtime m)) ms ->
  js_add_all id port (map (fun m => (mtime m, Some (mval m))) ms) m = add_all id (map (pair port) ms) m.
Proof.
  induction ms as [|x ms IH]; intros m R F; cbn [map js_add_all add_all]; [reflexivity|].
  inversion F; subst. rewrite js_add_ok by auto. destruct x as [t v]. cbn [mtime mval].
  destruct (add_to_buffer id port (mkMsg t v) m) as [[r| | | |] m1]; cbn [bind sbind]; auto.
Qed.

Lemma js_prepare_ok id l : forall m, faithful -> fine l -> js_prepare id (to_js l) m = add_all id (each l) m.
Proof.
  induction l as [|[port ms] l IH]; intros m R F; [reflexivity|]. unfold to_js, each. cbn [map flat_map js_prepare fst snd].
  inversion F; subst. rewrite add_all_app, js_add_all_ok by auto.
  destruct (add_all id (map (pair port) ms) m) as [[r| | | |] m1]; cbn [bind sbind]; auto.
Qed.

(** ** A row *)
Lemma js_row_plain ports t : forall vs, (length ports <= length vs)%nat ->
  js_row ports t vs = to_js (row_batch ports (t, vs)).
Proof.
  induction ports as [|p ports IH]; intros [|v vs] L; cbn [js_row] in *; try reflexivity; [cbn in L; lia|].
  unfold row_batch in *. cbn [fst snd combine map hd_error tl] in *. cbn [to_js map fst snd mtime mval]. f_equal.
  apply IH. cbn in L. lia.
Qed.

Lemma row_each ports t : forall vs, each (row_batch ports (t, vs)) = combine ports (map (mkMsg t) vs).
Proof.
  induction ports as [|p ports IH]; intros [|v vs]; try reflexivity.
  unfold row_batch in *. cbn [fst snd combine map] in *. unfold each in *. cbn [flat_map map fst snd app]. f_equal. apply IH.
Qed.

Lemma row_firstn ports t vs : row_batch ports (t, firstn (length ports) vs) = row_batch ports (t, vs).
Proof.
  unfold row_batch. cbn [fst snd]. f_equal. revert vs.
  induction ports as [|p ports IH]; intros [|v vs]; try reflexivity. cbn [length firstn combine]. f_equal. apply IH.
Qed.

Lemma row_fine ports t vs : fits32 t -> fine (row_batch ports (t, vs)).
Proof.
  intros F. unfold fine, row_batch. rewrite Forall_forall. intros x I. apply in_map_iff in I as (y & <- & _). cbn [fst snd].
  repeat constructor; apply F.
Qed.

Lemma js_row_step n id ports r p m : faithful -> wf_manager m -> sfind id (f_buffer m) = None -> StronglySorted slt ports ->
  row_full ports r ->
  let '(x, p') := receive_debug n p (row_batch ports r) in
  match x with
  | Ok out => js_process true n id (js_row ports (fst r) (snd r)) (with_p id p m) = (Ok out, with_p id p' m)
  | _ => exists m2, js_process true n id (js_row ports (fst r) (snd r)) (with_p id p m) = (x, m2) /\
         sfind id (f_programs m2) = Some p' /\ sfind id (f_buffer m2) = Some (row_batch ports r)
  end.
Proof.
  intros R W B S [Ht L]. destruct r as [t vs]. cbn [fst snd] in *.
  assert (F : row_fits ports (t, firstn (length ports) vs)).
  { unfold row_fits. cbn [snd]. rewrite firstn_length. lia. }
  pose proof (row_step n id ports (t, firstn (length ports) vs) p m W B S F) as X. cbn [fst snd] in X.
  rewrite row_firstn in X. destruct (receive_debug n p (row_batch ports (t, vs))) as [x p'] eqn:E.
  destruct X as (m1 & X & Y). rewrite send_row_add_all in X by (rewrite firstn_length; lia).
  assert (P : js_prepare id (js_row ports t vs) (with_p id p m) = (Ok tt, m1)).
  { rewrite js_row_plain by lia. rewrite js_prepare_ok by (auto using row_fine). rewrite row_each.
    rewrite <- X. f_equal. clear. revert vs. induction ports as [|q ports IH]; intros [|v vs]; try reflexivity.
    cbn [length firstn map combine]. f_equal. apply IH. }
  unfold js_process. rewrite P. cbn [bind sbind].
  destruct x as [out| | | |]; [rewrite Y; reflexivity| | | |]; destruct Y as (m2 & Y & Z1 & Z2); rewrite Y; cbn [rbind bind sbind]; eauto.
Qed.

(** ** The table *)
Notation get k t := (odefault [] (sfind k t)).

Lemma js_record_op_ok op (om : opmsg) : forall (t : js_table) k,
  get k (js_record_op op om t) = get k t ++ map js_show (flat_map (fun y => if String.eqb (table_key op (fst y)) k then snd y else []) om).
Proof.
  induction om as [|[port ms] om IH]; intros t k; cbn [js_record_op]; [cbn; now rewrite app_nil_r|].
  rewrite IH. cbn [flat_map fst snd]. rewrite map_app, app_assoc. f_equal. destruct ms as [|x ms].
  - destruct (String.eqb _ _); cbn; now rewrite app_nil_r.
  - rewrite sfind_sset, (String.eqb_sym (table_key op port) k).
    destruct (String.eqb_spec k (table_key op port)) as [->|N]; cbn [odefault]; [reflexivity|cbn; now rewrite app_nil_r].
Qed.

Lemma js_record_ok (out : progmsg) : forall (t : js_table) k, get k (js_record out t) = get k t ++ map js_show (under k [out]).
Proof.
  induction out as [|[op om] out IH]; intros t k; cbn [js_record]; [cbn; now rewrite app_nil_r|].
  rewrite IH, js_record_op_ok, <- app_assoc. f_equal. unfold under. cbn [flat_map fst snd]. now rewrite !app_nil_r, map_app.
Qed.

Lemma js_rows_ok n id ports rows : forall (t : js_table) p m outs p', faithful -> wf_manager m -> sfind id (f_buffer m) = None ->
  StronglySorted slt ports -> Forall (row_full ports) rows -> fed n ports rows p = (Ok outs, p') ->
  exists t', js_rows n id ports rows t (with_p id p m) = (Ok tt, (t', with_p id p' m)) /\
  forall k, get k t' = get k t ++ map js_show (under k outs).
Proof.
  induction rows as [|[time vs] rows IH]; intros t p m outs p' R W B S F X; cbn [fed] in X.
  - injection X as <- <-. exists t. split; [reflexivity|]. intros k. cbn. now rewrite app_nil_r.
  - inversion F as [|? ? F1 F2]; subst. pose proof (js_row_step n id ports (time, vs) p m R W B S F1) as Y. cbn [fst snd] in Y.
    destruct (receive_debug n p (row_batch ports (time, vs))) as [x p1].
    destruct x as [out| | | |]; cbn [bind sbind] in X; try discriminate X.
    destruct (fed n ports rows p1) as [[outs2| | | |] p2] eqn:X2; cbn [bind sbind] in X; try discriminate X. injection X as <- <-.
    cbn [js_rows]. rewrite Y. destruct (IH (js_record out t) p1 m outs2 p2 R W B S F2 X2) as (t' & E & K).
    exists t'. split; [exact E|]. intros k. now rewrite K, js_record_ok, (under_cons k out outs2), map_app, app_assoc.
Qed.

Lemma js_run_start n id g text rows (t : js_table) m p ports : sfind id (f_programs m) = None ->
  validate text = Ok true -> new_prog g text = Ok p -> entry_ports p = Ok (RPorts ports) ->
  js_run n id g text rows t m =
  (do! (_u, s) <- js_rows n id ports rows t (with_p id p m); (Ok tt, (fst s, snd (delete id (snd s))))).
Proof.
  intros N V E P. unfold js_run, js_create, create_checked. rewrite V. unfold create_text. rewrite E. cbn [bind sbind].
  assert (X : set_programs m (semplace id p (f_programs m)) = with_p id p m).
  { unfold semplace, shas. now rewrite N. }
  rewrite X. cbn [String.eqb bind sbind]. unfold js_ports, with_program. rewrite with_p_find, P. reflexivity.
Qed.

Lemma js_run_ok n id g text rows (t : js_table) m p ports outs p' : faithful -> wf_manager m ->
  sfind id (f_programs m) = None -> sfind id (f_buffer m) = None ->
  validate text = Ok true -> new_prog g text = Ok p -> entry_ports p = Ok (RPorts ports) ->
  Forall (row_full ports) rows -> fed n ports rows p = (Ok outs, p') ->
  exists t', js_run n id g text rows t m = (Ok tt, (t', m)) /\ forall k, get k t' = get k t ++ map js_show (under k outs).
Proof.
  intros R W N B V E P F X. rewrite (js_run_start n id g text rows t m p ports N V E P).
  assert (S : StronglySorted slt ports) by (eapply entry_sorted; [apply (new_prog_good _ _ _ E)|exact P]).
  destruct (js_rows_ok n id ports rows t p m outs p' R W B S F X) as (t' & Et & K). exists t'. rewrite Et. cbn [bind sbind fst snd].
  pose proof (deleted id p' m W N) as D. rewrite D. auto.
Qed.

End JavascriptP.
