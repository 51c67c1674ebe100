(** * The command line tool *)

From Coq Require Import String Ascii ZArith Bool List Lia Sorted PeanoNat.
From Verif Require Import Base.StrMap Base.Num Model.Core Model.Make Model.Graph Model.Codec Model.Json Model.Factory Model.Schema Model.Wrapper Model.Javascript Model.Cli.
From Verif Require Import Spec.Shape Spec.Manager Spec.Wrapper Spec.Javascript Spec.Cli.
From Verif Require Spec.Pipeline Proofs.Refuse.
From Verif Require Import Proofs.Ports Proofs.MakeP Proofs.ShapeP Proofs.FactoryP Proofs.JsonP Proofs.WrapperP Proofs.WrapperRun Proofs.JavascriptP.
Import ListNotations.
Open Scope string_scope.
Open Scope list_scope.
Open Scope Z_scope.
Open Scope rtbot_scope.

Section Extended.
Context {NO : NumOps} {SL : SchemaLib} {JT : JsonText} {NC : NumCodec NO} {JR : JsRuntime}.

Lemma fed_length n ports rows : forall p outs p', fed n ports rows p = (Ok outs, p') -> length outs = length rows.
Proof.
  induction rows as [|r rows IH]; intros p outs p' X; cbn [fed] in X; [now injection X as <- <-|].
  destruct (receive_debug n p (row_batch ports r)) as [[out| | | |] p1]; cbn [bind sbind] in X; try discriminate X.
  destruct (fed n ports rows p1) as [[outs2| | | |] p2] eqn:E; cbn [bind sbind] in X; try discriminate X. injection X as <- <-.
  cbn [length]. f_equal. eauto.
Qed.

(** no call that fails *)
Definition quiet (cb : progress_cb) (step : nat) : Prop := cb <> NotAFunction \/ step = 0%nat.

Lemma ext_rows_ok n id ports cb step rows : quiet cb step -> forall counter (t : list js_entry) p m outs p', faithful -> wf_manager m ->
  sfind id (f_buffer m) = None -> StronglySorted slt ports -> Forall (row_full ports) rows -> fed n ports rows p = (Ok outs, p') ->
  ext_rows n id ports cb step counter rows t (with_p id p m) = (Ok tt, (t ++ entries ports rows outs, with_p id p' m)).
Proof.
  intros Qt. induction rows as [|[time vs] rows IH]; intros counter t p m outs p' R W B S F X; cbn [fed] in X.
  - injection X as <- <-. cbn. now rewrite app_nil_r.
  - inversion F as [|? ? F1 F2]; subst. pose proof (js_row_step n id ports (time, vs) p m R W B S F1) as Y. cbn [fst snd] in Y.
    destruct (receive_debug n p (row_batch ports (time, vs))) as [x p1].
    destruct x as [out| | | |]; cbn [bind sbind] in X; try discriminate X.
    destruct (fed n ports rows p1) as [[outs2| | | |] p2] eqn:X2; cbn [bind sbind] in X; try discriminate X. injection X as <- <-.
    cbn [ext_rows]. rewrite Y.
    assert (Z : forall c, ext_rows n id ports cb step c rows (t ++ [(js_row ports time vs, out)]) (with_p id p1 m) =
              (Ok tt, (t ++ entries ports ((time, vs) :: rows) (out :: outs2), with_p id p2 m))).
    { intros c. rewrite (IH c _ p1 m outs2 p2 R W B S F2 X2). rewrite <- app_assoc. unfold entries. cbn [map combine].
      rewrite js_row_plain by (destruct F1; cbn in *; lia). reflexivity. }
    destruct cb; auto. destruct Qt as [Qt| ->]; [congruence|]. cbn [Nat.eqb]. apply Z.
Qed.

Lemma ext_rows_fails n id ports step rows : forall counter (t : list js_entry) p m outs p', faithful -> wf_manager m ->
  sfind id (f_buffer m) = None -> StronglySorted slt ports -> Forall (row_full ports) rows -> fed n ports rows p = (Ok outs, p') ->
  (counter < step <= counter + length rows)%nat ->
  exists e s, ext_rows n id ports NotAFunction step counter rows t (with_p id p m) = (Throw e, s).
Proof.
  induction rows as [|[time vs] rows IH]; intros counter t p m outs p' R W B S F X L; cbn [fed length] in *; [lia|].
  inversion F as [|? ? F1 F2]; subst. pose proof (js_row_step n id ports (time, vs) p m R W B S F1) as Y. cbn [fst snd] in Y.
  destruct (receive_debug n p (row_batch ports (time, vs))) as [x p1].
  destruct x as [out| | | |]; cbn [bind sbind] in X; try discriminate X.
  destruct (fed n ports rows p1) as [[outs2| | | |] p2] eqn:X2; cbn [bind sbind] in X; try discriminate X. injection X as <- <-.
  cbn [ext_rows]. rewrite Y. destruct (Nat.eqb_spec (Datatypes.S counter) step) as [E|E]; [eauto|].
  apply (IH (Datatypes.S counter) _ p1 m outs2 p2 R W B S F2 X2). lia.
Qed.

Lemma extended_start n id g text cb rows (t : list js_entry) m p ports : sfind id (f_programs m) = None ->
  validate text = Ok true -> new_prog g text = Ok p -> entry_ports p = Ok (RPorts ports) ->
  js_run_extended n id g text cb rows t m =
  (do! (_u, s) <- ext_rows n id ports cb (Nat.div (length rows) 20) 0 rows t (with_p id p m); (Ok tt, (fst s, snd (delete id (snd s))))).
Proof.
  intros N V E P. unfold js_run_extended, js_create, create_checked. rewrite V. unfold create_text. rewrite E. cbn [bind sbind].
  assert (X : set_programs m (semplace id p (f_programs m)) = with_p id p m).
  { unfold semplace, shas. now rewrite N. }
  rewrite X. cbn [String.eqb bind sbind]. unfold js_ports, with_program. rewrite with_p_find, P. reflexivity.
Qed.

Lemma extended_ok n id g text cb rows (t : list js_entry) m p ports outs p' : quiet cb (Nat.div (length rows) 20) -> faithful -> wf_manager m ->
  sfind id (f_programs m) = None -> sfind id (f_buffer m) = None ->
  validate text = Ok true -> new_prog g text = Ok p -> entry_ports p = Ok (RPorts ports) ->
  Forall (row_full ports) rows -> fed n ports rows p = (Ok outs, p') ->
  js_run_extended n id g text cb rows t m = (Ok tt, (t ++ entries ports rows outs, m)).
Proof.
  intros Qt R W N B V E P F X. rewrite (extended_start n id g text cb rows t m p ports N V E P).
  assert (S : StronglySorted slt ports) by (eapply entry_sorted; [apply (new_prog_good _ _ _ E)|exact P]).
  rewrite (ext_rows_ok n id ports cb _ rows Qt 0 t p m outs p' R W B S F X). cbn [bind sbind fst snd].
  pose proof (deleted id p' m W N) as D. now rewrite D.
Qed.

End Extended.

(** ** The debugger *)
Section Debugger.
Context {NO : NumOps} {SL : SchemaLib} {JT : JsonText} {NC : NumCodec NO} {JR : JsRuntime} {CT : CliText}.

Lemma cli_data_numeric rows : cli_data rows = numeric rows.
Proof.
  induction rows as [|r rows IH]; [reflexivity|]. cbn [cli_data numeric flat_map]. unfold cli_row. rewrite IH.
  destruct r as [|t [|v r]]; try reflexivity. destruct (cli_time t), (cli_value v); reflexivity.
Qed.

(** *** Headers *)
Lemma until_plain s : no_colon s = true -> until_colon s = (s, None).
Proof.
  induction s as [|c s IH]; [reflexivity|]. cbn [no_colon until_colon]. destruct (Ascii.eqb c ":"); [discriminate|]. cbn [negb andb].
  intros H. now rewrite IH.
Qed.
Lemma until_key s p : no_colon s = true -> until_colon (s ++ ":" ++ p) = (s, Some p).
Proof.
  change (":" ++ p)%string with (String ":" p).
  induction s as [|c s IH]; [reflexivity|]. cbn [no_colon until_colon append]. destruct (Ascii.eqb c ":"); [discriminate|]. cbn [negb andb].
  intros H. now rewrite IH.
Qed.
Lemma oport_plain j : no_colon (oport j) = true.
Proof. rewrite no_colon_has, Refuse.no_colon_oport. reflexivity. Qed.

Definition header (ports : list string) (x : string * string) : string :=
  if Nat.ltb 1 (length ports) then (fst x ++ ":" ++ snd x)%string else fst x.

Lemma ports_cases np : dbg_ports np = ["o1"] \/ (Nat.ltb 1 (length (dbg_ports np)) = true /\ Forall (fun p => no_colon p = true) (dbg_ports np)).
Proof.
  destruct np as [[|[|k]]|]; auto. right. cbn [dbg_ports]. split; [reflexivity|]. apply Forall_forall. intros p H.
  apply in_map_iff in H as (j & <- & _). apply oport_plain.
Qed.

Lemma header_split id np p : no_colon id = true -> In p (dbg_ports np) ->
  exists q, split_header (header (dbg_ports np) (id, p)) = (id, q) /\ odefault "o1" q = p.
Proof.
  intros N I. unfold header, split_header. cbn [fst snd]. destruct (ports_cases np) as [E|[E F]].
  - rewrite E in *. cbn [length Nat.ltb Nat.leb]. rewrite until_plain by exact N. exists None. destruct I as [<-|[]]. auto.
  - rewrite E, until_key by exact N. rewrite Forall_forall in F. rewrite until_plain by auto. exists (Some p). auto.
Qed.

(** one cell of the table: what [dbg_cell] gives for an output *)
Definition cell_of (r : option progmsg) (x : string * string) : res string :=
  match r with
  | None => Throw (js_error "Cannot read properties of undefined")
  | Some out =>
      match sfind (fst x) out with
      | None => Ok "-"
      | Some om => match sfind (snd x) om with
                   | Some ms => Ok (cli_text (map js_show ms))
                   | None => Throw (js_error "Cannot read properties of undefined")
                   end
      end
  end.
Lemma dbg_cell_of r id np p : showable id -> In p (dbg_ports np) -> dbg_cell r (header (dbg_ports np) (id, p)) = cell_of r (id, p).
Proof.
  intros [N C] I. unfold dbg_cell. destruct (header_split id np p C I) as (q & -> & Eq). apply String.eqb_neq in N. rewrite N, Eq.
  unfold cell_of. cbn [fst snd]. reflexivity.
Qed.

Fixpoint cells_of (r : option progmsg) (xs : list (string * string)) : res (list string) :=
  match xs with
  | [] => Ok []
  | x :: t => let! c := cell_of r x in let! cs := cells_of r t in Ok (c :: cs)
  end.
Lemma dbg_cells_app r a : forall b, dbg_cells r (a ++ b) = let! x := dbg_cells r a in let! y := dbg_cells r b in Ok (x ++ y).
Proof.
  induction a as [|h a IH]; intros b; cbn [app dbg_cells rbind]; [destruct (dbg_cells r b); reflexivity|].
  destruct (dbg_cell r h); cbn [rbind]; auto. rewrite IH. destruct (dbg_cells r a); cbn [rbind]; auto. destruct (dbg_cells r b); reflexivity.
Qed.
Lemma cells_of_app r a : forall b, cells_of r (a ++ b) = let! x := cells_of r a in let! y := cells_of r b in Ok (x ++ y).
Proof.
  induction a as [|h a IH]; intros b; cbn [app cells_of rbind]; [destruct (cells_of r b); reflexivity|].
  destruct (cell_of r h); cbn [rbind]; auto. rewrite IH. destruct (cells_of r a); cbn [rbind]; auto. destruct (cells_of r b); reflexivity.
Qed.

(** the operators of the screen after some actions *)
Definition shown_ops (l : list dbg_action) (ops : list (string * option nat)) : list dbg_op :=
  map (fun x => mkDbgOp (fst x) (chosen l (fst x)) (dbg_ports (snd x))) ops.

Lemma cells_listed r l ops : Forall showable (map fst ops) -> dbg_cells r (dbg_headers (shown_ops l ops)) = cells_of r (listed l ops).
Proof.
  induction ops as [|[id np] ops IH]; intros F; [reflexivity|]. inversion F as [|? ? F1 F2]; subst. cbn [fst] in F1.
  unfold dbg_headers, shown_ops, listed in *. cbn [map filter flat_map fst snd d_selected].
  destruct (chosen l id) eqn:C; [|now rewrite IH]. cbn [flat_map d_ports d_id]. rewrite dbg_cells_app, cells_of_app, IH by exact F2.
  f_equal.
  assert (X : forall ps, (forall p, In p ps -> In p (dbg_ports np)) ->
    dbg_cells r (map (fun p => header (dbg_ports np) (id, p)) ps) = cells_of r (map (pair id) ps)).
  { induction ps as [|p ps IHp]; intros I; [reflexivity|]. cbn [map dbg_cells cells_of]. rewrite dbg_cell_of by (auto; apply I; cbn; auto).
    rewrite IHp; [reflexivity|]. intros q Hq. apply I. cbn; auto. }
  rewrite <- X by auto. f_equal. unfold header. cbn [fst snd].
  destruct (ports_cases np) as [E|[E _]]; rewrite E; reflexivity.
Qed.

Lemma cells_of_ok r xs cs : cells_of r xs = Ok cs -> cs = map (cell (odefault [] r)) xs /\
  (xs <> [] -> r <> None) /\
  forall x out om, r = Some out -> In x xs -> sfind (fst x) out = Some om -> sfind (snd x) om <> None.
Proof.
  revert cs. induction xs as [|x xs IH]; intros cs E; cbn [cells_of] in E.
  - injection E as <-. split; [reflexivity|]. split; [congruence|]. intros ? ? ? _ [].
  - apply rbind_ok in E as (c & E1 & E). apply rbind_ok in E as (cs' & E2 & E). apply Ok_inj in E. subst cs.
    destruct (IH _ E2) as (-> & _ & Y). unfold cell_of in E1. destruct r as [out|]; [|discriminate E1]. cbn [odefault] in *.
    split; [|split; [discriminate|]].
    + cbn [map]. f_equal. unfold cell. destruct (sfind (fst x) out) as [om|]; [|now injection E1 as <-].
      destruct (sfind (snd x) om) as [ms|]; [|discriminate E1]. now injection E1 as <-.
    + intros x' out' om' [= <-] [->|I] F; [|eapply Y; eauto]. rewrite F in E1. destruct (sfind (snd x') om'); [discriminate|discriminate E1].
Qed.
Lemma cells_of_throw r xs : (exists cs, cells_of r xs = Ok cs) \/ exists e, cells_of r xs = Throw e.
Proof.
  induction xs as [|x xs IH]; [left; eexists; reflexivity|]. cbn [cells_of].
  assert (X : (exists c, cell_of r x = Ok c) \/ exists e, cell_of r x = Throw e).
  { unfold cell_of. destruct r as [out|]; [|right; eauto]. destruct (sfind (fst x) out) as [om|]; [|left; eauto].
    destruct (sfind (snd x) om); [left|right]; eauto. }
  destruct X as [(c & ->)|(e & ->)]; cbn [rbind]; [|right; eauto].
  destruct IH as [(cs & ->)|(e & ->)]; cbn [rbind]; eauto.
Qed.

(** the columns as a function of the rest of the state *)
Lemma rows_ok result l ops : Forall showable (map fst ops) -> forall k i rows,
  dbg_rows result (dbg_headers (shown_ops l ops)) i k = Ok rows ->
  rows = map (fun i => string_of_nat i :: map (cell (nth i result [])) (listed l ops)) (seq i k) /\
  forall j, (i <= j < i + k)%nat -> (listed l ops <> [] -> (j < length result)%nat) /\
    forall x om, In x (listed l ops) -> sfind (fst x) (nth j result []) = Some om -> sfind (snd x) om <> None.
Proof.
  intros F. induction k as [|k IH]; intros i rows E; cbn [dbg_rows] in E.
  - apply Ok_inj in E. subst rows. split; [reflexivity|]. intros j Hj. lia.
  - apply rbind_ok in E as (cs & E1 & E). apply rbind_ok in E as (rows' & E2 & E). apply Ok_inj in E. subst rows.
    rewrite cells_listed in E1 by exact F. apply cells_of_ok in E1 as (-> & A & B). destruct (IH _ _ E2) as (-> & C).
    assert (Nt : odefault [] (nth_error result i) = nth i result []).
    { clear. revert i. induction result as [|x r IHr]; intros [|i]; cbn; auto. }
    split; [cbn [seq map]; unfold js_nat; now rewrite Nt|].
    intros j Hj. assert (j = i \/ (Datatypes.S i <= j < Datatypes.S i + k)%nat) as [->|H] by lia; [|now apply C]. split.
    + intros H. apply nth_error_Some. now apply A.
    + intros x om I Fx. destruct (nth_error result i) as [out|] eqn:Eo.
      * cbn in Nt. subst out. eapply B; eauto.
      * cbn in Nt. rewrite <- Nt in Fx. discriminate Fx.
Qed.
Lemma rows_throw result l ops : Forall showable (map fst ops) -> forall k i,
  (exists rows, dbg_rows result (dbg_headers (shown_ops l ops)) i k = Ok rows) \/
  exists e, dbg_rows result (dbg_headers (shown_ops l ops)) i k = Throw e.
Proof.
  intros F. induction k as [|k IH]; intros i; cbn [dbg_rows]; [left; eauto|]. rewrite cells_listed by exact F.
  destruct (cells_of_throw (nth_error result i) (listed l ops)) as [(cs & ->)|(e & ->)]; cbn [rbind]; [|right; eauto].
  destruct (IH (Datatypes.S i)) as [(rows & ->)|(e & ->)]; cbn [rbind]; eauto.
Qed.

(** *** The state after some actions *)
Definition titled (l : list dbg_action) (ops : list (string * option nat)) : list string := "iter" :: dbg_headers (shown_ops l ops).
Definition screen (l : list dbg_action) (ops : list (string * option nat)) (result : list progmsg) (c : list (list string)) : dbg :=
  mkDbg (position (length result) l) (length result) (shown_ops l ops) result c.

Lemma chosen_snoc l a id : chosen (l ++ [a]) id =
  match a with Select id' b' => if String.eqb id' id then b' else chosen l id | _ => chosen l id end.
Proof. unfold chosen. rewrite fold_left_app. reflexivity. Qed.
Lemma position_snoc max l a : position max (l ++ [a]) =
  match a with Forward => Nat.min (position max l + 1) max | Backward => (position max l - 1)%nat | Select _ _ => position max l end.
Proof. unfold position. rewrite fold_left_app. reflexivity. Qed.
Lemma position_le max l : (position max l <= max)%nat.
Proof.
  induction l as [|a l IH] using rev_ind; [cbn; lia|]. rewrite position_snoc. destruct a; lia.
Qed.

Lemma select_shown l id b ops : NoDup (map fst ops) -> dbg_select id b (shown_ops l ops) = shown_ops (l ++ [Select id b]) ops.
Proof.
  induction ops as [|[x np] ops IH]; intros N; [reflexivity|]. inversion N as [|? ? N1 N2]; subst. cbn [shown_ops map fst snd dbg_select d_id d_ports] in *.
  unfold shown_ops in *. rewrite chosen_snoc, (String.eqb_sym x id). destruct (String.eqb_spec id x) as [->|E].
  - f_equal. apply map_ext_in. intros [y q] I. cbn [fst snd]. rewrite chosen_snoc. destruct (String.eqb_spec x y) as [->|]; [|reflexivity].
    exfalso. apply N1. apply in_map_iff. exists (y, q). auto.
  - now rewrite <- IH.
Qed.
Lemma shown_same l a ops : (forall id b, a <> Select id b) -> shown_ops (l ++ [a]) ops = shown_ops l ops.
Proof. intros H. apply map_ext. intros x. rewrite chosen_snoc. destruct a; auto. now destruct (H id selected). Qed.

Lemma dbg_acts_snoc l : forall a s, dbg_acts (l ++ [a]) s = (do! (_u, s1) <- dbg_acts l s; dbg_act a s1).
Proof.
  induction l as [|b l IH]; intros a s; cbn [app dbg_acts bind sbind].
  - destruct (dbg_act a s) as [[[]| | | |] s1]; reflexivity.
  - destruct (dbg_act b s) as [[u| | | |] s1]; cbn [bind sbind]; auto.
Qed.

Lemma act_columns l a ops result c : NoDup (map fst ops) ->
  exists c', dbg_act a (screen l ops result c) = dbg_columns (screen (l ++ [a]) ops result c').
Proof.
  intros N. exists c. destruct a; cbn [dbg_act screen d_iteration d_max d_operators d_result d_columns]; unfold dbg_at, screen;
    cbn [d_iteration d_max d_operators d_result d_columns]; rewrite position_snoc; f_equal.
  - rewrite shown_same by discriminate. reflexivity.
  - rewrite shown_same by discriminate. reflexivity.
  - rewrite select_shown by exact N. reflexivity.
Qed.

Lemma columns_result l ops result c : Forall showable (map fst ops) ->
  (exists c', dbg_columns (screen l ops result c) = (Ok tt, screen l ops result c')) \/
  exists e, dbg_columns (screen l ops result c) = (Throw e, screen l ops result c).
Proof.
  intros F. unfold dbg_columns, screen. cbn [d_iteration d_max d_operators d_result].
  destruct (position (length result) l) as [|i]; [left; eauto|].
  destruct (rows_throw result l ops F (Nat.min (Datatypes.S i) (length result) + 10 - i) i) as [(rows & ->)|(e & ->)]; eauto.
Qed.

Lemma acts_result l ops result : NoDup (map fst ops) -> Forall showable (map fst ops) ->
  (exists c, dbg_acts l (snd (dbg_init ops result)) = (Ok tt, screen l ops result c) /\
     (exists c0, dbg_columns (screen l ops result c0) = (Ok tt, screen l ops result c))) \/
  exists e s, dbg_acts l (snd (dbg_init ops result)) = (Throw e, s).
Proof.
  intros N F. induction l as [|a l IH] using rev_ind.
  - left. eexists. split; [reflexivity|]. exists []. reflexivity.
  - rewrite dbg_acts_snoc. destruct IH as [(c & -> & _)|(e & s & ->)]; cbn [bind sbind]; [|right; eauto].
    destruct (act_columns l a ops result c N) as (c' & ->).
    destruct (columns_result (l ++ [a]) ops result c' F) as [(c2 & E)|(e & E)]; rewrite E; [left|right]; eauto.
Qed.

Lemma columns_ok l ops result c c' : Forall showable (map fst ops) ->
  dbg_columns (screen l ops result c) = (Ok tt, screen l ops result c') ->
  c' = titled l ops :: match position (length result) l with O => [] | k => table_rows l ops result k end /\
  ((1 <= position (length result) l)%nat -> forall j, (position (length result) l - 1 <= j < position (length result) l + 10)%nat ->
     (listed l ops <> [] -> (j < length result)%nat) /\
     forall x om, In x (listed l ops) -> sfind (fst x) (nth j result []) = Some om -> sfind (snd x) om <> None).
Proof.
  intros F E. unfold dbg_columns, screen in E. cbn [d_iteration d_max d_operators d_result] in E.
  pose proof (position_le (length result) l) as Lp.
  destruct (position (length result) l) as [|i] eqn:Ep.
  - injection E as <-. split; [reflexivity|]. lia.
  - replace (Nat.min (Datatypes.S i) (length result) + 10 - i)%nat with 11%nat in E by lia.
    destruct (dbg_rows result (dbg_headers (shown_ops l ops)) i 11) as [rows| | | |] eqn:Er; try discriminate E. injection E as <-.
    apply rows_ok in Er as (-> & A); [|exact F]. split.
    + unfold table_rows. replace (Datatypes.S i - 1)%nat with i by lia. reflexivity.
    + intros _ j Hj. apply A. lia.
Qed.

Lemma cells_fine (out : progmsg) xs : (forall x om, In x xs -> sfind (fst x) out = Some om -> sfind (snd x) om <> None) ->
  exists cs, cells_of (Some out) xs = Ok cs.
Proof.
  induction xs as [|x xs IH]; intros H; [eexists; reflexivity|]. cbn [cells_of].
  destruct IH as (cs & E); [intros y om I; apply H; cbn; auto|].
  assert (X : exists c, cell_of (Some out) x = Ok c).
  { unfold cell_of. destruct (sfind (fst x) out) as [om|] eqn:F; [|eexists; reflexivity]. specialize (H x om (or_introl eq_refl) F).
    destruct (sfind (snd x) om); [eexists; reflexivity|congruence]. }
  destruct X as (c & ->). cbn [rbind]. rewrite E. cbn [rbind]. eauto.
Qed.

Lemma rows_fine (result : list progmsg) l ops : Forall showable (map fst ops) -> forall k i, (i + k <= length result)%nat ->
  (forall i x om, In x (listed l ops) -> sfind (fst x) (nth i result []) = Some om -> sfind (snd x) om <> None) ->
  exists rows, dbg_rows result (dbg_headers (shown_ops l ops)) i k = Ok rows.
Proof.
  intros F. induction k as [|k IH]; intros i L H; cbn [dbg_rows]; [eauto|]. rewrite cells_listed by exact F.
  destruct (nth_error result i) as [out|] eqn:E; [|apply nth_error_None in E; lia].
  assert (X : nth i result [] = out) by (now apply nth_error_nth).
  destruct (cells_fine out (listed l ops)) as (cs & ->); [rewrite <- X; apply H|]. cbn [rbind].
  destruct (IH (Datatypes.S i)) as (rows & ->); [lia|exact H|]. cbn [rbind]. eauto.
Qed.

Lemma listed_less l ops x : In x (listed l ops) -> In x (listed [] ops).
Proof.
  unfold listed. intros H. apply in_flat_map in H as (y & I & H). apply in_flat_map. exists y. split; [exact I|].
  destruct (chosen l (fst y)); [exact H|destruct H].
Qed.

End Debugger.
