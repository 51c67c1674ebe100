(** * Runs of the Python wrapper *)

From Coq Require Import String Ascii ZArith Bool List Lia Sorted.
From Verif Require Import Base.StrMap Base.Num Model.Core Model.Make Model.Graph Model.Codec Model.Json Model.Factory Model.Schema Model.Wrapper.
From Verif Require Import Spec.Shape Spec.Manager Spec.Schema Spec.Definition Spec.Wrapper Proofs.Ports Proofs.FactoryP Proofs.JsonP Proofs.Deep Proofs.PortNames.
From Verif Require Import Proofs.PipelineP Proofs.SchemaP Proofs.SchemaNew Proofs.Emitted Proofs.WrapperP.
Import ListNotations.
Open Scope string_scope.
Open Scope list_scope.
Open Scope Z_scope.
Open Scope rtbot_scope.

Section WrapperRun.
Context {NO : NumOps} {SL : SchemaLib} {JT : JsonText} {NC : NumCodec NO} {PJ : PyJson}.

(** ** New programs *)

Lemma entry_sorted p ports : wf_heap (p_ops p) -> entry_ports p = Ok (RPorts ports) -> StronglySorted slt ports.
Proof.
  intros [_ W] E. unfold entry_ports in E. destruct (String.eqb (p_entry p) ""); [discriminate|].
  destruct (sfind (p_entry p) (p_ops p)) as [o|] eqn:F; [|discriminate]. injection E as <-.
  specialize (W _ _ F). destruct o as [b k]. exact (proj1 W).
Qed.

Lemma no_colon_has s : no_colon s = negb (Spec.Pipeline.has_colon s).
Proof. induction s as [|c s IH]; [reflexivity|]. cbn [no_colon Spec.Pipeline.has_colon]. rewrite IH. now destruct (Ascii.eqb c ":"). Qed.

Lemma new_outs g text p : new_prog g text = Ok p -> outs_in (fun port => no_colon port = true) (p_ops p).
Proof.
  intros E id o port F M. apply new_prog_new in E. apply sfind_In in F. apply E in F. apply every_L in F.
  destruct F as (_ & _ & F). rewrite Forall_forall in F. apply sset_mem_In in M. destruct (F _ M) as [k ->].
  rewrite no_colon_has. unfold oport, string_of_nat. cbn [append Spec.Pipeline.has_colon]. cbn. now rewrite uint_colon.
Qed.

Lemma fed_ports n ports rows : forall p outs p', wf_heap (p_ops p) -> outs_in (fun port => no_colon port = true) (p_ops p) ->
  fed n ports rows p = (Ok outs, p') -> Forall (ports_in (fun port => no_colon port = true)) outs.
Proof.
  induction rows as [|r rows IH]; intros p outs p' W O E; cbn [fed] in E; [injection E as <- <-; constructor|].
  destruct (receive_debug n p (row_batch ports r)) as [[out| | | |] p1] eqn:R; cbn [bind sbind] in E; try discriminate E.
  destruct (fed n ports rows p1) as [[outs2| | | |] p2] eqn:R2; cbn [bind sbind] in E; try discriminate E. injection E as <- <-.
  destruct (receive_debug_good _ _ _ _ _ _ W O R) as (G & W1 & O1). constructor; [exact G|]. eauto.
Qed.

(** ** Before and after the rows *)

Lemma run_start n id g text rows m p ports : sfind id (f_programs m) = None ->
  validate text = Ok true -> new_prog g text = Ok p -> entry_ports p = Ok (RPorts ports) ->
  run_exec n id g text rows m =
  (do! (t, m3) <- run_rows n id ports rows [] (with_p id p m); do! (_u, m4) <- delete id m3; (Ok t, m4)).
Proof.
  intros N V E P. unfold run_exec, create_checked. rewrite V. unfold create_text. rewrite E. cbn [bind sbind].
  assert (X : set_programs m (semplace id p (f_programs m)) = with_p id p m).
  { unfold semplace, shas. now rewrite N. }
  rewrite X. unfold with_program. rewrite with_p_find, P. cbn [bind sbind]. reflexivity.
Qed.

Lemma deleted id p m : wf_manager m -> sfind id (f_programs m) = None -> snd (delete id (with_p id p m)) = m.
Proof.
  intros (W & _) N. unfold delete, with_p, set_programs. cbn [snd f_programs f_buffer]. destruct m as [ps bs]. f_equal. cbn [f_programs] in *.
  apply sfind_ext; [now apply swf_serase, swf_sset|exact W|]. intros k. destruct (String.eqb_spec k id) as [->|X].
  - rewrite N. apply sfind_serase_same. now apply swf_sset.
  - etransitivity; [now apply sfind_serase_other|]. now apply sfind_sset_other.
Qed.

Lemma run_ok n id g text rows m p ports outs p' : wf_manager m ->
  sfind id (f_programs m) = None -> sfind id (f_buffer m) = None ->
  validate text = Ok true -> new_prog g text = Ok p -> entry_ports p = Ok (RPorts ports) ->
  Forall (row_fits ports) rows -> fed n ports rows p = (Ok outs, p') -> all_shown outs ->
  exists t, run_exec n id g text rows m = (Ok t, m) /\ forall k, odefault [] (sfind k t) = under k outs.
Proof.
  intros W N B V E P F R A. rewrite (run_start n id g text rows m p ports N V E P).
  assert (S : StronglySorted slt ports) by (eapply entry_sorted; [apply (new_prog_good _ _ _ E)|exact P]).
  destruct (run_rows_ok n id ports rows [] p m outs p' W B S F R A) as (t & Et & K). exists t. rewrite Et. cbn [bind sbind].
  pose proof (deleted id p' m W N) as D. unfold delete in *. cbn [bind sbind snd] in *. rewrite D. split; [reflexivity|]. exact K.
Qed.

(** ** A run that succeeds leaves nothing *)

Lemma send_row_long id t vs : forall ports m m1, (length ports < length vs)%nat -> send_row id ports t vs m <> (Ok tt, m1).
Proof.
  induction vs as [|v vs IH]; intros ports m m1 L; [inversion L|]. cbn [send_row]. destruct ports as [|port ports]; [discriminate|].
  destruct (add_to_buffer id port (mkMsg t v) m) as [[b| | | |] m2]; cbn [bind sbind]; try discriminate.
  apply IH. cbn in L. lia.
Qed.

Lemma run_rows_back n id ports rows : forall t p m t' m', wf_manager m -> sfind id (f_buffer m) = None ->
  StronglySorted slt ports -> run_rows n id ports rows t (with_p id p m) = (Ok t', m') ->
  exists p', m' = with_p id p' m.
Proof.
  induction rows as [|[time vs] rows IH]; intros t p m t' m' W B S R; cbn [run_rows] in R; [injection R as <- <-; eauto|].
  destruct vs as [|v vs].
  - cbn [send_row bind sbind] in R. assert (X : process_buffer true n id (with_p id p m) = (Ok (RResult []), with_p id p m)).
    { unfold process_buffer, shas. rewrite with_p_find. change (f_buffer (with_p id p m)) with (f_buffer m). now rewrite B. }
    rewrite X in R. cbn [bind sbind record] in R. eauto.
  - destruct (Nat.leb_spec (length (v :: vs)) (length ports)) as [L|L].
    + assert (F : row_fits ports (time, v :: vs)) by (split; [cbn; lia|exact L]).
      pose proof (row_step n id ports (time, v :: vs) p m W B S F) as X. cbn [fst snd] in X.
      destruct (receive_debug n p (row_batch ports (time, v :: vs))) as [x p1]. destruct X as (m1 & E1 & X). rewrite E1 in R. cbn [bind sbind] in R.
      destruct x as [out| | | |]; try (destruct X as (m2 & X & _); rewrite X in R; discriminate R).
      rewrite X in R. cbn [bind sbind] in R. destruct (record out t) as [t1| | | |]; try discriminate R. eauto.
    + exfalso. destruct (send_row id ports time (v :: vs) (with_p id p m)) as [[[]| | | |] m1] eqn:X; cbn [bind sbind] in R; try discriminate R.
      eapply send_row_long; eauto.
Qed.

Lemma run_back n id g text rows m t m' : wf_manager m -> sfind id (f_programs m) = None -> sfind id (f_buffer m) = None ->
  run_exec n id g text rows m = (Ok t, m') -> m' = m.
Proof.
  intros W N B R. assert (R' := R). unfold run_exec, create_checked in R'.
  destruct (validate text) as [[|]| | | |] eqn:V; try discriminate R'.
  - unfold create_text in R'. destruct (new_prog g text) as [p|e| | |] eqn:E; try discriminate R'.
    + cbn [bind sbind] in R'. unfold with_program in R'.
      assert (X : sfind id (f_programs (set_programs m (semplace id p (f_programs m)))) = Some p).
      { cbn [set_programs f_programs]. unfold semplace, shas. rewrite N. apply sfind_sset_same. }
      rewrite X in R'. destruct (entry_ports p) as [[| | | |ports|]| | | |] eqn:P; cbn [bind sbind] in R'; try discriminate R'.
      clear R' X. rewrite (run_start n id g text rows m p ports N V E P) in R.
      destruct (run_rows n id ports rows [] (with_p id p m)) as [[t1| | | |] m3] eqn:Q; cbn [bind sbind] in R; try discriminate R.
      assert (S : StronglySorted slt ports) by (eapply entry_sorted; [apply (new_prog_good _ _ _ E)|exact P]).
      destruct (run_rows_back n id ports rows [] p m t1 m3 W B S Q) as [p' ->].
      pose proof (deleted id p' m W N) as D. unfold delete in *. cbn [bind sbind snd] in *. rewrite D in R. injection R as _ ->. reflexivity.
    + exfalso. destruct e; try discriminate R'.
      repeat match type of R' with context [match ?s with _ => _ end] => is_var s; destruct s; try discriminate R' end;
      cbn [bind sbind] in R'; unfold with_program in R'; rewrite N in R'; discriminate R'.
  - cbn [bind sbind] in R'. unfold with_program in R'. rewrite N in R'. discriminate R'.
Qed.

(** ** The columns *)

Lemma entry_described g text j p e : parse text = Ok j -> valid program_schema j = true -> Forall ready (list_at "operators" j) ->
  new_prog g text = Ok p -> good_entry j e -> control_inputs e = [] ->
  exists ports, entry_ports p = Ok (RPorts ports) /\ same ports (data_inputs e).
Proof.
  intros P V R E [N D] C. destruct (valid_program j V) as (m & ops & conns & Ej & Eo & Ec & Lo & Lc & Ee & Vo & Vc). rewrite Lo in *.
  unfold new_prog in E. rewrite P in E. cbn [rbind] in E.
  destruct (init_cases _ _ _ _ E) as (entry & filter & h & h' & cs & o & E1 & _ & _ & E2 & E3 & E4 & F & X).
  rewrite Ee in E1. injection E1 as <-. unfold operators_of in E2. rewrite Eo in E2. cbn [rbind jitems] in E2.
  destruct (read_ops_valid g ops Vo R []) as (h2 & E2' & H). rewrite E2 in E2'. injection E2' as <-.
  assert (Hh : holds ops h) by (intros id; exact (H id)).
  destruct (read_conns_ok _ _ _ E4) as (cs' & rs & _ & _ & Rw). pose proof (Rw (text_at "entryOperator" j)) as Re. rewrite F in Re.
  pose proof (Hh (text_at "entryOperator" j)) as He. rewrite D in He. destruct He as (o0 & Fo & Mo). rewrite Fo in Re.
  destruct (same_ports_fields _ _ (proj1 Re)) as (_ & Ed & Ect & _). destruct Mo as (Md & Mc & _).
  rewrite C in Mc. assert (Y : o_ctrl (op_base o0) = []).
  { destruct (o_ctrl (op_base o0)) as [|[k v] r]; [reflexivity|]. exfalso. destruct Mc as [_ Mc]. discriminate Mc. }
  destruct X as [[_ ->]|[X _]]; [|congruence]. unfold entry_ports. cbn [p_entry p_ops].
  destruct (String.eqb_spec (text_at "entryOperator" j) ""); [contradiction|]. rewrite F, Ed. eauto.
Qed.

Lemma data_numbered e : exists n, data_inputs e = numbered "i" n.
Proof.
  unfold data_inputs. generalize (count "numPorts" 1 e) (count "coeff" 0 e). generalize (text_at "type" e). intros s a b.
  assert (H1 : exists n, ["i1"] = numbered "i" n) by (exists 1%nat; reflexivity).
  assert (H2 : exists n, ["i1"; "i2"] = numbered "i" n) by (exists 2%nat; reflexivity).
  assert (H3 : exists n, numbered "i" a = numbered "i" n) by eauto.
  assert (H4 : exists n, numbered "i" b = numbered "i" n) by eauto.
  repeat first [assumption | match goal with |- context [match ?s with _ => _ end] => is_var s; destruct s end].
Qed.

Lemma numbered_sorted n : (n <= 9)%nat -> StronglySorted slt (numbered "i" n).
Proof.
  intros L. do 10 (destruct n as [|n]; [repeat first [constructor | reflexivity]|]). lia.
Qed.

Lemma entry_columns g text j p e : parse text = Ok j -> valid program_schema j = true -> Forall ready (list_at "operators" j) ->
  new_prog g text = Ok p -> good_entry j e -> control_inputs e = [] -> (length (data_inputs e) <= 9)%nat ->
  entry_ports p = Ok (RPorts (data_inputs e)).
Proof.
  intros P V R E G C L. destruct (entry_described g text j p e P V R E G C) as (ports & Ep & [I _]). rewrite Ep. do 2 f_equal.
  apply ssorted_ext; [eapply entry_sorted; [apply (new_prog_good _ _ _ E)|exact Ep]| |exact I].
  destruct (data_numbered e) as [n En]. rewrite En in *. apply numbered_sorted. now rewrite numbered_length in L.
Qed.

End WrapperRun.
