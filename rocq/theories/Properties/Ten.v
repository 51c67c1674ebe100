(** * Operators with ten inputs and more: the second column is for the tenth input (C25, C68) *)

From Coq Require Import String Ascii ZArith QArith Bool List Lia Sorted.
From Verif Require Import Base.StrMap Base.Num Base.NumQc Model.Core Model.Ops Model.Make Model.Run Model.Graph Model.Codec Model.Json Model.Factory Model.Schema Model.Wrapper.
From Verif Require Import Spec.Multi Spec.Join Spec.Shape Spec.Show Spec.Manager Spec.Definition Spec.Schema Spec.Wrapper.
From Verif Require Import Proofs.FactoryP Proofs.JsonP Proofs.SchemaP Proofs.SchemaNew Proofs.WrapperP Proofs.WrapperRun Proofs.PortNames10.
From Verif Require Import Properties.Definition Properties.Manager Properties.Schema Properties.Wrapper Properties.Join.
Import ListNotations.
Open Scope string_scope.
Open Scope list_scope.
Open Scope Z_scope.
Open Scope rtbot_scope.

(** Every Linear with ten coefficients or more multiplies the messages of i10 by its second
    coefficient, whatever the coefficients and the arrivals are. *)
Theorem C25_ten_refuted {NO : NumOps} (id : string) (coeff : list V) (o : op) :
  mk_linear id coeff = Ok o -> (10 <= length coeff)%nat ->
  exists rest, alphabetical (length coeff) (1%nat :: 10%nat :: rest) /\
    forall evs, data_on (length coeff) evs -> ordered_ports (length coeff) evs ->
    exists outs o' pending, run o evs = (Ok outs, o') /\
      synchronized (length coeff) (linear_emits (1%nat :: 10%nat :: rest) coeff evs) evs outs pending.
Proof.
  intros Ho L. destruct (C25_linear_alphabetical_partial id coeff o Ho) as (l & [I So] & H).
  destruct (ten_sorted (length coeff) (map iport l) L So) as [r Er].
  { intros x. rewrite in_map_iff. split; [intros (k & <- & Ik)|intros (k & Ik & ->)]; exists k; split; auto; now apply I. }
  destruct l as [|a [|b l]]; try discriminate Er. cbn [map] in Er. injection Er as Ea Eb _.
  assert (a = 1%nat) as -> by now apply (Ports.string_of_nat_inj a 1).
  assert (b = 10%nat) as -> by now apply (Ports.string_of_nat_inj b 10).
  exists l. split; [split; assumption|exact H].
Qed.

Section C68.
Context {NO : NumOps} {SL : SchemaLib} {JT : JsonText} {NC : NumCodec NO} {PJ : PyJson}.

(** With every valid definition whose entry has ten inputs or more: the run feeds the columns to i1,
    i10 and the others in this order. *)
Theorem C68_ten_refuted (g : string -> junk) (text : string) (j e : json) (p : program) :
  parse text = Ok j -> validate text = Ok true -> Forall ready (operators j) -> new_prog g text = Ok p ->
  entry j <> "" -> described (operators j) (entry j) = Some e -> control_inputs e = [] -> (10 <= length (data_inputs e))%nat ->
  exists others, same ("i1" :: "i10" :: others) (data_inputs e) /\
    forall n id rows m p' outs,
      reachable_manager m -> sfind id (f_programs m) = None -> sfind id (f_buffer m) = None ->
      Forall (row_fits ("i1" :: "i10" :: others)) rows ->
      fed n ("i1" :: "i10" :: others) rows p = (Ok outs, p') -> all_shown outs ->
      exists t, run_exec n id g text rows m = (Ok t, m) /\
        forall op port, no_colon port = true -> odefault [] (sfind (op ++ ":" ++ port)%string t) = of_port op port outs.
Proof.
  intros P V R E N D C L. assert (V' := V). unfold validate in V'. rewrite P in V'. injection V' as V'.
  destruct (entry_described g text j p e P V' R E (conj N D) C) as (ports & Ep & Sp).
  assert (So : StronglySorted slt ports) by (eapply entry_sorted; [apply (new_prog_good _ _ _ E)|exact Ep]).
  destruct (data_numbered e) as [k Ek]. rewrite Ek in L. rewrite numbered_length in L.
  destruct (ten_sorted k ports L So) as [r ->].
  { intros x. rewrite <- (numbered_In iport "i" k) by reflexivity. rewrite <- Ek. apply Sp. }
  exists r. split; [exact Sp|]. intros n id rows m p' outs Rm Np Nb F X A. eapply C66_run; eauto.
Qed.
End C68.
Print Assumptions C25_ten_refuted.
Print Assumptions C68_ten_refuted.

(** Not vacuous: an Input with twelve ports. *)
Definition twelve : @json QcOps :=
  JObj [("connections", JArr []); ("entryOperator", JStr "in"); ("operators", JArr [definition "Input" "in" [("numPorts", JInt 12)]])].
Example C68_ten_example : let JT := a_text twelve JNull in let SL := a_lib in
  validate "text" = Ok true /\ Forall ready (operators twelve) /\
  described (operators twelve) (entry twelve) = Some (definition "Input" "in" [("numPorts", JInt 12)]) /\
  control_inputs (definition "Input" "in" [("numPorts", @JInt QcOps 12)]) = [] /\
  length (data_inputs (definition "Input" "in" [("numPorts", @JInt QcOps 12)])) = 12%nat /\
  match new_prog j0 "text" with
  | Ok p => match entry_ports p with Ok (RPorts l) => l | _ => [] end = ["i1"; "i10"; "i11"; "i12"; "i2"; "i3"; "i4"; "i5"; "i6"; "i7"; "i8"; "i9"] /\
      match fed 3 ["i1"; "i10"; "i11"; "i12"; "i2"; "i3"; "i4"; "i5"; "i6"; "i7"; "i8"; "i9"] [(1, [qc_ofZ 5; qc_ofZ 6])] p with
      | (Ok outs, _) => map (map (fun x => (fst x, show_om (snd x)))) outs = [[("in", [("o1", [(1, 5%Q)]); ("o10", [(1, 6%Q)])])]]
      | _ => False
      end
  | _ => False
  end.
Proof.
  cbv zeta. split; [vm_compute; reflexivity|]. split.
  { apply Forall_cons; [|apply Forall_nil]. unfold ready. change (text_at "type" (definition "Input" "in" [("numPorts", JInt 12)])) with "Input". cbv beta iota.
    change (few_ports (JInt (NO:=QcOps) 12)). unfold few_ports. lia. }
  split; [reflexivity|]. split; [reflexivity|]. split; [reflexivity|]. vm_compute. split; reflexivity.
Qed.
