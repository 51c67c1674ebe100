(** * C79-C81: runs in the extended format, the command "debug" and the debugger's screen *)

From Coq Require Import String Ascii ZArith QArith Bool List Lia PeanoNat.
From Verif Require Import Base.StrMap Base.Num Base.NumQc Model.Core Model.Make Model.Graph Model.Codec Model.Json Model.Factory Model.Schema Model.Wrapper Model.Javascript Model.Cli.
From Verif Require Import Spec.Shape Spec.Show Spec.Build Spec.Manager Spec.Definition Spec.Schema Spec.Wrapper Spec.Javascript Spec.Cli.
From Verif Require Import Proofs.Ports Proofs.ShapeP Proofs.FactoryP Proofs.JsonP Proofs.WrapperP Proofs.WrapperRun Proofs.JavascriptP Proofs.CliP.
From Verif Require Import Properties.Definition Properties.Manager Properties.Schema Properties.Wrapper Properties.Javascript.
Import ListNotations.
Open Scope string_scope.
Open Scope list_scope.
Open Scope Z_scope.
Open Scope rtbot_scope.

Section Cli.
Context {NO : NumOps} {SL : SchemaLib} {JT : JsonText} {NC : NumCodec NO} {JR : JsRuntime}.

(** ** C79: [run] in the format EXTENDED adds one element per row, in order: the row's messages and
    what the program, alone and new, answers to them; nothing of the run is left.  (For times
    below 2^32 and rows with a value for every entry port.) *)
Theorem C79_extended_partial (n : nat) (id : string) (g : string -> junk) (text : string) (cb : progress_cb) (rows : list row)
    (t : list js_entry) (m : manager) (p p' : program) (ports : list string) (outs : list progmsg) :
  cb <> NotAFunction ->
  faithful -> reachable_manager m -> sfind id (f_programs m) = None -> sfind id (f_buffer m) = None ->
  validate text = Ok true -> new_prog g text = Ok p -> entry_ports p = Ok (RPorts ports) ->
  Forall (row_full ports) rows ->
  fed n ports rows p = (Ok outs, p') ->
  length outs = length rows /\
  js_run_extended n id g text cb rows t m = (Ok tt, (t ++ entries ports rows outs, m)).
Proof.
  intros Q R W N B V E P F X. split; [eapply fed_length; eauto|].
  apply (extended_ok n id g text cb rows t m p ports outs p'); auto using reachable_wf. now left.
Qed.

(** A run that is repeated on the same object has every element twice. *)
Theorem C79_again_refuted (n : nat) (id : string) (g : string -> junk) (text : string) (cb : progress_cb) (rows : list row)
    (m : manager) (p p' : program) (ports : list string) (outs : list progmsg) :
  cb <> NotAFunction ->
  faithful -> reachable_manager m -> sfind id (f_programs m) = None -> sfind id (f_buffer m) = None ->
  validate text = Ok true -> new_prog g text = Ok p -> entry_ports p = Ok (RPorts ports) ->
  Forall (row_full ports) rows ->
  fed n ports rows p = (Ok outs, p') ->
  exists t, js_run_extended n id g text cb rows [] m = (Ok tt, (t, m)) /\
    js_run_extended n id g text cb rows t m = (Ok tt, (t ++ t, m)).
Proof.
  intros Q R W N B V E P F X. exists (entries ports rows outs). split.
  - apply (extended_ok n id g text cb rows [] m p ports outs p'); auto using reachable_wf. now left.
  - apply (extended_ok n id g text cb rows _ m p ports outs p'); auto using reachable_wf. now left.
Qed.

(** ** C80: the command "debug" *)
Context {CT : CliText}.

(** Without the option "verbose", or for files with less than twenty rows of numbers, it gives the
    rows that have a time and a value, in order, with the program's answers. *)
Theorem C80_debug_partial (n : nat) (id : string) (g : string -> junk) (text : string) (verbose : bool) (rows : list (list string))
    (m : manager) (p p' : program) (port : string) (outs : list progmsg) :
  faithful -> reachable_manager m -> sfind id (f_programs m) = None -> sfind id (f_buffer m) = None ->
  validate text = Ok true -> new_prog g text = Ok p -> entry_ports p = Ok (RPorts [port]) ->
  Forall (fun r => fits32 (fst r)) (numeric rows) ->
  fed n [port] (numeric rows) p = (Ok outs, p') ->
  verbose = false \/ (length (numeric rows) < 20)%nat ->
  cli_debug n id g text verbose rows m = (Ok tt, (entries [port] (numeric rows) outs, m)).
Proof.
  intros R W N B V E P F X O. unfold cli_debug. rewrite cli_data_numeric.
  apply (extended_ok n id g text _ (numeric rows) [] m p [port] outs p'); auto using reachable_wf.
  - destruct O as [->|O]; [left; discriminate|]. right. apply Nat.div_small. exact O.
  - rewrite Forall_forall in *. intros [t vs] I. split; [now apply F|]. cbn [length snd]. unfold numeric in I.
    apply in_flat_map in I as (r & _ & I). destruct r as [|a [|b r]]; try contradiction I. destruct (cli_time a), (cli_value b); try contradiction I.
    destruct I as [I|[]]. injection I as _ <-. cbn. lia.
Qed.

(** With the option "verbose" every file with twenty rows or more makes it fail, although the
    program can answer all of them. *)
Theorem C80_verbose_refuted (n : nat) (id : string) (g : string -> junk) (text : string) (rows : list (list string))
    (m : manager) (p p' : program) (port : string) (outs : list progmsg) :
  faithful -> reachable_manager m -> sfind id (f_programs m) = None -> sfind id (f_buffer m) = None ->
  validate text = Ok true -> new_prog g text = Ok p -> entry_ports p = Ok (RPorts [port]) ->
  Forall (fun r => fits32 (fst r)) (numeric rows) ->
  fed n [port] (numeric rows) p = (Ok outs, p') ->
  (20 <= length (numeric rows))%nat ->
  exists e, fst (cli_debug n id g text true rows m) = Throw e.
Proof.
  intros R W N B V E P F X L. unfold cli_debug. rewrite cli_data_numeric.
  rewrite (extended_start n id g text NotAFunction (numeric rows) [] m p [port] N V E P).
  assert (S : Sorted.StronglySorted slt [port]) by repeat constructor.
  assert (G : Forall (row_full [port]) (numeric rows)).
  { rewrite Forall_forall in *. intros [t vs] I. split; [now apply F|]. cbn [length snd]. unfold numeric in I.
    apply in_flat_map in I as (r & _ & I). destruct r as [|a [|b r]]; try contradiction I. destruct (cli_time a), (cli_value b); try contradiction I.
    destruct I as [I|[]]. injection I as _ <-. cbn. lia. }
  destruct (ext_rows_fails n id [port] (length (numeric rows) / 20) (numeric rows) 0 [] p m outs p' R (reachable_wf m W) B S G X) as (e & s & ->).
  - split; [apply Nat.div_str_pos; lia|]. rewrite Nat.add_0_l. apply Nat.div_le_upper_bound; lia.
  - exists e. reflexivity.
Qed.

(** ** C81: the debugger's screen, for programs whose operators have different ids, not empty and
    without ":" *)

(** As long as no key or check box has made the tool fail, the screen has a title for each output
    of the selected operators and, at iteration [k], the eleven iterations from [k - 1] on, with
    what was emitted on each of these outputs. *)
Theorem C81_shown_partial (ops : list (string * option nat)) (result : list progmsg) (l : list dbg_action) (s : dbg) :
  NoDup (map fst ops) -> Forall showable (map fst ops) ->
  dbg_acts l (snd (dbg_init ops result)) = (Ok tt, s) ->
  let k := position (length result) l in
  d_iteration s = k /\
  d_columns s = ("iter" :: flat_map (fun x => if chosen l (fst x)
                                              then (if Nat.ltb 1 (length (dbg_ports (snd x))) then map (fun p => fst x ++ ":" ++ p)%string (dbg_ports (snd x))
                                                    else [fst x])
                                              else []) ops)
                :: (if Nat.eqb k 0 then [] else table_rows l ops result k).
Proof.
  intros N F E k. destruct (acts_result l ops result N F) as [(c & E2 & (c0 & E3))|(e & s' & E2)]; rewrite E2 in E; [|discriminate E].
  injection E as <-. split; [reflexivity|]. apply columns_ok in E3 as (-> & _); [|exact F]. unfold screen. cbn [d_columns]. unfold CliP.titled. f_equal.
  - f_equal. unfold dbg_headers, shown_ops. clear. induction ops as [|[id np] ops IH]; [reflexivity|].
    cbn [map filter flat_map d_selected fst snd]. destruct (chosen l id); [|exact IH]. cbn [flat_map d_ports d_id]. now rewrite IH.
  - unfold k. destruct (position (length result) l); reflexivity.
Qed.

(** None of the last ten iterations can be looked at: going there makes the tool fail, unless no
    operator is selected. *)
Theorem C81_end_refuted (ops : list (string * option nat)) (result : list progmsg) (l : list dbg_action) (id : string) :
  NoDup (map fst ops) -> Forall showable (map fst ops) ->
  In id (map fst ops) -> chosen l id = true ->
  (1 <= position (length result) l)%nat -> (length result < position (length result) l + 10)%nat ->
  exists e s, dbg_acts l (snd (dbg_init ops result)) = (Throw e, s).
Proof.
  intros N F I C K L. destruct (acts_result l ops result N F) as [(c & E2 & (c0 & E3))|X]; [|exact X]. exfalso.
  apply columns_ok in E3 as (_ & A); [|exact F].
  destruct (A K (position (length result) l + 9)%nat ltac:(lia)) as (B & _).
  assert (X : listed l ops <> []).
  { intros X. apply in_map_iff in I as ([id' np] & Ei & I). cbn in Ei. subst id'.
    assert (Y : exists p, In p (dbg_ports np)) by (destruct np as [[|k]|]; cbn; eauto).
    destruct Y as (p & Y). assert (Z : In (id, p) (listed l ops)).
    { unfold listed. apply in_flat_map. exists (id, np). split; [exact I|]. cbn [fst snd]. rewrite C. now apply in_map. }
    rewrite X in Z. destruct Z. }
  specialize (B X). lia.
Qed.

(** Looking at an iteration in which a selected operator has emitted on some of its outputs but not
    on all makes the tool fail as well. *)
Theorem C81_outputs_refuted (ops : list (string * option nat)) (result : list progmsg) (l : list dbg_action)
    (id : string) (np : option nat) (port : string) (i : nat) (om : opmsg) :
  NoDup (map fst ops) -> Forall showable (map fst ops) ->
  In (id, np) ops -> chosen l id = true -> In port (dbg_ports np) ->
  (position (length result) l - 1 <= i < position (length result) l + 10)%nat -> (1 <= position (length result) l)%nat ->
  sfind id (nth i result []) = Some om -> sfind port om = None ->
  exists e s, dbg_acts l (snd (dbg_init ops result)) = (Throw e, s).
Proof.
  intros N F I C J Hi K Fo Fp. destruct (acts_result l ops result N F) as [(c & E2 & (c0 & E3))|X]; [|exact X]. exfalso.
  apply columns_ok in E3 as (_ & A); [|exact F]. destruct (A K i Hi) as (_ & B).
  apply (B (id, port) om); [|exact Fo|exact Fp].
  unfold listed. apply in_flat_map. exists (id, np). split; [exact I|]. cbn [fst snd]. rewrite C. now apply in_map.
Qed.

(** In all other cases the tool does not fail. *)
Theorem C81_goes_on_partial (ops : list (string * option nat)) (result : list progmsg) (l : list dbg_action) :
  NoDup (map fst ops) -> Forall showable (map fst ops) ->
  (forall a b, l = a ++ b -> (position (length result) a + 10 <= length result)%nat) ->
  (forall i x om, In x (listed [] ops) -> sfind (fst x) (nth i result []) = Some om -> sfind (snd x) om <> None) ->
  exists s, dbg_acts l (snd (dbg_init ops result)) = (Ok tt, s).
Proof.
  intros N F H C.
  assert (X : forall a b, l = a ++ b -> exists s, dbg_acts a (snd (dbg_init ops result)) = (Ok tt, s)).
  { induction a as [|x a IH] using rev_ind; intros b El; [eexists; reflexivity|].
    destruct (IH (x :: b)) as (s & E); [now rewrite <- app_assoc in El|]. rewrite dbg_acts_snoc, E. cbn [bind sbind].
    destruct (acts_result a ops result N F) as [(c & E2 & _)|(e & s' & E2)]; rewrite E2 in E; [|discriminate E]. injection E as <-.
    destruct (act_columns a x ops result c N) as (c' & ->). unfold dbg_columns, screen. cbn [d_iteration d_max d_operators d_result].
    specialize (H (a ++ [x]) b El). destruct (position (length result) (a ++ [x])) as [|i]; [eauto|].
    destruct (rows_fine result (a ++ [x]) ops F (Nat.min (Datatypes.S i) (length result) + 10 - i) i) as (rows & ->); [lia| |eauto].
    intros j y om I. apply C. eapply listed_less; eauto. }
  apply (X l []). now rewrite app_nil_r.
Qed.

End Cli.

(** ** Examples *)
Section Examples.
Definition a_cli : @CliText QcOps :=
  {| cli_time := fun s => if String.eqb s "1" then Some 1 else if String.eqb s "2" then Some 2 else None;
     cli_value := fun s => if String.eqb s "10" then Some (qc_ofZ 10) else if String.eqb s "20" then Some (qc_ofZ 20) else None;
     cli_text := fun l => match length l with 1%nat => "one" | _ => "some" end |}.
Definition show_entry (e : @js_entry QcOps) := (map (fun x => (fst x, map show_js (snd x))) (fst e), show_pm (snd e)).
Definition a_file : list (list string) := [["time"; "value"]; ["1"; "10"]; ["2"]; ["2"; "20"; "x"]; [""]].

Example C79_example : let JT := a_text macd JNull in let SL := a_lib in let JR := a_js in
  match js_run_extended 50 "a" j0 "text" Callback two_rows [] no_programs with
  | (Ok tt, (t, m)) => map show_entry t =
      [([("i1", [(1, Some (10 # 1))])], [("in", [("o1", [(1, 10 # 1)])]); ("ma1", [("o1", [(1, 10 # 1)])])]);
       ([("i1", [(2, Some (20 # 1))])], [("in", [("o1", [(2, 20 # 1)])]); ("ma1", [("o1", [(2, 20 # 1)])]); ("ma2", [("o1", [(2, 15 # 1)])]);
                                         ("minus", [("o1", [(2, 5 # 1)])]); ("out", [("o1", [(2, 5 # 1)])])])]
  | _ => False
  end.
Proof. vm_compute. reflexivity. Qed.

(** the rows with numbers are those of the example before *)
Example C80_example : let JT := a_text macd JNull in let SL := a_lib in let JR := a_js in let CT := a_cli in
  match cli_debug 50 "a" j0 "text" false a_file no_programs with
  | (Ok tt, (t, m)) => map (fun e => fst (show_entry e)) t = [[("i1", [(1, Some (10 # 1))])]; [("i1", [(2, Some (20 # 1))])]]
  | _ => False
  end /\
  length (numeric a_file) = 2%nat.
Proof. split; vm_compute; reflexivity. Qed.

(** twenty times the same row, with and without the option *)
Example C80_verbose_example : let JT := a_text macd JNull in let SL := a_lib in let JR := a_js in let CT := a_cli in
  let twenty := repeat ["1"; "10"] 20 in
  length (numeric twenty) = 20%nat /\
  match fst (cli_debug 50 "a" j0 "text" false twenty no_programs), fst (cli_debug 50 "a" j0 "text" true twenty no_programs) with
  | Ok tt, Throw _ => True
  | _, _ => False
  end.
Proof. split; vm_compute; auto. Qed.

Definition an_out (id : string) : @progmsg QcOps := [(id, [("o1", [im 1 10])])].
Definition a_dbg : list (string * option nat) := [("in", Some 1%nat); ("split", Some 2%nat); ("avg", None)].

(** twelve iterations: the first two can be looked at, the third cannot *)
Example C81_example : let CT := a_cli in let JR := a_js in
  let result := repeat (an_out "in") 11 ++ [an_out "avg"] in
  let see l := match dbg_acts l (snd (dbg_init a_dbg result)) with (Ok tt, s) => Some (firstn 3 (d_columns s)) | _ => None end in
  see [Forward] = Some [["iter"; "in"; "split:o1"; "split:o2"; "avg"]; ["0"; "one"; "-"; "-"; "-"]; ["1"; "one"; "-"; "-"; "-"]] /\
  see [Forward; Forward; Select "split" false] = Some [["iter"; "in"; "avg"]; ["1"; "one"; "-"]; ["2"; "one"; "-"]] /\
  see [Forward; Forward; Forward] = None /\ see [Forward; Forward; Forward; Backward] = None.
Proof. vm_compute. repeat split; reflexivity. Qed.
Example C81_example_hypotheses : NoDup (map fst a_dbg) /\ Forall showable (map fst a_dbg) /\ chosen [Forward; Forward] "in" = true /\
  position 12 [Forward; Forward] = 2%nat /\ position 12 [Forward; Forward; Forward] = 3%nat.
Proof.
  split; [|split; [|repeat split]]; cbn.
  - repeat constructor; cbn; intuition discriminate.
  - repeat constructor; discriminate.
Qed.

(** a Demultiplexer emits on one of its outputs at a time *)
Example C81_outputs_example : let CT := a_cli in let JR := a_js in
  let result := repeat (an_out "split") 20 in
  match dbg_acts [Forward] (snd (dbg_init a_dbg result)) with (Throw _, _) => True | _ => False end /\
  match dbg_acts [Select "split" false; Forward] (snd (dbg_init a_dbg result)) with (Ok tt, _) => True | _ => False end.
Proof. vm_compute. auto. Qed.
End Examples.

Print Assumptions C79_extended_partial.
Print Assumptions C79_again_refuted.
Print Assumptions C80_debug_partial.
Print Assumptions C80_verbose_refuted.
Print Assumptions C81_shown_partial.
Print Assumptions C81_end_refuted.
Print Assumptions C81_outputs_refuted.
Print Assumptions C81_goes_on_partial.
