(** * The names of the operators, seen through the manager of programs (C97) *)

From Coq Require Import String ZArith QArith Qcanon Bool List Permutation.
From Verif Require Import Base.StrMap Base.Num Base.NumQc Model.Core Model.Graph Model.Codec Model.Json Model.Factory.
From Verif Require Import Spec.Show Spec.Manager Spec.Names Proofs.Ports Proofs.FactoryP Proofs.NamesP Proofs.NamesR.
From Verif Require Import Properties.Definition Properties.Manager Properties.Names.
Import ListNotations.
Open Scope string_scope.
Open Scope list_scope.
Open Scope Z_scope.
Open Scope rtbot_scope.

Section C97.
Context {NO : NumOps} {NC : NumCodec NO} {JT : JsonText}.
Variable new : string -> string.
Hypothesis R : renaming new.
Variable id : string.

(** both managers have the program, with other names, and the same pending messages for it *)
Definition mrel (m m' : manager) : Prop :=
  wf_manager m /\ wf_manager m' /\ sfind id (f_buffer m') = sfind id (f_buffer m) /\
  match sfind id (f_programs m), sfind id (f_programs m') with
  | Some p, Some p' => prel new p p'
  | None, None => True
  | _, _ => False
  end.

Definition brel (x y : sres manager reply) : Prop := renamed_reply new (fst x) (fst y) /\ mrel (snd x) (snd y).

Lemma mrel_has m m' : mrel m m' -> shas id (f_programs m') = shas id (f_programs m).
Proof. intros (_ & _ & _ & P). unfold shas. destruct (sfind id (f_programs m)), (sfind id (f_programs m')); try contradiction; reflexivity. Qed.

Lemma receive_as_rel debug n p p' b : prel new p p' ->
  orel (renamed_result new) (fst (receive_as debug n p b)) (fst (receive_as debug n p' b)) /\
  prel new (snd (receive_as debug n p b)) (snd (receive_as debug n p' b)).
Proof. destruct debug; [apply receive_debug_rel|apply receive_rel]; apply R. Qed.

Lemma process_map_rel debug n b m m' : mrel m m' -> brel (process_map debug n id b m) (process_map debug n id b m').
Proof.
  intros (W & W' & B & P). unfold process_map, brel.
  destruct (sfind id (f_programs m)) as [p|] eqn:E, (sfind id (f_programs m')) as [p'|] eqn:E'; try contradiction.
  - destruct (receive_as_rel debug n p p' b P) as [A Q]. destruct (receive_as debug n p b) as [r q], (receive_as debug n p' b) as [r' q']. cbn [fst snd] in *.
    split; [destruct r, r'; try contradiction A; cbn; try exact Logic.I; exact A|].
    split; [apply wf_set_programs; [exact W|apply swf_sset, W]|]. split; [apply wf_set_programs; [exact W'|apply swf_sset, W']|].
    split; [exact B|]. cbn [set_programs f_programs]. now rewrite !sfind_sset, String.eqb_refl.
  - split; [split; [reflexivity|intros name N; now elim N]|]. split; [exact W|split; [exact W'|split; [exact B|]]]. cbn [snd]. now rewrite E, E'.
Qed.

Lemma add_rel port x m m' : mrel m m' -> brel (add_to_buffer id port x m) (add_to_buffer id port x m').
Proof.
  intros M. pose proof M as (W & W' & B & P). pose proof (add_wf id port x m W) as V. pose proof (add_wf id port x m' W') as V'. revert V V'.
  unfold add_to_buffer. rewrite (mrel_has m m' M), B. destruct (shas id (f_programs m)).
  - intros V V'. split; [reflexivity|]. split; [exact V|]. split; [exact V'|]. split; [|exact P]. cbn [snd set_buffer f_buffer]. now rewrite !sfind_sset, String.eqb_refl.
  - intros _ _. split; [reflexivity|exact M].
Qed.

Lemma erase_wf m : wf_manager m -> wf_manager (set_buffer m (serase id (f_buffer m))).
Proof.
  intros (A & B & C). split; [exact A|]. cbn [set_buffer f_buffer]. split; [now apply swf_serase|]. intros i y E. apply (C i). destruct (String.eqb_spec i id) as [->|N].
  - pose proof (sfind_serase_same id (f_buffer m) B) as E'. rewrite E' in E. discriminate E.
  - pose proof (sfind_serase_other i id (f_buffer m) N) as E'. now rewrite E' in E.
Qed.

Lemma process_buffer_rel debug n m m' : mrel m m' -> brel (process_buffer debug n id m) (process_buffer debug n id m').
Proof.
  intros M. pose proof M as (W & W' & B & P). unfold process_buffer. rewrite (mrel_has m m' M), B. destruct (shas id (f_programs m)); [|split; [reflexivity|exact M]].
  assert (E : renamed_reply new (Ok (RResult [])) (Ok (RResult []))) by (split; [reflexivity|intros name N; now elim N]).
  destruct (sfind id (f_buffer m)) as [[|c b]|]; try (split; [exact E|exact M]).
  destruct (process_map_rel debug n (c :: b) m m' M) as [A Q]. destruct (process_map debug n id (c :: b) m) as [r q], (process_map debug n id (c :: b) m') as [r' q']. cbn [fst snd] in A, Q.
  destruct r as [x| | | |], r' as [x'| | | |]; try (destruct x; contradiction A); try contradiction A; cbn [bind sbind]; try (split; [exact A|exact Q]).
  split; [exact A|]. destruct Q as (V & V' & _ & Q). cbn [snd set_buffer f_buffer f_programs]. split; [|split; [|split; [|exact Q]]].
  - now apply erase_wf.
  - now apply erase_wf.
  - cbn [set_buffer f_buffer]. rewrite !sfind_serase_same; [reflexivity|apply V|apply V'].
Qed.

Lemma add_all_rel l : forall m m', mrel m m' -> orel (fun _ _ => True) (fst (add_all id l m)) (fst (add_all id l m')) /\ mrel (snd (add_all id l m)) (snd (add_all id l m')).
Proof.
  induction l as [|[port x] l IH]; intros m m' M; cbn [add_all]; [split; [exact Logic.I|exact M]|].
  destruct (add_rel port x m m' M) as [A Q]. destruct (add_to_buffer id port x m) as [r q], (add_to_buffer id port x m') as [r' q']. cbn [fst snd] in A, Q.
  destruct r as [a| | | |], r' as [a'| | | |]; try (destruct a; contradiction A); try contradiction A; cbn [bind sbind]; try (split; [exact A|exact Q]). now apply IH.
Qed.

Lemma do_call_rel n c m m' : about c = id -> uses c = true -> mrel m m' -> brel (do_call n c m) (do_call n c m').
Proof.
  intros E U M. destruct c; try discriminate U; cbn [about] in E; subst; cbn [do_call].
  - pose proof (mrel_has m m' M) as Hs. destruct M as (W & W' & B & P). unfold delete. rewrite Hs. split; [reflexivity|].
    split; [apply wf_set_programs; [exact W|apply swf_serase, W]|]. split; [apply wf_set_programs; [exact W'|apply swf_serase, W']|]. split; [exact B|].
    cbn [snd set_programs f_programs]. rewrite !sfind_serase_same; [exact Logic.I|apply W'|apply W].
  - now apply add_rel.
  - now apply process_buffer_rel.
  - now apply process_map_rel.
  - unfold process_batch. destruct (_ && _); [|split; [reflexivity|exact M]].
    destruct (add_all_rel (entries times values ports) m m' M) as [A Q]. destruct (add_all id (entries times values ports) m) as [r q], (add_all id (entries times values ports) m') as [r' q'].
    cbn [fst snd] in A, Q. destruct r, r'; try contradiction A; cbn [bind sbind]; try (split; [exact A|exact Q]). now apply process_buffer_rel.
  - pose proof M as (_ & _ & _ & P). unfold with_program. destruct (sfind id (f_programs m)) as [p|], (sfind id (f_programs m')) as [p'|]; try contradiction; [|split; [reflexivity|exact M]].
    split; [|exact M]. exact (proj1 (proj2 P)).
  - pose proof M as (_ & _ & _ & P). unfold with_program. destruct (sfind id (f_programs m)) as [p|], (sfind id (f_programs m')) as [p'|]; try contradiction; [|split; [reflexivity|exact M]].
    split; [|exact M]. cbn [fst]. destruct P as (H & En & _). unfold entry_ports. rewrite En.
    destruct (String.eqb_spec (p_entry p) "") as [N|N], (String.eqb_spec (new (p_entry p)) "") as [N'|N']; try reflexivity.
    + elim N'. now apply R.
    + elim N. now apply R.
    + rewrite (H (p_entry p)). destruct (sfind (p_entry p) (p_ops p)) as [o|]; reflexivity.
  - pose proof M as (_ & _ & _ & P). unfold with_program. destruct (sfind id (f_programs m)) as [p|], (sfind id (f_programs m')) as [p'|]; try contradiction; [|split; [reflexivity|exact M]].
    split; [|exact M]. exact (proj2 (proj2 (proj2 P))).
Qed.

Lemma do_calls_rel n cs : Forall (fun c => about c = id /\ uses c = true) cs -> forall m m', mrel m m' ->
  Forall2 (renamed_reply new) (fst (do_calls n cs m)) (fst (do_calls n cs m')).
Proof.
  induction 1 as [|c cs [E U] F IH]; intros m m' M; [constructor|]. cbn [do_calls].
  destruct (do_call_rel n c m m' E U M) as [A Q]. destruct (do_call n c m) as [r q], (do_call n c m') as [r' q']. cbn [fst snd] in *.
  specialize (IH q q' Q). destruct (do_calls n cs q), (do_calls n cs q'). cbn [fst] in *. now constructor.
Qed.
End C97.

Section Calls.
Context {NO : NumOps} {NC : NumCodec NO} {JT : JsonText}.

(** Two managers with the same history get the same definition under the same program id, one of
    them with other names for the operators.  Both accept it, or none.  Once it is accepted, any calls may
    follow that do not create this program again and do not ask for its snapshot: the calls about this program
    get the same replies, up to the names, and the calls about other programs get the same replies. *)
Theorem C97_calls (new : string -> string) (g g' : string -> junk) (text text' : string) (j j' : json) (id : string) (m : manager) (n : nat) (cs : list call) :
  parse text = Ok j -> parse text' = Ok j' ->
  renaming new -> renamed_definition new j j' -> same_memory new j g g' ->
  reachable_manager m -> shas id (f_programs m) = false ->
  let '(r, m1) := do_call n (CreateText id g text) m in
  let '(r', m1') := do_call n (CreateText id g' text') m in
  (r = Ok (RText "") <-> r' = Ok (RText "")) /\
  (r = Ok (RText "") -> forallb (fun c => negb (is_about id c) || uses c) cs = true ->
   Forall2 (renamed_reply new) (replies_about id cs (fst (do_calls n cs m1))) (replies_about id cs (fst (do_calls n cs m1'))) /\
   forall other, other <> id -> replies_about other cs (fst (do_calls n cs m1)) = replies_about other cs (fst (do_calls n cs m1'))).
Proof.
  intros P P' R D M Rm Nm. pose proof (reachable_wf m Rm) as W.
  destruct (do_call n (CreateText id g text) m) as [r m1] eqn:E, (do_call n (CreateText id g' text') m) as [r' m1'] eqn:E'.
  pose proof (do_call_wf n (CreateText id g text) m W) as W1. pose proof (do_call_wf n (CreateText id g' text') m W) as W1'.
  assert (O : forall other, other <> id -> same_at other m1 m1').
  { intros other N. assert (N1 : about (CreateText id g text) <> other) by (cbn; congruence). assert (N2 : about (CreateText id g' text') <> other) by (cbn; congruence).
    pose proof (do_call_other n _ other m N1) as [A1 A2]. pose proof (do_call_other n _ other m N2) as [B1 B2]. rewrite E in A1, A2. rewrite E' in B1, B2. cbn [snd] in *.
    split; congruence. }
  rewrite E in W1. rewrite E' in W1'. cbn [snd] in W1, W1'.
  pose proof (init_renamed new g g' text text' j j' R D M) as S. cbn [do_call] in E, E'. unfold create_text, new_prog in E, E'. rewrite P in E. rewrite P' in E'. cbn [rbind] in E, E'.
  destruct (init g text j) as [p| | | |] eqn:I, (init g' text' j') as [p'| | | |] eqn:I'; try contradiction S.
  { injection E as <- <-. injection E' as <- <-. split; [reflexivity|]. intros _ F. rewrite forallb_forall in F.
    assert (Q : mrel new id (set_programs m (semplace id p (f_programs m))) (set_programs m (semplace id p' (f_programs m)))).
    { split; [exact W1|]. split; [exact W1'|]. split; [reflexivity|]. cbn [set_programs f_programs]. rewrite !sfind_semplace, String.eqb_refl.
      unfold shas in Nm. now destruct (sfind id (f_programs m)). }
    split.
    - rewrite (proj1 (do_calls_own n id cs _ _ W1 W1 (same_refl _ _))), (proj1 (do_calls_own n id cs _ _ W1' W1' (same_refl _ _))).
      apply (do_calls_rel new R id); [|exact Q]. apply Forall_forall. intros c Ic. apply filter_In in Ic as [Ic A]. specialize (F c Ic). rewrite A in F.
      split; [now apply String.eqb_eq|exact F].
    - intros other N. rewrite (proj1 (do_calls_own n other cs _ _ W1 W1' (O other N))). symmetry.
      exact (proj1 (do_calls_own n other cs _ _ W1' W1' (same_refl _ _))). }
  all: assert (X : r <> Ok (RText "")) by (clear - E; repeat match type of E with context [match ?t with _ => _ end] => destruct t end; intros ->; discriminate E).
  all: assert (X' : r' <> Ok (RText "")) by (clear - E'; repeat match type of E' with context [match ?t with _ => _ end] => destruct t end; intros ->; discriminate E').
  all: split; [split; intros Y; [now elim X|now elim X']|intros Y; now elim X].
Qed.
End Calls.

Print Assumptions C97_calls.

(** Not vacuous: the definitions of C97_example, next to another program. *)
Definition two_texts : @JsonText QcOps := {| parse := fun s => Ok (if String.eqb s "before" then before_text else after_text); dump := fun _ => "" |}.
Definition asked : list (@call QcOps) :=
  [CreateText "q" j0 "before"; Add "p" "i1" (im 1 10); Add "p" "i1" (im 2 20); Process false "p"; ProcessMap true "q" [("i1", [im 1 1])];
   ProcessBatch true "p" [3] [qc_ofZ 40] ["i1"]; GetEntry "p"; GetEntryPorts "p"; GetFilter "p"; Delete "q"; Delete "p"; Process false "p"].
Definition told (text : string) : list (string * list (string * list (string * list (Z * Q)))) * list (string * list string) :=
  let rs := let JT := two_texts in replies_about "p" asked (fst (do_calls 8 asked (snd (do_call 8 (CreateText "p" j0 text) no_programs)))) in
  (flat_map (fun r => match r with Ok (RResult x) => [("result", map (fun y => (fst y, show_om (snd y))) x)] | _ => [] end) rs,
   flat_map (fun r => match r with Ok (RText x) => [("text", [x])] | Ok (RPorts l) => [("ports", l)] | Ok (RFilter f) => [("filter", map fst f)]
                              | Ok (RBool b) => [("bool", [if b then "true" else "false"])] | Throw _ => [("failure", [])] | _ => [] end) rs).
Example C97_example_calls :
  told "before" =
    ([("result", [("ma", [("o1", [(2, 15%Q)])]); ("minus", [("o1", [(2, 5%Q)])])]);
      ("result", [("in", [("o1", [(3, 40%Q)])]); ("ma", [("o1", [(3, 30%Q)])]); ("minus", [("o1", [(3, 10%Q)])])])],
     [("bool", ["true"]); ("bool", ["true"]); ("text", ["in"]); ("ports", ["i1"]); ("filter", ["ma"; "minus"]); ("bool", ["true"]); ("failure", [])]) /\
  told "after" =
    ([("result", [("in", [("o1", [(2, 15%Q)])]); ("minus", [("o1", [(2, 5%Q)])])]);
      ("result", [("in", [("o1", [(3, 30%Q)])]); ("ma", [("o1", [(3, 40%Q)])]); ("minus", [("o1", [(3, 10%Q)])])])],
     [("bool", ["true"]); ("bool", ["true"]); ("text", ["ma"]); ("ports", ["i1"]); ("filter", ["in"; "minus"]); ("bool", ["true"]); ("failure", [])]) /\
  forallb (fun c => negb (is_about "p" c) || uses c) asked = true /\
  (let JT := two_texts in reachable_manager no_programs).
Proof. split; [vm_compute; reflexivity|]. split; [vm_compute; reflexivity|]. split; [reflexivity|]. now exists O, []. Qed.
