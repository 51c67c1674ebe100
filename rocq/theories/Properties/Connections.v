(** * The order of connections matters only for those that leave the same output (C33) *)

From Coq Require Import String ZArith QArith Qcanon Bool List Lia Permutation.
From Verif Require Import Base.StrMap Base.Num Base.NumQc Model.Core Model.Ops Model.Make Model.Run Model.Graph Model.Codec Model.Json Model.Factory.
From Verif Require Import Spec.Show Spec.Snapshot Spec.Log Spec.Definition Spec.Forest Spec.Members Spec.Names.
From Verif Require Import Proofs.MakeP Proofs.JsonP Proofs.MembersP Properties.Definition Properties.Forest Properties.Names.
Import ListNotations.
Open Scope string_scope.
Open Scope list_scope.
Open Scope Z_scope.
Open Scope rtbot_scope.

Section C33.
Context {NO : NumOps} {JT : JsonText}.

Lemma listed_filter h id port cs : forall rs, Forall2 (resolves h) cs rs ->
  exists rs0, Forall2 (resolves h) (filter (from_port id port) cs) rs0 /\
    listed id port (combine cs rs) = listed id port (combine (filter (from_port id port) cs) rs0).
Proof.
  induction cs as [|c cs IH]; intros rs F; inversion F as [|? r ? rs1 R F1]; subst; [exists []; split; [constructor|reflexivity]|].
  destruct (IH rs1 F1) as (rs0 & F0 & E). cbn [filter]. destruct (from_port id port c) eqn:P.
  - exists (r :: rs0). split; [now constructor|]. cbn [combine]. unfold listed in *. cbn [filter].
    destruct (_ && _); cbn [map]; now rewrite E.
  - exists rs0. split; [exact F0|]. cbn [combine]. rewrite <- E. unfold listed. cbn [filter fst snd].
    destruct (String.eqb_spec (c_from c) id) as [Ei|Ni]; cbn [andb]; [|reflexivity].
    destruct (String.eqb_spec (fst r) port) as [Ep|Np]; cbn [andb]; [|reflexivity]. exfalso. unfold from_port in P.
    destruct R as (a & b & _ & _ & [O _]). destruct (String.eqb_spec (c_from c) id); [|contradiction]. cbn [andb] in P.
    destruct O as [(_ & O & _)|(O & _)]; [rewrite <- O, Ep in P|rewrite O in P].
    + now rewrite String.eqb_refl in P.
    + now rewrite orb_true_r in P.
Qed.

Lemma listed_same h id port cs cs' rs rs' : Forall2 (resolves h) cs rs -> Forall2 (resolves h) cs' rs' ->
  filter (from_port id port) cs = filter (from_port id port) cs' -> listed id port (combine cs rs) = listed id port (combine cs' rs').
Proof.
  intros F F' E. destruct (listed_filter h id port cs rs F) as (r & Fr & ->), (listed_filter h id port cs' rs' F') as (r' & Fr' & ->).
  rewrite E in Fr |- *. now rewrite (Forall2_fun h _ _ _ Fr Fr').
Qed.

(** no port with an empty list of connections *)
Definition tidy (h : heap) : Prop :=
  forall id o, sfind id h = Some o -> swf (o_conns (op_base o)) /\ forall port, sfind port (o_conns (op_base o)) <> Some [].

Lemma connect1_tidy c h h' : connect1 c h = Ok h' -> tidy h -> tidy h'.
Proof.
  unfold connect1. intros E T. destruct (sfind (c_from c) h) as [a|] eqn:Fa; [|discriminate E]. destruct (sfind (c_to c) h) as [b|]; [|discriminate E].
  pose proof (connect_spec a b (c_to c) (c_fromPort c) (c_toPort c) _ eq_refl) as S.
  destruct (connect a b (c_to c) (c_fromPort c) (c_toPort c)) as [[a'|]| | | |]; try discriminate E. cbn in E. injection E as <-.
  destruct S as (o & i & _ & ->). intros id x Fx. rewrite sfind_sset in Fx. destruct (String.eqb_spec id (c_from c)) as [->|N]; [|now apply (T id)].
  injection Fx as <-. destruct (T _ _ Fa) as [W NE]. cbn [op_base set_conns o_conns]. split; [now apply swf_sset|].
  intros port. rewrite sfind_sset. destruct (String.eqb port o); [|apply NE]. intros [= E]. now destruct (targets a o).
Qed.

Lemma read_conns_tidy l : forall h h', read_conns l h = Ok h' -> tidy h -> tidy h'.
Proof.
  induction l as [|x l IH]; intros h h' E T; cbn [read_conns] in E; [injection E as <-; exact T|].
  destruct (conn_of x); try discriminate E. cbn [rbind] in E. destruct (connect1 a h) as [h1| | | |] eqn:E1; try discriminate E. cbn [rbind] in E.
  eapply IH; [exact E|]. eapply connect1_tidy; eauto.
Qed.

Lemma read_conns_order l l' cs cs' h h1 : swf h -> tidy h -> map_res conn_of l = Ok cs -> map_res conn_of l' = Ok cs' -> same_ports_order cs cs' ->
  read_conns l h = Ok h1 -> read_conns l' h = Ok h1.
Proof.
  intros W Td E E' [P O] R. destruct (read_conns_ok _ _ _ R) as (cs0 & rs & E0 & F & Rw). rewrite E in E0. injection E0 as <-.
  destruct (Forall2_perm h cs cs' P rs F) as (rs' & F' & _).
  destruct (read_conns_resolve l' cs' h E') as [h2 R2].
  { intros c Hc. clear - F' Hc. induction F' as [|x y cs' rs' Hxy _ IH]; [destruct Hc|]. destruct Hc as [->|Hc]; eauto. }
  rewrite R2. f_equal. destruct (read_conns_ok _ _ _ R2) as (cs1 & rs1 & E1 & F1 & Rw1). rewrite E' in E1. injection E1 as <-.
  rewrite (Forall2_fun h cs' _ _ F1 F') in Rw1. clear F1 rs1.
  destruct (read_conns_swf _ _ _ R W) as [W1 _], (read_conns_swf _ _ _ R2 W) as [W2 _].
  pose proof (read_conns_tidy _ _ _ R Td) as T1. pose proof (read_conns_tidy _ _ _ R2 Td) as T2.
  apply swf_ext; auto. intros id. specialize (Rw id). specialize (Rw1 id).
  destruct (sfind id h1) as [o|] eqn:Fo, (sfind id h2) as [o'|] eqn:Fo', (sfind id h) as [o0|]; try contradiction; try reflexivity.
  destruct Rw as [S T], Rw1 as [S' T']. destruct (T1 _ _ Fo) as [V N], (T2 _ _ Fo') as [V' N'].
  assert (C : o_conns (op_base o) = o_conns (op_base o')).
  { apply swf_ext; auto. intros port. specialize (T port). specialize (T' port). rewrite (listed_same h id port cs cs' rs rs' F F' (O id port)), <- T' in T.
    specialize (N port). specialize (N' port). unfold targets in T. destruct (sfind port (o_conns (op_base o))), (sfind port (o_conns (op_base o'))); congruence. }
  unfold same_ports in S, S'. rewrite <- S' in S. destruct o as [[] k], o' as [[] k']. cbn in S, C. injection S. intros. now subst.
Qed.

(** Two definitions with the same operators, entry and output section and the same connections in
    another order: if the connections of each output are in the same order, both are accepted and
    the programs are the same, whatever the graph.  The order of connections that leave different
    outputs never matters. *)
Theorem C33_outputs_partial (g : string -> junk) (text text' : string) (j j' : json) (conns conns' : list connection) (p : program) :
  parse text = Ok j -> parse text' = Ok j' ->
  jvalue get_str "entryOperator" "" j' = jvalue get_str "entryOperator" "" j ->
  operators_of g j' = operators_of g j -> filter_of j' = filter_of j ->
  connections_of j = Ok conns -> connections_of j' = Ok conns' -> same_ports_order conns conns' ->
  new_prog g text = Ok p ->
  exists p', new_prog g text' = Ok p' /\ same_program p p' /\
    forall n history, fst (conversation n p history) = fst (conversation n p' history).
Proof.
  intros P P' Een Eop Efi Ec Ec' O H.
  assert (X : exists p', new_prog g text' = Ok p' /\ same_program p p').
  { unfold new_prog in *. rewrite P in H. rewrite P'. cbn [rbind] in *.
    destruct (init_cases _ _ _ _ H) as (entry & filter & h & h1 & cs & oe & E1 & NE & E2 & E3 & E4 & R & Fe & C).
    unfold connections_of in Ec, Ec'. rewrite E4 in Ec. cbn [rbind] in Ec. apply rbind_ok in Ec' as (cs' & E4' & Ec').
    destruct (operators_good _ _ _ E3) as [[[Wh _] _] Z].
    assert (Td : tidy h) by (intros id o Fo; rewrite (Z _ _ Fo); split; [constructor|discriminate]).
    pose proof (read_conns_order _ _ _ _ _ _ Wh Td Ec Ec' O R) as R2.
    assert (I : init g text' j' = Ok (match o_ctrl (op_base oe) with [] => mkProgram text' h1 entry filter | _ => mkProgram text' [] "" [] end)).
    { unfold init. rewrite Een, E1. cbn [rbind]. destruct (String.eqb_spec entry ""); [contradiction|]. rewrite Efi, E2. cbn [rbind].
      unfold operators_of in Eop, E3. rewrite E3 in Eop. apply rbind_ok in Eop as (xs & -> & Eop). cbn [rbind]. rewrite Eop. cbn [rbind].
      rewrite E4'. cbn [rbind]. rewrite R2. cbn [rbind]. rewrite Fe. destruct (o_ctrl (op_base oe)); reflexivity. }
    rewrite I. eexists. split; [reflexivity|].
    destruct C as [[-> ->]|[Nc ->]]; [repeat split|]. destruct (o_ctrl (op_base oe)); [contradiction|]. repeat split. }
  destruct X as (p' & E & S). exists p'. split; [exact E|]. split; [exact S|]. intros n history. now apply conversation_same.
Qed.

End C33.

Print Assumptions C33_outputs_partial.

(** Not vacuous: a diamond, whose connections are listed in another order. *)
Definition diamond (conns : list (@json QcOps)) : @json QcOps := JObj [
  ("connections", JArr conns);
  ("entryOperator", JStr "in");
  ("operators", JArr [JObj [("id", JStr "in"); ("type", JStr "Input")];
                      JObj [("id", JStr "ma"); ("n", JInt 2); ("type", JStr "MovingAverage")];
                      JObj [("id", JStr "minus"); ("type", JStr "Minus")]])].
Definition some_order := [conn "in" "ma" "i1"; conn "in" "minus" "i1"; conn "ma" "minus" "i2"].
Definition other_order := [conn "ma" "minus" "i2"; conn "in" "ma" "i1"; conn "in" "minus" "i1"].
Example C33_outputs_hypotheses :
  exists cs cs', connections_of (diamond some_order) = Ok cs /\ connections_of (diamond other_order) = Ok cs' /\ cs <> cs' /\ same_ports_order cs cs' /\
  operators_of (JT := a_text JNull JNull) j0 (diamond other_order) = operators_of (JT := a_text JNull JNull) j0 (diamond some_order).
Proof.
  do 2 eexists. split; [reflexivity|]. split; [reflexivity|]. split; [discriminate|]. split; [|reflexivity]. split.
  - apply (Permutation_app_comm [_; _] [_]).
  - intros id port. unfold from_port. cbn [filter c_from c_fromPort].
    destruct (String.eqb_spec "in" id) as [<-|_]; cbn [andb].
    + destruct (String.eqb "o1" port || String.eqb "o1" ""); reflexivity.
    + destruct (String.eqb "ma" id && (String.eqb "o1" port || String.eqb "o1" "")); reflexivity.
Qed.
Example C33_outputs_example : heard (diamond some_order) = heard (diamond other_order) /\ length (concat (heard (diamond some_order))) = 6%nat.
Proof. vm_compute. auto. Qed.
