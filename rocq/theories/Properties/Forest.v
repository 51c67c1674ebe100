(** * The order of connections in programs without diamonds (C33). *)

From Coq Require Import String ZArith QArith Bool List Lia Permutation.
From Verif Require Import Base.StrMap Base.Num Base.NumQc Model.Core Model.Ops Model.Make Model.Graph Model.Run Model.Json.
From Verif Require Import Spec.Shape Spec.Log Spec.Show Spec.Build Spec.Streams Spec.Snapshot Spec.Definition Spec.Forest.
From Verif Require Import Proofs.ShapeP Proofs.LogRun Proofs.MakeP Proofs.JsonP Proofs.ForestP.
From Verif Require Properties.Graph Properties.Definition.
Import ListNotations.
Open Scope string_scope.
Open Scope list_scope.
Open Scope rtbot_scope.

Section C33.
Context {NO : NumOps} {JT : JsonText}.

(** ** Definitions that differ in the order of connections *)

Lemma resolves_fun h c p q : resolves h c p -> resolves h c q -> p = q.
Proof.
  intros (a & b & Fa & Fb & C) (a' & b' & Fa' & Fb' & C'). rewrite Fa in Fa'. rewrite Fb in Fb'.
  injection Fa' as <-. injection Fb' as <-. eapply chooses_fun; eauto.
Qed.

Lemma read_conns_resolve l : forall cs h, map_res conn_of l = Ok cs -> (forall c, In c cs -> exists ports, resolves h c ports) ->
  exists h', read_conns l h = Ok h'.
Proof.
  induction l as [|x l IH]; intros cs h E H; cbn [read_conns]; [eauto|].
  cbn [map_res] in E. apply rbind_ok in E as (c & Ec & E). apply rbind_ok in E as (cs' & Ecs & E). injection E as <-.
  rewrite Ec. cbn [rbind].
  assert (X : exists h1, connect1 c h = Ok h1).
  { destruct (H c (or_introl eq_refl)) as (ports & a & b & Fa & Fb & C). unfold connect1. rewrite Fa, Fb.
    pose proof (connect_spec a b (c_to c) (c_fromPort c) (c_toPort c) _ eq_refl) as S.
    destruct (connect a b (c_to c) (c_fromPort c) (c_toPort c)) as [[x'|]| | | |]; cbn [rbind]; eauto; try contradiction; exfalso; apply S; eauto. }
  destruct X as [h1 E1]. rewrite E1. cbn [rbind]. apply (IH cs' h1 Ecs).
  destruct (connect1_ok _ _ _ E1) as (ports & _ & Rw). intros d Hd. destruct (H d (or_intror Hd)) as [pd Rd]. exists pd.
  now apply (resolves_rewired _ _ _ d pd Rw).
Qed.

Lemma Forall2_perm h cs cs' : Permutation cs cs' -> forall rs, Forall2 (resolves h) cs rs ->
  exists rs', Forall2 (resolves h) cs' rs' /\ Permutation (combine cs rs) (combine cs' rs').
Proof.
  induction 1 as [|c cs cs' _ IH|c d cs|cs1 cs2 cs3 _ IH1 _ IH2]; intros rs F.
  - exists rs. split; auto. 
  - inversion F as [|? r ? rs0 R F0]; subst. destruct (IH _ F0) as (rs' & F' & P). exists (r :: rs'). split; [now constructor|]. cbn. now constructor.
  - inversion F as [|? r ? rs0 R F0]; subst. inversion F0 as [|? r2 ? rs1 R2 F1]; subst. exists (r2 :: r :: rs1).
    split; [now repeat constructor|]. cbn. apply perm_swap.
  - destruct (IH1 _ F) as (rs2 & F2 & P2). destruct (IH2 _ F2) as (rs3 & F3 & P3). exists rs3. split; auto. now transitivity (combine cs2 rs2).
Qed.

Lemma Forall2_fun h cs : forall rs rs', Forall2 (resolves h) cs rs -> Forall2 (resolves h) cs rs' -> rs = rs'.
Proof.
  induction cs as [|c cs IH]; intros rs rs' F F'; inversion F; inversion F'; subst; [reflexivity|]. f_equal; [eapply resolves_fun; eauto|auto].
Qed.

Lemma listed_perm id port l l' : Permutation l l' -> Permutation (listed id port l) (listed id port l').
Proof.
  intros P. unfold listed. apply Permutation_map. induction P as [|x l l' _ IH|x y l|]; cbn; auto.
  - destruct (_ && _); auto.
  - destruct (String.eqb (c_from (fst x)) id && _), (String.eqb (c_from (fst y)) id && _); auto. apply perm_swap.
  - etransitivity; eauto.
Qed.

Lemma read_conns_perm l l' cs cs' h h1 : swf h -> map_res conn_of l = Ok cs -> map_res conn_of l' = Ok cs' -> Permutation cs cs' ->
  read_conns l h = Ok h1 -> exists h2, read_conns l' h = Ok h2 /\ reordered h1 h2.
Proof.
  intros W E E' P R. destruct (read_conns_ok _ _ _ R) as (cs0 & rs & E0 & F & Rw). rewrite E in E0. injection E0 as <-.
  destruct (Forall2_perm h cs cs' P rs F) as (rs' & F' & Pc).
  destruct (read_conns_resolve l' cs' h E') as [h2 R2].
  { intros c Hc. clear - F' Hc. induction F' as [|x y cs' rs' Hxy _ IH]; [destruct Hc|]. destruct Hc as [->|Hc]; eauto. }
  exists h2. split; [exact R2|]. destruct (read_conns_ok _ _ _ R2) as (cs1 & rs1 & E1 & F1 & Rw1). rewrite E' in E1. injection E1 as <-.
  rewrite (Forall2_fun h cs' _ _ F1 F') in Rw1. clear F1 rs1.
  split; [destruct (read_conns_swf _ _ _ R W) as [_ ->]; destruct (read_conns_swf _ _ _ R2 W) as [_ ->]; reflexivity|].
  intros id o o' Fo Fo'. specialize (Rw id). specialize (Rw1 id). rewrite Fo in Rw. rewrite Fo' in Rw1.
  destruct (sfind id h) as [o0|]; [|contradiction]. destruct Rw as [S T], Rw1 as [S' T']. unfold same_ports in *.
  split; [congruence|]. intros port. rewrite T, T'. apply Permutation_app_head. now apply listed_perm.
Qed.

(** ** Sessions *)

Definition same_but_order (p p' : program) : Prop :=
  reordered (p_ops p) (p_ops p') /\ p_entry p' = p_entry p /\ p_filter p' = p_filter p.

Lemma shas_skeys {A B} k (m : smap A) (m' : smap B) : skeys m' = skeys m -> shas k m' = shas k m.
Proof. intros E. apply eq_true_iff_eq. rewrite !shas_spec, E. reflexivity. Qed.

Lemma receive_debug_reordered rank n p p' batch r q :
  well (p_ops p) -> ranked rank (p_ops p) -> forest (p_ops p) -> same_but_order p p' ->
  receive_debug n p batch = (Ok r, q) ->
  exists q', receive_debug n p' batch = (Ok r, q') /\ same_but_order q q' /\ erase_heap (p_ops q) = erase_heap (p_ops p) /\ p_filter q = p_filter p.
Proof.
  intros W Rk F (R & Ee & Ef) E. unfold receive_debug in *. rewrite Ee, (shas_skeys (p_entry p) (p_ops p)) by apply R.
  destruct (shas (p_entry p) (p_ops p)); [|discriminate E].
  destruct (send_batch n (p_entry p) batch [] (p_ops p)) as [rr h1] eqn:Es. injection E as -> <-.
  destruct (send_batch_reordered rank n _ batch [] _ _ _ _ W Rk F R Es) as (h1' & E1 & R1 & K).
  rewrite E1. eexists. split; [reflexivity|]. cbn [set_ops p_ops p_filter p_entry]. split; [split; [exact R1|auto]|auto].
Qed.

Lemma forest_same h h' : erase_heap h' = erase_heap h -> forest h -> forest h'.
Proof.
  intros E [F1 F2]. split; [|intros; rewrite (wires_same h h'); auto].
  intros a a' b H1 H2. eapply F1; eapply wired_same; eauto.
Qed.

Lemma receive_all_reordered rank n batches : forall p p' rs q,
  well (p_ops p) -> ranked rank (p_ops p) -> forest (p_ops p) -> same_but_order p p' ->
  receive_all n p batches = (Ok rs, q) -> exists q', receive_all n p' batches = (Ok rs, q') /\ same_but_order q q'.
Proof.
  induction batches as [|b bs IH]; intros p p' rs q W Rk F S E; cbn [receive_all] in *; [injection E as <- <-; eauto|].
  apply bind_ok in E as (r & p1 & E1 & E). apply bind_ok in E as (rs' & p2 & E2 & E). injection E as <- <-.
  destruct (receive_debug_reordered rank n p p' b r p1 W Rk F S E1) as (p1' & -> & S1 & K & _). cbn [bind sbind].
  destruct (IH p1 p1' rs' p2) as (q' & -> & Sq); auto; [eapply well_same; eauto|eapply ranked_same; eauto|eapply forest_same; eauto|].
  cbn [bind sbind]. eauto.
Qed.

(** calls of [receive], with the filter, none of which fails *)
Fixpoint all_ok {A} (l : list (res A)) : option (list A) :=
  match l with
  | [] => Some []
  | Ok a :: l' => match all_ok l' with Some r => Some (a :: r) | None => None end
  | _ => None
  end.

Lemma session_reordered rank n batches : forall p p' rs,
  well (p_ops p) -> ranked rank (p_ops p) -> forest (p_ops p) -> same_but_order p p' ->
  all_ok (fst (session n p batches)) = Some rs -> fst (session n p' batches) = fst (session n p batches).
Proof.
  induction batches as [|b bs IH]; intros p p' rs W Rk F S E; cbn [session] in *; [reflexivity|].
  unfold receive in *. destruct (receive_debug n p b) as [r p1] eqn:E1.
  destruct r as [r| | | |]; try (destruct (session n p1 bs); cbn in E; discriminate E).
  destruct (receive_debug_reordered rank n p p' b r p1 W Rk F S E1) as (p1' & -> & S1 & K & _).
  specialize (IH p1 p1'). destruct (session n p1 bs) as [rs1 q1], (session n p1' bs) as [rs1' q1']. cbn [fst all_ok] in *.
  destruct (all_ok rs1) as [l|] eqn:El; [|discriminate E]. rewrite (proj2 (proj2 S)). f_equal.
  apply (IH l); auto; [eapply well_same; eauto|eapply ranked_same; eauto|eapply forest_same; eauto].
Qed.

(** Two definitions with the same operators, entry and filter and the same connections in another
    order are accepted together and give the same program up to the order of connections. *)
Lemma permuted_definition (g : string -> junk) (text text' : string) (j j' : json) (conns conns' : list connection) (p : program) :
  parse text = Ok j -> parse text' = Ok j' ->
  jvalue get_str "entryOperator" "" j' = jvalue get_str "entryOperator" "" j ->
  operators_of g j' = operators_of g j -> filter_of j' = filter_of j ->
  connections_of j = Ok conns -> connections_of j' = Ok conns' -> Permutation conns conns' ->
  new_prog g text = Ok p -> exists p', new_prog g text' = Ok p' /\ same_but_order p p'.
Proof.
  intros P P' Een Eop Efi Ec Ec' Pm H.
  unfold new_prog in *. rewrite P in H. rewrite P'. cbn [rbind] in *.
  destruct (init_cases _ _ _ _ H) as (entry & filter & h & h1 & cs & oe & E1 & NE & E2 & E3 & E4 & R & Fe & C).
  unfold connections_of in Ec, Ec'. rewrite E4 in Ec. cbn [rbind] in Ec. apply rbind_ok in Ec' as (cs' & E4' & Ec').
  assert (Wh : swf h) by (destruct (operators_good _ _ _ E3) as [[[X _] _] _]; exact X).
  destruct (read_conns_perm _ _ _ _ _ _ Wh Ec Ec' Pm R) as (h2 & R2 & Ro).
  assert (Fe' : exists oe', sfind entry h2 = Some oe' /\ o_ctrl (op_base oe') = o_ctrl (op_base oe)).
  { destruct Ro as [K Ro]. destruct (In_skeys_sfind entry h2) as [oe' Fo']; [rewrite K; eapply sfind_In_key; eauto|].
    exists oe'. split; auto. destruct (Ro _ _ _ Fe Fo') as [U _]. apply (f_equal (fun o => o_ctrl (op_base o))) in U.
    destruct oe as [[] ?], oe' as [[] ?]. exact U. }
  destruct Fe' as (oe' & Fo' & Eco).
  assert (I : init g text' j' = Ok (match o_ctrl (op_base oe) with [] => mkProgram text' h2 entry filter | _ => mkProgram text' [] "" [] end)).
  { unfold init. rewrite Een, E1. cbn [rbind]. destruct (String.eqb_spec entry ""); [contradiction|]. rewrite Efi, E2. cbn [rbind].
    unfold operators_of in Eop, E3. rewrite E3 in Eop. apply rbind_ok in Eop as (xs & -> & Eop). cbn [rbind]. rewrite Eop. cbn [rbind].
    rewrite E4'. cbn [rbind]. rewrite R2. cbn [rbind]. rewrite Fo', Eco. destruct (o_ctrl (op_base oe)); reflexivity. }
  rewrite I. eexists. split; [reflexivity|].
  destruct C as [[-> ->]|[Nc ->]]; [split; [exact Ro|split; reflexivity]|].
    destruct (o_ctrl (op_base oe)); [contradiction|]. split; [split; [reflexivity|]|split; reflexivity]. intros id o o' X; discriminate X.
Qed.

(** ** C33.  Two definitions with the same operators, entry and filter, whose connections are
    the same in another order.  If the program has no cycles, every operator hears from at most one
    other operator, and no output port is connected twice to the same operator, then both are
    accepted, and as long as no call fails every call returns the same, for every operator and
    port, and with the filter.  Without this restriction the property is false, see
    [C33_connection_order_refuted]. *)
Theorem C33_forest_partial (g : string -> junk) (text text' : string) (j j' : json) (conns conns' : list connection)
    (p : program) (rank : string -> nat) :
  parse text = Ok j -> parse text' = Ok j' ->
  jvalue get_str "entryOperator" "" j' = jvalue get_str "entryOperator" "" j ->
  operators_of g j' = operators_of g j -> filter_of j' = filter_of j ->
  connections_of j = Ok conns -> connections_of j' = Ok conns' -> Permutation conns conns' ->
  new_prog g text = Ok p -> ranked rank (p_ops p) -> forest (p_ops p) ->
  exists p', new_prog g text' = Ok p' /\
    forall n batches,
      (forall rs q, receive_all n p batches = (Ok rs, q) -> exists q', receive_all n p' batches = (Ok rs, q')) /\
      (forall rs, all_ok (fst (session n p batches)) = Some rs -> fst (session n p' batches) = fst (session n p batches)).
Proof.
  intros P P' Een Eop Efi Ec Ec' Pm H Rk F. pose proof (Properties.Definition.created_well_formed _ _ _ H) as W.
  destruct (permuted_definition g text text' j j' conns conns' p P P' Een Eop Efi Ec Ec' Pm H) as (p' & E' & S).
  exists p'. split; [exact E'|]. clear E'.
  intros n batches. split.
  - intros rs q E. destruct (receive_all_reordered rank n batches _ _ _ _ W Rk F S E) as (q' & E' & _). eauto.
  - intros rs E. eapply session_reordered; eauto.
Qed.

(** A sufficient condition on the definition: no two connections lead to the same operator. *)
Theorem C33_forest_definition (g : string -> junk) (text : string) (j : json) (conns : list connection) (p : program) :
  parse text = Ok j -> connections_of j = Ok conns -> new_prog g text = Ok p -> NoDup (map c_to conns) -> forest (p_ops p).
Proof.
  intros P Ec H ND. destruct (p_ops p) as [|x0 h0] eqn:Ep.
  { split; [intros ? ? ? (? & ? & [])|intros; constructor]. }
  assert (NE : p_ops p <> []) by (rewrite Ep; discriminate). rewrite <- Ep. clear x0 h0 Ep.
  destruct (Properties.Definition.C41_creation _ _ _ _ P H NE) as (ops & cs & rs & _ & Ec' & F2 & K & T).
  rewrite Ec in Ec'. injection Ec' as <-.
  assert (W : forall a port, wires (p_ops p) a port = match sfind a (p_ops p) with Some _ => listed a port (combine conns rs) | None => [] end).
  { intros a port. unfold wires. destruct (sfind a (p_ops p)) as [o|] eqn:Fo; [|reflexivity]. apply (proj2 (T _ _ Fo)). }
  assert (L : forall a port c, In c (wires (p_ops p) a port) -> exists k, In k conns /\ c_from k = a /\ c_to k = fst c).
  { intros a port c Hc. rewrite W in Hc. destruct (sfind a (p_ops p)); [|destruct Hc]. unfold listed in Hc.
    apply in_map_iff in Hc as ([k q] & <- & Hk). apply filter_In in Hk as [Hk E]. exists k. split; [eapply in_combine_l; eauto|].
    apply andb_true_iff in E as [E _]. apply String.eqb_eq in E. auto. }
  assert (U : forall k k', In k conns -> In k' conns -> c_to k = c_to k' -> k = k').
  { clear - ND. induction conns as [|c cs IH]; intros k k' Hk Hk' E; [destruct Hk|]. cbn in ND. inversion ND as [|? ? N1 N2]; subst.
    destruct Hk as [<-|Hk], Hk' as [<-|Hk']; auto; exfalso; apply N1; [rewrite E|rewrite <- E]; apply in_map_iff; eauto. }
  split.
  - intros a a' b (port & q & Hb) (port' & q' & Hb'). destruct (L _ _ _ Hb) as (k & I & <- & Et), (L _ _ _ Hb') as (k' & I' & <- & Et').
    cbn in Et, Et'. now rewrite (U k k') by congruence.
  - intros a port. rewrite W. destruct (sfind a (p_ops p)); [|constructor]. unfold listed. rewrite map_map. cbn [fst].
    assert (Le : length conns = length rs) by (clear - F2; induction F2; cbn; auto). clear - ND Le.
    revert rs Le. induction conns as [|c cs IH]; intros [|r rs] Le; try discriminate Le; [constructor|].
    cbn [map combine filter] in *. inversion ND as [|? ? N1 N2]; subst. destruct (_ && _); [|apply IH; auto].
    cbn [map fst]. constructor; [|apply IH; auto]. intros X. apply N1. apply in_map_iff in X as ([k q] & E & Hk). cbn in E.
    apply filter_In in Hk as [Hk _]. apply in_combine_l in Hk. apply in_map_iff. eauto.
Qed.

End C33.
Print Assumptions C33_forest_partial.
Print Assumptions C33_forest_definition.

(** ** Example: an Input with two ports into a Join, and three branches after it.  The
    connections are listed in opposite orders. *)
Section Example_.
Import Properties.Graph Properties.Definition.
Open Scope Z_scope.

Definition tree_ops : list (@json QcOps) :=
  [definition "Input" "in" [("numPorts", JInt 2)];
   definition "Join" "pair" [("numPorts", JInt 2)];
   definition "MovingAverage" "avg" [("n", JInt 2)];
   definition "CumulativeSum" "sum" [];
   definition "Scale" "twice" [("value", JNum (vofZ 2))]].
Definition ported (a o b i : string) : @json QcOps := obj [("from", JStr a); ("fromPort", JStr o); ("to", JStr b); ("toPort", JStr i)].
Definition tree_conns : list (@json QcOps) :=
  [ported "in" "o1" "pair" "i1"; ported "in" "o2" "pair" "i2"; ported "pair" "o1" "avg" "i1"; ported "pair" "o1" "sum" "i1"; ported "avg" "o1" "twice" "i1"].
Definition tree (cs : list (@json QcOps)) : @json QcOps :=
  obj [("entryOperator", JStr "in"); ("operators", JArr tree_ops); ("connections", JArr cs)].
Definition two_texts : JsonText := a_text (tree tree_conns) (tree (rev tree_conns)).

Definition tree_rank (id : string) : nat :=
  match id with "in" => 4 | "pair" => 3 | "avg" => 2 | "sum" => 1 | "twice" => 0 | _ => 0 end.

Definition tree_results (text : string) : list (list (string * list (string * list (Z * Q)))) :=
  match new_prog (JT := two_texts) j0 text with
  | Ok p => match fst (receive_all 9 p [[("i1", [im 1 10; im 2 20]); ("i2", [im 1 1; im 2 2])]; [("i2", [im 3 3]); ("i1", [im 3 30])]]) with
            | Ok rs => map show_pm rs | _ => [] end
  | _ => []
  end.

(** the lists of receivers, one for each connected output port *)
Definition fans {NO : NumOps} (h : heap) : list (list string) :=
  flat_map (fun x => map (fun y => map fst (snd y)) (o_conns (op_base (snd x)))) h.
Lemma fans_wires {NO : NumOps} h a port : wires h a port = [] \/ In (map fst (wires h a port)) (fans h).
Proof.
  unfold wires. destruct (sfind a h) as [o|] eqn:E; [|now left]. destruct (sfind port (o_conns (op_base o))) as [cs|] eqn:E2; [|now left].
  right. cbn [odefault]. unfold fans. apply in_flat_map. exists (a, o). split; [now apply sfind_In|]. apply in_map_iff. exists (port, cs).
  split; [reflexivity|now apply sfind_In].
Qed.

Example C33_forest_example :
  connections_of (tree tree_conns) <> connections_of (tree (rev tree_conns)) /\
  tree_results "text" = tree_results "inner" /\
  tree_results "text" =
    [[("avg", [("o1", [(2, 15 # 1)])]); ("in", [("o1", [(1, 10 # 1); (2, 20 # 1)]); ("o2", [(1, 1 # 1); (2, 2 # 1)])]);
      ("pair", [("o1", [(1, 10 # 1); (2, 20 # 1)]); ("o2", [(1, 1 # 1); (2, 2 # 1)])]);
      ("sum", [("o1", [(1, 10 # 1); (2, 30 # 1)])]); ("twice", [("o1", [(2, 30 # 1)])])];
     [("avg", [("o1", [(3, 25 # 1)])]); ("in", [("o1", [(3, 30 # 1)]); ("o2", [(3, 3 # 1)])]);
      ("pair", [("o1", [(3, 30 # 1)]); ("o2", [(3, 3 # 1)])]); ("sum", [("o1", [(3, 60 # 1)])]); ("twice", [("o1", [(3, 50 # 1)])])]].
Proof. split; [vm_compute; discriminate|]. split; vm_compute; reflexivity. Qed.

Example C33_forest_hypotheses :
  match new_prog (JT := two_texts) j0 "text" with
  | Ok p => ranked tree_rank (p_ops p) /\ forest (p_ops p)
  | _ => False
  end /\
  match connections_of (tree tree_conns), connections_of (tree (rev tree_conns)) with
  | Ok cs, Ok cs' => Permutation cs cs'
  | _, _ => False
  end /\
  jvalue get_str "entryOperator" "" (tree (rev tree_conns)) = jvalue get_str "entryOperator" "" (tree tree_conns) /\
  (forall JT : JsonText, operators_of (JT := JT) j0 (tree (rev tree_conns)) = operators_of j0 (tree tree_conns)) /\
  filter_of (tree (rev tree_conns)) = filter_of (tree tree_conns).
Proof.
  split; [|split; [|repeat split]].
  - assert (X : match new_prog (JT := two_texts) j0 "text" with Ok p => (edges (p_ops p), fans (p_ops p)) | _ => ([], [["no"]]) end =
      ([("avg", "twice"); ("in", "pair"); ("in", "pair"); ("pair", "avg"); ("pair", "sum")],
       [["twice"]; ["pair"]; ["pair"]; ["avg"; "sum"]])) by (vm_compute; reflexivity).
    destruct (new_prog (JT := two_texts) j0 "text") as [p| | | |]; try discriminate X.
    assert (X1 := f_equal fst X). assert (X2 := f_equal snd X). cbn [fst snd] in X1, X2. clear X.
    assert (Y : forall a b, wired (p_ops p) a b -> (a = "avg" /\ b = "twice") \/ (a = "in" /\ b = "pair") \/ (a = "pair" /\ b = "avg") \/ (a = "pair" /\ b = "sum")).
    { intros a b H. apply edges_wired in H. rewrite X1 in H. cbn in H.
      destruct H as [H|[H|[H|[H|[H|[]]]]]]; injection H as <- <-; auto. }
    split; [|split].
    + intros a b H. destruct (Y _ _ H) as [[-> ->]|[[-> ->]|[[-> ->]|[-> ->]]]]; vm_compute; lia.
    + intros a a' b H H'. destruct (Y _ _ H) as [[-> ->]|[[-> ->]|[[-> ->]|[-> ->]]]], (Y _ _ H') as [[-> E]|[[-> E]|[[-> E]|[-> E]]]]; congruence.
    + intros a port. destruct (fans_wires (p_ops p) a port) as [->|H]; [constructor|]. rewrite X2 in H. cbn in H.
      destruct H as [<-|[<-|[<-|[<-|[]]]]]; repeat constructor; cbn; try tauto. intros [H|[]]; discriminate.
  - vm_compute. match goal with |- Permutation ?l _ => change (Permutation l (rev l)) end. apply Permutation_rev.
Qed.

End Example_.
