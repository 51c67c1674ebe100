(** * Program definitions (C41-C43), and the theorems about programs for created programs. *)

From Coq Require Import String Ascii ZArith QArith Qcanon Bool List Lia.
From Verif Require Import Base.StrMap Base.Num Base.NumQc Base.NumInt Model.Core Model.Ops Model.Make Model.Run Model.Graph Model.Codec Model.Json.
From Verif Require Import Spec.Shape Spec.Show Spec.Build Spec.Preserving Spec.Snapshot Spec.Log Spec.Definition.
From Verif Require Import Proofs.ShapeP Proofs.MakeP Proofs.Ports Proofs.LogRun Proofs.LogProg Proofs.Restored Proofs.JsonP.
From Verif Require Properties.Graph.
Import ListNotations.
Open Scope string_scope.
Open Scope list_scope.
Open Scope Z_scope.
Open Scope rtbot_scope.

Lemma filter_keeps {A} (f : A -> bool) l : (forall x, In x l -> f x = true) -> filter f l = l.
Proof.
  induction l as [|x l IH]; intros H; cbn; [reflexivity|]. rewrite (H x) by (now left). f_equal. apply IH. intros y Hy. apply H. now right.
Qed.
Lemma filter_none {A} (f : A -> bool) l : (forall x, In x l -> f x = false) -> filter f l = [].
Proof.
  induction l as [|x l IH]; intros H; cbn; [reflexivity|]. rewrite (H x) by (now left). apply IH. intros y Hy. apply H. now right.
Qed.

Section C41.
Context {NO : NumOps} {JT : JsonText}.

(** ** C41, one call of [connect]: it succeeds exactly when both ports are determined, and then
    adds that one connection and changes nothing else *)
Theorem C41_connect (from to : op) (toId fromPort toPort : string) :
  match connect from to toId fromPort toPort with
  | Ok (Some from') =>
      exists o i, chooses from to fromPort toPort (o, i) /\ unwired from' = unwired from /\
        forall port, targets from' port = targets from port ++ (if String.eqb port o then [(toId, i)] else [])
  | Ok None | Throw _ => ~ exists ports, chooses from to fromPort toPort ports
  | UB | Diverges | OutOfFuel => False
  end.
Proof.
  pose proof (connect_spec from to toId fromPort toPort _ eq_refl) as S.
  destruct (connect from to toId fromPort toPort) as [[a|]| | | |]; auto.
  destruct S as (o & i & C & ->). exists o, i. split; [exact C|]. destruct from as [b k]. split; [reflexivity|].
  intros port. unfold targets. cbn [op_base op_kind set_conns o_conns]. rewrite sfind_sset.
  destruct (String.eqb_spec port o) as [->|N]; [reflexivity|]. now rewrite app_nil_r.
Qed.

(** ** C41, creation: the operators of a created program are those of the definition, and every
    output port is connected to exactly what the definition lists for it, in that order.  (A
    program without operators is what is left when the entry operator has control inputs, C42.) *)
Theorem C41_creation (g : string -> junk) (text : string) (j : json) (p : program) :
  parse text = Ok j -> new_prog g text = Ok p -> p_ops p <> [] ->
  exists (ops : heap) (conns : list connection) (ports : list (string * string)),
    operators_of g j = Ok ops /\ connections_of j = Ok conns /\
    Forall2 (resolves ops) conns ports /\
    skeys (p_ops p) = skeys ops /\
    forall id o, sfind id (p_ops p) = Some o ->
      (exists o0, sfind id ops = Some o0 /\ unwired o = unwired o0) /\
      forall port, targets o port = listed id port (combine conns ports).
Proof.
  unfold new_prog. intros P H NE. rewrite P in H. cbn [rbind] in H.
  destruct (init_cases _ _ _ _ H) as (entry & filter & h & h' & cs & oe & _ & _ & _ & E & Ec & R & _ & [[_ ->]|[_ ->]]);
    cbn [p_ops] in *; [|congruence].
  destruct (operators_good _ _ _ E) as [[[W _] _] Z]. destruct (read_conns_ok _ _ _ R) as (cs' & rs & M & F & Rw).
  exists h, cs', rs. split; [exact E|]. split; [unfold connections_of; rewrite Ec; exact M|].
  split; [exact F|]. split; [now apply (read_conns_swf _ _ _ R)|].
  intros id o Fo. specialize (Rw id). rewrite Fo in Rw. destruct (sfind id h) as [o0|] eqn:F0; [|contradiction].
  destruct Rw as [S T]. split; [exists o0; split; [auto|exact S]|].
  intros port. rewrite T. unfold targets. rewrite (Z _ _ F0). reflexivity.
Qed.

(** an unknown operator, an unknown port or an ambiguous one: creation throws *)
Theorem C41_rejected (g : string -> junk) (text : string) (j : json) (entry : string)
    (ops : heap) (conns : list connection) (c : connection) :
  parse text = Ok j ->
  (* the rest of the definition is well formed *)
  jvalue get_str "entryOperator" "" j = Ok entry -> operators_of g j = Ok ops -> connections_of j = Ok conns ->
  (exists f, filter_of j = Ok f) ->
  In c conns -> (~ exists ports, resolves ops c ports) ->
  exists e, new_prog g text = Throw e.
Proof.
  intros P E1 E2 E3 [f E4] I N. unfold new_prog. rewrite P. cbn [rbind]. unfold init. rewrite E1. cbn [rbind].
  destruct (String.eqb entry ""); [eauto|]. rewrite E4. cbn [rbind].
  unfold operators_of in E2. apply rbind_ok in E2 as (xs & -> & E2). cbn [rbind]. rewrite E2. cbn [rbind].
  unfold connections_of in E3. apply rbind_ok in E3 as (cs & -> & E3). cbn [rbind].
  destruct (read_conns_total _ _ E3 ops) as [[h' R]|[e R]]; rewrite R; cbn [rbind]; [|eauto].
  exfalso. destruct (read_conns_ok _ _ _ R) as (cs' & rs & M & F & _). rewrite E3 in M. injection M as <-.
  apply N. clear - F I. induction F as [|a b la lb Hab F IH]; [destruct I|]. destruct I as [->|I]; eauto.
Qed.

(** a created program is a program the theorems of Properties/Graph.v are about, and stays one *)
Theorem created_well_formed (g : string -> junk) (text : string) (p : program) :
  new_prog g text = Ok p -> wf_heap (p_ops p) /\ named (p_ops p).
Proof. intros H. exact (new_prog_good g text p H). Qed.

Lemma session_shape n history : forall p, wf_heap (p_ops p) -> named (p_ops p) ->
  let p' := snd (session n p history) in
  wf_heap (p_ops p') /\ named (p_ops p') /\ erase_heap (p_ops p') = erase_heap (p_ops p) /\
  p_entry p' = p_entry p /\ p_filter p' = p_filter p.
Proof.
  induction history as [|b bs IH]; intros p W N; cbn [session]; [cbn; auto|].
  destruct (Properties.Graph.C28_next n p b W N) as (W1 & N1 & E1 & E2 & E3).
  destruct (Properties.Graph.C36_same_state n p b) as [Es _]. destruct (receive n p b) as [r p1]. cbn [snd] in *. subst p1.
  destruct (IH _ W1 N1) as (W2 & N2 & F1 & F2 & F3). destruct (session n _ bs) as [rs p2]. cbn [snd] in *.
  repeat (split; [first [assumption|congruence]|]). congruence.
Qed.

(** ** C41, delivery: at any later time every message of the user is delivered to the entry
    operator, every emitted message along exactly the listed connections of its port, and
    nothing else is delivered *)
Theorem C41_delivers (g : string -> junk) (text : string) (j : json) (p0 p p' : program) (n n' : nat)
    (history : list opmsg) (batch : opmsg) (r : progmsg) :
  parse text = Ok j -> new_prog g text = Ok p0 ->
  p = snd (session n p0 history) -> receive_debug n' p batch = (Ok r, p') ->
  exists (ops : heap) (conns : list connection) (ports : list (string * string)) (l : list entry),
    operators_of g j = Ok ops /\ connections_of j = Ok conns /\ Forall2 (resolves ops) conns ports /\
    lsend_all n' (p_entry p0) (batch_messages batch) (p_ops p) = (Ok l, p_ops p') /\
    deliveries l = flat_map (fun x => match x with
      | LSend port m => [(p_entry p0, port, m)]
      | LEmit id port m => map (fun to => (to, m)) (listed id port (combine conns ports))
      | LCall _ _ _ => []
      end) l /\
    forall id port, result_at r id port = emitted id port l.
Proof.
  intros P H -> E. destruct (created_well_formed _ _ _ H) as [W0 N0].
  destruct (session_shape n history p0 W0 N0) as (W & N & Er & Ee & _). set (p := snd (session n p0 history)) in *.
  assert (NE : p_ops p0 <> []).
  { intros X. assert (X' : p_ops p = []).
    { rewrite X in Er. destruct (p_ops p) as [|x y]; [reflexivity|discriminate Er]. }
    unfold receive_debug in E. rewrite X' in E. discriminate E. }
  destruct (C41_creation _ _ _ _ P H NE) as (ops & conns & ports & E1 & E2 & F & K & T).
  destruct (Properties.Graph.C28_result n' p batch r p' W N E) as (l & L & _ & D & _ & Rr & _).
  exists ops, conns, ports, l. rewrite Ee in L, D. repeat (split; [assumption|]). split; [|exact Rr].
  rewrite D. unfold routed. apply flat_map_ext. intros [port m|id port m|? ? ?]; auto. f_equal.
  destruct (sfind id (p_ops p)) as [o|] eqn:Fo.
  - destruct (erase_heap_find _ _ _ _ Er Fo) as (o0 & F0 & Eo). destruct (T id o0 F0) as [(o1 & F1 & U) Tg].
    assert (Wi : wires (p_ops p) id port = targets o0 port).
    { unfold wires, targets. rewrite Fo. destruct o as [b k], o0 as [b0 k0].
      assert (X : o_conns b0 = o_conns b) by (apply (f_equal (fun o => o_conns (op_base o))) in Eo; exact Eo).
      cbn [op_base]. now rewrite X. }
    rewrite Wi, Tg. apply filter_keeps. intros [to i] I. unfold has_input. cbn [fst snd].
    unfold listed in I. apply in_map_iff in I as ([c [o' i']] & Ec & Ic). cbn in Ec. injection Ec as <- <-.
    apply filter_In in Ic as [Ic _].
    assert (Rc : resolves ops c (o', i')).
    { clear - F Ic. induction F as [|a b la lb Hab F IH]; [destruct Ic|]. destruct Ic as [[= -> ->]|I]; auto. }
    destruct Rc as (a & b & _ & Fb & _ & Ci). cbn [snd] in Ci.
    assert (Ib : exists ob, sfind (c_to c) (p_ops p0) = Some ob).
    { destruct (sfind (c_to c) (p_ops p0)) eqn:X; eauto. exfalso. apply sfind_In_key in Fb. rewrite <- K in Fb.
      apply shas_spec in Fb. unfold shas in Fb. rewrite X in Fb. discriminate. }
    destruct Ib as [ob Fob]. destruct (T _ _ Fob) as [(b' & Fb' & Ub) _]. rewrite Fb in Fb'. injection Fb' as <-.
    destruct (erase_heap_find _ _ _ _ (eq_sym Er) Fob) as (ob' & Fob' & Eob). rewrite Fob'.
    assert (Kd : skeys (o_data (op_base ob')) = skeys (o_data (op_base b)) /\ skeys (o_ctrl (op_base ob')) = skeys (o_ctrl (op_base b))).
    { destruct (same_ports_fields _ _ Ub) as (_ & <- & <- & _).
      assert (X1 := f_equal (fun o => o_data (op_base o)) Eob). assert (X2 := f_equal (fun o => o_ctrl (op_base o)) Eob).
      destruct ob as [? ?], ob' as [? ?]. cbn [erase op_base erase_base o_data o_ctrl] in *.
      apply smapv_keys in X1, X2. auto. }
    unfold is_data_input, is_control_input. rewrite orb_true_iff, !shas_spec. destruct Kd as [-> ->].
    rewrite <- in_app_iff. destruct Ci as [(_ & -> & Iin)|(_ & -> & -> & _)]; [auto|cbn; auto].
  - assert (Fn : sfind id (p_ops p0) = None).
    { destruct (sfind id (p_ops p0)) eqn:X; auto. destruct (erase_heap_find _ _ _ _ (eq_sym Er) X) as (? & ? & _). congruence. }
    unfold wires. rewrite Fo. cbn. symmetry. unfold listed.
    replace (filter _ (combine conns ports)) with (@nil (connection * (string * string))); [reflexivity|]. symmetry.
    apply filter_none. intros [c [o i]] I. cbn.
    destruct (String.eqb_spec (c_from c) id) as [<-|]; auto. exfalso.
    assert (Rc : resolves ops c (o, i)).
    { clear - F I. induction F as [|a b la lb Hab F IH]; [destruct I|]. destruct I as [[= -> ->]|I]; auto. }
    destruct Rc as (a & _ & Fa & _). apply sfind_In_key in Fa. rewrite <- K in Fa. apply shas_spec in Fa.
    unfold shas in Fa. rewrite Fn in Fa. discriminate.
Qed.
End C41.

Section C42.
Context {NO : NumOps} {JT : JsonText}.

(** ** C42: what an accepted definition looks like.  The entry operator always exists.  If it
    has no control inputs the program has it as its entry.  If it has, the property is not
    met: the program is created, with nothing in it. *)
Theorem C42_accepted_partial (g : string -> junk) (text : string) (j : json) (p : program) :
  parse text = Ok j -> new_prog g text = Ok p ->
  exists entry ops e,
    jvalue get_str "entryOperator" "" j = Ok entry /\ operators_of g j = Ok ops /\ sfind entry ops = Some e /\
    ((o_ctrl (op_base e) = [] /\ p_entry p = entry /\ shas entry (p_ops p) = true) \/
     (o_ctrl (op_base e) <> [] /\ p_entry p = "" /\ p_ops p = [])).
Proof.
  unfold new_prog. intros P H. rewrite P in H. cbn [rbind] in H.
  destruct (init_cases _ _ _ _ H) as (entry & filter & h & h' & cs & oe & E1 & _ & _ & E & _ & R & Fe & C).
  destruct (read_conns_ok _ _ _ R) as (cs' & rs & _ & _ & Rw). specialize (Rw entry). rewrite Fe in Rw.
  destruct (sfind entry h) as [e|] eqn:F; [|contradiction]. exists entry, h, e. repeat (split; [assumption|]).
  destruct (same_ports_fields _ _ (proj1 Rw)) as (_ & _ & <- & _).
  destruct C as [[C ->]|[C ->]]; [left|right]; cbn [p_ops p_entry]; auto. unfold shas. rewrite Fe. auto.
Qed.

(** a missing entry operator is rejected *)
Theorem C42_missing_rejected (g : string -> junk) (text : string) (j : json) (entry : string)
    (ops : heap) (conns : list connection) (f : smap (list string)) :
  parse text = Ok j ->
  jvalue get_str "entryOperator" "" j = Ok entry -> operators_of g j = Ok ops -> connections_of j = Ok conns ->
  filter_of j = Ok f ->
  sfind entry ops = None -> exists e, new_prog g text = Throw e.
Proof.
  intros P E1 E2 E3 E4 N. unfold new_prog. rewrite P. cbn [rbind]. unfold init. rewrite E1. cbn [rbind].
  destruct (String.eqb entry ""); [eauto|]. rewrite E4. cbn [rbind].
  unfold operators_of in E2. apply rbind_ok in E2 as (xs & -> & E2). cbn [rbind]. rewrite E2. cbn [rbind].
  unfold connections_of in E3. apply rbind_ok in E3 as (cs & -> & E3). cbn [rbind].
  destruct (read_conns_total _ _ E3 ops) as [[h' R]|[e R]]; rewrite R; cbn [rbind]; [|eauto].
  destruct (read_conns_ok _ _ _ R) as (cs' & rs & _ & _ & Rw). specialize (Rw entry). rewrite N in Rw.
  destruct (sfind entry h'); [contradiction|]. eauto.
Qed.

(** an entry operator with control inputs is accepted, whatever the rest of the definition; the
    program created has no operators and rejects every batch *)
Theorem C42_control_inputs_accepted (g : string -> junk) (text : string) (j : json) (entry : string)
    (ops : heap) (conns : list connection) (f : smap (list string)) (e : op) :
  parse text = Ok j ->
  jvalue get_str "entryOperator" "" j = Ok entry -> entry <> "" ->
  operators_of g j = Ok ops -> connections_of j = Ok conns -> filter_of j = Ok f ->
  (exists h, read_conns (jitems match jat "connections" j with Ok x => x | _ => JNull end) ops = Ok h) ->
  sfind entry ops = Some e -> o_ctrl (op_base e) <> [] ->
  exists p, new_prog g text = Ok p /\ p_ops p = [] /\
    forall n batch, fst (receive n p batch) = Throw (RuntimeError "Entry operator was not found").
Proof.
  intros P E1 NE E2 E3 E4 [h R] F C. exists (mkProgram text [] "" []). split.
  - unfold new_prog. rewrite P. cbn [rbind]. unfold init. rewrite E1. cbn [rbind].
    destruct (String.eqb_spec entry ""); [contradiction|]. rewrite E4. cbn [rbind].
    unfold operators_of in E2. apply rbind_ok in E2 as (xs & -> & E2). cbn [rbind]. rewrite E2. cbn [rbind].
    unfold connections_of in E3. apply rbind_ok in E3 as (cs & Ec & E3). rewrite Ec in *. cbn [rbind]. rewrite R. cbn [rbind].
    destruct (read_conns_ok _ _ _ R) as (cs' & rs & _ & _ & Rw). specialize (Rw entry). rewrite F in Rw.
    destruct (sfind entry h) as [e'|]; [|contradiction].
    destruct (same_ports_fields _ _ (proj1 Rw)) as (_ & _ & -> & _). destruct (o_ctrl (op_base e)); [contradiction|reflexivity].
  - split; [reflexivity|]. intros n batch. reflexivity.
Qed.

(** {"entryOperator": "v", "operators": [{"type": "Variable", "id": "v", "value": 1}], "connections": []} *)
Definition variable_definition : json :=
  JObj [("connections", JArr []); ("entryOperator", JStr "v");
        ("operators", JArr [JObj [("id", JStr "v"); ("type", JStr "Variable"); ("value", JInt 1)]])].

Theorem C42_control_inputs_refuted (g : string -> junk) (text : string) :
  parse text = Ok variable_definition ->
  exists ops e p,
    operators_of g variable_definition = Ok ops /\ sfind "v" ops = Some e /\ o_ctrl (op_base e) <> [] /\
    new_prog g text = Ok p /\ forall n batch, exists x, fst (receive n p batch) = Throw x.
Proof.
  intros P. eexists _, _, (mkProgram text [] "" []). split; [reflexivity|]. split; [reflexivity|]. split; [discriminate|].
  split; [unfold new_prog; rewrite P; reflexivity|]. intros n batch. eexists. reflexivity.
Qed.
End C42.

Section C43.
Context {NO : NumOps} {NI : NumInt NO} {JT : JsonText}.

Definition is_rsi (o : op) : bool := match op_kind o with KRSI _ _ _ _ _ => true | _ => false end.

(** ** C43: every operator that can be read, except a RelativeStrengthIndex, is built again from
    what is written of it.  (For a Pipeline this depends on the text of its inner program
    being parsed as what it was printed from.) *)
Theorem C43_round_trip_partial (g : string -> junk) (j : json) (o : op) :
  read_op g j = Ok o -> is_rsi o = false ->
  (forall prog, jat "prog" j = Ok prog -> parse (dump prog) = Ok prog) ->
  exists j', write_op o = Ok j' /\ read_op g j' = Ok o.
Proof.
  intros H R T. destruct (read_op_cases _ _ _ H) as (ty & Et & [(-> & id & prog & _ & E2 & M)|(N & E)]).
  - eapply pipeline_again; eauto.
  - eapply from_json_again; [exact E| |].
    + intros ->. destruct (rsi_kind _ _ _ E) as (? & ? & ? & ? & K). unfold is_rsi in R. rewrite K in R. discriminate.
    + intros ->. eapply function_unreadable; eauto.
Qed.

(** a RelativeStrengthIndex over [n] periods comes back as one over [n + 1] *)
Theorem C43_rsi_refuted (g : string -> junk) (id : string) (n : Z) : 0 <= n < two64 - 2 ->
  exists o j' o',
    read_op g (definition "RelativeStrengthIndex" id [("n", JInt n)]) = Ok o /\
    write_op o = Ok j' /\ j' = definition "RelativeStrengthIndex" id [("n", JInt (n + 1))] /\
    read_op g j' = Ok o' /\ o' <> o.
Proof.
  intros Hn.
  assert (R : forall m, 0 <= m < two64 -> read_op g (definition "RelativeStrengthIndex" id [("n", JInt m)]) =
    (let x := g id in mk_rsi id m (junk_1 x) (junk_2 x) (junk_3 x) (junk_4 x))).
  { intros m Hm. apply read_definition; [discriminate|]. unfold from_json. cbv [String.eqb Ascii.eqb Bool.eqb].
    rewrite definition_id. cbn [rbind]. rewrite def_u64, wrap_id by (reflexivity || lia). reflexivity. }
  assert (M : ip_max (new_port "i1" (wrap (n + 1))) = n + 1).
  { rewrite wrap_id by lia. unfold new_port. cbn. destruct (Z.eqb_spec (n + 1) 0); [lia|reflexivity]. }
  rewrite R by lia. eexists _, _, _. split; [reflexivity|]. split; [eapply write_rsi; reflexivity|]. rewrite M.
  split; [reflexivity|]. rewrite R by lia. split; [reflexivity|].
  intros X. apply (f_equal (fun o => match o_data (op_base o) with [(_, p)] => ip_max p | _ => 0 end)) in X.
  change (ip_max (new_port "i1" (wrap (n + 1 + 1))) = ip_max (new_port "i1" (wrap (n + 1)))) in X.
  rewrite M in X. rewrite wrap_id in X by lia. unfold new_port in X. cbn in X. destruct (Z.eqb_spec (n + 1 + 1) 0); lia.
Qed.

(** a Function cannot be created from a definition at all *)
Theorem C43_function_refuted (g : string -> junk) (j : json) (o : op) :
  jat "type" j = Ok (JStr "Function") -> read_op g j <> Ok o.
Proof.
  intros T H. destruct (read_op_cases _ _ _ H) as (ty & Et & [(-> & _)|(_ & E)]); [congruence|].
  rewrite T in Et. injection Et as <-. eapply function_unreadable; eauto.
Qed.
End C43.

Section C53.
Context {NO : NumOps} {NI : NumInt NO} {JT : JsonText}.

(** ** C53: the operator created is the one described, as long as a Variable starts with a whole
    number in the range of [int] and a TimeShift shifts by less than 2^31 *)
Theorem C53_parameters_partial (g : string -> junk) (id ty : string) (l : list (string * json)) (r : res op) :
  meant id ty l r -> narrow ty l -> read_op g (definition ty id l) = r.
Proof.
  assert (two64 > 2 ^ 31) by reflexivity.
  assert (P32 : forall n, 0 <= n < 2 ^ 31 - 1 -> ports_of (wrap32 n) = Ok (Z.to_nat n)).
  { intros n Hn. rewrite wrap32_id by lia. unfold ports_of. destruct (Z.leb_spec 0 n), (Z.ltb_spec n (2 ^ 31 - 1)); try lia. reflexivity. }
  assert (P64 : forall n, 0 <= n < 2 ^ 31 - 1 -> ports_of (wrap n) = Ok (Z.to_nat n)).
  { intros n Hn. rewrite wrap_id by lia. unfold ports_of. destruct (Z.leb_spec 0 n), (Z.ltb_spec n (2 ^ 31 - 1)); try lia. reflexivity. }
  intros M N. apply read_definition; [intros ->; inversion M|].
  destruct M; unfold from_json; cbv [String.eqb Ascii.eqb Bool.eqb]; rewrite definition_id; cbn [rbind];
    try rewrite def_V; try rewrite def_Vs; try rewrite def_u64 by reflexivity; cbn [rbind]; try rewrite wrap_id by assumption; try reflexivity.
  all: try (unfold definition; rewrite jvalue_jobj; cbn [sfind]; cbv [String.eqb Ascii.eqb Bool.eqb]; cbn [get_int rbind]; rewrite P32 by assumption; reflexivity).
  - rewrite P64 by assumption. reflexivity.
  - cbn in N. destruct N as (z & Hz & ->). unfold definition. rewrite jvalue_jobj. cbn [sfind]. cbv [String.eqb Ascii.eqb Bool.eqb].
    rewrite get_int_V by assumption. reflexivity.
  - cbn in N. unfold definition. rewrite !jvalue_jobj. cbn [sfind]. cbv [String.eqb Ascii.eqb Bool.eqb]. cbn [get_int rbind].
    rewrite !wrap32_id by lia. rewrite wrap_id by lia. reflexivity.
  - cbn in N. unfold definition. rewrite !jvalue_jobj. cbn [sfind]. cbv [String.eqb Ascii.eqb Bool.eqb]. cbn [get_int rbind].
    rewrite !wrap32_id by lia. rewrite wrap_id by lia. reflexivity.
  - unfold definition. rewrite !jvalue_jobj. cbn [sfind]. cbv [String.eqb Ascii.eqb Bool.eqb]. cbn [get_int rbind].
    rewrite !wrap32_id by lia. reflexivity.
Qed.

(** a fraction is lost: a Variable defined to start with any [v] starts with [v] truncated *)
Theorem C53_variable_truncates (g : string -> junk) (id : string) (v : V) (z : Z) :
  vtoT v = Some z -> z < 2 ^ 31 -> read_op g (definition "Variable" id [("value", JNum v)]) = mk_variable id (vofZ z).
Proof.
  intros T L. apply read_definition; [discriminate|]. unfold from_json. cbv [String.eqb Ascii.eqb Bool.eqb]. rewrite definition_id. cbn [rbind].
  unfold definition. rewrite jvalue_jobj. cbn [sfind]. cbv [String.eqb Ascii.eqb Bool.eqb]. cbn [get_int]. unfold int_of_V. rewrite T.
  destruct (Z.ltb_spec z (2 ^ 31)); [reflexivity|lia].
Qed.

(** a shift is taken modulo 2^32: by 2^32 means not at all *)
Theorem C53_timeshift_refuted (g : string -> junk) (id : string) :
  read_op g (definition "TimeShift" id [("dt", JInt (2 ^ 32)); ("times", JInt 1)]) = mk_timeshift id 0 1 /\
  mk_timeshift id 0 1 <> mk_timeshift id (2 ^ 32) 1.
Proof.
  split.
  - apply read_definition; [discriminate|]. unfold from_json. cbv [String.eqb Ascii.eqb Bool.eqb]. rewrite definition_id. reflexivity.
  - intros X. apply Ok_inj in X. apply (f_equal op_kind) in X. injection X as X. discriminate.
Qed.
End C53.

(** the value 5/2 becomes 2 *)
Theorem C53_variable_refuted {JT : @JsonText QcOps} (g : string -> @junk QcOps) (id : string) :
  read_op g (definition "Variable" id [("value", JNum (Q2Qc (5 # 2)))]) = mk_variable id (qc_ofZ 2) /\
  @mk_variable QcOps id (qc_ofZ 2) <> @mk_variable QcOps id (Q2Qc (5 # 2)).
Proof.
  split.
  - apply (C53_variable_truncates (NO := QcOps) g id (Q2Qc (5 # 2)) 2); reflexivity.
  - intros X. apply Ok_inj in X. apply (f_equal op_kind) in X. injection X as X. discriminate.
Qed.

(** ** Examples *)
Section Examples.

(** texts named by what they parse to; [dump] names the only inner program used *)
Definition a_text (j : @json QcOps) (inner : @json QcOps) : JsonText :=
  {| parse := fun s => if String.eqb s "text" then Ok j else if String.eqb s "inner" then Ok inner else Throw parse_error;
     dump := fun _ => "inner" |}.
Definition j0 : string -> @junk QcOps := fun _ => mkJunk 0 (qc_ofZ 7) (qc_ofZ 7) (qc_ofZ 7) (qc_ofZ 7).

Definition obj (l : list (string * @json QcOps)) : @json QcOps := jobj l.
Definition a_conn (a b : string) : @json QcOps := obj [("from", JStr a); ("to", JStr b)].
Definition a_conn_to (a b p : string) : @json QcOps := obj [("from", JStr a); ("to", JStr b); ("toPort", JStr p)].

(** in -> two moving averages -> their difference -> out *)
Definition macd : @json QcOps := obj [
  ("entryOperator", JStr "in");
  ("output", obj [("out", JArr [JStr "o1"])]);
  ("operators", JArr [definition "Input" "in" [("numPorts", JInt 1)];
                      definition "MovingAverage" "ma1" [("n", JInt 1)];
                      definition "MovingAverage" "ma2" [("n", JInt 2)];
                      definition "Minus" "minus" [];
                      definition "Output" "out" [("numPorts", JInt 1)]]);
  ("connections", JArr [a_conn "in" "ma1"; a_conn "in" "ma2"; a_conn_to "ma1" "minus" "i1";
                        a_conn_to "ma2" "minus" "i2"; a_conn "minus" "out"])].

Definition ids_of (r : res (@program QcOps)) : res (list string * string) :=
  match r with
  | Ok p => Ok (skeys (p_ops p), p_entry p)
  | Throw e => Throw e | UB => UB | Diverges => Diverges | OutOfFuel => OutOfFuel
  end.
Definition wires_of (r : res (@program QcOps)) (id port : string) : list (string * string) :=
  match r with Ok p => match sfind id (p_ops p) with Some o => targets o port | None => [] end | _ => [] end.

Example C41_example :
  let p := new_prog (JT := a_text macd JNull) j0 "text" in
  ids_of p = Ok (["in"; "ma1"; "ma2"; "minus"; "out"], "in") /\
  wires_of p "in" "o1" = [("ma1", "i1"); ("ma2", "i1")] /\ wires_of p "ma2" "o1" = [("minus", "i2")] /\
  match p with
  | Ok p => match fst (session 50 p [[("i1", [im 1 10])]; [("i1", [im 2 20])]]) with
            | [Ok a; Ok b] => map (fun x => (fst x, show_om (snd x))) b
            | _ => []
            end
  | _ => []
  end = [("out", [("o1", [(2, 5 # 1)])])].
Proof. vm_compute. repeat split; reflexivity. Qed.

(** a connection to the missing port i3, and one that does not say which input of [minus] it means *)
Definition bad_conn (c : @json QcOps) : @json QcOps := obj [
  ("entryOperator", JStr "in");
  ("operators", JArr [definition "Input" "in" []; definition "Minus" "minus" []]);
  ("connections", JArr [c])].
Example C41_rejected_example :
  let created c := match new_prog (JT := a_text (bad_conn c) JNull) j0 "text" with Ok _ => true | _ => false end in
  map created [a_conn_to "in" "minus" "i3"; a_conn "in" "minus"; a_conn "in" "minuss"; a_conn_to "in" "minus" "i2"] =
  [false; false; false; true].
Proof. vm_compute. reflexivity. Qed.
Example C41_rejected_hypotheses :
  let JT := a_text (bad_conn (a_conn "in" "minus")) JNull in
  match operators_of j0 (bad_conn (a_conn "in" "minus")), connections_of (bad_conn (a_conn "in" "minus")) with
  | Ok ops, Ok [c] => c = mkConn "in" "minus" "" "" /\ skeys ops = ["in"; "minus"]
  | _, _ => False
  end.
Proof. vm_compute. split; reflexivity. Qed.

Example C42_example : let JT := a_text variable_definition JNull in
  ids_of (new_prog j0 "text") = Ok ([], "").
Proof. vm_compute. reflexivity. Qed.
Example C42_missing_example : let JT := a_text (obj [("entryOperator", JStr "x"); ("operators", JArr []); ("connections", JArr [])]) JNull in
  ids_of (new_prog j0 "text") = Throw OutOfRange.
Proof. vm_compute. reflexivity. Qed.

(** a Pipeline around a moving average is written and read again *)
Definition inner_ma : @json QcOps := obj [
  ("operators", JArr [definition "Input" "a" []; definition "MovingAverage" "b" [("n", JInt 3)]]);
  ("connections", JArr [a_conn "a" "b"])].
Definition a_pipe : @json QcOps := obj [("type", JStr "Pipeline"); ("id", JStr "p"); ("prog", inner_ma)].

(** a JSON value without doubles, printed *)
Inductive tree := Leaf (s : string) | Num (z : Z) | Node (l : list (string * tree)).
Fixpoint show_json (j : @json QcOps) : tree :=
  match j with
  | JStr s => Leaf s
  | JInt z => Num z
  | JArr l => Node (map (fun x => ("", show_json x)) l)
  | JObj m => Node (map (fun x => (fst x, show_json (snd x))) m)
  | _ => Leaf "?"
  end.
Definition show_written (r : res (@op QcOps)) : option (bool * tree) :=
  match r with
  | Ok o => match write_op (JT := a_text JNull inner_ma) o with Ok j => Some (is_rsi o, show_json j) | _ => None end
  | _ => None
  end.

Example C43_example : let JT := a_text JNull inner_ma in
  show_written (read_op j0 a_pipe) = Some (false, show_json a_pipe).
Proof. vm_compute. reflexivity. Qed.
Example C43_example_hypothesis : let JT := a_text JNull inner_ma in
  jat "prog" a_pipe = Ok inner_ma /\ parse (dump inner_ma) = Ok inner_ma.
Proof. split; reflexivity. Qed.
(** a negative shift is written modulo 2^64, and that is read as the same shift *)
Example C43_example_shift : let JT := a_text JNull JNull in
  show_written (read_op j0 (definition "TimeShift" "s" [("dt", JInt (-5))])) =
  Some (false, show_json (definition "TimeShift" "s" [("dt", JInt (two64 - 5)); ("times", JInt 1)])) /\
  show_written (read_op j0 (definition "TimeShift" "s" [("dt", JInt (two64 - 5)); ("times", JInt 1)])) =
  show_written (read_op j0 (definition "TimeShift" "s" [("dt", JInt (-5))])).
Proof. vm_compute. split; reflexivity. Qed.

Example C53_example : @meant QcOps "s" "TimeShift" [("dt", JInt 5); ("times", JInt (-2))] (mk_timeshift "s" 5 (-2)) /\
  @narrow QcOps "TimeShift" [("dt", JInt 5); ("times", JInt (-2))] /\
  @narrow QcOps "Variable" [("value", JNum (qc_ofZ 3))].
Proof. split; [constructor; split; reflexivity || discriminate|]. split; [reflexivity|]. cbn. exists 3. split; [split; reflexivity || discriminate|reflexivity]. Qed.
End Examples.

Print Assumptions C41_connect.
Print Assumptions C41_creation.
Print Assumptions C41_rejected.
Print Assumptions C41_delivers.
Print Assumptions C42_accepted_partial.
Print Assumptions C42_missing_rejected.
Print Assumptions C42_control_inputs_accepted.
Print Assumptions C42_control_inputs_refuted.
Print Assumptions C43_round_trip_partial.
Print Assumptions C43_rsi_refuted.
Print Assumptions C43_function_refuted.
Print Assumptions C53_parameters_partial.
Print Assumptions C53_variable_truncates.
Print Assumptions C53_timeshift_refuted.
Print Assumptions C53_variable_refuted.
