(** * Valid definitions are created: connections and programs *)

From Coq Require Import String Ascii ZArith Bool List Lia.
From Verif Require Import Base.StrMap Base.Num Base.NumInt Model.Core Model.Ops Model.Make Model.Graph Model.Codec Model.Json Model.Factory Model.Schema.
From Verif Require Import Spec.Shape Spec.Log Spec.Definition Spec.Schema.
From Verif Require Import Proofs.Ports Proofs.MakeP Proofs.ShapeP Proofs.JsonP Proofs.SchemaP.
Import ListNotations.
Open Scope string_scope.
Open Scope list_scope.
Open Scope Z_scope.
Open Scope rtbot_scope.

Section New.
Context {NO : NumOps} {SL : SchemaLib} {JT : JsonText}.

Lemma numbered_ne letter n p : letter <> "" -> In p (numbered letter n) -> p <> "".
Proof. intros N I ->. apply (numbered_In (fun k => letter ++ string_of_nat k)%string) in I as (k & _ & E); [|reflexivity]. now destruct letter. Qed.

Lemma outputs_ne x p : In p (outputs x) -> p <> "".
Proof.
  unfold outputs. intros I. repeat match type of I with In _ (match ?s with _ => _ end) => destruct s end;
    solve [eapply numbered_ne; [|exact I]; discriminate|destruct I as [<-|[]]; discriminate].
Qed.

Lemma data_ne x p : In p (data_inputs x) -> p <> "".
Proof.
  unfold data_inputs. intros I. repeat match type of I with In _ (match ?s with _ => _ end) => destruct s end;
    solve [eapply numbered_ne; [|exact I]; discriminate|destruct I as [<-|[]]; discriminate|destruct I as [<-|[<-|[]]]; discriminate].
Qed.

Lemma output_named x o port : fits_definition x o ->
  (names_output port x <-> exists p, output_choice (o_outs (op_base o)) port p).
Proof.
  intros (_ & _ & H). unfold names_output, output_choice. destruct (String.eqb_spec port "") as [->|N].
  - split.
    + intros [p E]. exists p. right. split; [auto|]. split; [now apply (same_one _ _ H)|]. apply (outputs_ne x). rewrite E. now left.
    + intros [p [(X & _)|(_ & E & _)]]; [contradiction|]. exists p. now apply (same_one _ _ H).
  - split.
    + intros I. exists port. left. split; [auto|]. split; [auto|]. now apply H.
    + intros [p [(_ & _ & I)|(X & _)]]; [|contradiction]. now apply H.
Qed.

Lemma input_named x o port : fits_definition x o ->
  (names_input port x <-> exists p, input_choice (skeys (o_data (op_base o))) (skeys (o_ctrl (op_base o))) port p).
Proof.
  intros (D & C & _). unfold names_input, input_choice. destruct (String.eqb_spec port "") as [->|N].
  - split.
    + intros (p & E & Ec). exists p. right. split; [auto|]. split; [now apply (same_one _ _ D)|]. split; [now apply (same_nil _ _ C)|].
      apply (data_ne x). rewrite E. now left.
    + intros [p [(X & _)|(_ & E & Ec & _)]]; [contradiction|]. exists p. split; [now apply (same_one _ _ D)|now apply (same_nil _ _ C)].
  - split.
    + intros I. exists port. left. split; [auto|]. split; [auto|]. now apply (same_app _ _ _ _ port D C).
    + intros [p [(_ & _ & I)|(X & _)]]; [|contradiction]. now apply (same_app _ _ _ _ port D C).
Qed.

Definition read_conn (c : json) : connection :=
  mkConn (text_at "from" c) (text_at "to" c) (text_at "toPort" c) (text_at "fromPort" c).

Lemma valid_conn c : valid connection_schema c = true -> conn_of c = Ok (read_conn c).
Proof.
  intros V. apply valid_object in V as (m & -> & R & P).
  assert (St : forall k y, In k ["from"; "to"; "fromPort"; "toPort"] -> sfind k m = Some y -> exists s, y = JStr s).
  { intros k y I F. assert (Vy : valid SString y = true) by (apply (P k); [|exact F]; cbn in *; intuition congruence).
    destruct y; try discriminate Vy. eauto. }
  destruct (R "from") as [a Fa]; [now left|]. destruct (R "to") as [b Fb]; [right; now left|].
  destruct (St "from" a) as [sa ->]; [now left|exact Fa|]. destruct (St "to" b) as [sb ->]; [right; now left|exact Fb|].
  unfold conn_of, read_conn, text_at. cbn [jindex member jvalue]. rewrite Fa, Fb. cbn [rbind get_str].
  destruct (sfind "toPort" m) as [x|] eqn:Fx.
  - destruct (St "toPort" x) as [sx ->]; [cbn; tauto|exact Fx|]. cbn [rbind get_str].
    destruct (sfind "fromPort" m) as [y|] eqn:Fy; [|reflexivity]. destruct (St "fromPort" y) as [sy ->]; [cbn; tauto|exact Fy|]. reflexivity.
  - cbn [rbind]. destruct (sfind "fromPort" m) as [y|] eqn:Fy; [|reflexivity]. destruct (St "fromPort" y) as [sy ->]; [cbn; tauto|exact Fy|]. reflexivity.
Qed.

Lemma linked_resolves ops h c : holds ops h -> (linked ops c <-> exists ports, resolves h (read_conn c) ports).
Proof.
  intros H. pose proof (H (text_at "from" c)) as Ha. pose proof (H (text_at "to" c)) as Hb. unfold linked, resolves, chooses. cbn [c_from c_to c_fromPort c_toPort read_conn].
  split.
  - intros (a & b & Da & Db & No & Ni). rewrite Da in Ha. rewrite Db in Hb. destruct Ha as (oa & Fa & Ma), Hb as (ob & Fb & Mb).
    apply (output_named _ _ _ Ma) in No as [p Hp]. apply (input_named _ _ _ Mb) in Ni as [q Hq]. exists (p, q), oa, ob. auto.
  - intros ([p q] & oa & ob & Fa & Fb & Cp & Cq).
    destruct (described ops (text_at "from" c)) as [a|]; [|congruence]. destruct (described ops (text_at "to" c)) as [b|]; [|congruence].
    destruct Ha as (oa' & Fa' & Ma), Hb as (ob' & Fb' & Mb). rewrite Fa in Fa'. injection Fa' as <-. rewrite Fb in Fb'. injection Fb' as <-.
    exists a, b. split; [auto|]. split; [auto|]. split; [apply (output_named _ _ _ Ma); eauto|apply (input_named _ _ _ Mb); eauto].
Qed.

Lemma conns_valid l : forallb (valid connection_schema) l = true -> map_res conn_of l = Ok (map read_conn l).
Proof.
  induction l as [|c l IH]; intros V; [reflexivity|]. cbn [forallb] in V. apply andb_prop in V as [V1 V2].
  cbn [map_res map]. rewrite (valid_conn _ V1). cbn [rbind]. now rewrite IH.
Qed.

Lemma connect1_resolves c h : (exists ports, resolves h c ports) -> exists h', connect1 c h = Ok h'.
Proof.
  intros (ports & a & b & Fa & Fb & C). unfold connect1. rewrite Fa, Fb. pose proof (connect_spec a b (c_to c) (c_fromPort c) (c_toPort c) _ eq_refl) as S.
  destruct (connect a b (c_to c) (c_fromPort c) (c_toPort c)) as [[x|]| | | |]; cbn; eauto; exfalso; auto; apply S; eauto.
Qed.

Lemma read_conns_resolve l cs : map_res conn_of l = Ok cs -> forall h, Forall (fun c => exists ports, resolves h c ports) cs ->
  exists h', read_conns l h = Ok h'.
Proof.
  revert cs. induction l as [|x l IH]; intros cs E h F; cbn [read_conns]; [eauto|].
  cbn [map_res] in E. apply rbind_ok in E as (c & Ec & E). apply rbind_ok in E as (cs' & E' & E). injection E as <-.
  inversion F as [|? ? F1 F2]; subst. rewrite Ec. cbn [rbind]. destruct (connect1_resolves _ _ F1) as [h1 E1]. rewrite E1. cbn [rbind].
  apply (IH _ E'). destruct (connect1_ok _ _ _ E1) as (ports & _ & Rw). eapply Forall_impl; [|exact F2].
  intros c' [ports' R]. exists ports'. now apply (resolves_rewired _ _ _ _ _ Rw).
Qed.

Lemma filter_total j : exists f, filter_of j = Ok f.
Proof.
  assert (S : forall l, (exists x, map_res get_str l = Ok x) \/ exists e, map_res get_str l = Throw e).
  { induction l as [|x l IH]; [left; eexists; reflexivity|]. destruct x; try (right; eexists; reflexivity).
    cbn [map_res get_str rbind]. destruct IH as [[y ->]|[e ->]]; [left|right]; eexists; reflexivity. }
  assert (G : forall x, (exists y, get_strs x = Ok y) \/ exists e, get_strs x = Throw e)
    by (intros [| | | | |l|]; try (right; eexists; reflexivity); apply S).
  assert (M : forall m : list (string * json), (exists x, map_res (fun kv => let! l := get_strs (snd kv) in Ok (fst kv, l)) m = Ok x) \/
            exists e, map_res (fun kv => let! l := get_strs (snd kv) in Ok (fst kv, l)) m = Throw e).
  { induction m as [|[k x] m IH]; [left; eexists; reflexivity|]. cbn [map_res fst snd].
    destruct (G x) as [[y ->]|[e ->]]; cbn [rbind]; [|right; eexists; reflexivity].
    destruct IH as [[z ->]|[e ->]]; [left|right]; eexists; reflexivity. }
  unfold filter_of. destruct j as [| | | | | |m]; cbn [jat rbind]; try (eexists; reflexivity).
  destruct (sfind "output" m) as [x|]; cbn [rbind]; [|eexists; reflexivity].
  destruct x as [| | | | | |l]; try (eexists; reflexivity). destruct (M l) as [[y ->]|[e ->]]; eexists; reflexivity.
Qed.

(** what a valid definition consists of *)
Lemma valid_program j : valid program_schema j = true ->
  exists m ops conns, j = JObj m /\ jat "operators" j = Ok (JArr ops) /\ jat "connections" j = Ok (JArr conns) /\
    list_at "operators" j = ops /\ list_at "connections" j = conns /\
    jvalue get_str "entryOperator" "" j = Ok (text_at "entryOperator" j) /\
    forallb (valid (SOneOf (map snd operator_schemas))) ops = true /\ forallb (valid connection_schema) conns = true.
Proof.
  intros V. apply valid_object in V as (m & -> & R & P).
  destruct (R "operators") as [x Fx]; [now left|]. destruct (R "connections") as [y Fy]; [right; now left|].
  destruct (R "entryOperator") as [z Fz]; [right; right; now left|].
  assert (Vx : valid (SArray 0 None (SOneOf (map snd operator_schemas))) x = true) by (apply (P "operators"); [cbn [In]; tauto|exact Fx]).
  assert (Vy : valid (SArray 0 None connection_schema) y = true) by (apply (P "connections"); [cbn [In]; tauto|exact Fy]).
  assert (Vz : valid SString z = true) by (apply (P "entryOperator"); [cbn [In]; tauto|exact Fz]).
  destruct x as [| | | | |ops|]; try discriminate Vx. destruct y as [| | | | |conns|]; try discriminate Vy. destruct z; try discriminate Vz.
  exists m, ops, conns. unfold list_at, text_at. cbn [jat member jvalue]. rewrite Fx, Fy, Fz. repeat (split; [reflexivity|]).
  change (true && true && forallb (valid (SOneOf (map snd operator_schemas))) ops = true) in Vx.
  change (true && true && forallb (valid connection_schema) conns = true) in Vy. auto.
Qed.

(** ** The result of creating a valid definition whose operators are ready *)

Definition good_entry (j : json) (e : json) : Prop :=
  text_at "entryOperator" j <> "" /\ described (list_at "operators" j) (text_at "entryOperator" j) = Some e.

Lemma new_valid g text j : parse text = Ok j -> valid program_schema j = true -> Forall ready (list_at "operators" j) ->
  Forall (linked (list_at "operators" j)) (list_at "connections" j) ->
  forall e, good_entry j e -> control_inputs e = [] ->
  exists p, new_prog g text = Ok p /\ p_entry p = text_at "entryOperator" j /\ p_ops p <> [] /\
    forall id, shas id (p_ops p) = true <-> exists x, In x (list_at "operators" j) /\ text_at "id" x = id.
Proof.
  intros P V R L e [N D] C. destruct (valid_program j V) as (m & ops & conns & Ej & Eo & Ec & Lo & Lc & Ee & Vo & Vc). rewrite Lo, Lc in *.
  unfold new_prog. rewrite P. cbn [rbind]. unfold init. rewrite Ee. cbn [rbind].
  destruct (String.eqb_spec (text_at "entryOperator" j) ""); [contradiction|]. destruct (filter_total j) as [f ->]. cbn [rbind].
  rewrite Eo. cbn [rbind jitems]. destruct (read_ops_valid g ops Vo R []) as (h & -> & H). cbn [rbind].
  rewrite Ec. cbn [rbind jitems].
  assert (Hh : holds ops h) by (intros id; exact (H id)).
  destruct (read_conns_resolve conns _ (conns_valid _ Vc) h) as [h' E'].
  { apply Forall_map. eapply Forall_impl; [|exact L]. intros c Hc. now apply (linked_resolves ops). }
  rewrite E'. cbn [rbind]. pose proof (Hh (text_at "entryOperator" j)) as He. rewrite D in He. destruct He as (o & Fo & Mo).
  destruct (read_conns_ok _ _ _ E') as (cs' & rs & _ & _ & Rw). pose proof (Rw (text_at "entryOperator" j)) as Re. rewrite Fo in Re.
  destruct (sfind (text_at "entryOperator" j) h') as [o'|] eqn:Fo'; [|contradiction].
  destruct (same_ports_fields _ _ (proj1 Re)) as (_ & _ & -> & _). destruct Mo as (_ & Mc & _).
  rewrite C in Mc. assert (X : o_ctrl (op_base o) = []).
  { destruct (o_ctrl (op_base o)) as [|[k v] r]; [reflexivity|]. exfalso. destruct Mc as [_ Mc]. discriminate Mc. }
  rewrite X. eexists. split; [reflexivity|]. split; [reflexivity|]. split; [cbn [p_ops]; intros Y; rewrite Y in Fo'; discriminate|].
  cbn [p_ops]. intros id. specialize (Rw id). specialize (Hh id). unfold shas. split.
  - intros S. destruct (sfind id h') as [a|]; [|discriminate]. destruct (sfind id h) as [b|]; [|contradiction].
    destruct (described ops id) as [x|] eqn:Dx; [|congruence]. apply find_some in Dx as [I Ex]. apply String.eqb_eq in Ex. eauto.
  - intros (x & I & Ex). destruct (described ops id) as [y|] eqn:Dx.
    + destruct Hh as (b & Fb & _). rewrite Fb in Rw. destruct (sfind id h'); [reflexivity|contradiction].
    + exfalso. pose proof (find_none _ _ Dx x I) as Nx. cbn in Nx. rewrite Ex, String.eqb_refl in Nx. discriminate.
Qed.

Lemma read_conns_throw l cs : map_res conn_of l = Ok cs -> forall h e, read_conns l h = Throw e -> e <> parse_error.
Proof.
  revert cs. induction l as [|x l IH]; intros cs E h e; cbn [read_conns]; [discriminate|].
  cbn [map_res] in E. apply rbind_ok in E as (c & Ec & E). apply rbind_ok in E as (cs' & E' & _). rewrite Ec. cbn [rbind].
  destruct (connect1 c h) as [h1|e'| | |] eqn:E1; cbn [rbind]; try discriminate; [now apply (IH _ E')|].
  intros [= <-]. unfold connect1 in E1. destruct (sfind (c_from c) h) as [[b k]|]; [|injection E1 as <-; discriminate].
  destruct (sfind (c_to c) h) as [o|]; [|injection E1 as <-; discriminate]. destruct (connect (Op b k) o (c_to c) (c_fromPort c) (c_toPort c)) as [[a|]|e2| | |] eqn:C; cbn [rbind] in E1; try discriminate E1;
    injection E1 as <-; [discriminate|]. unfold connect in C. cbv zeta in C.
  match type of C with (if ?x then _ else _) = _ => destruct x; [injection C as <-; discriminate|] end.
  match type of C with (if ?x then _ else _) = _ => destruct x; [injection C as <-; discriminate|] end.
  match type of C with (if ?x then _ else _) = _ => destruct x; discriminate end.
Qed.

(** unresolved connections and missing entry operators are exceptions *)
Lemma new_unlinked g text j : parse text = Ok j -> valid program_schema j = true -> Forall ready (list_at "operators" j) ->
  (~ Forall (linked (list_at "operators" j)) (list_at "connections" j) \/ forall e, ~ good_entry j e) ->
  exists e, new_prog g text = Throw e /\ e <> parse_error.
Proof.
  intros P V R B. destruct (valid_program j V) as (m & ops & conns & Ej & Eo & Ec & Lo & Lc & Ee & Vo & Vc). rewrite Lo, Lc in *.
  unfold new_prog. rewrite P. cbn [rbind]. unfold init. rewrite Ee. cbn [rbind].
  destruct (String.eqb_spec (text_at "entryOperator" j) ""); [eexists; split; [reflexivity|discriminate]|]. destruct (filter_total j) as [f ->]. cbn [rbind].
  rewrite Eo. cbn [rbind jitems]. destruct (read_ops_valid g ops Vo R []) as (h & -> & H). cbn [rbind].
  rewrite Ec. cbn [rbind jitems]. assert (Hh : holds ops h) by (intros id; exact (H id)).
  destruct (read_conns_total _ _ (conns_valid _ Vc) h) as [[h' E']|[e E']]; rewrite E'; cbn [rbind];
    [|exists e; split; [reflexivity|eapply read_conns_throw; eauto using conns_valid]].
  destruct (read_conns_ok _ _ _ E') as (cs' & rs & M & F2 & Rw). rewrite (conns_valid _ Vc) in M. injection M as <-.
  destruct B as [B|B].
  - exfalso. apply B. clear - F2 Hh. revert rs F2. induction conns as [|c l IH]; intros rs F2; inversion F2; subst; constructor; eauto.
    apply (linked_resolves ops h c Hh). eauto.
  - specialize (Rw (text_at "entryOperator" j)). specialize (Hh (text_at "entryOperator" j)).
    destruct (described ops (text_at "entryOperator" j)) as [x|] eqn:D.
    + exfalso. apply (B x). split; [auto|]. now rewrite Lo.
    + rewrite Hh in Rw. destruct (sfind (text_at "entryOperator" j) h'); [contradiction|]. eexists; split; [reflexivity|discriminate].
Qed.

End New.
