(** * Building with Composites is building their operators and wiring them directly *)

From Coq Require Import String ZArith Bool List Lia.
From Verif Require Import Base.StrMap Base.Num Model.Core Model.Ops Model.Make Model.Graph Model.Composite.
From Verif Require Import Spec.Shape Spec.Log Spec.Preserving Spec.Snapshot Spec.Composite.
From Verif Require Import Proofs.Ports Proofs.ShapeP Proofs.MakeP Proofs.Restored Proofs.JsonP Proofs.LogRun Proofs.Conns Proofs.Deep Proofs.CompositeP.
Import ListNotations.
Open Scope string_scope.
Open Scope list_scope.
Open Scope rtbot_scope.

Section Build.
Context {NO : NumOps}.

(** every connection goes to an object *)
Definition linked (w : world) : Prop := forall a o port cs, sfind a (w_ops w) = Some o ->
  In (port, cs) (o_conns (op_base o)) -> Forall (fun c => used w (fst c) = true) cs.
(** the operators of Composites exist *)
Definition owns (w : world) : Prop := forall x k, sfind x (w_comps w) = Some k ->
  (forall a, c_out k = Some a -> shas a (w_ops w) = true) /\ (forall i a, sfind i (c_ops k) = Some a -> shas a (w_ops w) = true).
Definition wok (w : world) : Prop := good (w_comps w) (w_ops w) /\ linked w /\ owns w.

Definition dw (w : world) : world := mkWorld (flat (w_comps w) (w_ops w)) [].

Lemma shas_find {A} k (m : smap A) : shas k m = true -> exists v, sfind k m = Some v.
Proof. unfold shas. destruct (sfind k m); [eauto|discriminate]. Qed.
Lemma find_shas {A} k (m : smap A) v : sfind k m = Some v -> shas k m = true.
Proof. unfold shas. now intros ->. Qed.
Lemma shas_none {A} k (m : smap A) : shas k m = false -> sfind k m = None.
Proof. unfold shas. destruct (sfind k m); [discriminate|auto]. Qed.

Lemma wok_empty : wok (mkWorld [] []).
Proof.
  split; [|split].
  - split; [split; [apply swf_nil|intros ? ?; discriminate]|]. split; intros ? ?; discriminate.
  - intros ? ? ? ?; discriminate.
  - intros ? ?; discriminate.
Qed.

(** ** The flat operators depend on the input operators of the targets *)

Lemma flat_ext comps comps' h : good comps h ->
  (forall d, (forall k, sfind d comps = Some k -> c_in k <> None) -> resolve comps' d = resolve comps d) -> flat comps' h = flat comps h.
Proof.
  intros (W & _ & D) R. unfold flat, smapv. apply map_ext_in. intros [a o] I. cbn [fst snd]. f_equal.
  assert (F : sfind a h = Some o) by (apply In_sfind; [apply W|exact I]). destruct (D _ _ F) as [_ C].
  unfold flat_op. f_equal. unfold flat_conns, smapv. apply map_ext_in. intros [port l] Il. cbn [fst snd]. f_equal.
  apply map_ext_in. intros [d p] Id. cbn [fst snd]. f_equal. apply R.
  specialize (C _ _ Il). rewrite Forall_forall in C. apply (C _ Id).
Qed.

Lemma with_no_conns o : o_conns (op_base o) = [] -> with_conns [] o = o.
Proof. destruct o as [[] k]. cbn. now intros ->. Qed.
Lemma flat_new comps o : o_conns (op_base o) = [] -> flat_op comps o = o.
Proof. intros E. unfold flat_op. rewrite E. now apply with_no_conns. Qed.

Lemma used_none w a : used w a = false -> sfind a (w_ops w) = None /\ sfind a (w_comps w) = None.
Proof. unfold used. intros H. apply orb_false_iff in H as [A B]. split; now apply shas_none. Qed.

Lemma sfind_new {A} a b (v : A) m x : sfind b m = None -> sfind a m = Some x -> sfind a (sset b v m) = Some x.
Proof. intros N F. rewrite sfind_sset. destruct (String.eqb_spec a b); [congruence|exact F]. Qed.
Lemma shas_sset {A} a b (v : A) m : shas a m = true -> shas a (sset b v m) = true.
Proof. unfold shas. rewrite sfind_sset. destruct (String.eqb a b); auto. Qed.

(** ** New objects *)

Lemma put_wok w a o : wok w -> used w a = false -> wf_op o -> o_conns (op_base o) = [] ->
  let w' := mkWorld (sset a o (w_ops w)) (w_comps w) in
  wok w' /\ dw w' = mkWorld (sset a o (w_ops (dw w))) [].
Proof.
  intros (G & L & O) U Wo Co w'. destruct (used_none _ _ U) as [Uo Uc]. split.
  - split; [|split].
    + destruct G as (W & C & D). split; [|split].
      * split; [apply swf_sset, W|]. intros x o'. cbn [w' w_ops]. rewrite sfind_sset. destruct (String.eqb_spec x a); [congruence|apply W].
      * intros x k F. specialize (C _ _ F). unfold comp_ok in *. cbn [w' w_ops]. destruct (c_in k) as [b|]; [|exact C].
        destruct C as (o' & F' & P). exists o'. split; [now apply sfind_new|exact P].
      * cbn [w' w_ops w_comps]. intros x o'. rewrite sfind_sset. destruct (String.eqb_spec x a) as [->|]; [|apply D].
        intros [= <-]. split; [exact Uc|]. unfold conns_ok. rewrite Co. intros ? ? [].
    + intros x o' port cs. cbn [w' w_ops]. rewrite sfind_sset. destruct (String.eqb_spec x a) as [->|].
      * intros [= <-]. rewrite Co. intros [].
      * intros F I. eapply Forall_impl; [|eapply L; eauto]. intros c. cbn beta. unfold used, w'. cbn [w_ops w_comps].
        intros H. apply orb_true_iff in H as [H|H]; [rewrite shas_sset by exact H; reflexivity|rewrite H; apply orb_true_r].
    + intros x k F. destruct (O x k F) as [A B]. cbn [w' w_ops]. split; intros; apply shas_sset; eauto.
  - unfold dw. cbn [w' w_ops w_comps]. now rewrite flat_sset, flat_new.
Qed.

Lemma set_comp_wok w c k' : wok w -> shas c (w_ops w) = false ->
  match sfind c (w_comps w) with Some k => c_in k <> None -> c_in k' = c_in k | None => c_in k' = None end ->
  comp_ok (w_ops w) k' ->
  (forall a, c_out k' = Some a -> shas a (w_ops w) = true) -> (forall i a, sfind i (c_ops k') = Some a -> shas a (w_ops w) = true) ->
  wok (set_comp c k' w) /\ dw (set_comp c k' w) = dw w.
Proof.
  intros (G & L & O) N M K1 K2 K3. pose proof G as (W & C & D).
  split; [split; [|split]|].
  - split; [exact W|split].
    + intros x k. cbn [set_comp w_comps w_ops]. rewrite sfind_sset. destruct (String.eqb_spec x c); [congruence|apply C].
    + cbn [set_comp w_comps w_ops]. intros a o F. destruct (D _ _ F) as [D1 D2]. split.
      * rewrite sfind_sset. destruct (String.eqb_spec a c) as [->|]; [|exact D1]. apply find_shas in F. congruence.
      * intros port cs I. specialize (D2 _ _ I). specialize (L _ _ _ _ F I). rewrite Forall_forall in *. intros t It k.
        specialize (D2 _ It). specialize (L _ It). rewrite sfind_sset. destruct (String.eqb_spec (fst t) c) as [E|]; [|apply D2].
        intros [= <-]. unfold target_ok in D2. rewrite E in D2, L. destruct (sfind c (w_comps w)) as [k|] eqn:Fc.
        -- rewrite M; apply D2; reflexivity.
        -- unfold used in L. rewrite N in L. unfold shas in L. rewrite Fc in L. discriminate.
  - intros a o port cs F I. specialize (L _ _ _ _ F I). eapply Forall_impl; [|exact L]. intros t. cbn beta. unfold used.
    cbn [set_comp w_comps w_ops]. intros H. apply orb_true_iff in H as [H|H]; [now rewrite H|]. rewrite (shas_sset _ _ _ _ H). apply orb_true_r.
  - intros x k. cbn [set_comp w_comps w_ops]. rewrite sfind_sset. destruct (String.eqb_spec x c); [|apply O].
    intros [= <-]. auto.
  - unfold dw. f_equal. apply flat_ext; [exact G|]. intros d T. unfold resolve. cbn [set_comp w_comps w_ops]. rewrite sfind_sset.
    destruct (String.eqb_spec d c) as [->|]; [|reflexivity]. destruct (sfind c (w_comps w)) as [k|]; [|now rewrite M].
    rewrite M; [reflexivity|now apply T].
Qed.

Lemma comp_no_op w c k : wok w -> sfind c (w_comps w) = Some k -> shas c (w_ops w) = false.
Proof.
  intros ((_ & _ & D) & _) F. destruct (shas c (w_ops w)) eqn:E; [|reflexivity]. apply shas_find in E as (o & E). apply D in E. destruct E. congruence.
Qed.

Lemma add_data_ports_spec l : forall b b', add_data_ports l b = Ok b' ->
  o_ctrl b' = o_ctrl b /\ (swf (o_data b) -> swf (o_data b')) /\ (forall x, In x (skeys (o_data b')) <-> In x (skeys (o_data b)) \/ In x l).
Proof.
  induction l as [|p l IH]; cbn [add_data_ports]; intros b b' H; [injection H as <-; cbn; intuition|].
  apply rbind_ok in H as (b1 & E & H). destruct (IH _ _ H) as (I1 & I2 & I3). unfold add_data in E.
  destruct (String.eqb p ""); [discriminate|]. destruct (shas p (o_data b)) eqn:S; [discriminate|].
  destruct (shas p (o_ctrl b)); [discriminate|]. cbn [orb] in E. injection E as <-. cbn [set_data o_ctrl o_data] in *.
  unfold semplace in *. apply shas_none in S. rewrite S in *. split; [exact I1|]. split; [intros; apply I2; now apply swf_sset|].
  intros x. rewrite I3, skeys_sset_In. cbn [In]. intuition.
Qed.
Lemma add_ctrl_ports_spec l : forall b b', add_ctrl_ports l b = Ok b' ->
  o_data b' = o_data b /\ (swf (o_ctrl b) -> swf (o_ctrl b')) /\ (forall x, In x (skeys (o_ctrl b')) <-> In x (skeys (o_ctrl b)) \/ In x l).
Proof.
  induction l as [|p l IH]; cbn [add_ctrl_ports]; intros b b' H; [injection H as <-; cbn; intuition|].
  apply rbind_ok in H as (b1 & E & H). destruct (IH _ _ H) as (I1 & I2 & I3). unfold add_ctrl in E.
  destruct (String.eqb p ""); [discriminate|]. destruct (shas p (o_data b)) eqn:S0; [discriminate|].
  destruct (shas p (o_ctrl b)) eqn:S; [discriminate|]. cbn [orb] in E. injection E as <-. cbn [set_ctrl o_ctrl o_data] in *.
  unfold semplace in *. apply shas_none in S. rewrite S in *. split; [exact I1|]. split; [intros; apply I2; now apply swf_sset|].
  intros x. rewrite I3, skeys_sset_In. cbn [In]. intuition.
Qed.

(** ** Connections *)

Lemma connect_facts src child y out inp src' : connect src child y out inp = Ok (Some src') ->
  exists o i, In i (all_inputs (op_base child)) /\
    src' = with_conns (sset o (match sfind o (o_conns (op_base src)) with Some l => l | None => [] end ++ [(y, i)]) (o_conns (op_base src))) src.
Proof.
  destruct src as [b k]. unfold connect. set (i := if (inp =? "")%string then _ else _). set (o := if (out =? "")%string then _ else _).
  destruct (String.eqb i ""); [discriminate|]. destruct (String.eqb o ""); [discriminate|].
  destruct (sset_mem o (o_outs b)); [|discriminate]. cbn [andb]. destruct (sset_mem i (all_inputs (op_base child))) eqn:M; [|discriminate].
  intros [= <-]. exists o, i. split; [now apply sset_mem_In|reflexivity].
Qed.

Lemma connect_flat comps src child child' y out inp src' :
  skeys (o_data (op_base child')) = skeys (o_data (op_base child)) -> skeys (o_ctrl (op_base child')) = skeys (o_ctrl (op_base child)) ->
  connect src child y out inp = Ok (Some src') ->
  connect (flat_op comps src) child' (resolve comps y) out inp = Ok (Some (flat_op comps src')).
Proof.
  intros Ed Ec. destruct src as [b k]. unfold connect, flat_op, with_conns. cbn [op_base op_kind].
  assert (Ea : all_inputs (op_base child') = all_inputs (op_base child)) by (unfold all_inputs; now rewrite Ed, Ec). rewrite Ea.
  assert (Ei : (if (inp =? "")%string then match all_inputs (op_base child) with [i] => if shas i (o_data (op_base child')) then i else inp | _ => inp end else inp)
     = (if (inp =? "")%string then match all_inputs (op_base child) with [i] => if shas i (o_data (op_base child)) then i else inp | _ => inp end else inp)).
  { destruct (String.eqb inp ""); [|reflexivity]. destruct (all_inputs (op_base child)) as [|i [|? ?]]; try reflexivity. now rewrite (shas_keys i _ _ Ed). }
  rewrite Ei. clear Ei. set (i := if (inp =? "")%string then _ else _). cbn [set_conns o_outs o_conns]. set (o := if (out =? "")%string then _ else _).
  destruct (String.eqb i ""); [discriminate|]. destruct (String.eqb o ""); [discriminate|].
  destruct (sset_mem o (o_outs b) && sset_mem i (all_inputs (op_base child))); [|discriminate]. intros [= <-].
  unfold flat_conns. rewrite sfind_smapv. cbn [op_base op_kind set_conns o_outs o_conns o_id o_data o_ctrl o_toproc].
  rewrite smapv_sset, map_app. cbn [map fst snd]. destruct (sfind o (o_conns b)); reflexivity.
Qed.

Lemma connect_wok w a src child y out inp src' : wok w -> sfind a (w_ops w) = Some src ->
  connect src child y out inp = Ok (Some src') -> used w y = true -> (forall k, sfind y (w_comps w) = Some k -> c_in k <> None) ->
  wok (mkWorld (sset a src' (w_ops w)) (w_comps w)).
Proof.
  intros (G & L & O) F E U T. pose proof G as (W & C & D). apply connect_facts in E as (o & i & _ & ->).
  set (cs := sset o _ _). assert (Q : forall port l, In (port, l) cs -> forall t, In t l -> t = (y, i) \/ exists port' l', In (port', l') (o_conns (op_base src)) /\ In t l').
  { intros port l I t It. apply In_sset in I as [I|I]; [|eauto]. injection I as -> ->. apply in_app_iff in It as [It|[<-|[]]]; [|auto].
    destruct (sfind o (o_conns (op_base src))) as [l'|] eqn:Fo; [|destruct It]. apply sfind_In in Fo. eauto. }
  split; [split; [|split]|split].
  - split; [apply swf_sset, W|]. cbn [w_ops]. intros x o'. rewrite sfind_sset. destruct (String.eqb_spec x a); [|apply W].
    intros [= <-]. pose proof (proj2 W _ _ F) as X. destruct src as [b k]. exact X.
  - cbn [w_ops w_comps]. intros x k Fx. specialize (C _ _ Fx). unfold comp_ok in *. destruct (c_in k) as [b|]; [|exact C].
    destruct C as (ob & Fb & P). destruct (String.eqb_spec b a) as [->|].
    + assert (ob = src) by congruence. subst ob. eexists. rewrite sfind_sset, String.eqb_refl. split; [reflexivity|exact P].
    + exists ob. rewrite sfind_sset. destruct (String.eqb_spec b a); [congruence|auto].
  - cbn [w_ops w_comps]. intros x o'. rewrite sfind_sset. destruct (String.eqb_spec x a) as [->|]; [|apply D].
    destruct (D _ _ F) as [D1 D2]. intros [= <-]. split; [exact D1|]. intros port l I. apply Forall_forall. intros t It.
    destruct (Q _ _ I _ It) as [->|(port' & l' & I' & It')]; [exact T|]. specialize (D2 _ _ I'). rewrite Forall_forall in D2. auto.
  - intros x o' port l. cbn [w_ops]. rewrite sfind_sset. intros Fx I. apply Forall_forall. intros t It.
    assert (X : used w (fst t) = true).
    { destruct (String.eqb_spec x a) as [->|].
      - injection Fx as <-. destruct (Q _ _ I _ It) as [->|(port' & l' & I' & It')]; [exact U|].
        specialize (L _ _ _ _ F I'). rewrite Forall_forall in L. auto.
      - specialize (L _ _ _ _ Fx I). rewrite Forall_forall in L. auto. }
    unfold used in *. cbn [w_ops w_comps]. apply orb_true_iff in X as [X|X]; [now rewrite (shas_sset _ _ _ _ X)|rewrite X; apply orb_true_r].
  - intros x k Fx. cbn [w_ops]. destruct (O x k Fx). split; intros; apply shas_sset; eauto.
Qed.

(** ** Each call *)

Definition in_of (w : world) (x : string) : option string := match sfind x (w_comps w) with Some k => c_in k | None => None end.
Definition out_of (w : world) (x : string) : option string := match sfind x (w_comps w) with Some k => c_out k | None => None end.
Definition op_of (w : world) (x i : string) : option string := match sfind x (w_comps w) with Some k => sfind i (c_ops k) | None => None end.
Definition or_self (x : string) (a : option string) : string := match a with Some a => a | None => x end.

Lemma resolve_in w x : resolve (w_comps w) x = or_self x (in_of w x).
Proof. unfold resolve, in_of. destruct (sfind x (w_comps w)) as [k|]; [|reflexivity]. destruct (c_in k); reflexivity. Qed.

(** each call without the Composite, going by the present state *)
Definition now (w : world) (u : usercall) : list usercall :=
  match u with
  | NewComposite _ => []
  | CreateInput _ a id k => [New a (mk_input id k)]
  | CreateOutput _ a id k => [New a (mk_output id k)]
  | Create _ a _ r => [New a r]
  | Internal c from to out inp => [Connect (or_self from (op_of w c from)) (or_self to (op_of w c to)) out inp]
  | Connect x y out inp => [Connect (or_self x (out_of w x)) (or_self y (in_of w y)) out inp]
  | Send x port m => [Send (or_self x (in_of w x)) port m]
  | New a r => [New a r]
  end.

Definition send_ok (w : world) (u : usercall) : Prop :=
  match u with Send x _ _ => shas x (w_comps w) = true -> in_of w x <> None | _ => True end.

Lemma dw_unused w a : used w a = false -> used (dw w) a = false.
Proof.
  intros U. apply used_none in U as [U _]. unfold used, shas, dw. cbn [w_ops w_comps sfind]. rewrite sfind_flat, U. reflexivity.
Qed.

Lemma created_new o : created o -> wf_op o /\ o_conns (op_base o) = [].
Proof. intros H. split; [apply created_names, H|now apply created_conns]. Qed.

Lemma put_direct n w a o w' : wok w -> created o -> put_op w a o = Ok w' ->
  wok w' /\ usteps n (dw w) [New a (Ok o)] = Ok (dw w', []) /\ w' = mkWorld (sset a o (w_ops w)) (w_comps w).
Proof.
  unfold put_op. intros K Cr H. destruct (used w a) eqn:U; [discriminate|]. injection H as <-.
  destruct (created_new o Cr) as [Wo Co]. destruct (put_wok w a o K U Wo Co) as [K' E]. split; [exact K'|]. split; [|reflexivity].
  cbn [usteps ustep rbind]. unfold put_op. rewrite (dw_unused _ _ U). cbn [rbind fst snd app]. f_equal. f_equal. symmetry. exact E.
Qed.

Lemma ustep_now n w u w' rs : wok w -> library u -> send_ok w u -> ustep n w u = Ok (w', rs) ->
  wok w' /\ usteps n (dw w) (now w u) = Ok (dw w', rs).
Proof.
  intros K Lu Su H. destruct u as [a r|c|c a id k|c a id k|c a id r|c from to out inp|x y out inp|x port m]; cbn [ustep] in H.
  - apply rbind_ok in H as (w1 & E & H). injection H as <- <-. apply rbind_ok in E as (o & -> & E). cbn [library] in Lu.
    destruct (put_direct n w a o w1 K (Lu _ eq_refl) E) as (A & B & _). auto.
  - apply rbind_ok in H as (w1 & E & H). injection H as <- <-. unfold new_composite in E. destruct (used w c) eqn:U; [discriminate|].
    injection E as <-. destruct (used_none _ _ U) as [U1 U2]. cbn [now usteps].
    destruct (set_comp_wok w c (mkComposite (base0 c) [] None None)) as [A B]; auto.
    + unfold shas. now rewrite U1.
    + now rewrite U2.
    + cbn. auto.
    + cbn. discriminate.
    + cbn. discriminate.
    + split; [exact A|]. now rewrite B.
  - apply rbind_ok in H as (w1 & E & H). injection H as <- <-. unfold create_input in E. destruct (sfind c (w_comps w)) as [kc|] eqn:Fc; [|discriminate].
    destruct (shas id (c_ops kc)); [discriminate|]. destruct (c_in kc) as [|] eqn:Ci; [discriminate|].
    apply rbind_ok in E as (o & Eo & E). apply rbind_ok in E as (b1 & E1 & E). apply rbind_ok in E as (b2 & E2 & E). apply rbind_ok in E as (w2 & Ew & E). injection E as <-.
    destruct (put_direct n w a o w2 K (N_input _ _ _ Eo) Ew) as (A & B & Ew2). pose proof (created_new o (N_input _ _ _ Eo)) as [Wo _].
    pose proof (proj1 (proj2 (proj1 K)) _ _ Fc) as Kc. unfold comp_ok in Kc. rewrite Ci in Kc. destruct Kc as [Kd Kt].
    apply add_data_ports_spec in E1 as (P1 & P2 & P3). apply add_ctrl_ports_spec in E2 as (Q1 & Q2 & Q3).
    rewrite Kd in P2, P3. rewrite P1, Kt in Q2, Q3. assert (Wo' : swf (o_data (op_base o)) /\ swf (o_ctrl (op_base o))) by (destruct o; split; apply Wo).
    assert (No : shas c (w_ops w2) = false) by (apply comp_no_op with kc; [exact A|subst w2; exact Fc]).
    destruct (set_comp_wok w2 c (mkComposite b2 (sset id a (c_ops kc)) (Some a) (c_out kc))) as [A' B']; auto.
    + subst w2. cbn [w_comps]. rewrite Fc. congruence.
    + unfold comp_ok. cbn [c_in c_base]. exists o. subst w2. cbn [w_ops]. rewrite sfind_sset, String.eqb_refl. split; [reflexivity|]. split.
      * rewrite Q1. apply ssorted_ext; [apply Wo'|apply P2, swf_nil|]. intros x. rewrite P3. cbn. intuition.
      * apply ssorted_ext; [apply Wo'|apply Q2, swf_nil|]. intros x. rewrite Q3. cbn. intuition.
    + subst w2. cbn [c_out w_ops]. intros b Eb. apply shas_sset. now apply (proj2 (proj2 K) _ _ Fc).
    + subst w2. cbn [c_ops w_ops]. intros i b. rewrite sfind_sset. destruct (String.eqb_spec i id).
      * intros [= <-]. unfold shas. now rewrite sfind_sset, String.eqb_refl.
      * intros Eb. apply shas_sset. apply (proj2 (proj2 K) _ _ Fc) in Eb. exact Eb.
    + split; [exact A'|]. rewrite B'. cbn [now]. rewrite Eo. exact B.
  - apply rbind_ok in H as (w1 & E & H). injection H as <- <-. unfold create_output in E. destruct (sfind c (w_comps w)) as [kc|] eqn:Fc; [|discriminate].
    destruct (shas id (c_ops kc)); [discriminate|]. destruct (c_out kc) as [|] eqn:Ci; [discriminate|].
    apply rbind_ok in E as (o & Eo & E). apply rbind_ok in E as (w2 & Ew & E). injection E as <-.
    destruct (put_direct n w a o w2 K (N_output _ _ _ Eo) Ew) as (A & B & Ew2).
    assert (No : shas c (w_ops w2) = false) by (apply comp_no_op with kc; [exact A|subst w2; exact Fc]).
    set (b := fold_left add_out (o_outs (op_base o)) (c_base kc)). assert (Eb : o_data b = o_data (c_base kc) /\ o_ctrl b = o_ctrl (c_base kc)).
    { unfold b. generalize (c_base kc). induction (o_outs (op_base o)) as [|p l IH]; intros b0; cbn [fold_left]; [auto|]. destruct (IH (add_out b0 p)) as [X Y]. rewrite X, Y. auto. }
    destruct (set_comp_wok w2 c (mkComposite b (sset id a (c_ops kc)) (c_in kc) (Some a))) as [A' B']; auto.
    + subst w2. cbn [w_comps]. rewrite Fc. reflexivity.
    + pose proof (proj1 (proj2 (proj1 A)) c kc) as Kc. rewrite Ew2 in Kc at 1. specialize (Kc Fc). unfold comp_ok in *. cbn [c_in c_base].
      destruct Eb as [-> ->]. exact Kc.
    + subst w2. cbn [c_out w_ops]. intros b' [= <-]. unfold shas. now rewrite sfind_sset, String.eqb_refl.
    + subst w2. cbn [c_ops w_ops]. intros i b'. rewrite sfind_sset. destruct (String.eqb_spec i id).
      * intros [= <-]. unfold shas. now rewrite sfind_sset, String.eqb_refl.
      * intros Eb'. apply shas_sset. apply (proj2 (proj2 K) _ _ Fc) in Eb'. exact Eb'.
    + split; [exact A'|]. rewrite B'. cbn [now]. rewrite Eo. exact B.
  - apply rbind_ok in H as (w1 & E & H). injection H as <- <-. unfold create in E. destruct (sfind c (w_comps w)) as [kc|] eqn:Fc; [|discriminate].
    destruct (shas id (c_ops kc)); [discriminate|].
    apply rbind_ok in E as (o & -> & E). apply rbind_ok in E as (w2 & Ew & E). injection E as <-. cbn [library] in Lu.
    destruct (put_direct n w a o w2 K (Lu _ eq_refl) Ew) as (A & B & Ew2).
    assert (No : shas c (w_ops w2) = false) by (apply comp_no_op with kc; [exact A|subst w2; exact Fc]).
    destruct (set_comp_wok w2 c (mkComposite (c_base kc) (sset id a (c_ops kc)) (c_in kc) (c_out kc))) as [A' B']; auto.
    + subst w2. cbn [w_comps]. rewrite Fc. reflexivity.
    + pose proof (proj1 (proj2 (proj1 A)) c kc) as Kc. rewrite Ew2 in Kc at 1. specialize (Kc Fc). exact Kc.
    + subst w2. cbn [c_out w_ops]. intros b' Eb'. apply shas_sset. now apply (proj2 (proj2 K) _ _ Fc).
    + subst w2. cbn [c_ops w_ops]. intros i b'. rewrite sfind_sset. destruct (String.eqb_spec i id).
      * intros [= <-]. unfold shas. now rewrite sfind_sset, String.eqb_refl.
      * intros Eb'. apply shas_sset. apply (proj2 (proj2 K) _ _ Fc) in Eb'. exact Eb'.
    + split; [exact A'|]. rewrite B'. exact B.
  - apply rbind_ok in H as (w1 & E & H). injection H as <- <-. unfold create_internal in E. destruct (sfind c (w_comps w)) as [kc|] eqn:Fc; [|discriminate].
    destruct (sfind from (c_ops kc)) as [a|] eqn:Fa; [|discriminate]. destruct (sfind to (c_ops kc)) as [b|] eqn:Fb; [|discriminate].
    destruct (sfind a (w_ops w)) as [oa|] eqn:Ha; [|discriminate]. destruct (sfind b (w_ops w)) as [ob|] eqn:Hb; [|discriminate].
    apply rbind_ok in E as ([oa'|] & E & Ew); [|discriminate]. injection Ew as <-.
    destruct (proj2 (proj2 (proj1 K)) _ _ Hb) as [Nb _].
    assert (K' : wok (mkWorld (sset a oa' (w_ops w)) (w_comps w))).
    { eapply connect_wok; eauto; [unfold used, shas; now rewrite Hb|congruence]. }
    split; [exact K'|]. cbn [now usteps ustep]. unfold op_of. rewrite Fc, Fa, Fb. cbn [or_self]. unfold connect_at, child_at. cbn [dw w_comps w_ops sfind].
    rewrite !sfind_flat, Ha, Hb. cbn [option_map]. apply (connect_flat (w_comps w)) with (child' := flat_op (w_comps w) ob) in E; [|reflexivity..].
    assert (Rb : resolve (w_comps w) b = b) by (unfold resolve; now rewrite Nb). rewrite Rb in E. rewrite E. cbn [rbind fst snd app].
    unfold dw. cbn [w_ops w_comps]. now rewrite flat_sset.
  - apply rbind_ok in H as (w1 & E & H). injection H as <- <-. apply rbind_ok in E as ([w2|] & E & Ew); [|discriminate]. injection Ew as ->.
    assert (X : exists a o child, or_self x (out_of w x) = a /\ sfind a (w_ops w) = Some o /\ child_at w y = Some child /\
                exists o', connect o child y out inp = Ok (Some o') /\ w1 = mkWorld (sset a o' (w_ops w)) (w_comps w)).
    { unfold connect_at in E. unfold out_of. destruct (sfind x (w_comps w)) as [kx|].
      - destruct (c_out kx) as [a|]; [|discriminate]. cbn [or_self]. exists a. destruct (sfind a (w_ops w)) as [o|]; [|discriminate].
        destruct (child_at w y) as [child|]; [|discriminate]. apply rbind_ok in E as ([o'|] & E & Ew); [|discriminate]. injection Ew as <-.
        exists o, child. do 3 (split; [reflexivity|]). eauto.
      - cbn [or_self]. exists x. destruct (sfind x (w_ops w)) as [o|]; [|discriminate].
        destruct (child_at w y) as [child|]; [|discriminate]. apply rbind_ok in E as ([o'|] & E & Ew); [|discriminate]. injection Ew as <-.
        exists o, child. do 3 (split; [reflexivity|]). eauto. }
    clear E. destruct X as (a & o & child & Ea & Fo & Fch & o' & E & ->).
    assert (T : used w y = true /\ (forall k, sfind y (w_comps w) = Some k -> c_in k <> None) /\
                exists oy, sfind (resolve (w_comps w) y) (w_ops w) = Some oy /\ skeys (o_data (op_base oy)) = skeys (o_data (op_base child)) /\
                           skeys (o_ctrl (op_base oy)) = skeys (o_ctrl (op_base child))).
    { unfold child_at in Fch. unfold used, shas, resolve. destruct (sfind y (w_comps w)) as [ky|] eqn:Fy.
      - pose proof (proj1 (proj2 (proj1 K)) _ _ Fy) as Ky. unfold comp_ok in Ky. injection Fch as <-. split; [apply orb_true_r|].
        destruct (c_in ky) as [b|] eqn:Cy.
        + split; [congruence|]. exact Ky.
        + exfalso. apply connect_facts in E as (? & i & I & _). unfold all_inputs in I. cbn [op_base] in I. destruct Ky as [Kd Kt]. rewrite Kd, Kt in I. destruct I.
      - rewrite Fch. split; [reflexivity|]. split; [congruence|]. eauto. }
    destruct T as (U & T & oy & Foy & Sd & Sc). split; [eapply connect_wok; eauto|].
    cbn [now usteps ustep]. rewrite Ea, <- resolve_in. unfold connect_at, child_at. cbn [dw w_comps w_ops sfind].
    rewrite !sfind_flat, Fo, Foy. cbn [option_map].
    apply (connect_flat (w_comps w)) with (child' := flat_op (w_comps w) oy) in E; [|exact Sd|exact Sc]. rewrite E. cbn [rbind fst snd app].
    unfold dw. cbn [w_ops w_comps]. now rewrite flat_sset.
  - destruct (used w x) eqn:U; [|discriminate]. destruct (csend (w_comps w) n x port m (w_ops w)) as [r h] eqn:E. injection H as <- <-.
    assert (T : target_ok (w_comps w) (x, port)).
    { intros k F. cbn [fst] in F. cbn [send_ok] in Su. unfold shas, in_of in Su. rewrite F in Su. auto. }
    destruct (csend_flat (w_comps w) n x port m (w_ops w) (proj1 K) T) as [S1 S2]. rewrite E in S1, S2. cbn [fst snd] in S1, S2. split.
    + split; [eapply good_same; eauto; apply K|]. cbn [w_ops w_comps]. split.
      * intros a o p cs F I. destruct (erase_find _ _ _ _ (eq_sym S2) F) as (o' & F' & Eo). rewrite <- (erase_conns o), <- Eo, erase_conns in I.
        pose proof (proj1 (proj2 K) _ _ _ _ F' I) as L. eapply Forall_impl; [|exact L]. intros t. cbn beta. unfold used. cbn [w_ops w_comps].
        assert (Z : forall b, shas b h = shas b (w_ops w)); [|now rewrite Z].
        intros b. apply shas_keys. apply (f_equal skeys) in S2. unfold erase_heap in S2. now rewrite !skeys_smapv in S2.
      * intros b k F. destruct (proj2 (proj2 K) _ _ F) as [O1 O2]. cbn [w_ops].
        assert (Z : forall b, shas b h = shas b (w_ops w)); [|split; intros; rewrite Z; eauto].
        intros b'. apply shas_keys. apply (f_equal skeys) in S2. unfold erase_heap in S2. now rewrite !skeys_smapv in S2.
    + cbn [now usteps ustep]. rewrite <- resolve_in. assert (U' : used (dw w) (resolve (w_comps w) x) = true).
      { unfold used, shas, dw. cbn [w_ops w_comps sfind]. rewrite sfind_flat. unfold resolve. pose proof (proj1 (proj2 (proj1 K)) x) as Kx.
        destruct (sfind x (w_comps w)) as [kx|] eqn:Fx.
        - specialize (Kx _ eq_refl). unfold comp_ok in Kx. specialize (T _ Fx). destruct (c_in kx); [|congruence]. destruct Kx as (o & Fo & _). now rewrite Fo.
        - unfold used, shas in U. rewrite Fx, orb_false_r in U. destruct (sfind x (w_ops w)); [reflexivity|discriminate]. }
      rewrite U'. change (w_comps (dw w)) with (@nil (string * composite)). change (w_ops (dw w)) with (flat (w_comps w) (w_ops w)). rewrite S1. reflexivity.
Qed.

(** ** What a script creates *)

Fixpoint find_in (l : list usercall) (x : string) : option string :=
  match l with
  | [] => None
  | CreateInput c a _ _ :: l' => if String.eqb c x then Some a else find_in l' x
  | _ :: l' => find_in l' x
  end.
Fixpoint find_out (l : list usercall) (x : string) : option string :=
  match l with
  | [] => None
  | CreateOutput c a _ _ :: l' => if String.eqb c x then Some a else find_out l' x
  | _ :: l' => find_out l' x
  end.
Fixpoint find_op (l : list usercall) (x i : string) : option string :=
  match l with
  | [] => None
  | CreateInput c a id _ :: l' | CreateOutput c a id _ :: l' | Create c a id _ :: l' =>
      if String.eqb c x && String.eqb id i then Some a else find_op l' x i
  | _ :: l' => find_op l' x i
  end.

Lemma input_address_find l x : input_address l x = or_self x (find_in l x).
Proof. induction l as [|[] l IH]; cbn; auto. destruct (String.eqb c x); auto. Qed.
Lemma output_address_find l x : output_address l x = or_self x (find_out l x).
Proof. induction l as [|[] l IH]; cbn; auto. destruct (String.eqb c x); auto. Qed.
Lemma inner_address_find l x i : inner_address l x i = or_self i (find_op l x i).
Proof. induction l as [|[] l IH]; cbn; auto; destruct (String.eqb c x && String.eqb id i); auto. Qed.

Definition first (a b : option string) : option string := match a with Some x => Some x | None => b end.

Lemma first_none a : first a None = a.
Proof. destruct a; reflexivity. Qed.

Lemma put_eq w a o w' : put_op w a o = Ok w' -> w' = mkWorld (sset a o (w_ops w)) (w_comps w).
Proof. unfold put_op. destruct (used w a); [discriminate|]. now intros [= <-]. Qed.

Definition tables (w : world) (u : usercall) (w' : world) : Prop := forall x,
  in_of w' x = first (in_of w x) (find_in [u] x) /\ out_of w' x = first (out_of w x) (find_out [u] x) /\
  (forall i, op_of w' x i = first (op_of w x i) (find_op [u] x i)) /\
  (shas x (w_ops w) = true -> shas x (w_ops w') = true) /\
  (shas x (w_comps w') = true -> shas x (w_comps w) = true \/ u = NewComposite x).

Lemma tables_comps w u w' : w_comps w' = w_comps w -> (forall x, find_in [u] x = None /\ find_out [u] x = None /\ forall i, find_op [u] x i = None) ->
  (forall x, shas x (w_ops w) = true -> shas x (w_ops w') = true) -> tables w u w'.
Proof.
  intros E F O x. unfold in_of, out_of, op_of. rewrite E. destruct (F x) as (F1 & F2 & F3). rewrite F1, F2, !first_none.
  do 2 (split; [reflexivity|]). split; [intros i; now rewrite F3, first_none|]. split; [apply O|auto].
Qed.

Lemma tables_set w u c k k' a id : sfind c (w_comps w) = Some k -> c_ops k' = sset id a (c_ops k) -> shas id (c_ops k) = false ->
  (forall x, c_in k' = first (c_in k) (find_in [u] c) /\ c_out k' = first (c_out k) (find_out [u] c) /\
     (x <> c -> find_in [u] x = None /\ find_out [u] x = None)) ->
  (forall x i, find_op [u] x i = if String.eqb c x && String.eqb id i then Some a else None) ->
  forall o, tables w u (set_comp c k' (mkWorld (sset a o (w_ops w)) (w_comps w))).
Proof.
  intros F Ei S Q P o x. destruct (Q x) as (Q1 & Q2 & Q3). unfold in_of, out_of, op_of. cbn [set_comp w_comps w_ops]. rewrite sfind_sset.
  destruct (String.eqb_spec x c) as [->|N].
  - rewrite F. split; [exact Q1|]. split; [exact Q2|]. split.
    + intros i. rewrite Ei, sfind_sset, P, String.eqb_refl. cbn [andb]. rewrite (String.eqb_sym id i). destruct (String.eqb_spec i id) as [->|]; [|now rewrite first_none].
      apply shas_none in S. now rewrite S.
    + split; [apply shas_sset|]. intros _. left. now apply find_shas in F.
  - destruct (Q3 N) as [Z1 Z2]. rewrite Z1, Z2, !first_none. do 2 (split; [reflexivity|]). split.
    + intros i. rewrite P. destruct (String.eqb_spec c x); [congruence|]. cbn [andb]. now rewrite first_none.
    + split; [apply shas_sset|]. unfold shas. rewrite sfind_sset. destruct (String.eqb_spec x c); [congruence|]. auto.
Qed.

Lemma other_none {A} c x (a : A) : x <> c -> (if String.eqb c x then Some a else None) = None.
Proof. intros N. destruct (String.eqb_spec c x); congruence. Qed.

Lemma ustep_tables n w u w' rs : wok w -> send_ok w u -> ustep n w u = Ok (w', rs) -> tables w u w'.
Proof.
  intros K Su H. destruct u as [a r|c|c a id k|c a id k|c a id r|c from to out inp|x y out inp|x port m]; cbn [ustep] in H.
  - apply rbind_ok in H as (w1 & E & H). injection H as <- <-. apply rbind_ok in E as (o & -> & E). apply put_eq in E. subst w1.
    apply tables_comps; [reflexivity|cbn; auto|]. intros x. apply shas_sset.
  - apply rbind_ok in H as (w1 & E & H). injection H as <- <-. unfold new_composite in E. destruct (used w c) eqn:U; [discriminate|].
    injection E as <-. destruct (used_none _ _ U) as [U1 U2]. intros x. unfold in_of, out_of, op_of. cbn [set_comp w_comps w_ops]. rewrite sfind_sset.
    destruct (String.eqb_spec x c) as [->|N].
    + rewrite U2. cbn. do 2 (split; [reflexivity|]). split; [reflexivity|]. split; auto.
    + rewrite !first_none. do 2 (split; [reflexivity|]). split; [intros i; now rewrite first_none|]. split; [auto|].
      unfold shas. rewrite sfind_sset. destruct (String.eqb_spec x c); [congruence|]. auto.
  - apply rbind_ok in H as (w1 & E & H). injection H as <- <-. unfold create_input in E. destruct (sfind c (w_comps w)) as [kc|] eqn:Fc; [|discriminate].
    destruct (shas id (c_ops kc)) eqn:Sh; [discriminate|]. destruct (c_in kc) as [|] eqn:Ci; [discriminate|].
    apply rbind_ok in E as (o & Eo & E). apply rbind_ok in E as (b1 & E1 & E). apply rbind_ok in E as (b2 & E2 & E). apply rbind_ok in E as (w2 & Ew & E). injection E as <-.
    apply put_eq in Ew. subst w2. apply tables_set with kc id; auto. intros x. cbn. rewrite String.eqb_refl, Ci, first_none.
    do 2 (split; [reflexivity|]). intros N. now rewrite other_none.
  - apply rbind_ok in H as (w1 & E & H). injection H as <- <-. unfold create_output in E. destruct (sfind c (w_comps w)) as [kc|] eqn:Fc; [|discriminate].
    destruct (shas id (c_ops kc)) eqn:Sh; [discriminate|]. destruct (c_out kc) as [|] eqn:Ci; [discriminate|].
    apply rbind_ok in E as (o & Eo & E). apply rbind_ok in E as (w2 & Ew & E). injection E as <-.
    apply put_eq in Ew. subst w2. apply tables_set with kc id; auto. intros x. cbn. rewrite String.eqb_refl, Ci, first_none.
    do 2 (split; [reflexivity|]). intros N. now rewrite other_none.
  - apply rbind_ok in H as (w1 & E & H). injection H as <- <-. unfold create in E. destruct (sfind c (w_comps w)) as [kc|] eqn:Fc; [|discriminate].
    destruct (shas id (c_ops kc)) eqn:Sh; [discriminate|].
    apply rbind_ok in E as (o & -> & E). apply rbind_ok in E as (w2 & Ew & E). injection E as <-.
    apply put_eq in Ew. subst w2. apply tables_set with kc id; auto. intros x. cbn. rewrite !first_none. auto.
  - apply rbind_ok in H as (w1 & E & H). injection H as <- <-. unfold create_internal in E. destruct (sfind c (w_comps w)) as [kc|] eqn:Fc; [|discriminate].
    destruct (sfind from (c_ops kc)) as [a|] eqn:Fa; [|discriminate]. destruct (sfind to (c_ops kc)) as [b|] eqn:Fb; [|discriminate].
    destruct (sfind a (w_ops w)) as [oa|] eqn:Ha; [|discriminate]. destruct (sfind b (w_ops w)) as [ob|] eqn:Hb; [|discriminate].
    apply rbind_ok in E as ([oa'|] & E & Ew); [|discriminate]. injection Ew as <-. apply tables_comps; [reflexivity|cbn; auto|]. intros x. apply shas_sset.
  - apply rbind_ok in H as (w1 & E & H). injection H as <- <-. apply rbind_ok in E as ([w2|] & E & Ew); [|discriminate]. injection Ew as ->.
    assert (X : exists a o', w1 = mkWorld (sset a o' (w_ops w)) (w_comps w)).
    { unfold connect_at in E. destruct (sfind x (w_comps w)) as [kx|]; [destruct (c_out kx) as [a|]; [|discriminate]|].
      all: match type of E with match sfind ?z _ with _ => _ end = _ => destruct (sfind z (w_ops w)) as [o|]; [|discriminate] end.
      all: destruct (child_at w y) as [child|]; [|discriminate]; apply rbind_ok in E as ([o'|] & E & Ew); [|discriminate]; injection Ew as <-; eauto. }
    destruct X as (a & o' & ->). apply tables_comps; [reflexivity|cbn; auto|]. intros z. apply shas_sset.
  - destruct (used w x) eqn:U; [|discriminate]. destruct (csend (w_comps w) n x port m (w_ops w)) as [r h] eqn:E. injection H as <- <-.
    assert (T : target_ok (w_comps w) (x, port)).
    { intros k F. cbn [fst] in F. cbn [send_ok] in Su. unfold shas, in_of in Su. rewrite F in Su. auto. }
    destruct (csend_flat (w_comps w) n x port m (w_ops w) (proj1 K) T) as [_ S2]. rewrite E in S2. cbn [fst snd] in S2.
    apply tables_comps; [reflexivity|cbn; auto|]. intros z. cbn [w_ops]. rewrite (shas_keys z h (w_ops w)); [auto|].
    apply (f_equal skeys) in S2. unfold erase_heap in S2. now rewrite !skeys_smapv in S2.
Qed.

(** ** A whole script *)

Lemma find_in_cons u l x : find_in (u :: l) x = first (find_in [u] x) (find_in l x).
Proof. destruct u; cbn; auto. destruct (String.eqb c x); auto. Qed.
Lemma find_out_cons u l x : find_out (u :: l) x = first (find_out [u] x) (find_out l x).
Proof. destruct u; cbn; auto. destruct (String.eqb c x); auto. Qed.
Lemma find_op_cons u l x i : find_op (u :: l) x i = first (find_op [u] x i) (find_op l x i).
Proof. destruct u; cbn; auto; destruct (String.eqb c x && String.eqb id i); auto. Qed.
Lemma first_assoc a b c : first a (first b c) = first (first a b) c.
Proof. destruct a; reflexivity. Qed.
Lemma find_in_app l1 l2 x : find_in (l1 ++ l2) x = first (find_in l1 x) (find_in l2 x).
Proof. induction l1 as [|u l1 IH]; [reflexivity|]. cbn [app]. now rewrite (find_in_cons u (l1 ++ l2)), (find_in_cons u l1), IH, first_assoc. Qed.
Lemma find_out_app l1 l2 x : find_out (l1 ++ l2) x = first (find_out l1 x) (find_out l2 x).
Proof. induction l1 as [|u l1 IH]; [reflexivity|]. cbn [app]. now rewrite (find_out_cons u (l1 ++ l2)), (find_out_cons u l1), IH, first_assoc. Qed.
Lemma find_op_app l1 l2 x i : find_op (l1 ++ l2) x i = first (find_op l1 x i) (find_op l2 x i).
Proof. induction l1 as [|u l1 IH]; [reflexivity|]. cbn [app]. now rewrite (find_op_cons u (l1 ++ l2)), (find_op_cons u l1), IH, first_assoc. Qed.

(** [w] is what the calls [s] have made *)
Definition made_by (s : list usercall) (w : world) : Prop :=
  (forall x, in_of w x = find_in s x /\ out_of w x = find_out s x /\ forall i, op_of w x i = find_op s x i) /\
  (forall x, shas x (w_comps w) = true -> In (NewComposite x) s).

Lemma made_step s u w w' : made_by s w -> tables w u w' -> made_by (s ++ [u]) w'.
Proof.
  intros [M1 M2] T. split; intros x; destruct (T x) as (T1 & T2 & T3 & _ & T5); destruct (M1 x) as (A1 & A2 & A3).
  - rewrite find_in_app, find_out_app, T1, T2, A1, A2. do 2 (split; [reflexivity|]). intros i. now rewrite T3, A3, find_op_app.
  - intros H. apply in_app_iff. destruct (T5 H) as [H'| ->]; [left; auto|right; now left].
Qed.

Definition sends_ok (s1 s2 : list usercall) : Prop := forall before x port m after, s2 = before ++ Send x port m :: after ->
  In (NewComposite x) (s1 ++ before) -> exists a id k, In (CreateInput x a id k) (s1 ++ before).

Lemma find_in_In s x a id k : In (CreateInput x a id k) s -> find_in s x <> None.
Proof.
  induction s as [|u s IH]; [intros []|]. rewrite find_in_cons. intros [->|I].
  - cbn. now rewrite String.eqb_refl.
  - destruct (find_in [u] x); cbn; [discriminate|auto].
Qed.

Lemma sends_head s1 u s2 w : made_by s1 w -> sends_ok s1 (u :: s2) -> send_ok w u.
Proof.
  intros [M1 M2] Q. destruct u as [a r|c|c a id k|c a id k|c a id r|c from to out inp|x y out inp|x port m]; cbn [send_ok]; auto. intros H.
  destruct (Q [] x port m s2 eq_refl) as (a & id & k & I); [rewrite app_nil_r; auto|]. rewrite app_nil_r in I.
  rewrite (proj1 (M1 x)). eapply find_in_In; eauto.
Qed.
Lemma sends_tail s1 u s2 : sends_ok s1 (u :: s2) -> sends_ok (s1 ++ [u]) s2.
Proof.
  intros Q before x port m after E. specialize (Q (u :: before) x port m after). cbn [app] in Q. rewrite E in Q. specialize (Q eq_refl).
  rewrite <- app_assoc. cbn [app]. exact Q.
Qed.

(** what there is stays, and what is not a Composite never becomes one *)
Definition later (w w' : world) : Prop :=
  (forall x a, in_of w x = Some a -> in_of w' x = Some a) /\ (forall x a, out_of w x = Some a -> out_of w' x = Some a) /\
  (forall x i a, op_of w x i = Some a -> op_of w' x i = Some a) /\ (forall x, shas x (w_ops w) = true -> shas x (w_ops w') = true).
Lemma later_refl w : later w w.
Proof. repeat split; auto. Qed.
Lemma later_step w u w1 w2 : tables w u w1 -> later w1 w2 -> later w w2.
Proof.
  intros T (L1 & L2 & L3 & L4). repeat split; intros x; destruct (T x) as (T1 & T2 & T3 & T4 & _).
  - intros a E. apply L1. rewrite T1, E. reflexivity.
  - intros a E. apply L2. rewrite T2, E. reflexivity.
  - intros i a E. apply L3. rewrite T3, E. reflexivity.
  - auto.
Qed.

Lemma usteps_later n s2 : forall s1 w w' rs, wok w -> made_by s1 w -> Forall library s2 -> sends_ok s1 s2 -> usteps n w s2 = Ok (w', rs) ->
  wok w' /\ made_by (s1 ++ s2) w' /\ later w w'.
Proof.
  induction s2 as [|u s2 IH]; intros s1 w w' rs K M L Q H; cbn [usteps] in H.
  - injection H as <- _. rewrite app_nil_r. auto using later_refl.
  - apply rbind_ok in H as ([w1 r1] & E & H). apply rbind_ok in H as ([w2 r2] & E2 & H). cbn [fst snd] in *. injection H as <- _.
    inversion L as [|? ? L1 L2]; subst. pose proof (sends_head _ _ _ _ M Q) as Sk.
    destruct (ustep_now n w u w1 r1 K L1 Sk E) as [K1 _]. pose proof (ustep_tables n w u w1 r1 K Sk E) as T.
    destruct (IH (s1 ++ [u]) w1 w2 r2 K1 (made_step _ _ _ _ M T) L2 (sends_tail _ _ _ Q) E2) as (A & B & C).
    split; [exact A|]. rewrite <- app_assoc in B. split; [exact B|]. eapply later_step; eauto.
Qed.

Lemma connect_targets w x y out inp w1 : wok w -> connect_at w x y out inp = Ok (Some w1) ->
  (out_of w x = None -> shas x (w_ops w) = true) /\ used w y = true /\ (forall k, sfind y (w_comps w) = Some k -> c_in k <> None).
Proof.
  intros K E. unfold connect_at in E.
  assert (X : (out_of w x = None -> shas x (w_ops w) = true) /\ exists o child o', child_at w y = Some child /\ connect o child y out inp = Ok (Some o')).
  { unfold out_of. destruct (sfind x (w_comps w)) as [kx|]; [destruct (c_out kx) as [a|]; [|discriminate]|].
    - split; [discriminate|]. destruct (sfind a (w_ops w)) as [o|]; [|discriminate]. destruct (child_at w y) as [child|]; [|discriminate].
      apply rbind_ok in E as ([o'|] & E & Ew); [|discriminate]. eauto.
    - unfold shas. destruct (sfind x (w_ops w)) as [o|]; [|discriminate]. split; [reflexivity|]. destruct (child_at w y) as [child|]; [|discriminate].
      apply rbind_ok in E as ([o'|] & E & Ew); [|discriminate]. eauto. }
  destruct X as (X & o & child & o' & Ch & C). split; [exact X|]. unfold child_at in Ch. unfold used, shas.
  destruct (sfind y (w_comps w)) as [ky|] eqn:Fy.
  - pose proof (proj1 (proj2 (proj1 K)) _ _ Fy) as Ky. unfold comp_ok in Ky. injection Ch as <-. split; [apply orb_true_r|]. intros k [= <-] Cy. rewrite Cy in Ky.
    apply connect_facts in C as (? & i & I & _). unfold all_inputs in I. cbn [op_base] in I. destruct Ky as [Kd Kt]. rewrite Kd, Kt in I. destruct I.
  - rewrite Ch. split; [reflexivity|congruence].
Qed.

(** going by the whole script is going by the present state *)
Lemma now_directly n l w u w1 r1 wf : wok w -> ustep n w u = Ok (w1, r1) -> send_ok w u -> later w wf -> wok wf -> made_by l wf ->
  directly l u = now w u.
Proof.
  intros K E Sk (L1 & L2 & L3 & L4) Kf [M _].
  assert (Nc : forall x, shas x (w_ops w) = true -> sfind x (w_comps wf) = None).
  { intros x H. apply L4 in H. apply shas_find in H as (o & H). now apply (proj2 (proj2 (proj1 Kf))) in H. }
  assert (Pin : forall x, used w x = true -> (forall k, sfind x (w_comps w) = Some k -> c_in k <> None) -> input_address l x = or_self x (in_of w x)).
  { intros x U T. rewrite input_address_find, <- (proj1 (M x)). destruct (in_of w x) as [a|] eqn:Ex; [now rewrite (L1 _ _ Ex)|].
    unfold in_of in Ex. destruct (sfind x (w_comps w)) as [k|] eqn:Fx; [destruct (T k); auto|].
    unfold used, shas in U. rewrite Fx, orb_false_r in U. unfold in_of. now rewrite (Nc x). }
  destruct u as [a r|c|c a id k|c a id k|c a id r|c from to out inp|x y out inp|x port m]; cbn [directly now]; try reflexivity; cbn [ustep] in E.
  - apply rbind_ok in E as (w2 & E & _). unfold create_internal in E. unfold op_of at 1 2. destruct (sfind c (w_comps w)) as [kc|] eqn:Fc; [|discriminate].
    destruct (sfind from (c_ops kc)) as [a|] eqn:Fa; [|discriminate]. destruct (sfind to (c_ops kc)) as [b|] eqn:Fb; [|discriminate].
    rewrite !inner_address_find, <- !(proj2 (proj2 (M c))). rewrite (L3 c from a), (L3 c to b); [reflexivity| |]; unfold op_of; now rewrite Fc.
  - apply rbind_ok in E as (w2 & E & _). apply rbind_ok in E as ([w3|] & E & Ew).
    2: discriminate Ew.
    destruct (connect_targets _ _ _ _ _ _ K E) as (Ex & U & T). rewrite (Pin _ U T). rewrite output_address_find, <- (proj1 (proj2 (M x))).
    destruct (out_of w x) as [a|] eqn:Ea; [now rewrite (L2 _ _ Ea)|]. unfold out_of. now rewrite (Nc x (Ex eq_refl)).
  - cbn [send_ok] in Sk. destruct (used w x) eqn:U; [|discriminate]. rewrite Pin; auto. intros k F. unfold shas, in_of in Sk. rewrite F in Sk. auto.
Qed.

Lemma usteps_app n l1 : forall w w1 r1 l2 w2 r2, usteps n w l1 = Ok (w1, r1) -> usteps n w1 l2 = Ok (w2, r2) -> usteps n w (l1 ++ l2) = Ok (w2, r1 ++ r2).
Proof.
  induction l1 as [|u l1 IH]; intros w w1 r1 l2 w2 r2 H1 H2; cbn [usteps app] in *; [injection H1 as <- <-; exact H2|].
  apply rbind_ok in H1 as ([wa ra] & E & H1). apply rbind_ok in H1 as ([wb rb] & E2 & H1). cbn [fst snd] in *. injection H1 as <- <-.
  rewrite E. cbn [rbind fst snd]. erewrite IH by eauto. cbn [rbind fst snd]. now rewrite app_assoc.
Qed.

Lemma usteps_direct n l s2 : forall s1 w w' rs, l = s1 ++ s2 -> wok w -> made_by s1 w -> Forall library s2 -> sends_ok s1 s2 ->
  usteps n w s2 = Ok (w', rs) -> usteps n (dw w) (flat_map (directly l) s2) = Ok (dw w', rs).
Proof.
  induction s2 as [|u s2 IH]; intros s1 w w' rs El K M L Q H.
  - injection H as <- <-. reflexivity.
  - destruct (usteps_later n (u :: s2) s1 w w' rs K M L Q H) as (Kf & Mf & Lf). cbn [usteps] in H.
    apply rbind_ok in H as ([w1 r1] & E & H). apply rbind_ok in H as ([w2 r2] & E2 & H). cbn [fst snd] in *. injection H as <- <-.
    inversion L as [|? ? L1 L2]; subst. pose proof (sends_head _ _ _ _ M Q) as Sk.
    destruct (ustep_now n w u w1 r1 K L1 Sk E) as [K1 D1]. pose proof (ustep_tables n w u w1 r1 K Sk E) as T.
    cbn [flat_map]. rewrite (now_directly n _ w u w1 r1 w2 K E Sk Lf Kf Mf). eapply usteps_app; [exact D1|].
    apply IH with (s1 ++ [u]); auto; [now rewrite <- app_assoc|eapply made_step; eauto|now apply sends_tail].
Qed.

Theorem outcomes_direct n l rs : Forall library l -> inputs_first l -> outcomes n l = Ok rs -> outcomes n (direct l) = Ok rs.
Proof.
  intros L I H. unfold outcomes in *. apply rbind_ok in H as ([w r] & H & E). injection E as <-.
  pose proof (usteps_direct n l l [] (mkWorld [] []) w r eq_refl wok_empty) as X. unfold direct.
  change (dw (mkWorld [] [])) with (mkWorld [] []) in X. rewrite X; auto.
  split; [|intros ?; discriminate]. intros x. repeat split.
Qed.
End Build.
