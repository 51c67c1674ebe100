(** * Facts about program definitions *)

From Coq Require Import String Ascii ZArith Bool List Lia.
From Verif Require Import Base.StrMap Base.Num Base.NumInt Model.Core Model.Ops Model.Make Model.Graph Model.Json
  Spec.Shape Spec.Preserving Spec.Snapshot Spec.Definition Spec.Log Proofs.Ports Proofs.MakeP Proofs.ShapeP.
Import ListNotations.
Open Scope string_scope.
Open Scope list_scope.
Open Scope Z_scope.
Open Scope rtbot_scope.

Section JsonP.
Context {NO : NumOps} {JT : JsonText}.

(** ** Nesting *)

Lemma jdepth_item x j : In x (jitems j) -> (jdepth x <= jdepth j)%nat.
Proof.
  destruct j; cbn [jitems]; try (cbn; intros [<-|[]]; reflexivity); try (intros []).
  - intros H. cbn [jdepth]. apply Nat.le_le_succ_r. induction l as [|y l IH]; [destruct H|].
    cbn. destruct H as [<-|H]; [apply Nat.le_max_l|]. etransitivity; [exact (IH H)|apply Nat.le_max_r].
  - intros H. cbn [jdepth]. apply Nat.le_le_succ_r. induction m as [|[k y] m IH]; [destruct H|].
    cbn. destruct H as [<-|H]; [apply Nat.le_max_l|]. etransitivity; [exact (IH H)|apply Nat.le_max_r].
Qed.

Lemma jat_depth key j x : jat key j = Ok x -> (jdepth x < jdepth j)%nat.
Proof.
  destruct j; try discriminate. cbn [jat]. destruct (sfind key m) eqn:E; [|discriminate]. intros [= <-].
  cbn [jdepth]. apply Nat.lt_succ_r. induction m as [|[k y] m IH]; [discriminate|]. cbn in E |- *.
  destruct (String.eqb key k).
  - injection E as ->. apply Nat.le_max_l.
  - etransitivity; [exact (IH E)|apply Nat.le_max_r].
Qed.

Lemma read_ops_ext f g l : (forall x, In x l -> f x = g x) -> forall h, read_ops f l h = read_ops g l h.
Proof.
  induction l as [|x l IH]; intros E h; cbn [read_ops]; [reflexivity|].
  rewrite (E x) by (now left). destruct (jindex "id" x); cbn; auto. destruct (g x); cbn; auto.
  destruct (get_str a); cbn; auto. apply IH. intros y Hy. apply E. now right.
Qed.

(** the bound on the nesting of Pipelines does not matter as long as it is not reached *)
Lemma read_op_fuel n m g j : (jdepth j < n)%nat -> (jdepth j < m)%nat -> read_op_n n g j = read_op_n m g j.
Proof.
  revert m j. induction n as [|n IH]; intros [|m] j Hn Hm; try lia.
  cbn [read_op_n]. destruct (jat "type" j) as [tj| | | |]; cbn; auto. destruct (get_str tj) as [ty| | | |]; cbn; auto.
  destruct (String.eqb ty "Pipeline"); auto.
  destruct (jat "id" j) as [idj| | | |]; cbn; auto. destruct (get_str idj) as [id| | | |]; cbn; auto.
  destruct (jat "prog" j) as [prog| | | |] eqn:E; cbn; auto. unfold mk_pipeline.
  destruct (jat "operators" prog) as [xs| | | |] eqn:E2; cbn; auto.
  rewrite (read_ops_ext (read_op_n n g) (read_op_n m g)); auto.
  intros x Hx. apply jdepth_item in Hx. apply jat_depth in E. apply jat_depth in E2. apply IH; lia.
Qed.

Lemma read_op_enough n g j : (jdepth j < n)%nat -> read_op_n n g j = read_op g j.
Proof. intros H. apply read_op_fuel; [auto|lia]. Qed.

(** ** Connections *)

Lemma shas_spec {A} k (m : smap A) : shas k m = true <-> In k (skeys m).
Proof.
  unfold shas. induction m as [|[k' v] m IH]; cbn; [split; [discriminate|intros []]|].
  destruct (String.eqb_spec k k') as [->|N]; [split; auto|].
  rewrite IH. split; [auto|]. intros [E|H]; [congruence|auto].
Qed.

Lemma all_inputs_mem b i : sset_mem i (all_inputs b) = true <-> In i (skeys (o_data b) ++ skeys (o_ctrl b)).
Proof. apply sset_mem_In. Qed.

(** what [connect] does, in terms of the ports it means *)
Lemma connect_spec a b id out inp r : connect a b id out inp = r ->
  match r with
  | Ok (Some a') => exists o i, chooses a b out inp (o, i) /\
      a' = Op (set_conns (op_base a) (sset o (targets a o ++ [(id, i)]) (o_conns (op_base a)))) (op_kind a)
  | Ok None | Throw _ => ~ exists ports, chooses a b out inp ports
  | _ => False
  end.
Proof.
  intros <-. destruct a as [ba ka], b as [bb kb]. unfold connect, chooses, all_inputs, targets. cbn [op_base op_kind].
  set (data := skeys (o_data bb)). set (ctrl := skeys (o_ctrl bb)). set (outs := o_outs ba).
  set (o := if (out =? "")%string then _ else _). set (i := if (inp =? "")%string then _ else _).
  assert (Ci : forall p, input_choice data ctrl inp p -> p = i /\ p <> "" /\ In p (data ++ ctrl)).
  { intros p [(N & -> & I)|(-> & D & C & N)].
    - unfold i. destruct (String.eqb_spec inp ""); [congruence|]. auto.
    - unfold i. cbn. rewrite D, C. cbn. split; [|split; [auto|now left]].
      assert (S : shas p (o_data bb) = true).
      { apply shas_spec. fold data. rewrite D. now left. }
      now rewrite S. }
  assert (Co : forall p, output_choice outs out p -> p = o /\ p <> "" /\ In p outs).
  { intros p [(N & -> & I)|(-> & D & N)].
    - unfold o. destruct (String.eqb_spec out ""); [congruence|]. auto.
    - unfold o. cbn. rewrite D. split; [auto|split; [auto|now left]]. }
  assert (Di : i <> "" -> In i (data ++ ctrl) -> input_choice data ctrl inp i).
  { unfold i. destruct (String.eqb_spec inp "") as [->|N]; [|left; auto].
    intros N. destruct (data ++ ctrl) as [|x [|? ?]] eqn:E; [congruence| |congruence].
    destruct (shas x (o_data bb)) eqn:S; [|congruence]. intros _. right. split; [auto|].
    apply shas_spec in S. fold data in S. destruct data as [|y [|? ?]]; [destruct S| |discriminate].
    cbn in E. injection E as -> ->. auto. }
  assert (Do : o <> "" -> In o outs -> output_choice outs out o).
  { unfold o. destruct (String.eqb_spec out "") as [->|N]; [|left; auto].
    intros N. destruct outs as [|x [|? ?]] eqn:E; [congruence| |congruence]. intros _. right. auto. }
  clearbody o i.
  destruct (String.eqb_spec i "") as [->|Ni].
  { intros [[p q] [_ H]]. cbn in H. apply Ci in H as (-> & N & _). congruence. }
  destruct (String.eqb_spec o "") as [->|No].
  { intros [[p q] [H _]]. cbn in H. apply Co in H as (-> & N & _). congruence. }
  destruct (sset_mem o outs) eqn:M1; cbn [andb].
  - destruct (sset_mem i (data ++ ctrl)) eqn:M2.
    + apply sset_mem_In in M1, M2. exists o, i. cbn. auto.
    + intros [[p q] [_ H]]. cbn in H. apply Ci in H as (-> & _ & I). apply sset_mem_In in I. congruence.
  - intros [[p q] [H _]]. cbn in H. apply Co in H as (-> & _ & I). apply sset_mem_In in I. congruence.
Qed.

Lemma chooses_fun a b out inp p q : chooses a b out inp p -> chooses a b out inp q -> p = q.
Proof.
  unfold chooses, output_choice, input_choice. destruct p as [p1 p2], q as [q1 q2]. cbn.
  intros [[(?&?&?)|(?&?&?)] [(?&?&?)|(?&?&?&?)]] [[(?&?&?)|(?&?&?)] [(?&?&?)|(?&?&?&?)]]; congruence.
Qed.

Definition same_ports (o o' : op) : Prop := unwired o' = unwired o.

Lemma same_ports_fields o o' : same_ports o o' ->
  o_outs (op_base o') = o_outs (op_base o) /\ o_data (op_base o') = o_data (op_base o) /\
  o_ctrl (op_base o') = o_ctrl (op_base o) /\ o_id (op_base o') = o_id (op_base o) /\ op_kind o' = op_kind o.
Proof.
  destruct o as [b k], o' as [b' k']. unfold same_ports, unwired. intros [= E1 E2 E3 E4 E5 E6]. cbn. auto.
Qed.

(** the operators of two heaps are the same but for their connections *)
Definition rewired (h h' : heap) (added : string -> string -> list (string * string)) : Prop :=
  forall id, match sfind id h, sfind id h' with
             | Some o, Some o' => same_ports o o' /\ forall port, targets o' port = targets o port ++ added id port
             | None, None => True
             | _, _ => False
             end.

Lemma rewired_refl h : rewired h h (fun _ _ => []).
Proof. intros id. destruct (sfind id h); auto. split; [reflexivity|]. intros port. now rewrite app_nil_r. Qed.

Lemma rewired_trans h1 h2 h3 f g : rewired h1 h2 f -> rewired h2 h3 g -> rewired h1 h3 (fun id port => f id port ++ g id port).
Proof.
  intros H1 H2 id. specialize (H1 id). specialize (H2 id).
  destruct (sfind id h1), (sfind id h2), (sfind id h3); try contradiction; auto.
  destruct H1 as [S1 T1], H2 as [S2 T2]. split; [unfold same_ports in *; congruence|].
  intros port. rewrite T2, T1. now rewrite app_assoc.
Qed.

Lemma resolves_rewired h h' f c ports : rewired h h' f -> (resolves h c ports <-> resolves h' c ports).
Proof.
  intros R. pose proof (R (c_from c)) as Rf. pose proof (R (c_to c)) as Rt. split.
  - intros (a & b & Fa & Fb & H). rewrite Fa in Rf. rewrite Fb in Rt.
    destruct (sfind (c_from c) h') as [a'|] eqn:Fa'; [|contradiction].
    destruct (sfind (c_to c) h') as [b'|] eqn:Fb'; [|contradiction].
    exists a', b'. split; [auto|]. split; [auto|]. unfold chooses in *.
    destruct (same_ports_fields _ _ (proj1 Rf)) as (-> & _). destruct (same_ports_fields _ _ (proj1 Rt)) as (_ & -> & -> & _). auto.
  - intros (a & b & Fa & Fb & H). rewrite Fa in Rf. rewrite Fb in Rt.
    destruct (sfind (c_from c) h) as [a'|] eqn:Fa'; [|contradiction].
    destruct (sfind (c_to c) h) as [b'|] eqn:Fb'; [|contradiction].
    exists a', b'. split; [auto|]. split; [auto|]. unfold chooses in *.
    destruct (same_ports_fields _ _ (proj1 Rf)) as (<- & _). destruct (same_ports_fields _ _ (proj1 Rt)) as (_ & <- & <- & _). auto.
Qed.

Lemma connect1_ok c h h' : connect1 c h = Ok h' ->
  exists ports, resolves h c ports /\ rewired h h' (fun id port => listed id port [(c, ports)]).
Proof.
  unfold connect1. destruct (sfind (c_from c) h) as [a|] eqn:Fa; [|discriminate].
  destruct (sfind (c_to c) h) as [b|] eqn:Fb; [|discriminate]. intros H.
  apply rbind_ok in H as ([a'|] & H & E); [|discriminate]. injection E as <-.
  destruct (connect_spec _ _ _ _ _ _ H) as (o & i & C & ->).
  exists (o, i). split; [exists a, b; auto|]. intros id. rewrite sfind_sset. unfold listed. cbn [filter map fst snd].
  rewrite String.eqb_sym. destruct (String.eqb_spec (c_from c) id) as [<-|N].
  - rewrite Fa. cbn [andb]. destruct a as [ba ka]. cbn [op_base op_kind]. split; [reflexivity|].
    intros port. unfold targets. cbn [op_base set_conns o_conns]. rewrite sfind_sset, String.eqb_sym.
    destruct (String.eqb_spec o port) as [<-|M]; [reflexivity|]. now rewrite app_nil_r.
  - destruct (sfind id h); auto. cbn [andb]. split; [reflexivity|]. intros port. cbn. now rewrite app_nil_r.
Qed.

Lemma connect1_total c h : (exists h', connect1 c h = Ok h') \/ (exists e, connect1 c h = Throw e).
Proof.
  unfold connect1. destruct (sfind (c_from c) h) as [a|]; [|eauto]. destruct (sfind (c_to c) h) as [b|]; [|eauto].
  pose proof (connect_spec a b (c_to c) (c_fromPort c) (c_toPort c) _ eq_refl) as S.
  destruct (connect a b (c_to c) (c_fromPort c) (c_toPort c)) as [[x|]| | | |]; cbn; eauto; contradiction.
Qed.

Lemma listed_cons id port x l : listed id port (x :: l) = listed id port [x] ++ listed id port l.
Proof. unfold listed. cbn [filter]. destruct (_ && _); reflexivity. Qed.

Lemma Forall2_rewired h h' f cs rs : rewired h h' f -> Forall2 (resolves h') cs rs -> Forall2 (resolves h) cs rs.
Proof. intros R. induction 1; constructor; auto. now apply (resolves_rewired h h' f). Qed.

Lemma rewired_ext h h' f g : (forall id port, f id port = g id port) -> rewired h h' f -> rewired h h' g.
Proof.
  intros E R id. specialize (R id). destruct (sfind id h), (sfind id h'); auto.
  destruct R as [A B]. split; auto. intros port. rewrite <- E. apply B.
Qed.

Lemma read_conns_ok l : forall h h', read_conns l h = Ok h' ->
  exists cs rs, map_res conn_of l = Ok cs /\ Forall2 (resolves h) cs rs /\
    rewired h h' (fun id port => listed id port (combine cs rs)).
Proof.
  induction l as [|x l IH]; intros h h' H; cbn [read_conns] in H.
  - injection H as <-. exists [], []. split; [reflexivity|]. split; [constructor|]. apply rewired_refl.
  - apply rbind_ok in H as (c & E & H). apply rbind_ok in H as (h1 & E1 & H).
    destruct (connect1_ok _ _ _ E1) as (ports & Rs & Rw). destruct (IH _ _ H) as (cs & rs & M & F & W).
    exists (c :: cs), (ports :: rs). cbn [map_res]. rewrite E. cbn. rewrite M. split; [reflexivity|].
    split; [constructor; [exact Rs|eapply Forall2_rewired; eauto]|].
    eapply rewired_ext; [|exact (rewired_trans _ _ _ _ _ Rw W)]. intros id port.
    symmetry. exact (listed_cons id port (c, ports) (combine cs rs)).
Qed.

Lemma read_conns_total l cs : map_res conn_of l = Ok cs ->
  forall h, (exists h', read_conns l h = Ok h') \/ (exists e, read_conns l h = Throw e).
Proof.
  revert cs. induction l as [|x l IH]; intros cs H h; cbn [read_conns]; [eauto|].
  cbn [map_res] in H. apply rbind_ok in H as (c & E & H). apply rbind_ok in H as (cs' & E' & _).
  rewrite E. cbn. destruct (connect1_total c h) as [[h1 ->]|[e ->]]; cbn; eauto.
Qed.

Lemma read_conns_swf l : forall h h', read_conns l h = Ok h' -> swf h -> swf h' /\ skeys h' = skeys h.
Proof.
  induction l as [|x l IH]; intros h h' H W; cbn [read_conns] in H; [injection H as <-; auto|].
  apply rbind_ok in H as (c & E & H). apply rbind_ok in H as (h1 & E1 & H).
  unfold connect1 in E1. destruct (sfind (c_from c) h) as [a|] eqn:Fa; [|discriminate].
  destruct (sfind (c_to c) h) as [b|]; [|discriminate].
  apply rbind_ok in E1 as ([a'|] & _ & E1); [|discriminate]. injection E1 as <-.
  assert (K : skeys (sset (c_from c) a' h) = skeys h) by (apply skeys_sset_existing; auto; unfold shas; now rewrite Fa).
  destruct (IH _ _ H) as [W' K']; [apply (swf_keys h); auto|]. split; auto. congruence.
Qed.

Lemma read_ops_swf f l : forall h h', read_ops f l h = Ok h' -> swf h -> swf h'.
Proof.
  induction l as [|x l IH]; intros h h' H W; cbn [read_ops] in H; [injection H as <-; auto|].
  apply rbind_ok in H as (idj & _ & H). apply rbind_ok in H as (o & _ & H). apply rbind_ok in H as (id & _ & H).
  eapply IH; eauto. now apply swf_semplace.
Qed.

(** ** Operators *)

Lemma simple_kind id max k o : mk_simple id max k = Ok o -> op_kind o = k.
Proof. unfold mk_simple, simple_base. intros H. apply rbind_ok in H as (b & _ & H). now injection H as <-. Qed.

Lemma mk_kinds o :
  (forall id n, mk_input id n = Ok o -> type_name (op_kind o) = "Input") /\
  (forall id n, mk_output id n = Ok o -> type_name (op_kind o) = "Output") /\
  (forall id n, mk_join id n = Ok o -> type_name (op_kind o) = "Join") /\
  (forall id n, mk_demux id n = Ok o -> type_name (op_kind o) = "Demultiplexer") /\
  (forall id f, mk_binary id f = Ok o -> op_kind o = KBinary f) /\
  (forall id c, mk_linear id c = Ok o -> op_kind o = KLinear c) /\
  (forall id v, mk_variable id v = Ok o -> op_kind o = KVariable v false).
Proof.
  unfold mk_input, mk_output, mk_join, mk_demux, mk_binary, mk_linear, mk_variable.
  repeat split; intros.
  - apply rbind_ok in H as (b & _ & H). now injection H as <-.
  - apply rbind_ok in H as (b & _ & H). now injection H as <-.
  - destruct (Nat.ltb n 2); [discriminate|]. apply rbind_ok in H as (b & _ & H). now injection H as <-.
  - destruct (Nat.ltb n 1); [discriminate|]. apply rbind_ok in H as (b & _ & H). apply rbind_ok in H as (b' & _ & H). now injection H as <-.
  - apply rbind_ok in H as (b & _ & H). now injection H as <-.
  - destruct (Nat.ltb (length c) 2); [discriminate|]. apply rbind_ok in H as (b & _ & H). now injection H as <-.
  - apply rbind_ok in H as (b & _ & H). apply rbind_ok in H as (b' & _ & H). now injection H as <-.
Qed.

Ltac split_type H :=
  repeat match type of H with
  | (if String.eqb ?a ?b then _ else _) = _ =>
      let N := fresh in destruct (String.eqb_spec a b) as [->|N]; [|clear N || idtac]
  end;
  try discriminate H;
  try (let H' := fresh in
       assert (H' := f_equal (fun x => match x with Some y => y | None => UB end) H); cbv beta iota in H'; clear H;
       rename H' into H);
  repeat match type of H with rbind _ _ = Ok _ => apply rbind_ok in H as (? & ? & H) end.

Ltac is_created E := match type of E with
  | mk_input _ _ = _ => exact (N_input _ _ _ E)
  | mk_output _ _ = _ => exact (N_output _ _ _ E)
  | mk_demux _ _ = _ => exact (N_demux _ _ _ E)
  | mk_join _ _ = _ => exact (N_join _ _ _ E)
  | mk_cosine _ _ = _ => exact (N_cosine _ _ _ E)
  | mk_hermite _ _ = _ => exact (N_hermite _ _ _ E)
  | mk_movavg _ _ = _ => exact (N_movavg _ _ _ E)
  | mk_stddev _ _ = _ => exact (N_stddev _ _ _ E)
  | mk_peak _ _ = _ => exact (N_peak _ _ _ E)
  | mk_rsi _ _ _ _ _ _ = _ => exact (N_rsi _ _ _ _ _ _ _ E)
  | mk_constres _ _ _ _ = _ => exact (N_constres _ _ _ _ _ E)
  | mk_fir _ _ = _ => exact (N_fir _ _ _ E)
  | mk_linear _ _ = _ => exact (N_linear _ _ _ E)
  | mk_autoreg _ _ = _ => exact (N_autoreg _ _ _ E)
  | mk_binary _ _ = _ => exact (N_binary _ _ _ E)
  | mk_filter _ _ _ = _ => exact (N_filter _ _ _ _ E)
  | mk_scale _ _ = _ => exact (N_scale _ _ _ E)
  | mk_constant _ _ = _ => exact (N_constant _ _ _ E)
  | mk_add _ _ = _ => exact (N_add _ _ _ E)
  | mk_power _ _ = _ => exact (N_power _ _ _ E)
  | mk_cumsum _ = _ => exact (N_cumsum _ _ E)
  | mk_count _ = _ => exact (N_count _ _ E)
  | mk_difference _ _ = _ => exact (N_difference _ _ _ E)
  | mk_identity _ = _ => exact (N_identity _ _ E)
  | mk_variable _ _ = _ => exact (N_variable _ _ _ E)
  | mk_timeshift _ _ _ = _ => exact (N_timeshift _ _ _ _ E)
  | mk_function _ _ _ = _ => exact (N_function _ _ _ _ E)
  end.

Lemma from_json_created g ty j o : from_json g ty j = Some (Ok o) -> created o.
Proof. unfold from_json. intros H. split_type H. all: is_created H. Qed.

(** ** Reading back what was written *)

Lemma sfind_fold_emplace {A} k l : forall m : smap A,
  sfind k (fold_left (fun m x => semplace (fst x) (snd x) m) l m) =
  match sfind k m with Some x => Some x | None => sfind k l end.
Proof.
  induction l as [|[k' v] l IH]; intros m; cbn [fold_left fst snd sfind]; [now destruct (sfind k m)|].
  rewrite IH, sfind_semplace. destruct (sfind k m); auto. now destruct (String.eqb k k').
Qed.

Lemma sfind_jobj k l : match jobj l with JObj m => sfind k m = sfind k l | _ => False end.
Proof. unfold jobj. now rewrite sfind_fold_emplace. Qed.

Lemma jindex_jobj k l : jindex k (jobj l) = match sfind k l with Some x => Ok x | None => UB end.
Proof. unfold jindex. pose proof (sfind_jobj k l) as E. destruct (jobj l); try contradiction. now rewrite E. Qed.
Lemma jat_jobj k l : jat k (jobj l) = match sfind k l with Some x => Ok x | None => Throw (JsonError "out_of_range") end.
Proof. unfold jat. pose proof (sfind_jobj k l) as E. destruct (jobj l); try contradiction. now rewrite E. Qed.
Lemma jvalue_jobj {A} (get : json -> res A) k d l :
  jvalue get k d (jobj l) = match sfind k l with Some x => get x | None => Ok d end.
Proof. unfold jvalue. pose proof (sfind_jobj k l) as E. destruct (jobj l); try contradiction. now rewrite E. Qed.

Lemma definition_id ty id l : id_of (definition ty id l) = Ok id.
Proof. unfold id_of, definition. now rewrite jindex_jobj. Qed.

Lemma read_definition g ty id l r : ty <> "Pipeline" -> from_json g ty (definition ty id l) = Some r ->
  read_op g (definition ty id l) = r.
Proof.
  intros N E. unfold read_op. cbn [read_op_n].
  assert (T : jat "type" (definition ty id l) = Ok (JStr ty)) by (unfold definition; now rewrite jat_jobj).
  rewrite T. cbn. destruct (String.eqb_spec ty "Pipeline"); [contradiction|]. now rewrite E.
Qed.

Context {NI : NumInt NO}.

Lemma wrap_id z : 0 <= z < two64 -> wrap z = z.
Proof. intros H. unfold wrap. now apply Z.mod_small. Qed.
Lemma wrap_range z : 0 <= wrap z < two64.
Proof. unfold wrap. apply Z.mod_pos_bound. reflexivity. Qed.

Lemma wrap32_range z : - 2 ^ 31 <= wrap32 z < 2 ^ 31.
Proof. unfold wrap32. pose proof (Z.mod_pos_bound (z + 2 ^ 31) (2 ^ 32) eq_refl). lia. Qed.
Lemma wrap32_id z : - 2 ^ 31 <= z < 2 ^ 31 -> wrap32 z = z.
Proof. intros H. unfold wrap32. rewrite Z.mod_small by lia. lia. Qed.
Lemma wrap32_wrap z : - 2 ^ 31 <= z < 2 ^ 31 -> wrap32 (wrap z) = z.
Proof.
  intros H. unfold wrap32, wrap.
  assert (E : (z mod two64 + 2 ^ 31) mod 2 ^ 32 = (z + 2 ^ 31) mod 2 ^ 32).
  { rewrite (Zplus_mod (z mod two64)), (Zplus_mod z). f_equal. f_equal.
    change two64 with (2 ^ 32 * 2 ^ 32). rewrite Z.rem_mul_r by lia.
    rewrite Z.add_mod by lia. rewrite Z.mul_comm, Z.mod_mul, Z.add_0_r by lia. rewrite !Z.mod_mod by lia. reflexivity. }
  rewrite E. rewrite Z.mod_small by lia. lia.
Qed.

Lemma get_u64_range j z : get_u64 j = Ok z -> 0 <= z < two64.
Proof.
  destruct j; try discriminate; cbn.
  - intros [= <-]. apply wrap_range.
  - destruct (vtoT v) eqn:E; [|discriminate]. intros [= <-]. eapply vtoT_range; eauto.
Qed.

Lemma get_int_range j z : get_int j = Ok z -> - 2 ^ 31 <= z < 2 ^ 31.
Proof.
  destruct j; try discriminate; cbn [get_int].
  - intros [= <-]. destruct b; lia.
  - intros [= <-]. apply wrap32_range.
  - unfold int_of_V. destruct (vtoT v) as [x|] eqn:E.
    + destruct (x <? 2 ^ 31) eqn:L; [|discriminate]. intros [= <-]. apply vtoT_range in E. lia.
    + destruct (vtoT (vneg v)) as [x|] eqn:E'; [|discriminate]. destruct (x <=? 2 ^ 31) eqn:L; [|discriminate].
      intros [= <-]. apply vtoT_range in E'. lia.
Qed.

Lemma get_int_V z : - 2 ^ 31 <= z < 2 ^ 31 -> get_int (JNum (vofZ z)) = Ok z.
Proof.
  intros H. cbn [get_int]. unfold int_of_V. destruct (Z.ltb_spec z 0).
  - destruct (vtoT_neg z) as [-> ->]; [lia|]. destruct (Z.leb_spec (- z) (2 ^ 31)); [|lia]. f_equal. lia.
  - rewrite vtoT_int by lia. destruct (Z.ltb_spec z (2 ^ 31)); [auto|lia].
Qed.

Lemma jvalue_int_range key d j z : - 2 ^ 31 <= d < 2 ^ 31 -> jvalue get_int key d j = Ok z -> - 2 ^ 31 <= z < 2 ^ 31.
Proof.
  intros Hd. destruct j; try discriminate. cbn [jvalue]. destruct (sfind key m); [apply get_int_range|].
  now intros [= <-].
Qed.

Lemma u64_range key j z : u64_of key j = Ok z -> 0 <= z < two64.
Proof. unfold u64_of. intros H. apply rbind_ok in H as (x & _ & H). eapply get_u64_range; eauto. Qed.

Lemma get_Vs_nums c : get_Vs (JArr (map JNum c)) = Ok c.
Proof. cbn [get_Vs]. induction c as [|v c IH]; cbn [map map_res get_V]; [reflexivity|]. cbn. now rewrite IH. Qed.

(** the size of a port, read again, gives the same port *)
Lemma max_again port n : 0 <= n < two64 ->
  new_port port (wrap (ip_max (new_port port n))) = new_port port n.
Proof.
  intros H. unfold new_port. cbn [ip_max]. destruct (Z.eqb_spec n 0) as [->|N].
  - reflexivity.
  - rewrite wrap_id by lia. destruct (Z.eqb_spec n 0); [lia|reflexivity].
Qed.

Lemma length_sset_new {A} k (v : A) m : sfind k m = None -> length (sset k v m) = S (length m).
Proof.
  induction m as [|[k' v'] m IH]; cbn; [reflexivity|]. destruct (String.eqb k k'); [discriminate|].
  intros H. destruct (sltb k k'); cbn; [reflexivity|]. now rewrite IH.
Qed.

Lemma add_data_length b port max b' : add_data b port max = Ok b' -> length (o_data b') = S (length (o_data b)) /\ o_outs b' = o_outs b.
Proof.
  unfold add_data. destruct (String.eqb port ""); [discriminate|]. destruct (shas port (o_data b)) eqn:E; [discriminate|].
  destruct (shas port (o_ctrl b)); [discriminate|]. intros [= <-]. cbn. split; [|auto].
  unfold shas in E. unfold semplace. destruct (sfind port (o_data b)) eqn:F; [discriminate|]. now apply length_sset_new.
Qed.

Lemma add_ports_length max outs ks : forall b b', add_ports ks max outs b = Ok b' ->
  length (o_data b') = (length ks + length (o_data b))%nat.
Proof.
  induction ks as [|k ks IH]; intros b b' H; cbn [add_ports] in H; [injection H as <-; auto|].
  apply rbind_ok in H as (b1 & E & H). apply IH in H. destruct (add_data_length _ _ _ _ E) as [L _].
  rewrite H. destruct outs; cbn [o_data add_out set_outs] in *; cbn [length]; lia.
Qed.

Lemma sset_add_length k s : ~ In k s -> length (sset_add k s) = S (length s).
Proof.
  induction s as [|k' s IH]; cbn; [reflexivity|]. intros N. destruct (String.eqb_spec k k'); [subst; tauto|].
  destruct (sltb k k'); cbn; [reflexivity|]. rewrite IH; tauto.
Qed.

Lemma add_ctrls_length ks : forall b b', NoDup ks -> (forall k, In k ks -> ~ In (oport k) (o_outs b)) ->
  add_ctrls ks b = Ok b' -> length (o_outs b') = (length ks + length (o_outs b))%nat.
Proof.
  induction ks as [|k ks IH]; intros b b' ND F H; cbn [add_ctrls] in H; [injection H as <-; auto|].
  apply rbind_ok in H as (b1 & E & H). inversion ND; subst.
  assert (O : o_outs b1 = o_outs b).
  { unfold add_ctrl in E. destruct (String.eqb _ ""); [discriminate|]. destruct (_ || _); [discriminate|]. injection E as <-. reflexivity. }
  apply IH in H; auto.
  - rewrite H. cbn [add_out set_outs o_outs]. rewrite sset_add_length; [rewrite O; cbn; lia|]. rewrite O. apply F. now left.
  - intros x Hx. cbn [add_out set_outs o_outs]. rewrite sset_add_In. rewrite O. intros [C|C].
    + apply oport_inj in C. now subst.
    + apply (F x); [now right|auto].
Qed.

Lemma ports_again z n : ports_of z = Ok n -> ports_of (wrap32 (Z.of_nat n)) = Ok n /\ ports_of (wrap (Z.of_nat n)) = Ok n.
Proof.
  unfold ports_of. destruct (0 <=? z) eqn:A; [|discriminate]. destruct (z <? 2 ^ 31 - 1) eqn:B; [|discriminate].
  cbn [andb]. intros [= <-]. rewrite Z2Nat.id by lia. rewrite wrap32_id by lia.
  assert (2 ^ 31 < two64) by reflexivity. rewrite wrap_id by lia.
  destruct (0 <=? z) eqn:A'; [|lia]. destruct (z <? 2 ^ 31 - 1) eqn:B'; [|lia]. auto.
Qed.

Lemma Ok_inj {A} (x y : A) : Ok x = Ok y -> x = y.
Proof. now intros [= ->]. Qed.


(** what is written of a new operator *)
Lemma write_simple id max k l : members (mkBase id [("i1", new_port "i1" max)] [] ["o1"] [] []) k = Ok l ->
  forall o, mk_simple id max k = Ok o -> write_op o = Ok (definition (type_name k) id l).
Proof. intros E o H. apply Ok_inj in H. subst o. cbn [write_op add_out]. unfold definition. change (add_out _ _) with (mkBase id [("i1", new_port "i1" max)] [] ["o1"] [] []). rewrite E. reflexivity. Qed.

Lemma write_input id n o : mk_input id n = Ok o -> write_op o = Ok (definition "Input" id [("numPorts", JInt (Z.of_nat n))]).
Proof.
  intros H. pose proof (mk_input_made _ _ _ H) as M. unfold mk_input in H. apply rbind_ok in H as (b & E & H). apply Ok_inj in H. subst o.
  apply add_ports_wf in E as W; [|apply base0_wf]. destruct W as [_ W]. apply add_ports_length in E. rewrite seq_length, Nat.add_0_r in E.
  cbn [write_op members rbind]. unfold len. rewrite E, W. reflexivity.
Qed.
Lemma write_output id n o : mk_output id n = Ok o -> write_op o = Ok (definition "Output" id [("numPorts", JInt (Z.of_nat n))]).
Proof.
  intros H. unfold mk_output in H. apply rbind_ok in H as (b & E & H). apply Ok_inj in H. subst o.
  apply add_ports_wf in E as W; [|apply base0_wf]. destruct W as [_ W]. apply add_ports_length in E. rewrite seq_length, Nat.add_0_r in E.
  cbn [write_op members rbind]. unfold len. rewrite E, W. reflexivity.
Qed.
Lemma write_join id n o : mk_join id n = Ok o -> write_op o = Ok (definition "Join" id [("numPorts", JInt (Z.of_nat n))]).
Proof.
  intros H. unfold mk_join in H. destruct (Nat.ltb n 2); [discriminate|]. apply rbind_ok in H as (b & E & H). apply Ok_inj in H. subst o.
  apply add_ports_wf in E as W; [|apply base0_wf]. destruct W as [_ W]. apply add_ports_length in E. rewrite seq_length, Nat.add_0_r in E.
  cbn [write_op members rbind]. unfold len. rewrite E, W. reflexivity.
Qed.
Lemma write_demux id n o : mk_demux id n = Ok o -> write_op o = Ok (definition "Demultiplexer" id [("numPorts", JInt (Z.of_nat n))]).
Proof.
  intros H. unfold mk_demux in H. destruct (Nat.ltb n 1); [discriminate|]. apply rbind_ok in H as (b & E & H).
  apply rbind_ok in H as (b' & E' & H). apply Ok_inj in H. subst o.
  apply add_ctrls_wf in E as W; [|apply base0_wf]. apply add_data_wf in E' as W'; [|apply W]. destruct W as [_ W], W' as [_ W'].
  apply add_ctrls_length in E; [|apply seq_NoDup|intros k _ []]. apply add_data_length in E' as [_ E'].
  rewrite seq_length, Nat.add_0_r in E.
  cbn [write_op members rbind]. unfold len. rewrite E', E, W', W. reflexivity.
Qed.
Lemma write_binary id f o : mk_binary id f = Ok o -> write_op o = Ok (definition (type_name (KBinary f)) id []).
Proof. intros H. apply Ok_inj in H. subst o. reflexivity. Qed.
Lemma write_linear id c o : mk_linear id c = Ok o -> write_op o = Ok (definition "Linear" id [("coeff", JArr (map JNum c))]).
Proof.
  intros H. unfold mk_linear in H. destruct (Nat.ltb (length c) 2); [discriminate|]. apply rbind_ok in H as (b & E & H). apply Ok_inj in H. subst o.
  apply add_ports_wf in E as W; [|apply base0_wf]. destruct W as [_ W]. cbn [write_op members rbind]. cbn [o_id add_out set_outs]. rewrite W. reflexivity.
Qed.
Lemma write_variable id v o : mk_variable id v = Ok o -> write_op o = Ok (definition "Variable" id [("value", JNum v)]).
Proof. intros H. apply Ok_inj in H. subst o. reflexivity. Qed.

Lemma write_rsi id n g1 g2 g3 g4 o : mk_rsi id n g1 g2 g3 g4 = Ok o ->
  write_op o = Ok (definition "RelativeStrengthIndex" id [("n", JInt (ip_max (new_port "i1" (wrap (n + 1)))))]).
Proof. apply (write_simple id (wrap (n + 1)) (KRSI g1 g2 g3 g4 false)). reflexivity. Qed.

(** the parameters of a definition *)
Lemma def_u64 ty id k z l : String.eqb k "type" = false -> String.eqb k "id" = false ->
  u64_of k (definition ty id ((k, JInt z) :: l)) = Ok (wrap z).
Proof. intros E1 E2. unfold u64_of, definition. rewrite jindex_jobj. cbn [sfind]. rewrite E1, E2, String.eqb_refl. reflexivity. Qed.
Lemma def_V ty id v : V_of "value" (definition ty id [("value", JNum v)]) = Ok v.
Proof. unfold V_of, definition. now rewrite jindex_jobj. Qed.
Lemma def_Vs ty id c : Vs_of "coeff" (definition ty id [("coeff", JArr (map JNum c))]) = Ok c.
Proof. unfold Vs_of, definition. rewrite jindex_jobj. exact (get_Vs_nums c). Qed.

Lemma mk_simple_again id n k : 0 <= n < two64 ->
  mk_simple id (wrap (ip_max (new_port "i1" n))) k = mk_simple id n k.
Proof.
  intros H. assert (E : forall m, mk_simple id m k = Ok (Op (mkBase id [("i1", new_port "i1" m)] [] ["o1"] [] []) k)) by reflexivity.
  rewrite !E, max_again; auto.
Qed.

Ltac again W := eexists; split; [exact W|]; cbn [type_name];
  apply read_definition; [discriminate|]; unfold from_json; cbv [String.eqb Ascii.eqb Bool.eqb];
  rewrite definition_id; cbn [rbind].

(** reading, writing and reading again *)
Lemma from_json_again g ty j o : from_json g ty j = Some (Ok o) -> ty <> "RelativeStrengthIndex" -> ty <> "Function" ->
  exists j', write_op o = Ok j' /\ read_op g j' = Ok o.
Proof.
  unfold from_json. intros H NR NF. split_type H; try contradiction; clear NR NF.
  (* the number of ports *)
  - again (write_input _ _ _ H). unfold definition at 1. rewrite jvalue_jobj. cbn.
    rewrite (proj1 (ports_again _ _ H2)). cbn. now rewrite H.
  - again (write_output _ _ _ H). unfold definition at 1. rewrite jvalue_jobj. cbn.
    rewrite (proj1 (ports_again _ _ H2)). cbn. now rewrite H.
  - again (write_demux _ _ _ H). unfold definition at 1. rewrite jvalue_jobj. cbn.
    rewrite (proj1 (ports_again _ _ H2)). cbn. now rewrite H.
  - again (write_join _ _ _ H). rewrite def_u64 by reflexivity. cbn [rbind].
    rewrite (proj2 (ports_again _ _ H2)). cbn. now rewrite H.
  (* integers *)
  - again (write_simple _ _ (KCosineResampler x0 0) _ eq_refl _ H). rewrite def_u64, wrap_id by (reflexivity || eapply u64_range; eauto).
    cbn [rbind]. now rewrite H.
  - again (write_simple _ _ (KHermiteResampler x0 0 None) _ eq_refl _ H). rewrite def_u64, wrap_id by (reflexivity || eapply u64_range; eauto).
    cbn [rbind]. now rewrite H.
  - again (write_simple _ _ KMovAvg _ eq_refl _ H). cbn [max_of o_data]. rewrite def_u64 by reflexivity. cbn [rbind].
    unfold mk_movavg. rewrite mk_simple_again by (eapply u64_range; eauto). f_equal. exact H.
  - again (write_simple _ _ KStdDev _ eq_refl _ H). cbn [max_of o_data]. rewrite def_u64 by reflexivity. cbn [rbind].
    unfold mk_stddev. rewrite mk_simple_again by (eapply u64_range; eauto). f_equal. exact H.
  - again (write_simple _ _ KPeak _ eq_refl _ H). cbn [max_of o_data]. rewrite def_u64 by reflexivity. cbn [rbind].
    unfold mk_peak. rewrite mk_simple_again by (eapply u64_range; eauto). f_equal. exact H.
  - assert (H' := H). unfold mk_constres in H'. destruct (x0 <=? 0); [discriminate|].
    again (write_simple _ _ (KConstResampler x0 _ false _) _ eq_refl _ H').
    rewrite def_u64, wrap_id by (reflexivity || eapply u64_range; eauto). cbn [rbind]. now rewrite H.
  (* coefficients *)
  - again (write_simple _ _ (KFIR x0) _ eq_refl _ H). rewrite def_Vs. cbn [rbind]. now rewrite H.
  - again (write_linear _ _ _ H). rewrite def_Vs. cbn [rbind]. now rewrite H.
  - again (write_simple _ _ (KAutoReg x0) _ eq_refl _ H). rewrite def_Vs. cbn [rbind]. now rewrite H.
  (* no parameters *)
  - again (write_binary _ _ _ H). now rewrite H.
  - again (write_binary _ _ _ H). now rewrite H.
  - again (write_binary _ _ _ H). now rewrite H.
  - again (write_binary _ _ _ H). now rewrite H.
  - again (write_binary _ _ _ H). now rewrite H.
  - again (write_binary _ _ _ H). now rewrite H.
  - again (write_binary _ _ _ H). now rewrite H.
  - again (write_binary _ _ _ H). now rewrite H.
  (* a value *)
  - again (write_simple _ _ (KFilter FGreater x0) _ eq_refl _ H). rewrite def_V. cbn [rbind]. now rewrite H.
  - again (write_simple _ _ (KFilter FLess x0) _ eq_refl _ H). rewrite def_V. cbn [rbind]. now rewrite H.
  - again (write_simple _ _ (KFilter FEqual x0) _ eq_refl _ H). rewrite def_V. cbn [rbind]. now rewrite H.
  - again (write_simple _ _ (KScale x0) _ eq_refl _ H). rewrite def_V. cbn [rbind]. now rewrite H.
  - again (write_simple _ _ (KConstant x0) _ eq_refl _ H). rewrite def_V. cbn [rbind]. now rewrite H.
  - again (write_simple _ _ (KAdd x0) _ eq_refl _ H). rewrite def_V. cbn [rbind]. now rewrite H.
  - again (write_simple _ _ (KPower x0) _ eq_refl _ H). rewrite def_V. cbn [rbind]. now rewrite H.
  (* no parameters *)
  - again (write_simple _ _ (KCumSum v0) _ eq_refl _ H). now rewrite H.
  - again (write_simple _ _ (KCount 0) _ eq_refl _ H). now rewrite H.
  - again (write_simple _ _ (KDifference true) _ eq_refl _ H). now rewrite H.
  - again (write_simple _ _ KIdentity _ eq_refl _ H). now rewrite H.
  (* small integers *)
  - again (write_variable _ _ _ H). unfold definition at 1. rewrite jvalue_jobj. cbn [sfind].
    apply jvalue_int_range in H1; [|lia]. cbv [String.eqb Ascii.eqb Bool.eqb]. rewrite get_int_V by auto. cbn [rbind]. now rewrite H.
  - again (write_simple _ _ (KTimeShift (wrap x0) x1) _ eq_refl _ H). unfold definition. rewrite !jvalue_jobj. cbn [sfind].
    apply jvalue_int_range in H1; [|lia]. apply jvalue_int_range in H2; [|lia].
    cbv [String.eqb Ascii.eqb Bool.eqb]. cbn [get_int rbind]. rewrite wrap32_wrap, wrap32_id by auto. now rewrite H.
Qed.

(** no definition of a Function can be read: the interpolation type is looked up under the key
    that holds the type of the operator *)
Lemma rsi_kind g j o : from_json g "RelativeStrengthIndex" j = Some (Ok o) ->
  exists a b c d, op_kind o = KRSI a b c d false.
Proof.
  unfold from_json. cbv [String.eqb Ascii.eqb Bool.eqb]. intros H. split_type H. unfold mk_rsi, mk_simple in H.
  apply rbind_ok in H as (b & _ & H). injection H as <-. cbn. eauto.
Qed.

Lemma function_unreadable g j o : jat "type" j = Ok (JStr "Function") -> from_json g "Function" j <> Some (Ok o).
Proof.
  intros T H. unfold from_json in H. cbv [String.eqb Ascii.eqb Bool.eqb] in H. split_type H.
  assert (E : jvalue get_str "type" "linear" j = Ok "Function").
  { destruct j; try discriminate T. cbn [jat jvalue] in *. destruct (sfind "type" m); [|discriminate]. now injection T as ->. }
  rewrite E in H3. injection H3 as <-. unfold mk_function in H. destruct (Nat.ltb _ _); discriminate.
Qed.


(** ** One level of [readOp] *)

Lemma read_op_unfold g j : read_op g j =
  (let! tj := jat "type" j in
   let! type := get_str tj in
   if String.eqb type "Pipeline" then
     let! idj := jat "id" j in
     let! id := get_str idj in
     let! prog := jat "prog" j in
     mk_pipeline (read_op g) id (dump prog) prog
   else
     match from_json g type j with
     | Some r => r
     | None => Throw (RuntimeError "invalid Operator type while parsing")
     end).
Proof.
  unfold read_op at 1. cbn [read_op_n]. destruct (jat "type" j) as [tj| | | |]; cbn; auto.
  destruct (get_str tj) as [ty| | | |]; cbn; auto. destruct (String.eqb ty "Pipeline"); auto.
  destruct (jat "id" j) as [idj| | | |]; cbn; auto. destruct (get_str idj) as [id| | | |]; cbn; auto.
  destruct (jat "prog" j) as [prog| | | |] eqn:E; cbn; auto. unfold mk_pipeline.
  destruct (jat "operators" prog) as [xs| | | |] eqn:E2; cbn; auto.
  rewrite (read_ops_ext (read_op_n (jdepth j) g) (read_op g)); auto.
  intros x Hx. apply jdepth_item in Hx. apply jat_depth in E. apply jat_depth in E2. apply read_op_enough. lia.
Qed.

Lemma get_str_ok j s : get_str j = Ok s -> j = JStr s.
Proof. destruct j; try discriminate. now intros [= ->]. Qed.

Lemma read_op_cases g j o : read_op g j = Ok o ->
  exists ty, jat "type" j = Ok (JStr ty) /\
    ((ty = "Pipeline" /\ exists id prog, jat "id" j = Ok (JStr id) /\ jat "prog" j = Ok prog /\
                          mk_pipeline (read_op g) id (dump prog) prog = Ok o) \/
     (ty <> "Pipeline" /\ from_json g ty j = Some (Ok o))).
Proof.
  rewrite read_op_unfold. intros H. apply rbind_ok in H as (tj & E1 & H). apply rbind_ok in H as (ty & E2 & H).
  apply get_str_ok in E2. subst tj. exists ty. split; [auto|].
  destruct (String.eqb_spec ty "Pipeline") as [->|N].
  - left. split; [auto|]. apply rbind_ok in H as (idj & E3 & H). apply rbind_ok in H as (id & E4 & H).
    apply get_str_ok in E4. subst idj. apply rbind_ok in H as (prog & E5 & H). eauto.
  - right. split; [auto|]. destruct (from_json g ty j); [now subst|discriminate].
Qed.

(** the fields of a new Pipeline *)
Definition blank_base (id : string) (b : base) : Prop :=
  o_id b = id /\ o_conns b = [] /\ o_ctrl b = [] /\ o_toproc b = [].

Lemma add_data_blank id b port max b' : add_data b port max = Ok b' -> blank_base id b -> blank_base id b'.
Proof.
  unfold add_data, blank_base. destruct (String.eqb port ""); [discriminate|]. destruct (_ || _); [discriminate|]. now intros [= <-].
Qed.

Lemma pipe_inputs_blank id keys : forall c b pm y, pipe_inputs c keys b pm = Ok y ->
  blank_base id b -> wf_base b -> blank_base id (fst y) /\ wf_base (fst y).
Proof.
  induction keys as [|k keys IH]; intros c b pm y H B W; cbn [pipe_inputs] in H; [injection H as <-; auto|].
  apply rbind_ok in H as (b' & E & H). eapply IH; [exact H|eapply add_data_blank; eauto|eapply add_data_wf; eauto].
Qed.

Lemma pipe_outs_blank id keys : forall c b pm, blank_base id b -> wf_base b ->
  blank_base id (fst (pipe_outs c keys b pm)) /\ wf_base (fst (pipe_outs c keys b pm)).
Proof.
  induction keys as [|k keys IH]; intros c b pm B W; cbn [pipe_outs]; [auto|].
  apply IH; [exact B|apply add_out_wf; auto].
Qed.

Lemma mk_pipeline_ok f id text prog o : mk_pipeline f id text prog = Ok o ->
  exists xs h0 cs h ui uo b ins outs pm,
    jat "operators" prog = Ok xs /\ read_ops f (jitems xs) [] = Ok h0 /\
    jat "connections" prog = Ok cs /\ pipe_conns (jitems cs) h0 [] [] = Ok (h, ui, uo) /\
    o = Op b (KPipeline text h ins outs pm) /\ blank_base id b /\ wf_base b.
Proof.
  unfold mk_pipeline. intros H. apply rbind_ok in H as (xs & E1 & H). apply rbind_ok in H as (h0 & E2 & H).
  apply rbind_ok in H as (cs & E3 & H). apply rbind_ok in H as ([[h ui] uo] & E4 & H).
  apply rbind_ok in H as (y & E5 & H).
  destruct (pipe_inputs_blank id _ _ _ _ _ E5) as [B1 W1]; [repeat split|apply base0_wf|].
  destruct (pipe_outs_blank id (skeys (free_outputs uo h)) 1 (fst y) (snd y) B1 W1) as [B2 W2].
  destruct (pipe_outs 1 (skeys (free_outputs uo h)) (fst y) (snd y)) as [b pm]. apply Ok_inj in H. subst o.
  exists xs, h0, cs, h, ui, uo, b, (free_inputs ui h), (free_outputs uo h), pm.
  do 5 (split; [auto|]). split; [exact B2|exact W2].
Qed.

(** ** C43 for Pipelines *)
Lemma pipeline_again g id prog o : parse (dump prog) = Ok prog -> mk_pipeline (read_op g) id (dump prog) prog = Ok o ->
  exists j', write_op o = Ok j' /\ read_op g j' = Ok o.
Proof.
  intros P H. destruct (mk_pipeline_ok _ _ _ _ _ H) as (xs & h0 & cs & h & ui & uo & b & ins & outs & pm & _ & _ & _ & _ & -> & (I & _) & _).
  exists (definition "Pipeline" id [("prog", prog)]). split.
  - cbn [write_op members type_name]. rewrite P, I. reflexivity.
  - rewrite read_op_unfold. unfold definition. rewrite !jat_jobj. cbn [sfind]. cbv [String.eqb Ascii.eqb Bool.eqb].
    cbn [rbind get_str]. cbv [String.eqb Ascii.eqb Bool.eqb]. exact H.
Qed.

(** ** New operators are well formed, and not connected *)

Ltac is_made E := match type of E with
  | mk_input _ _ = _ => exact (mk_input_made _ _ _ E)
  | mk_output _ _ = _ => exact (mk_output_made _ _ _ E)
  | mk_demux _ _ = _ => exact (mk_demux_made _ _ _ E)
  | mk_join _ _ = _ => exact (mk_join_made _ _ _ E)
  | mk_constres _ _ _ _ = _ => exact (mk_constres_made _ _ _ _ _ E)
  | mk_linear _ _ = _ => exact (mk_linear_made _ _ _ E)
  | mk_binary _ _ = _ => exact (mk_binary_made _ _ _ E)
  | mk_variable _ _ = _ => exact (mk_variable_made _ _ _ E)
  | mk_function _ _ _ = _ => exact (mk_function_made _ _ _ _ E)
  | _ => eapply mk_simple_made; [|exact E]; reflexivity
  end.

Lemma from_json_made g ty j o : from_json g ty j = Some (Ok o) -> exists id, id_of j = Ok id /\ made id o.
Proof. unfold from_json. intros H. split_type H. all: eexists; split; [eassumption|]; is_made H. Qed.

Lemma add_data_conns b port max b' : add_data b port max = Ok b' -> o_conns b' = o_conns b.
Proof. unfold add_data. destruct (String.eqb port ""); [discriminate|]. destruct (_ || _); [discriminate|]. now intros [= <-]. Qed.
Lemma add_ctrl_conns b port max b' : add_ctrl b port max = Ok b' -> o_conns b' = o_conns b.
Proof. unfold add_ctrl. destruct (String.eqb port ""); [discriminate|]. destruct (_ || _); [discriminate|]. now intros [= <-]. Qed.
Lemma add_ports_conns max outs ks : forall b b', add_ports ks max outs b = Ok b' -> o_conns b' = o_conns b.
Proof.
  induction ks as [|k ks IH]; intros b b' H; cbn [add_ports] in H; [now injection H as <-|].
  apply rbind_ok in H as (b1 & E & H). apply IH in H. rewrite H. apply add_data_conns in E. destruct outs; exact E.
Qed.
Lemma add_ctrls_conns ks : forall b b', add_ctrls ks b = Ok b' -> o_conns b' = o_conns b.
Proof.
  induction ks as [|k ks IH]; intros b b' H; cbn [add_ctrls] in H; [now injection H as <-|].
  apply rbind_ok in H as (b1 & E & H). apply IH in H. rewrite H. now apply add_ctrl_conns in E.
Qed.

Lemma created_conns o : created o -> o_conns (op_base o) = [].
Proof.
  assert (S : forall id max k o, mk_simple id max k = Ok o -> o_conns (op_base o) = []) by (intros ? ? ? ? H; now injection H as <-).
  destruct 1 as [id n o H|id n o H|id n o H|id n o H|id f o H|id c o H|id n o H|id f v o H|id v o H|id v o H|id v o H|id v o H|id o H
    |id n o H|id n o H|id n o H|id c o H|id c o H|id o H|id o H|id u o H|id dt times o H|id dt g1 g2 o H|id dt o H|id dt o H
    |id l ty o H|id v o H|id n g1 g2 g3 g4 o H]; try (eapply S; exact H).
  - apply rbind_ok in H as (b & E & H). injection H as <-. apply add_ports_conns in E. exact E.
  - apply rbind_ok in H as (b & E & H). injection H as <-. apply add_ports_conns in E. exact E.
  - now injection H as <-.
  - unfold mk_join in H. destruct (Nat.ltb n 2); [discriminate|]. apply rbind_ok in H as (b & E & H). injection H as <-. apply add_ports_conns in E. exact E.
  - now injection H as <-.
  - unfold mk_linear in H. destruct (Nat.ltb _ 2); [discriminate|]. apply rbind_ok in H as (b & E & H). injection H as <-. apply add_ports_conns in E. exact E.
  - unfold mk_demux in H. destruct (Nat.ltb n 1); [discriminate|]. apply rbind_ok in H as (b & E & H). apply rbind_ok in H as (b' & E' & H).
    injection H as <-. apply add_ctrls_conns in E. apply add_data_conns in E'. cbn [op_base]. rewrite E', E. reflexivity.
  - unfold mk_constres in H. destruct (dt <=? 0); [discriminate|]. eapply S; exact H.
  - unfold mk_function in H. destruct (Nat.ltb _ 2); [discriminate|]. destruct (String.eqb ty "linear"); [eapply S; exact H|].
    destruct (String.eqb ty "hermite"); [eapply S; exact H|discriminate].
  - now injection H as <-.
Qed.

(** a heap whose operators are well formed and filed under their ids *)
Definition good_heap (h : heap) : Prop := wf_heap h /\ named h.

Definition good_op (id : string) (o : op) : Prop := wf_op o /\ o_id (op_base o) = id.

Lemma wf_inner (h : heap) : wf_heap h -> swf h /\ fold_right (fun x P => wf_op (snd x) /\ P) True h.
Proof.
  intros [W F]. split; [auto|].
  assert (A : forall x, In x h -> wf_op (snd x)).
  { intros [id o] I. apply (F id). now apply In_sfind. }
  clear F W. induction h as [|x h IH]; cbn; [auto|]. split; [apply A; now left|]. apply IH. intros y Hy. apply A. now right.
Qed.

Lemma semplace_good id o h : good_op id o -> good_heap h -> good_heap (semplace id o h).
Proof.
  intros [W N] [[Hw H1] H2]. split; [split|].
  - now apply swf_semplace.
  - intros i x F. rewrite sfind_semplace in F. destruct (sfind i h) eqn:E; [injection F as <-; eauto|].
    destruct (String.eqb i id); [injection F as <-; auto|discriminate].
  - intros i x F. rewrite sfind_semplace in F. destruct (sfind i h) eqn:E; [injection F as <-; eauto|].
    destruct (String.eqb_spec i id); [injection F as <-; congruence|discriminate].
Qed.

Lemma connect1_good c h h' : connect1 c h = Ok h' -> good_heap h -> good_heap h'.
Proof.
  unfold connect1. intros H [[W1 W2] N]. destruct (sfind (c_from c) h) as [a|] eqn:Fa; [|discriminate].
  destruct (sfind (c_to c) h) as [b|]; [|discriminate]. apply rbind_ok in H as ([a'|] & E & H); [|discriminate]. injection H as <-.
  destruct (connect_made _ _ _ _ _ _ E) as [Wa Ia]. split; [split|].
  - now apply swf_sset.
  - intros i o F. rewrite sfind_sset in F. destruct (String.eqb_spec i (c_from c)); [injection F as <-; eauto|eauto].
  - intros i o F. rewrite sfind_sset in F. destruct (String.eqb_spec i (c_from c)) as [->|]; [injection F as <-; rewrite Ia; auto|auto].
Qed.

Lemma read_conns_good l : forall h h', read_conns l h = Ok h' -> good_heap h -> good_heap h'.
Proof.
  induction l as [|x l IH]; intros h h' H G; cbn [read_conns] in H; [injection H as <-; auto|].
  apply rbind_ok in H as (c & _ & H). apply rbind_ok in H as (h1 & E & H). eapply IH; eauto. eapply connect1_good; eauto.
Qed.

Lemma pipe_conns_conns l : forall h ui uo h' ui' uo', pipe_conns l h ui uo = Ok (h', ui', uo') -> read_conns l h = Ok h'.
Proof.
  induction l as [|x l IH]; intros h ui uo h' ui' uo' H; cbn [pipe_conns read_conns] in *; [now injection H as <-|].
  apply rbind_ok in H as (c & -> & H). apply rbind_ok in H as (h1 & E & H). cbn. rewrite E. cbn. eapply IH; eauto.
Qed.

Lemma read_ops_good f l : (forall x, In x l -> forall o, f x = Ok o -> exists id, id_of x = Ok id /\ good_op id o) ->
  forall h h', read_ops f l h = Ok h' -> good_heap h -> good_heap h'.
Proof.
  induction l as [|x l IH]; intros F h h' H G; cbn [read_ops] in H; [injection H as <-; auto|].
  apply rbind_ok in H as (idj & E1 & H). apply rbind_ok in H as (o & E2 & H). apply rbind_ok in H as (id & E3 & H).
  destruct (F x (or_introl eq_refl) o E2) as (id' & I & Go).
  assert (id' = id) by (unfold id_of in I; rewrite E1 in I; cbn in I; congruence). subst id'.
  eapply IH; [|exact H|].
  - intros y Hy. apply F. now right.
  - now apply semplace_good.
Qed.

Lemma good_nil : good_heap [].
Proof. split; [split; [apply swf_nil|discriminate]|]. intros i o H. discriminate H. Qed.

Lemma read_op_good n : forall g j o, read_op_n n g j = Ok o ->
  exists id, id_of j = Ok id /\ good_op id o /\ o_conns (op_base o) = [].
Proof.
  induction n as [|n IH]; intros g j o H; [discriminate|]. cbn [read_op_n] in H.
  apply rbind_ok in H as (tj & E1 & H). apply rbind_ok in H as (ty & E2 & H).
  destruct (String.eqb ty "Pipeline").
  - apply rbind_ok in H as (idj & E3 & H). apply rbind_ok in H as (id & E4 & H). apply rbind_ok in H as (prog & E5 & H).
    exists id. split.
    { unfold id_of. destruct j; try discriminate E3. cbn [jat jindex] in *. destruct (sfind "id" m); [|discriminate]. injection E3 as ->. exact E4. }
    destruct (mk_pipeline_ok _ _ _ _ _ H) as (xs & h0 & cs & h & ui & uo & b & ins & outs & pm & _ & R & _ & C & -> & (I & K & _) & [W1 W2]).
    split; [|exact K]. split; [|exact I]. cbn [wf_op].
    assert (G0 : good_heap h0).
    { eapply read_ops_good; [|exact R|apply good_nil]. intros x _ o Ho. destruct (IH _ _ _ Ho) as (i & ? & ? & _). eauto. }
    apply pipe_conns_conns in C. destruct (read_conns_good _ _ _ C G0) as [Wh _]. apply wf_inner in Wh. tauto.
  - destruct (from_json g ty j) as [r|] eqn:E; [|discriminate]. subst r.
    destruct (from_json_made _ _ _ _ E) as (id & I & W & N & _). exists id. split; [auto|]. split; [split; auto|].
    eapply created_conns, from_json_created; eauto.
Qed.

Lemma operators_good g j h : operators_of g j = Ok h -> good_heap h /\ forall id o, sfind id h = Some o -> o_conns (op_base o) = [].
Proof.
  unfold operators_of. intros H. apply rbind_ok in H as (xs & _ & H). split.
  - eapply read_ops_good; [|exact H|apply good_nil]. intros x _ o Ho. destruct (read_op_good _ _ _ _ Ho) as (i & ? & ? & _). eauto.
  - assert (G : forall l h h', read_ops (read_op g) l h = Ok h' -> (forall id o, sfind id h = Some o -> o_conns (op_base o) = []) ->
               forall id o, sfind id h' = Some o -> o_conns (op_base o) = []).
    { induction l as [|x l IH]; intros h1 h2 E F id o; cbn [read_ops] in E; [injection E as <-; eauto|].
      apply rbind_ok in E as (idj & _ & E). apply rbind_ok in E as (o1 & E2 & E). apply rbind_ok in E as (i & _ & E).
      eapply IH; [exact E|]. intros i' o' Fi. rewrite sfind_semplace in Fi. destruct (sfind i' h1) eqn:X; [injection Fi as <-; eauto|].
      destruct (String.eqb i' i); [|discriminate]. injection Fi as <-. now destruct (read_op_good _ _ _ _ E2) as (? & _ & _ & ?). }
    eapply G; [exact H|]. intros id o X. discriminate X.
Qed.

(** ** [init] *)
Lemma init_cases g text j p : init g text j = Ok p ->
  exists entry filter h h' cs o, jvalue get_str "entryOperator" "" j = Ok entry /\ entry <> "" /\ filter_of j = Ok filter /\
    operators_of g j = Ok h /\ jat "connections" j = Ok cs /\ read_conns (jitems cs) h = Ok h' /\
    sfind entry h' = Some o /\
    ((o_ctrl (op_base o) = [] /\ p = mkProgram text h' entry filter) \/
     (o_ctrl (op_base o) <> [] /\ p = mkProgram text [] "" [])).
Proof.
  unfold init, operators_of. intros H. apply rbind_ok in H as (entry & E1 & H).
  destruct (String.eqb_spec entry "") as [|N]; [discriminate|]. apply rbind_ok in H as (filter & E2 & H).
  apply rbind_ok in H as (xs & E3 & H). apply rbind_ok in H as (h & E4 & H). apply rbind_ok in H as (cs & E5 & H).
  apply rbind_ok in H as (h' & E6 & H). destruct (sfind entry h') as [o|] eqn:F; [|discriminate].
  exists entry, filter, h, h', cs, o. rewrite E3. cbn. rewrite E4. repeat (split; [auto|]).
  destruct (o_ctrl (op_base o)) eqn:C; injection H as <-; [left|right]; auto. split; [discriminate|auto].
Qed.

Lemma new_prog_good g text p : new_prog g text = Ok p -> good_heap (p_ops p).
Proof.
  unfold new_prog. intros H. apply rbind_ok in H as (j & _ & H).
  destruct (init_cases _ _ _ _ H) as (entry & filter & h & h' & cs & o & _ & _ & _ & E & _ & R & _ & [[_ ->]|[_ ->]]); cbn [p_ops].
  - eapply read_conns_good; [exact R|]. now apply (operators_good g j).
  - apply good_nil.
Qed.

End JsonP.
