(** * Operators that accept every message on an existing port and never fail *)

From Coq Require Import String Ascii ZArith Bool List Lia.
From Verif Require Import Base.StrMap Base.Num Model.Core Model.Ops Model.Make Model.Graph.
From Verif Require Import Spec.Shape Spec.Bounds Spec.Reliable.
From Verif Require Import Proofs.Ports Proofs.MakeP Proofs.ShapeP Proofs.BoundsP.
Import ListNotations.
Open Scope string_scope.
Open Scope list_scope.
Open Scope Z_scope.

Section Local.
Context {NO : NumOps}.

(** ** What does not change *)

Definition limits (b : base) : list (string * Z) := map (fun x => (fst x, ip_max (snd x))) (o_data b).

Lemma limits_keys b : map fst (limits b) = skeys (o_data b).
Proof. unfold limits, skeys. rewrite map_map. reflexivity. Qed.
Lemma limits_erase b : limits (erase_base b) = limits b.
Proof. unfold limits, erase_base. cbn [o_data]. unfold smapv. rewrite map_map. apply map_ext. now intros [? ?]. Qed.
Lemma limits_in b port q : sfind port (o_data b) = Some q -> In (port, ip_max q) (limits b).
Proof. intros F. apply sfind_In in F. unfold limits. apply in_map_iff. exists (port, q). auto. Qed.

Definition all_mapped (l : list (string * Z)) (outs : list string) (pm : smap string) : Prop :=
  forall port, In port (map fst l) -> exists o, sfind port pm = Some o /\ In o outs.
Definition one_input (l : list (string * Z)) (min : Z) : Prop := exists port n, l = [(port, n)] /\ min <= n.

Definition kfit (l : list (string * Z)) (outs : list string) (k : kind) : Prop :=
  match k with
  | KInput pm _ | KOutput pm => all_mapped l outs pm /\ Forall (fun x => 1 <= snd x) l
  | KCollector => Forall (fun x => 1 <= snd x) l
  | KJoin cm => all_mapped l outs cm /\ l <> []
  | KBinary _ => In "i1" (map fst l) /\ In "i2" (map fst l) /\ In "o1" outs
  | KLinear c => length l = length c /\ l <> [] /\ In "o1" outs
  | KFIR c => (exists port, l = [(port, Z.of_nat (length c))]) /\ one_input l 1 /\ In "o1" outs
  | KRSI _ _ _ _ _ => (exists port n, l = [(port, n)] /\ n < two64) /\ one_input l 2 /\ In "o1" outs
  | KFilter _ _ | KAdd _ | KScale _ | KPower _ | KConstant _ | KIdentity | KMovAvg | KStdDev | KPeak
  | KCount _ | KCumSum _ | KTimeShift _ _ => one_input l 1 /\ In "o1" outs
  | _ => False
  end.

Definition static (b : base) (k : kind) : Prop :=
  o_ctrl b = [] /\ ~ In "" (skeys (o_data b)) /\ kfit (limits b) (o_outs b) k.

Lemma kfit_erase l outs k : kfit l outs (erase_kind k) <-> kfit l outs k.
Proof. destruct k; reflexivity. Qed.
Lemma static_erase b k : static (erase_base b) (erase_kind k) <-> static b k.
Proof.
  unfold static. rewrite limits_erase, kfit_erase. cbn [erase_base o_ctrl o_data o_outs]. rewrite skeys_smapv.
  destruct (o_ctrl b); [reflexivity|]. split; intros [E _]; discriminate E.
Qed.
Lemma static_same b k b' k' : erase (Op b' k') = erase (Op b k) -> static b k -> static b' k'.
Proof.
  rewrite !erase_op. intros E H. apply static_erase. apply static_erase in H.
  apply (f_equal op_base) in E as E1. apply (f_equal op_kind) in E. cbn [op_base op_kind] in E, E1. now rewrite E, E1.
Qed.

(** ** What changes *)

Definition dyn (b : base) (k : kind) : Prop :=
  (forall p, In p (o_toproc b) -> In p (skeys (o_data b))) /\ bounded (Op b k).

Definition local (b : base) (k : kind) : Prop := static b k /\ dyn b k.

Lemma kfit_limit l outs k p n : kfit l outs k -> windowed (Op (base0 "") k) = true -> In (p, n) l -> 1 <= n.
Proof.
  assert (G : Forall (fun x => 1 <= snd x) l -> In (p, n) l -> 1 <= n) by (rewrite Forall_forall; intros H I; exact (H _ I)).
  assert (S : forall m, 1 <= m -> one_input l m -> In (p, n) l -> 1 <= n).
  { intros m M (port & n' & -> & H) [[= <- <-]|[]]. lia. }
  destruct k; cbn; try discriminate; try contradiction; intros H _; try (apply G; tauto);
    try (apply (S 1); [lia|tauto]). apply (S 2); [lia|tauto].
Qed.

Lemma port_receive_total p m : 1 <= ip_max p -> within p -> exists p', port_receive p m = Ok p'.
Proof.
  unfold port_receive, within. intros M W. destruct (Z.eqb_spec (ip_max p) (ip_size p)) as [E|E].
  - unfold ip_pop, ip_size in *. destruct (ip_data p); [cbn in E; lia|eauto].
  - destruct (Z.ltb_spec (ip_max p) (ip_size p)); [lia|eauto].
Qed.

Lemma resolve_key port m : port <> "" -> resolve port m = port.
Proof. unfold resolve. intros H. destruct (String.eqb_spec port ""); [contradiction|reflexivity]. Qed.

Definition not_pipeline (k : kind) : Prop := match k with KPipeline _ _ _ _ _ => False | _ => True end.

Lemma windowed_any b k : windowed (Op b k) = windowed (Op (base0 "") k).
Proof. reflexivity. Qed.

Lemma recv_local_ok b k m port : wf_op (Op b k) -> local b k -> In port (skeys (o_data b)) ->
  fst (recv_data_local (Op b k) m port) = Ok tt /\
  local (op_base (snd (recv_data_local (Op b k) m port))) (op_kind (snd (recv_data_local (Op b k) m port))).
Proof.
  intros W [St [T B]] I. pose proof (recv_data_local_erase (Op b k) m port W) as E.
  assert (P : is_pipeline (Op b k) = false) by (destruct k; try reflexivity; now destruct St as (_ & _ & [])).
  pose proof (bounded_recv (Op b k) m port P B) as B'.
  destruct (recv_data_local (Op b k) m port) as [r [b' k']] eqn:R. cbn [fst snd op_base op_kind] in *.
  assert (N : port <> "") by (intros ->; destruct St as (_ & N & _); contradiction).
  apply In_skeys_sfind in I as [q F].
  assert (X : r = Ok tt /\ (forall p, In p (o_toproc b') -> In p (skeys (o_data b')))).
  { destruct (windowed (Op b k)) eqn:Wi.
    - assert (Y : recv_data_base b m port = (r, b')).
      { unfold recv_data_local in R. destruct k; try discriminate Wi; destruct (recv_data_base b m port); now injection R as <- <- <-. }
      assert (M : 1 <= ip_max q).
      { eapply kfit_limit; [apply St|exact Wi|]. eapply limits_in; eauto. }
      assert (Wq : within q) by (destruct (B Wi) as [D _]; exact (Forall_find _ _ _ _ D F)).
      destruct (port_receive_total q m M Wq) as [q' Q].
      unfold recv_data_base in Y. rewrite (resolve_key port) in Y by auto. rewrite F, Q in Y. injection Y as <- <-.
      split; [reflexivity|]. cbn [o_toproc o_data set_toproc set_data]. intros p Hp. apply skeys_sset_In.
      apply sset_add_In in Hp as [->|Hp]; auto.
    - assert (Y : recv_data_join b m port = (r, b')).
      { unfold recv_data_local in R. destruct k; try discriminate Wi; try (now destruct St as (_ & _ & []));
          destruct (recv_data_join b m port); now injection R as <- <- <-. }
      unfold recv_data_join in Y. destruct (String.eqb_spec port ""); [contradiction|]. rewrite F in Y. injection Y as <- <-.
      split; [reflexivity|]. cbn [o_toproc o_data set_data]. intros p Hp. apply skeys_sset_In. auto. }
  destruct X as [-> X]. split; [reflexivity|]. split; [eapply static_same; eauto|]. split; auto.
Qed.

(** ** Executing *)

Definition ports_in (out : opmsg) (outs : list string) : Prop := forall p ms, In (p, ms) out -> In p outs.

Lemma ports_in_semplace o ms out outs : ports_in out outs -> In o outs -> ports_in (semplace o ms out) outs.
Proof.
  intros H I p ms'. unfold semplace. destruct (sfind o out); [apply H|]. intros X. apply Deep.In_sset in X as [[= -> ->]|X]; eauto.
Qed.
Lemma ports_in_out1 m outs : In "o1" outs -> ports_in (out1 m) outs.
Proof. intros I p ms [[= <- <-]|[]]. exact I. Qed.
Lemma ports_in_nil outs : ports_in [] outs.
Proof. intros p ms []. Qed.

Lemma ready_ok b tp : (forall p, In p tp -> In p (skeys (o_data b))) -> ~ In "" (skeys (o_data b)) ->
  exists r, ready_ports b tp = Ok r /\ forall p, In p r -> In p tp /\ exists q, sfind p (o_data b) = Some q /\ ip_max q <= ip_size q.
Proof.
  intros H N. induction tp as [|p tp IH]; cbn [ready_ports]; [eexists; split; [reflexivity|intros ? []]|].
  destruct IH as (r & E & R); [intros; apply H; now right|].
  assert (I : In p (skeys (o_data b))) by (apply H; now left).
  assert (Np : p <> "") by (intros ->; contradiction).
  apply In_skeys_sfind in I as [q F]. unfold d_max, d_size. rewrite resolve_key by auto. rewrite F. cbn [rbind]. rewrite E. cbn [rbind].
  eexists. split; [reflexivity|]. intros p'. destruct (Z.ltb_spec (ip_size q) (ip_max q)).
  - intros I. destruct (R _ I) as [? ?]. split; [now right|auto].
  - intros [->|I]; [split; [now left|eauto]|]. destruct (R _ I) as [? ?]. split; [now right|auto].
Qed.

Lemma q_at_0 q : exists m, q_at q 0 = Ok m.
Proof. unfold q_at. destruct q as [|x q]; [eauto|]. cbn [length]. destruct (Z.ltb_spec 0 (Z.of_nat (S (length q)))); [|lia]. cbn. eauto. Qed.
Lemma q_at_in q i : 0 <= i < Z.of_nat (length q) -> exists m, q_at q i = Ok m.
Proof.
  intros H. unfold q_at. destruct q as [|x q]; [eauto|]. destruct (Z.ltb_spec i 0); [lia|].
  destruct (Z.ltb_spec i (Z.of_nat (length (x :: q)))); [|lia].
  destruct (nth_error (x :: q) (Z.to_nat i)) eqn:E; [eauto|]. apply nth_error_None in E. lia.
Qed.

Lemma input_loop_ok b pm outs tp : all_mapped (limits b) outs pm -> (forall p, In p tp -> In p (skeys (o_data b))) ->
  forall ls out, ports_in out outs -> exists out' b' ls', input_loop tp b pm ls out = (Ok out', (b', KInput pm ls')) /\ ports_in out' outs.
Proof.
  intros A. induction tp as [|port tp IH]; intros H ls out P; cbn [input_loop]; [eauto 6|].
  assert (I : In port (skeys (o_data b))) by (apply H; now left).
  assert (H' : forall p, In p tp -> In p (skeys (o_data b))) by (intros; apply H; now right).
  destruct (A port) as (o & Fo & Io); [now rewrite limits_keys|].
  apply In_skeys_sfind in I as [q F]. unfold d_msg. rewrite F. destruct (q_at_0 (ip_data q)) as [m0 ->]. rewrite Fo.
  destruct (match sfind port ls with Some l => _ | None => true end); apply IH; auto. now apply ports_in_semplace.
Qed.
Lemma output_loop_ok b pm outs tp : all_mapped (limits b) outs pm -> (forall p, In p tp -> In p (skeys (o_data b))) ->
  forall out, ports_in out outs -> exists out' b', output_loop tp b pm out = (Ok out', (b', KOutput pm)) /\ ports_in out' outs.
Proof.
  intros A. induction tp as [|port tp IH]; intros H out P; cbn [output_loop]; [eauto 6|].
  assert (I : In port (skeys (o_data b))) by (apply H; now left).
  assert (H' : forall p, In p tp -> In p (skeys (o_data b))) by (intros; apply H; now right).
  destruct (A port) as (o & Fo & Io); [now rewrite limits_keys|].
  apply In_skeys_sfind in I as [q F]. unfold d_last. rewrite F, Fo. apply IH; auto. now apply ports_in_semplace.
Qed.

Lemma single_ok b l n : one_input (limits b) n -> l = limits b -> exists port q, o_data b = [(port, q)] /\ limits b = [(port, ip_max q)].
Proof.
  intros (port & k & E & _) _. unfold limits in *. destruct (o_data b) as [|[p q] [|]]; try discriminate E. eauto.
Qed.

Lemma fir_ok q : forall coeff acc, (length q <= length coeff)%nat -> exists v, fir_loop q coeff acc = Ok v.
Proof.
  induction q as [|m q IH]; intros [|c coeff] acc H; cbn [fir_loop length] in *; eauto; [lia|]. apply IH. lia.
Qed.
Lemma peak_ok q : exists r, peak_value q = Ok r.
Proof.
  unfold peak_value. assert (E : exists c, q_at q (Z.of_nat (length q) / 2) = Ok c).
  { destruct q as [|x q]; [unfold q_at; eauto|]. apply q_at_in. cbn [length]. split; [apply Z.div_pos; lia|apply Z.div_lt; lia]. }
  destruct E as [c ->]. cbn. destruct (existsb _ q); eauto.
Qed.
Lemma rsi_ok q pg pl i : 2 <= Z.of_nat (length q) < two64 -> exists a, rsi_averages q pg pl i = Ok a.
Proof.
  intros H. unfold rsi_averages. cbv zeta. destruct (negb i); [destruct (rsi_sums q v0 v0); eauto|].
  assert (E1 : wrap (Z.of_nat (length q) - 1) = Z.of_nat (length q) - 1) by (unfold wrap; apply Z.mod_small; lia).
  assert (E2 : wrap (Z.of_nat (length q) - 2) = Z.of_nat (length q) - 2) by (unfold wrap; apply Z.mod_small; lia).
  rewrite E1, E2. destruct (q_at_in q (Z.of_nat (length q) - 1)) as [a ->]; [lia|]. cbn [rbind].
  destruct (q_at_in q (Z.of_nat (length q) - 2)) as [c ->]; [lia|]. cbn [rbind].
  destruct (if vlt v0 _ then _ else _). eauto.
Qed.

Lemma process_ok b k : static b k -> bounded (Op b k) -> windowed (Op b k) = true -> o_toproc b <> [] ->
  (forall p, In p (o_toproc b) -> exists q, sfind p (o_data b) = Some q /\ ip_max q <= ip_size q) ->
  exists out b' k', process_data b k = (Ok out, (b', k')) /\ ports_in out (o_outs b).
Proof.
  intros (C & NE & K) B Wi NT R.
  assert (R0 : forall p, In p (o_toproc b) -> In p (skeys (o_data b))).
  { intros p H. destruct (R p H) as (q & F & _). eapply sfind_In_key; eauto. }
  assert (Sg : forall n, 0 <= n -> one_input (limits b) n -> exists port q, o_data b = [(port, q)] /\ limits b = [(port, ip_max q)] /\ ip_size q = ip_max q).
  { intros n Hn H. destruct (single_ok b _ n H eq_refl) as (port & q & E & L). exists port, q. split; [exact E|]. split; [exact L|].
    destruct (o_toproc b) as [|p tp]; [contradiction|]. destruct (R p) as (q' & F & M); [now left|].
    rewrite E in F. cbn in F. destruct (String.eqb p port); [|discriminate F]. injection F as <-.
    destruct (B Wi) as [D _]. cbn [op_base] in D. rewrite E in D. inversion D as [|? ? Wq _]; subst. cbn in Wq. unfold within in Wq.
    destruct H as (? & ? & L' & H). rewrite L in L'. injection L' as _ <-. lia. }
  destruct k; try discriminate Wi; try contradiction K; cbn [process_data kfit] in *.
  all: try (destruct K as [K O]; destruct (Sg 1 ltac:(lia) K) as (port & q & D & L & S);
    unfold keep, map_last, single_port, d_last, d_first, d_sum, d_size, port_data, resolve; rewrite D; cbn [rbind sfind]; rewrite ?String.eqb_refl; cbn [rbind];
    match goal with |- context [String.eqb port ""] => destruct (String.eqb port ""); cbn [sfind]; rewrite ?String.eqb_refl; cbn [rbind] | _ => idtac end;
    eexists _, _, _; (split; [reflexivity|]);
    first [now apply ports_in_out1|destruct (filter_test _ _ _); [now apply ports_in_out1|apply ports_in_nil]]).
  - destruct K as [A _]. destruct (input_loop_ok b portsMap (o_outs b) (o_toproc b) A R0 lastSent []) as (out & b' & ls' & -> & P); [apply ports_in_nil|eauto 6].
  - destruct K as [A _]. destruct (output_loop_ok b portsMap (o_outs b) (o_toproc b) A R0 []) as (out & b' & -> & P); [apply ports_in_nil|eauto 6].
  - eexists _, _, _. split; [reflexivity|apply ports_in_nil].
  - destruct K as ((port' & L') & K & O). destruct (Sg 1 ltac:(lia) K) as (port & q & D & L & S). unfold keep, single_port, d_last, port_data. rewrite D.
    cbn [rbind sfind]. rewrite !String.eqb_refl. cbn [rbind].
    destruct (fir_ok (rev (ip_data q)) coeff v0) as [v ->].
    { rewrite rev_length. rewrite L in L'. injection L' as _ L'. unfold ip_size in S. lia. }
    cbn [rbind]. eexists _, _, _. split; [reflexivity|now apply ports_in_out1].
  - destruct K as [K O]. destruct (Sg 1 ltac:(lia) K) as (port & q & D & L & S). unfold keep, single_port, port_data. rewrite D.
    cbn [rbind sfind]. rewrite !String.eqb_refl. destruct (peak_ok (ip_data q)) as [r ->]. cbn [rbind].
    eexists _, _, _. split; [reflexivity|]. destruct r; [now apply ports_in_out1|apply ports_in_nil].
  - destruct K as ((port' & n & L' & N) & K & O). destruct (Sg 2 ltac:(lia) K) as (port & q & D & L & S). unfold single_port, d_last, port_data. rewrite D.
    cbn [rbind sfind]. rewrite !String.eqb_refl. cbn [rbind].
    destruct K as (port2 & n2 & L2 & M). rewrite L in L', L2. injection L' as _ <-. injection L2 as _ <-.
    match goal with |- context [rsi_averages ?a ?b ?c ?d] => destruct (rsi_ok a b c d) as [[g l] ->] end; [unfold ip_size in S; lia|].
    cbn [rbind]. eexists _, _, _. split; [reflexivity|now apply ports_in_out1].
Qed.

Lemma join_tuple_ok outs cm ports : (forall p, In p (skeys ports) -> exists o, sfind p cm = Some o /\ In o outs) -> (forall x, In x ports -> ip_data (snd x) <> []) ->
  forall out, ports_in out outs -> exists out', join_tuple ports cm out = Ok out' /\ ports_in out' outs.
Proof.
  induction ports as [|[name p] ports IH]; intros A N out P; cbn [join_tuple]; [eauto|].
  destruct (ip_data p) as [|m q] eqn:D; [now apply (N (name, p)) in D; [|left]|].
  destruct (A name) as (o & -> & I); [now left|]. apply IH; [intros; apply A; now right|intros; apply N; now right|now apply ports_in_semplace].
Qed.
Lemma linear_ok ports : forall coeff t acc, length ports = length coeff -> (forall x, In x ports -> ip_data (snd x) <> []) ->
  exists m, linear_loop ports coeff t acc = Ok m.
Proof.
  induction ports as [|[name p] ports IH]; intros [|c coeff] t acc L N; cbn [linear_loop length] in *; try discriminate L; [eauto|].
  destruct (ip_data p) as [|m q] eqn:D; [now apply (N (name, p)) in D; [|left]|]. apply IH; [lia|intros; apply N; now right].
Qed.

Lemma join_process_ok b k : kfit (limits b) (o_outs b) k -> (forall x, In x (o_data b) -> ip_data (snd x) <> []) ->
  windowed (Op b k) = false -> exists out, join_process b k = Ok out /\ ports_in out (o_outs b).
Proof.
  intros K N Wi. destruct k; try discriminate Wi; try contradiction K; cbn [kfit join_process] in *.
  - destruct K as [A _]. eapply join_tuple_ok; [|exact N|apply ports_in_nil]. intros p I. apply A. now rewrite limits_keys.
  - destruct K as (I1 & I2 & O). rewrite limits_keys in I1, I2. apply In_skeys_sfind in I1 as [q1 F1]. apply In_skeys_sfind in I2 as [q2 F2].
    unfold d_msg. rewrite F1, F2. destruct (q_at_0 (ip_data q2)) as [m2 ->]. cbn [rbind]. destruct (q_at_0 (ip_data q1)) as [m1 ->]. cbn [rbind].
    eexists. split; [reflexivity|]. destruct (bin_apply _ _ _); [now apply ports_in_out1|apply ports_in_nil].
  - destruct K as (L & _ & O). unfold limits in L. rewrite map_length in L.
    destruct (linear_ok (o_data b) coeff 0 v0 L N) as [m ->]. cbn [rbind]. eexists. split; [reflexivity|now apply ports_in_out1].
Qed.

Lemma limits_smapv b d : smapv erase_port d = smapv erase_port (o_data b) -> limits (set_data b d) = limits b.
Proof.
  intros E. rewrite <- (limits_erase (set_data b d)), <- (limits_erase b). f_equal. now apply erase_set_data.
Qed.

Lemma join_exec_ok b k : kfit (limits b) (o_outs b) k -> windowed (Op b k) = false ->
  exists out b', join_exec b k = (Ok out, (b', k)) /\ ports_in out (o_outs b) /\ o_toproc b' = o_toproc b.
Proof.
  intros K Wi. unfold join_exec. destruct (o_data b) as [|[name0 p0] rest] eqn:D.
  - exfalso. assert (L : limits b = []) by (unfold limits; now rewrite D).
    destruct k; try discriminate Wi; try contradiction K; cbn [kfit] in K; rewrite L in K; cbn in K; tauto.
  - destruct (ip_data p0) as [|f0 q0]; [eexists _, _; split; [reflexivity|split; [apply ports_in_nil|reflexivity]]|].
    rewrite <- D. destruct (join_latest (o_data b) name0 (mtime f0)) as [[best t]|]; [|eexists _, _; split; [reflexivity|split; [apply ports_in_nil|reflexivity]]].
    cbv zeta. set (b1 := set_data b (join_trim best t (o_data b))).
    destruct (join_ready t (o_data b1)) eqn:J; [|eexists _, _; split; [reflexivity|split; [apply ports_in_nil|reflexivity]]].
    assert (L : limits b1 = limits b) by (apply limits_smapv, erase_join_trim).
    destruct (join_process_ok b1 k) as (out & -> & P).
    + rewrite L. exact K.
    + intros x I Q. unfold join_ready in J. rewrite forallb_forall in J. specialize (J _ I). destruct x as [nm p]. cbn [snd] in Q. rewrite Q in J. discriminate J.
    + exact Wi.
    + eexists _, _. split; [reflexivity|]. split; [exact P|reflexivity].
Qed.

Lemma exec_local_ok b k : local b k ->
  exists out, fst (exec_data_local (Op b k)) = Ok out /\ ports_in out (o_outs b) /\
    local (op_base (snd (exec_data_local (Op b k)))) (op_kind (snd (exec_data_local (Op b k)))).
Proof.
  intros [St [T B]]. pose proof (exec_data_local_erase (Op b k)) as E.
  assert (P : is_pipeline (Op b k) = false) by (destruct k; try reflexivity; now destruct St as (_ & _ & [])).
  pose proof (bounded_exec (Op b k) P B) as B'.
  destruct (windowed (Op b k)) eqn:Wi.
  - assert (X : exists out b' k', exec_base b k = (Ok out, (b', k')) /\ ports_in out (o_outs b) /\ o_toproc b' = []).
    { unfold exec_base. destruct (ready_ok b (o_toproc b) T) as (tp & -> & R); [apply St|].
      destruct tp as [|p tp]; [eexists _, _, _; split; [reflexivity|split; [apply ports_in_nil|reflexivity]]|].
      destruct (process_ok (set_toproc b (p :: tp)) k) as (out & b' & k' & -> & Po); auto.
      - discriminate.
      - intros p' I. now apply R.
      - eexists _, _, _. split; [reflexivity|]. split; [exact Po|reflexivity]. }
    destruct X as (out & b' & k' & X & Po & T').
    assert (Y : exec_data_local (Op b k) = (Ok out, Op b' k')).
    { unfold exec_data_local. destruct k; try discriminate Wi; try (now rewrite X). now destruct St as (_ & _ & []). }
    rewrite Y in *. cbn [fst snd op_base op_kind] in *. exists out. split; [reflexivity|]. split; [exact Po|].
    split; [eapply static_same; eauto|]. split; [rewrite T'; intros ? []|exact B'].
  - destruct (join_exec_ok b k) as (out & b' & X & Po & T'); [apply St|exact Wi|].
    assert (Y : exec_data_local (Op b k) = (Ok out, Op b' k)).
    { unfold exec_data_local. destruct k; try discriminate Wi; try (now rewrite X); now destruct St as (_ & _ & []). }
    rewrite Y in *. cbn [fst snd op_base op_kind] in *. exists out. split; [reflexivity|]. split; [exact Po|].
    split; [eapply static_same; eauto|]. split; [|exact B']. rewrite T'. intros p I.
    assert (Z : skeys (o_data b') = skeys (o_data b)).
    { apply (f_equal op_base) in E. rewrite !erase_op in E. cbn [op_base] in E. apply (f_equal o_data) in E. now apply smapv_keys in E. }
    rewrite Z. auto.
Qed.

End Local.
