(** * Restored programs *)

From Coq Require Import String Ascii ZArith Bool List Lia Sorted.
From Verif Require Import Base.StrMap Base.Num Model.Core Model.Ops Model.Make Model.Run Model.Graph Model.Codec.
From Verif Require Import Spec.Shape Spec.Preserving Spec.Snapshot.
From Verif Require Import Proofs.ShapeP Proofs.CodecP Proofs.HeapRel Proofs.Tidy Proofs.MakeP.
Import ListNotations.
Open Scope string_scope.
Open Scope list_scope.
Open Scope Z_scope.
Open Scope rtbot_scope.

Section Restored.
Context {NO : NumOps}.

(** ** The invariant of the operators of a program *)

Definition kept (o : op) : Prop := wf_op o /\ ordo o /\ named_ports o /\ cum_ok o.

Lemma kept_tidy o : kept o -> tidy o.
Proof.
  intros (W & [O1 O2] & [N1 N2] & _). destruct o as [b k]. apply wf_local in W as [W1 W2].
  split; auto. repeat split; auto.
Qed.

Lemma recv_cum n b acc m port : recv_data n (Op b (KCumSum acc)) m port
  = (fst (recv_data_base b m port), Op (snd (recv_data_base b m port)) (KCumSum acc)).
Proof. destruct n; cbn [recv_data op_kind]; unfold recv_data_local; destruct (recv_data_base b m port); reflexivity. Qed.

(** only a CumulativeSum becomes a CumulativeSum *)
Lemma cum_kind a o : erase a = erase o -> (forall acc, op_kind o <> KCumSum acc) -> cum_ok a.
Proof.
  intros E N. unfold cum_ok. destruct a as [b' k'], o as [b k]. cbn [op_kind] in *.
  destruct (erase_parts _ _ _ _ E) as [_ Ek]. destruct k'; try exact I.
  destruct k; try discriminate Ek. exfalso. eapply N. reflexivity.
Qed.

Lemma cum_dec k : (exists acc : V, k = KCumSum acc) \/ (forall acc, k <> KCumSum acc).
Proof. destruct k; try (right; intros; discriminate). left. eauto. Qed.

Lemma kept_recv n o m port : kept o -> kept (snd (recv_data n o m port)).
Proof.
  intros (W & O & N & C). pose proof (recv_data_erase n o m port W) as E.
  split; [eapply wf_same; eauto|]. split; [now apply recv_data_orderly|]. split; [eapply named_same; eauto|].
  destruct o as [b k]. destruct (cum_dec k) as [(acc & ->)|X]; [|eapply cum_kind; eauto].
  rewrite recv_cum. cbn in C |- *.
  destruct (cum_recv b m port C) as [[_ X]|(p' & _ & X & X1 & X2 & X3)]; rewrite X; cbn; auto.
  destruct C as (C1 & C2 & C3). split; [exact C1|]. split; [|right; reflexivity].
  exists p'. split; auto. split; auto. right. eauto.
Qed.

Lemma kept_ctrl o m port : kept o -> kept (snd (recv_ctrl_local o m port)).
Proof.
  intros (W & O & N & C). pose proof (recv_ctrl_local_erase o m port W) as E.
  split; [eapply wf_same; eauto|]. split; [now apply recv_ctrl_local_orderly|]. split; [eapply named_same; eauto|].
  destruct o as [b k]. destruct (cum_dec k) as [(acc & ->)|X]; [|eapply cum_kind; eauto].
  unfold recv_ctrl_local. cbn in C |- *. now rewrite (cum_recv_ctrl b m port C).
Qed.

Lemma cum_idle b : cum_base b -> cum_base (set_toproc b []).
Proof. intros (C1 & C2 & C3). split; [exact C1|]. split; [exact C2|]. now left. Qed.

Lemma kept_exec n ctl o : kept o -> kept (snd (exec_local (exec n) ctl o)).
Proof.
  intros (W & O & N & C). pose proof (exec_local_erase (exec n) (exec_keeps n) ctl o W) as E.
  split; [eapply wf_same; eauto|]. split; [now apply exec_local_orderly|]. split; [eapply named_same; eauto|].
  destruct o as [b k]. destruct (cum_dec k) as [(acc & ->)|X]; [|eapply cum_kind; eauto].
  cbn in C. destruct ctl; [exact C|]. cbn [exec_local op_kind exec_data_local].
  pose proof C as (C1 & (p & D & M & Q) & T). destruct T as [T|T].
    + rewrite cum_exec_idle by assumption. now apply cum_idle.
    + destruct Q as [Q|(m & Q)].
      * rewrite (cum_exec_empty b acc p) by assumption. now apply cum_idle.
      * rewrite (cum_exec b acc p m) by assumption. now apply cum_idle.
Qed.

Lemma kept_batch n entry batch out h : all_ops kept h -> all_ops kept (snd (send_batch n entry batch out h)).
Proof.
  apply send_batch_inv.
  - intros o K. apply K.
  - intros; now apply kept_recv.
  - intros; now apply kept_ctrl.
  - intros; now apply kept_exec.
Qed.

(** ** What constructors give *)

Definition names_base (b : base) : Prop := names_ok (o_data b) /\ names_ok (o_ctrl b) /\ o_toproc b = [].

Lemma semplace_names m port max : names_ok m -> names_ok (semplace port (new_port port max) m).
Proof.
  intros H. unfold semplace. destruct (sfind port m); auto. unfold names_ok in *.
  induction m as [|[k p] m IH]; cbn; [constructor; auto; constructor|].
  inversion H as [|? ? H1 H2]; subst.
  destruct (String.eqb port k); [constructor; cbn; auto|].
  destruct (sltb port k); constructor; auto.
Qed.

Lemma add_data_names b port max b' : add_data b port max = Ok b' -> names_base b -> names_base b'.
Proof.
  unfold add_data. intros E (W1 & W2 & W3). destruct (String.eqb port ""); [discriminate E|].
  destruct (shas port (o_data b) || shas port (o_ctrl b)); [discriminate E|]. injection E as <-.
  split; [|split]; cbn; auto. now apply semplace_names.
Qed.
Lemma add_ctrl_names b port max b' : add_ctrl b port max = Ok b' -> names_base b -> names_base b'.
Proof.
  unfold add_ctrl. intros E (W1 & W2 & W3). destruct (String.eqb port ""); [discriminate E|].
  destruct (shas port (o_data b) || shas port (o_ctrl b)); [discriminate E|]. injection E as <-.
  split; [|split]; cbn; auto. now apply semplace_names.
Qed.
Lemma add_out_names b port : names_base b -> names_base (add_out b port).
Proof. intros (W1 & W2 & W3). split; [|split]; auto. Qed.

Lemma add_ports_names max outs ks : forall b b', add_ports ks max outs b = Ok b' -> names_base b -> names_base b'.
Proof.
  induction ks as [|i ks IH]; intros b b' E W; cbn [add_ports] in E; [injection E as <-; auto|].
  apply rbind_ok in E as (b1 & E1 & E). eapply IH; [exact E|].
  destruct outs; [apply add_out_names|]; eapply add_data_names; eauto.
Qed.
Lemma add_ctrls_names ks : forall b b', add_ctrls ks b = Ok b' -> names_base b -> names_base b'.
Proof.
  induction ks as [|i ks IH]; intros b b' E W; cbn [add_ctrls] in E; [injection E as <-; auto|].
  apply rbind_ok in E as (b1 & E1 & E). eapply IH; [exact E|].
  apply add_out_names; eapply add_ctrl_names; eauto.
Qed.
Lemma base0_names id : names_base (base0 id).
Proof. split; [|split]; try reflexivity; constructor. Qed.

Lemma simple_names id max k o : mk_simple id max k = Ok o -> op_kind o = k /\ names_base (op_base o).
Proof.
  unfold mk_simple, simple_base. intros E. apply rbind_ok in E as (b & E1 & E). injection E as <-.
  apply rbind_ok in E1 as (b1 & E1 & E2). injection E2 as <-. split; auto. cbn [op_base].
  apply add_out_names. eapply add_data_names; [exact E1|apply base0_names].
Qed.

(** nothing remembered *)
Definition blank_kind (k : kind) : Prop :=
  match k with
  | KInput _ ls => ls = []
  | KHermiteResampler _ _ before => before = None
  | KRSI _ _ _ _ initialized => initialized = false
  | KPipeline _ _ _ _ _ => False
  | _ => True
  end.

Ltac go E :=
  repeat match type of E with
  | (if ?c then _ else _) = Ok _ => destruct c; [discriminate E|]
  | rbind _ _ = Ok _ =>
      let x := fresh "b" in let Ex := fresh "E" in apply rbind_ok in E as (x & Ex & E)
  end.

Lemma simple_case id max k o : plain k = true -> blank_kind k -> mk_simple id max k = Ok o ->
  names_base (op_base o) /\ blank_kind (op_kind o) /\ wf_op o.
Proof.
  intros P B H. destruct (simple_names _ _ _ _ H) as [K N]. pose proof (mk_simple_made _ _ _ _ P H) as (W & _).
  rewrite K. auto.
Qed.

Lemma created_names o : created o -> names_base (op_base o) /\ blank_kind (op_kind o) /\ wf_op o.
Proof.
  intros H. destruct H as
    [id n o H|id n o H|id n o H|id n o H|id f o H|id c o H|id n o H|id f v o H|id v o H|id v o H|id v o H|id v o H
    |id o H|id n o H|id n o H|id n o H|id c o H|id c o H|id o H|id o H|id u o H|id dt times o H|id dt g1 g2 o H
    |id dt o H|id dt o H|id l ty o H|id v o H|id n g1 g2 g3 g4 o H].
  - pose proof (mk_input_made _ _ _ H) as (W & _). unfold mk_input in H. go H. injection H as <-.
    split; [|split]; [|reflexivity|exact W]. eapply add_ports_names; eauto using base0_names.
  - pose proof (mk_output_made _ _ _ H) as (W & _). unfold mk_output in H. go H. injection H as <-.
    split; [|split]; [|exact I|exact W]. eapply add_ports_names; eauto using base0_names.
  - pose proof (mk_collector_made _ _ _ H) as (W & _). unfold mk_collector in H. go H. injection H as <-.
    split; [|split]; [|exact I|exact W]. eapply add_data_names; eauto using base0_names.
  - pose proof (mk_join_made _ _ _ H) as (W & _). unfold mk_join in H. go H. injection H as <-.
    split; [|split]; [|exact I|exact W]. eapply add_ports_names; eauto using base0_names.
  - pose proof (mk_binary_made _ _ _ H) as (W & _). unfold mk_binary in H. go H. injection H as <-.
    split; [|split]; [|exact I|exact W]. apply add_out_names. eapply add_ports_names; eauto using base0_names.
  - pose proof (mk_linear_made _ _ _ H) as (W & _). unfold mk_linear in H. go H. injection H as <-.
    split; [|split]; [|exact I|exact W]. apply add_out_names. eapply add_ports_names; eauto using base0_names.
  - pose proof (mk_demux_made _ _ _ H) as (W & _). unfold mk_demux in H. go H. injection H as <-.
    split; [|split]; [|exact I|exact W]. eapply add_data_names; eauto. eapply add_ctrls_names; eauto using base0_names.
  - refine (simple_case _ _ _ _ _ _ H); reflexivity || exact I.
  - refine (simple_case _ _ _ _ _ _ H); reflexivity || exact I.
  - refine (simple_case _ _ _ _ _ _ H); reflexivity || exact I.
  - refine (simple_case _ _ _ _ _ _ H); reflexivity || exact I.
  - refine (simple_case _ _ _ _ _ _ H); reflexivity || exact I.
  - refine (simple_case _ _ _ _ _ _ H); reflexivity || exact I.
  - refine (simple_case _ _ _ _ _ _ H); reflexivity || exact I.
  - refine (simple_case _ _ _ _ _ _ H); reflexivity || exact I.
  - refine (simple_case _ _ _ _ _ _ H); reflexivity || exact I.
  - refine (simple_case _ _ _ _ _ _ H); reflexivity || exact I.
  - refine (simple_case _ _ _ _ _ _ H); reflexivity || exact I.
  - refine (simple_case _ _ _ _ _ _ H); reflexivity || exact I.
  - refine (simple_case _ _ _ _ _ _ H); reflexivity || exact I.
  - refine (simple_case _ _ _ _ _ _ H); reflexivity || exact I.
  - refine (simple_case _ _ _ _ _ _ H); reflexivity || exact I.
  - unfold mk_constres in H. destruct (dt <=? 0); [discriminate H|].
    refine (simple_case _ _ _ _ _ _ H); reflexivity || exact I.
  - refine (simple_case _ _ _ _ _ _ H); reflexivity || exact I.
  - refine (simple_case _ _ _ _ _ _ H); reflexivity || exact I.
  - unfold mk_function in H. destruct (Nat.ltb _ _); [discriminate H|].
    destruct (String.eqb ty "linear"); [|destruct (String.eqb ty "hermite"); [|discriminate H]];
    (refine (simple_case _ _ _ _ _ _ H); reflexivity || exact I).
  - pose proof (mk_variable_made _ _ _ H) as (W & _). unfold mk_variable in H. go H. injection H as <-.
    split; [|split]; [|exact I|exact W]. apply add_out_names. eapply add_ctrl_names; eauto. eapply add_data_names; eauto using base0_names.
  - refine (simple_case _ _ _ _ _ _ H); reflexivity || exact I.
Qed.

Lemma cumsum_shape id max v o : mk_simple id max (KCumSum v) = Ok o -> max = 1 -> cum_base (op_base o).
Proof.
  intros H ->. cbn in H. injection H as <-. split; [reflexivity|]. split; [|now left].
  eexists. split; [reflexivity|]. split; [reflexivity|]. now left.
Qed.

Lemma created_cum o : created o -> cum_ok o.
Proof.
  intros H. unfold cum_ok. destruct (op_kind o) eqn:K; auto.
  destruct H as
    [id n o H|id n o H|id n o H|id n o H|id f o H|id c o H|id n o H|id f v o H|id v o H|id v o H|id v o H|id v o H
    |id o H|id n o H|id n o H|id n o H|id c o H|id c o H|id o H|id o H|id u o H|id dt times o H|id dt g1 g2 o H
    |id dt o H|id dt o H|id l ty o H|id v o H|id n g1 g2 g3 g4 o H];
    try (destruct (simple_names _ _ _ _ H) as [K2 _]; rewrite K in K2; discriminate K2).
  - unfold mk_input in H. go H. injection H as <-. discriminate K.
  - unfold mk_output in H. go H. injection H as <-. discriminate K.
  - unfold mk_collector in H. go H. injection H as <-. discriminate K.
  - unfold mk_join in H. go H. injection H as <-. discriminate K.
  - unfold mk_binary in H. go H. injection H as <-. discriminate K.
  - unfold mk_linear in H. go H. injection H as <-. discriminate K.
  - unfold mk_demux in H. go H. injection H as <-. discriminate K.
  - eapply cumsum_shape; eauto.
  - unfold mk_constres in H. destruct (dt <=? 0); [discriminate H|].
    destruct (simple_names _ _ _ _ H) as [K2 _]; rewrite K in K2; discriminate K2.
  - unfold mk_function in H. destruct (Nat.ltb _ _); [discriminate H|].
    destruct (String.eqb ty "linear"); [|destruct (String.eqb ty "hermite"); [|discriminate H]];
    destruct (simple_names _ _ _ _ H) as [K2 _]; rewrite K in K2; discriminate K2.
  - unfold mk_variable in H. go H. injection H as <-. discriminate K.
Qed.

Lemma new_kept o : new_op o -> kept o /\ fresh_op o /\ is_pipeline o = false.
Proof.
  intros (o0 & cs & C & ->). destruct (created_names o0 C) as ((N1 & N2 & N3) & B & W).
  pose proof (created_cum o0 C) as CC. destruct o0 as [b k]. unfold with_conns. cbn [op_base op_kind] in *.
  assert (P : is_pipeline (Op b k) = false) by (destruct k; auto; contradiction).
  split; [|split]; [split; [|split; [|split]]|split|].
  - destruct k; try exact W; contradiction.
  - split; cbn; [rewrite N3; constructor|]. destruct k; auto; cbn in B; subst; constructor.
  - split; auto.
  - unfold cum_ok in *. cbn [op_kind op_base] in *. destruct k; auto.
  - exact N3.
  - cbn. destruct k; auto.
  - destruct k; auto.
Qed.

(** ** The relation between an operator and the one restored from its snapshot *)

Definition cum_rel (a b : op) : Prop := exists ba bb acc,
  a = Op ba (KCumSum acc) /\ b = Op bb (KCumSum acc) /\ cum_base ba /\ cum_base bb /\ erase_base ba = erase_base bb.

Definition cum_in_step (a b : op) : Prop := exists ba bb acc,
  a = Op ba (KCumSum acc) /\ b = Op bb (KCumSum acc) /\ cum_base ba /\ cum_base bb /\ erase_base ba = erase_base bb /\
  ((o_toproc ba = [] /\ o_toproc bb = []) \/
   (o_toproc ba = ["i1"] /\ o_toproc bb = ["i1"] /\
    exists pa pb m, o_data ba = [("i1", pa)] /\ o_data bb = [("i1", pb)] /\ ip_max pa = 1 /\ ip_max pb = 1 /\
      ip_data pa = [m] /\ ip_data pb = [m])).

(** a RelativeStrengthIndex that has not computed anything yet: its averages are never read *)
Definition rsi_rel (a b : op) : Prop := exists b0 g1 g2 g3 g4 h1 h2 h3 h4,
  a = Op b0 (KRSI g1 g2 g3 g4 false) /\ b = Op b0 (KRSI h1 h2 h3 h4 false).

Definition equiv_op (a b : op) : Prop := wf_op a /\ (a = b \/ cum_rel a b \/ rsi_rel a b).
Definition equiv_step (a b : op) : Prop := wf_op a /\ (a = b \/ cum_in_step a b \/ rsi_rel a b).

Lemma equiv_weaken a b : equiv_step a b -> equiv_op a b.
Proof.
  intros [W [H|[(ba & bb & acc & H1 & H2 & H3 & H4 & H5 & _)|H]]]; split; auto.
  right. left. exists ba, bb, acc. auto.
Qed.

Lemma equiv_erase a b : equiv_op a b -> erase a = erase b.
Proof.
  intros [_ [->|[(ba & bb & acc & -> & -> & _ & _ & E)|(b0 & g1 & g2 & g3 & g4 & h1 & h2 & h3 & h4 & -> & ->)]]]; auto.
  rewrite !erase_op, E. reflexivity.
Qed.

Lemma recv_rsi n b g1 g2 g3 g4 i m port : recv_data n (Op b (KRSI g1 g2 g3 g4 i)) m port
  = (fst (recv_data_base b m port), Op (snd (recv_data_base b m port)) (KRSI g1 g2 g3 g4 i)).
Proof. destruct n; cbn [recv_data op_kind]; unfold recv_data_local; destruct (recv_data_base b m port); reflexivity. Qed.

Lemma cum_pending b p' m : cum_base b -> ip_max p' = 1 -> ip_data p' = [m] ->
  cum_base (set_toproc (set_data b [("i1", p')]) ["i1"]).
Proof.
  intros (C1 & C2 & C3) M Q. split; [exact C1|]. split; [|right; reflexivity].
  exists p'. split; auto. split; auto. right. eauto.
Qed.

Lemma erase_pending ba bb pa pb : erase_base ba = erase_base bb -> ip_id pa = ip_id pb -> ip_max pa = ip_max pb ->
  erase_base (set_toproc (set_data ba [("i1", pa)]) ["i1"]) = erase_base (set_toproc (set_data bb [("i1", pb)]) ["i1"]).
Proof.
  intros E I M. unfold erase_base in *. injection E as E1 E2 E3 E4 E5.
  cbn [set_toproc set_data o_id o_data o_ctrl o_outs o_conns]. rewrite E1, E3, E4, E5.
  unfold smapv. cbn [map fst snd]. unfold erase_port. rewrite I, M. reflexivity.
Qed.

Lemma equiv_recv n a b m port : equiv_op a b ->
  fst (recv_data n a m port) = fst (recv_data n b m port) /\
  equiv_op (snd (recv_data n a m port)) (snd (recv_data n b m port)) /\
  (equiv_step a b \/ fst (recv_data n a m port) = Ok tt ->
   equiv_step (snd (recv_data n a m port)) (snd (recv_data n b m port))).
Proof.
  intros [W H]. assert (W' : wf_op (snd (recv_data n a m port))).
  { eapply wf_same; [|exact W]. now apply recv_data_erase. }
  destruct H as [->|[(ba & bb & acc & -> & -> & Ca & Cb & E)|(b0 & g1 & g2 & g3 & g4 & h1 & h2 & h3 & h4 & -> & ->)]].
  - split; [reflexivity|]. split; [|intros _]; split; auto.
  - rewrite !recv_cum in *.
    assert (Ed : smapv erase_port (o_data ba) = smapv erase_port (o_data bb)) by exact (f_equal o_data E).
    pose proof Ca as (_ & (pa & Da & Ma & _) & _). pose proof Cb as (_ & (pb & Db & Mb & _) & _).
    assert (Ei : ip_id pa = ip_id pb).
    { rewrite Da, Db in Ed. cbn in Ed. injection Ed. auto. }
    destruct (cum_recv ba m port Ca) as [[X0 X]|(p1 & X0 & X & X1 & X2 & X3)],
             (cum_recv bb m port Cb) as [[Y0 Y]|(p2 & Y0 & Y & Y1 & Y2 & Y3)].
    + rewrite X, Y in *. cbn [fst snd] in *. split; [reflexivity|]. split.
      * split; auto. right. left. exists ba, bb, acc. auto.
      * intros [S|S]; [|discriminate S]. exact S.
    + congruence.
    + congruence.
    + rewrite X, Y in *. cbn [fst snd] in *. rewrite Da in X1. rewrite Db in Y1.
      assert (G : equiv_step (Op (set_toproc (set_data ba [("i1", p1)]) ["i1"]) (KCumSum acc))
                             (Op (set_toproc (set_data bb [("i1", p2)]) ["i1"]) (KCumSum acc))).
      { split; auto. right. left. eexists _, _, acc. split; [reflexivity|]. split; [reflexivity|].
        split; [eapply cum_pending; eauto|]. split; [eapply cum_pending; eauto|].
        split; [apply erase_pending; auto; congruence|]. right. split; [reflexivity|]. split; [reflexivity|].
        exists p1, p2, m. cbn. auto 10. }
      split; [reflexivity|]. split; auto. now apply equiv_weaken.
  - rewrite !recv_rsi in *. cbn [fst snd] in *.
    assert (G : equiv_step (Op (snd (recv_data_base b0 m port)) (KRSI g1 g2 g3 g4 false))
                           (Op (snd (recv_data_base b0 m port)) (KRSI h1 h2 h3 h4 false))).
    { split; auto. right. right. repeat eexists. }
    split; [reflexivity|]. split; auto. now apply equiv_weaken.
Qed.

Lemma equiv_ctrl a b m port : equiv_op a b ->
  fst (recv_ctrl_local a m port) = fst (recv_ctrl_local b m port) /\
  equiv_op (snd (recv_ctrl_local a m port)) (snd (recv_ctrl_local b m port)) /\
  (equiv_step a b \/ fst (recv_ctrl_local a m port) = Ok tt ->
   equiv_step (snd (recv_ctrl_local a m port)) (snd (recv_ctrl_local b m port))).
Proof.
  intros [W H]. assert (W' : wf_op (snd (recv_ctrl_local a m port))).
  { eapply wf_same; [|exact W]. now apply recv_ctrl_local_erase. }
  destruct H as [->|[(ba & bb & acc & -> & -> & Ca & Cb & E)|(b0 & g1 & g2 & g3 & g4 & h1 & h2 & h3 & h4 & -> & ->)]].
  - split; [reflexivity|]. split; [|intros _]; split; auto.
  - unfold recv_ctrl_local in *. rewrite (cum_recv_ctrl ba m port Ca), (cum_recv_ctrl bb m port Cb) in *.
    cbn [fst snd] in *. split; [reflexivity|]. split.
    + split; auto. right. left. exists ba, bb, acc. auto.
    + intros [S|S]; [exact S|discriminate S].
  - unfold recv_ctrl_local in *. destruct (recv_ctrl_base b0 m port) as [r b']. cbn [fst snd] in *.
    assert (G : equiv_step (Op b' (KRSI g1 g2 g3 g4 false)) (Op b' (KRSI h1 h2 h3 h4 false))).
    { split; auto. right. right. repeat eexists. }
    split; [reflexivity|]. split; auto. now apply equiv_weaken.
Qed.

Lemma rsi_process b g1 g2 g3 g4 h1 h2 h3 h4 :
  fst (process_data b (KRSI g1 g2 g3 g4 false)) = fst (process_data b (KRSI h1 h2 h3 h4 false)) /\
  (snd (process_data b (KRSI g1 g2 g3 g4 false)) = snd (process_data b (KRSI h1 h2 h3 h4 false)) \/
   snd (process_data b (KRSI g1 g2 g3 g4 false)) = (b, KRSI g1 g2 g3 g4 false) /\
   snd (process_data b (KRSI h1 h2 h3 h4 false)) = (b, KRSI h1 h2 h3 h4 false)).
Proof.
  cbn [process_data].
  assert (E : forall q pg pl qg ql, rsi_averages q pg pl false = rsi_averages q qg ql false) by reflexivity.
  destruct (single_port b) as [port| | | |]; cbn [rbind]; try (split; auto; fail).
  destruct (d_last b port) as [m| | | |]; cbn [rbind]; try (split; auto; fail).
  rewrite (E _ g3 g4 h3 h4).
  destruct (rsi_averages (port_data b port) h3 h4 false) as [[g l]| | | |]; cbn [rbind]; split; auto.
Qed.

Lemma rsi_exec b g1 g2 g3 g4 h1 h2 h3 h4 :
  fst (exec_base b (KRSI g1 g2 g3 g4 false)) = fst (exec_base b (KRSI h1 h2 h3 h4 false)) /\
  (snd (exec_base b (KRSI g1 g2 g3 g4 false)) = snd (exec_base b (KRSI h1 h2 h3 h4 false)) \/
   exists b', snd (exec_base b (KRSI g1 g2 g3 g4 false)) = (b', KRSI g1 g2 g3 g4 false) /\
   snd (exec_base b (KRSI h1 h2 h3 h4 false)) = (b', KRSI h1 h2 h3 h4 false)).
Proof.
  unfold exec_base. destruct (ready_ports b (o_toproc b)) as [[|p tp]| | | |]; try (split; eauto; fail).
  - split; eauto. right. eexists. split; reflexivity.
  - destruct (rsi_process (set_toproc b (p :: tp)) g1 g2 g3 g4 h1 h2 h3 h4) as [E1 E2].
    destruct (process_data _ (KRSI g1 g2 g3 g4 false)) as [r1 [b1 k1]], (process_data _ (KRSI h1 h2 h3 h4 false)) as [r2 [b2 k2]].
    cbn [fst snd] in *. subst r2. destruct E2 as [E2|[E2 E3]].
    + injection E2 as -> ->. destruct r1; split; auto.
    + injection E2 as -> ->. injection E3 as -> ->. destruct r1; split; eauto; right; eexists; split; reflexivity.
  - split; eauto. right. eexists. split; reflexivity.
  - split; eauto. right. eexists. split; reflexivity.
  - split; eauto. right. eexists. split; reflexivity.
  - split; eauto. right. eexists. split; reflexivity.
Qed.

Lemma equiv_exec n ctl a b : equiv_step a b ->
  fst (exec_local (exec n) ctl a) = fst (exec_local (exec n) ctl b) /\
  equiv_step (snd (exec_local (exec n) ctl a)) (snd (exec_local (exec n) ctl b)).
Proof.
  intros [W H]. assert (W' : wf_op (snd (exec_local (exec n) ctl a))).
  { eapply wf_same; [|exact W]. apply exec_local_erase; auto. apply exec_keeps. }
  pose proof H as H0.
  destruct H as [->|[(ba & bb & acc & -> & -> & Ca & Cb & E & S)|(b0 & g1 & g2 & g3 & g4 & h1 & h2 & h3 & h4 & -> & ->)]].
  - split; [reflexivity|]. split; auto.
  - destruct ctl; [split; [reflexivity|]; split; auto|].
    cbn [exec_local op_kind exec_data_local] in *.
    destruct S as [[Ta Tb]|(Ta & Tb & pa & pb & m & Da & Db & Ma & Mb & Qa & Qb)].
    + rewrite (cum_exec_idle ba acc Ta), (cum_exec_idle bb acc Tb) in *. cbn [fst snd] in *. split; [reflexivity|].
      split; auto. right. left. eexists _, _, acc. split; [reflexivity|]. split; [reflexivity|].
      split; [now apply cum_idle|]. split; [now apply cum_idle|]. split; [now rewrite !erase_toproc|]. left. auto.
    + rewrite (cum_exec ba acc pa m), (cum_exec bb acc pb m) in * by assumption. cbn [fst snd] in *. split; [reflexivity|].
      split; auto. right. left. eexists _, _, _. split; [reflexivity|]. split; [reflexivity|].
      split; [now apply cum_idle|]. split; [now apply cum_idle|]. split; [now rewrite !erase_toproc|]. left. auto.
  - destruct ctl; [split; [reflexivity|]; split; auto|].
    cbn [exec_local op_kind exec_data_local] in *.
    destruct (rsi_exec b0 g1 g2 g3 g4 h1 h2 h3 h4) as [E1 E2].
    destruct (exec_base b0 (KRSI g1 g2 g3 g4 false)) as [r1 [b1 k1]], (exec_base b0 (KRSI h1 h2 h3 h4 false)) as [r2 [b2 k2]].
    cbn [fst snd] in *. subst r2. split; [reflexivity|]. destruct E2 as [E2|(b' & E2 & E3)].
    + injection E2 as -> ->. split; auto.
    + injection E2 as -> ->. injection E3 as -> ->. split; auto. right. right. repeat eexists.
Qed.

(** ** Runs of a single operator *)

Lemma step_kept o e : is_pipeline o = false -> kept o -> kept (snd (step o e)) /\ is_pipeline (snd (step o e)) = false.
Proof.
  intros P K.
  assert (X : kept (snd (step o e)) /\ erase (snd (step o e)) = erase o).
  { assert (W : wf_op o) by apply K. destruct o as [b k]. destruct e as [port m|port m| |]; cbn [step].
    - pose proof (kept_recv 0 (Op b k) m port K) as K1. pose proof (recv_data_erase 0 (Op b k) m port W) as E1.
      replace (recv_data 0 (Op b k) m port) with (recv_data_local (Op b k) m port) in * by (destruct k; try reflexivity; discriminate P).
      destruct (recv_data_local (Op b k) m port) as [r o1]. destruct r; auto.
    - pose proof (kept_ctrl (Op b k) m port K) as K1. pose proof (recv_ctrl_local_erase (Op b k) m port W) as E1.
      destruct (recv_ctrl_local (Op b k) m port) as [r o1]. destruct r; auto.
    - pose proof (kept_exec 0 false (Op b k) K) as K1. pose proof (exec_local_erase (exec 0) (exec_keeps 0) false (Op b k) W) as E1.
      replace (exec_local (exec 0) false (Op b k)) with (exec_data_local (Op b k)) in * by (destruct k; try reflexivity; discriminate P). auto.
    - pose proof (kept_exec 0 true (Op b k) K) as K1. pose proof (exec_local_erase (exec 0) (exec_keeps 0) true (Op b k) W) as E1. auto. }
  destruct X as [X1 X2]. split; auto. destruct o as [b k], (snd (step _ e)) as [b' k'].
  destruct (erase_parts _ _ _ _ X2) as [_ Ek]. destruct k'; auto. destruct k; try discriminate Ek. discriminate P.
Qed.

Lemma step_erase o e : is_pipeline o = false -> wf_op o -> erase (snd (step o e)) = erase o.
Proof.
  intros P W. destruct o as [b k]. destruct e as [port m|port m| |]; cbn [step].
  - pose proof (recv_data_erase 0 (Op b k) m port W) as E1.
    replace (recv_data 0 (Op b k) m port) with (recv_data_local (Op b k) m port) in * by (destruct k; try reflexivity; discriminate P).
    destruct (recv_data_local (Op b k) m port) as [r o1]. destruct r; auto.
  - pose proof (recv_ctrl_local_erase (Op b k) m port W) as E1.
    destruct (recv_ctrl_local (Op b k) m port) as [r o1]. destruct r; auto.
  - pose proof (exec_local_erase (exec 0) (exec_keeps 0) false (Op b k) W) as E1.
    replace (exec_local (exec 0) false (Op b k)) with (exec_data_local (Op b k)) in * by (destruct k; try reflexivity; discriminate P). auto.
  - exact (exec_local_erase (exec 0) (exec_keeps 0) true (Op b k) W).
Qed.

Lemma run_kept evs : forall o, is_pipeline o = false -> kept o ->
  kept (snd (run o evs)) /\ is_pipeline (snd (run o evs)) = false /\ erase (snd (run o evs)) = erase o.
Proof.
  induction evs as [|e evs IH]; intros o P K; cbn [run]; [auto|].
  destruct (step_kept o e P K) as [K1 P1]. pose proof (step_erase o e P (proj1 K)) as E1.
  destruct (step o e) as [r o1]. cbn [fst snd] in *. destruct r as [x|e0| | |]; cbn; [|auto..].
  destruct (IH o1 P1 K1) as (K2 & P2 & E2).
  destruct (run o1 evs) as [r2 o2]. cbn [fst snd] in *. rewrite E1 in E2. destruct r2; cbn; auto.
Qed.

(** ** Sessions of equivalent programs *)

Definition equiv_heap (h1 h2 : heap) : Prop :=
  forall id, match sfind id h1, sfind id h2 with
             | Some a, Some b => equiv_op a b
             | None, None => True
             | _, _ => False
             end.

Lemma send_batch_equiv n entry batch out h1 h2 : equiv_heap h1 h2 ->
  fst (send_batch n entry batch out h1) = fst (send_batch n entry batch out h2) /\
  equiv_heap (snd (send_batch n entry batch out h1)) (snd (send_batch n entry batch out h2)).
Proof.
  intros H.
  set (Inp := fun id port => match sfind id h1 with Some o => has_port o port | None => false end).
  assert (X : srel equiv_op equiv_step Inp (fun _ => False) (send_batch n entry batch out h1) (send_batch n entry batch out h2)).
  { apply send_batch_rel.
    - apply equiv_weaken.
    - apply equiv_erase.
    - intros a b [W _]. exact W.
    - intros; now apply equiv_recv.
    - intros; now apply equiv_ctrl.
    - intros; now apply equiv_exec.
    - intros id. specialize (H id). unfold orel, Inp. destruct (sfind id h1), (sfind id h2); auto.
      split; [auto|]. split; [intros []|]. reflexivity. }
  destruct X as [X1 X2]. split; auto. intros id. specialize (X2 id).
  destruct (sfind id (snd (send_batch n entry batch out h1))), (sfind id (snd (send_batch n entry batch out h2))); auto.
  apply X2.
Qed.

Definition equiv_program (p q : program) : Prop :=
  p_entry p = p_entry q /\ p_filter p = p_filter q /\ equiv_heap (p_ops p) (p_ops q).

Lemma receive_equiv n p q batch : equiv_program p q ->
  fst (receive n p batch) = fst (receive n q batch) /\ equiv_program (snd (receive n p batch)) (snd (receive n q batch)).
Proof.
  intros (E1 & E2 & H). unfold receive, receive_debug. rewrite E1.
  pose proof (H (p_entry q)) as He. unfold shas.
  assert (Es : match sfind (p_entry q) (p_ops p) with Some _ => true | None => false end =
               match sfind (p_entry q) (p_ops q) with Some _ => true | None => false end).
  { destruct (sfind (p_entry q) (p_ops p)), (sfind (p_entry q) (p_ops q)); auto; contradiction. }
  rewrite Es. destruct (match sfind (p_entry q) (p_ops q) with Some _ => true | None => false end).
  - destruct (send_batch_equiv n (p_entry q) batch [] _ _ H) as [S1 S2].
    destruct (send_batch n (p_entry q) batch [] (p_ops p)) as [r1 k1], (send_batch n (p_entry q) batch [] (p_ops q)) as [r2 k2].
    cbn [fst snd] in *. subst r2. rewrite E2. destruct r1; split; auto; split; auto.
  - split; auto. split; auto.
Qed.

Lemma session_equiv n batches : forall p q, equiv_program p q ->
  fst (session n p batches) = fst (session n q batches) /\ equiv_program (snd (session n p batches)) (snd (session n q batches)).
Proof.
  induction batches as [|b bs IH]; intros p q H; cbn [session]; [auto|].
  destruct (receive_equiv n p q b H) as [S1 S2].
  destruct (receive n p b) as [r1 p1], (receive n q b) as [r2 q1]. cbn [fst snd] in *. subst r2.
  destruct (IH _ _ S2) as [T1 T2].
  destruct (session n p1 bs), (session n q1 bs). cbn [fst snd] in *. subst. auto.
Qed.

(** ** Reachable programs *)

Definition kept_program (p : program) : Prop := all_ops kept (p_ops p).

Lemma receive_kept n p batch : swf (p_ops p) -> kept_program p ->
  kept_program (snd (receive n p batch)) /\ same_definition (snd (receive n p batch)) p.
Proof.
  intros W K. unfold receive, receive_debug. destruct (shas (p_entry p) (p_ops p)).
  - pose proof (kept_batch n (p_entry p) batch [] (p_ops p) K) as X.
    assert (Wh : wf_heap (p_ops p)) by (split; auto; intros id o E; apply (K id o E)).
    pose proof (send_batch_keeps n (p_entry p) batch [] (p_ops p) Wh) as Y. unfold keeps in Y.
    destruct (send_batch n (p_entry p) batch [] (p_ops p)) as [r k]. cbn [fst snd] in *.
    destruct r; split; auto; repeat split; auto.
  - split; auto. repeat split; auto.
Qed.

Lemma session_kept n batches : forall p, swf (p_ops p) -> kept_program p ->
  kept_program (snd (session n p batches)) /\ same_definition (snd (session n p batches)) p.
Proof.
  induction batches as [|b bs IH]; intros p W K; cbn [session].
  - split; auto. repeat split; auto.
  - destruct (receive_kept n p b W K) as [K1 (D1 & D2 & D3 & D4)]. destruct (receive n p b) as [r p1]. cbn [fst snd] in *.
    assert (W1 : swf (p_ops p1)).
    { apply (swf_keys (p_ops p)); auto. symmetry. exact (smapv_keys _ _ _ D4). }
    destruct (IH p1 W1 K1) as [K2 (F1 & F2 & F3 & F4)]. destruct (session n p1 bs) as [rs p2]. cbn [snd] in *.
    split; auto. repeat split; congruence.
Qed.

(** ** Loading *)

Context {NC : NumCodec NO}.

Lemma enc_named_op_ne x : enc_named_op x <> [].
Proof. unfold enc_named_op, enc_str. discriminate. Qed.

Lemma load_ops_step c bound h bs : bs <> [] -> load_ops (c :: bound) h bs =
  let! x := rd_str bs in
  match sfind (fst x) h with
  | None => Throw OutOfRange
  | Some o => let! y := restore o (snd x) in load_ops bound (sset (fst x) (fst y) h) (snd y)
  end.
Proof. intros N. destruct bs; [congruence|reflexivity]. Qed.

Lemma load_ops_spec l : forall bound h,
  NoDup (skeys l) ->
  Forall (fun x => short_str (fst x) /\ fits (snd x) /\ kept (snd x) /\
                   exists q, sfind (fst x) h = Some q /\ fresh_op q /\ erase q = erase (snd x)) l ->
  (length (flat_map enc_named_op l) <= length bound)%nat ->
  exists h', load_ops bound h (flat_map enc_named_op l) = Ok h' /\
    forall id, sfind id h' = match sfind id l with
                             | Some o => option_map (fun q => restored q o) (sfind id h)
                             | None => sfind id h
                             end.
Proof.
  induction l as [|[id o] l IH]; intros bound h Hn HF Hb.
  - exists h. split; auto. destruct bound; reflexivity.
  - inversion Hn as [|? ? N1 N2]; subst. inversion HF as [|? ? (F1 & F2 & F3 & q & F4 & F5 & F6) FF]; subst.
    cbn [fst snd] in *.
    cbn [flat_map] in *. rewrite app_length in Hb.
    assert (L : (0 < length (enc_named_op (id, o)))%nat).
    { pose proof (enc_named_op_ne (id, o)). destruct (enc_named_op (id, o)); [congruence|cbn; lia]. }
    destruct bound as [|c bound]; [cbn in Hb; lia|].
    destruct (rd_str_enc id F1) as [S1 _].
    destruct (restore_decodes q o F5 F6 (kept_tidy _ F3) F2) as [T1 _].
    destruct (IH bound (sset id (restored q o) h)) as (h' & E & G); auto.
    + rewrite Forall_forall in *. intros [id' o'] Hx. destruct (FF _ Hx) as (G1 & G2 & G3 & q' & G4 & G5 & G6).
      cbn [fst snd] in *. split; auto. split; auto. split; auto. exists q'. split; auto.
      rewrite sfind_sset. destruct (String.eqb_spec id' id) as [->|]; auto.
      exfalso. apply N1. change id with (fst (id, o')). now apply in_map.
    + cbn in Hb. lia.
    + exists h'. split.
      * rewrite load_ops_step by (pose proof (enc_named_op_ne (id, o)); destruct (enc_named_op (id, o)); [congruence|discriminate]).
        unfold enc_named_op at 1. cbn [fst snd]. rewrite <- !app_assoc.
        rewrite S1. cbn [rbind fst snd]. rewrite F4, T1. cbn [rbind fst snd]. exact E.
      * intros id'. rewrite G. rewrite sfind_sset. cbn [sfind].
        destruct (String.eqb_spec id' id) as [->|Ne].
        -- rewrite (proj2 (sfind_None id l) N1), F4. reflexivity.
        -- reflexivity.
Qed.

Lemma erase_heap_find h1 h2 id o : erase_heap h1 = erase_heap h2 -> sfind id h1 = Some o ->
  exists o', sfind id h2 = Some o' /\ erase o' = erase o.
Proof.
  intros E F. pose proof (f_equal (sfind id) E) as X. unfold erase_heap in X. rewrite !sfind_smapv, F in X.
  destruct (sfind id h2) as [o'|]; [|discriminate X]. injection X as X. eauto.
Qed.

Lemma load_spec init p q0 : kept_program p -> swf (p_ops p) -> fits_program p ->
  init (p_text p) = Ok q0 -> new_program q0 -> same_definition p q0 ->
  exists q, load init (serialize p) = Ok q /\ p_entry q = p_entry p /\ p_filter q = p_filter p /\ p_text q = p_text p /\
    forall id, match sfind id (p_ops p), sfind id (p_ops q) with
               | Some o, Some o' => exists f, sfind id (p_ops q0) = Some f /\ o' = restored f o
               | None, None => True
               | _, _ => False
               end.
Proof.
  intros K W [F1 F2] I [Wq Nq] (D1 & D2 & D3 & D4).
  destruct (load_ops_spec (p_ops p) (flat_map enc_named_op (p_ops p)) (p_ops q0)) as (h' & E & G); auto.
  - now apply swf_NoDup.
  - rewrite Forall_forall in *. intros [id o] Hx. destruct (F2 _ Hx) as [G1 G2]. cbn [fst snd] in *.
    assert (Fo : sfind id (p_ops p) = Some o) by now apply In_sfind.
    split; auto. split; auto. split; [exact (K id o Fo)|].
    destruct (erase_heap_find _ _ _ _ D4 Fo) as (f & Ff & Ef). exists f. split; auto. split; auto.
    apply new_kept. eauto.
  - exists (set_ops q0 h'). split; [|split; [|split; [|split]]]; cbn [set_ops p_ops p_entry p_filter p_text]; auto.
    + unfold load, serialize. destruct (rd_str_enc (p_text p) F1) as [S1 _]. rewrite S1. cbn [rbind fst snd].
      rewrite I. cbn [rbind]. rewrite E. reflexivity.
    + intros id. rewrite G. destruct (sfind id (p_ops p)) as [o|] eqn:Fo.
      * destruct (erase_heap_find _ _ _ _ D4 Fo) as (f & Ff & Ef). rewrite Ff. cbn. eauto.
      * destruct (sfind id (p_ops q0)) as [f|] eqn:Ff; auto.
        destruct (erase_heap_find _ _ _ _ (eq_sym D4) Ff) as (o & Fo' & _). congruence.
Qed.

(** ** A snapshot of the restored program is the same snapshot *)

Lemma load_ops_wf bound : forall h bs h', load_ops bound h bs = Ok h' -> swf h -> swf h'.
Proof.
  induction bound as [|c bound IH]; intros h bs h' E W.
  - destruct bs; [injection E as <-; auto|discriminate E].
  - destruct bs as [|c0 bs]; [injection E as <-; auto|]. rewrite load_ops_step in E by discriminate.
    apply rbind_ok in E as (x & E1 & E). destruct (sfind (fst x) h) as [o|]; [|discriminate E].
    apply rbind_ok in E as (y & E2 & E). eapply IH; eauto. now apply swf_sset.
Qed.

Lemma load_wf init bs q0 q x : rd_str bs = Ok x -> init (fst x) = Ok q0 -> load init bs = Ok q -> swf (p_ops q0) -> swf (p_ops q).
Proof.
  intros R I L W. unfold load in L. rewrite R in L. cbn [rbind] in L. rewrite I in L. cbn [rbind] in L.
  apply rbind_ok in L as (h & L1 & L). injection L as <-. cbn. eapply load_ops_wf; eauto.
Qed.

Lemma collect_restored f o : erase f = erase o -> collect (restored f o) = collect o.
Proof.
  intros E. destruct o as [b k], f as [b0 k0]. destruct (erase_parts _ _ _ _ E) as [Eb Ek].
  unfold restored. cbn [op_kind op_base]. unfold erase_kind in Ek.
  destruct k; try reflexivity; destruct k0; try discriminate Ek; reflexivity.
Qed.

Lemma flat_named (h : heap) : flat_map enc_named_op h =
  flat_map (fun x => enc_str (fst x) ++ snd x) (smapv collect h).
Proof.
  induction h as [|[id o] h IH]; cbn [flat_map smapv map]; auto. rewrite IH. reflexivity.
Qed.

Lemma serialize_again init p q0 q : kept_program p -> swf (p_ops p) -> fits_program p ->
  init (p_text p) = Ok q0 -> new_program q0 -> same_definition p q0 ->
  load init (serialize p) = Ok q -> serialize q = serialize p.
Proof.
  intros K W F I N D L. destruct (load_spec init p q0 K W F I N D) as (q' & L' & E1 & E2 & E3 & G).
  rewrite L in L'. injection L' as <-. unfold serialize. rewrite E3. f_equal. rewrite !flat_named. f_equal.
  destruct F as [F1 F2]. destruct (rd_str_enc (p_text p) F1) as [S1 _].
  assert (Wq : swf (p_ops q)).
  { eapply (load_wf init (serialize p) q0 q (p_text p, _)); [apply S1|exact I|exact L|apply N]. }
  apply swf_ext; [now apply swf_smapv|now apply swf_smapv|]. intros id. rewrite !sfind_smapv. specialize (G id).
  destruct (sfind id (p_ops p)) as [o|] eqn:Fo, (sfind id (p_ops q)) as [o'|]; try contradiction; auto.
  destruct G as (f & Ff & ->). destruct D as (_ & _ & _ & D4).
  destruct (erase_heap_find _ _ _ _ D4 Fo) as (f' & Ff' & Ef). rewrite Ff in Ff'. injection Ff' as <-.
  cbn. now rewrite collect_restored.
Qed.

(** ** Truncated snapshots *)

Lemma load_ops_cut l : forall bound h b,
  NoDup (skeys l) ->
  Forall (fun x => short_str (fst x) /\ fits (snd x) /\ kept (snd x) /\
                   exists q, sfind (fst x) h = Some q /\ fresh_op q /\ erase q = erase (snd x)) l ->
  cut b (flat_map enc_named_op l) -> (length b <= length bound)%nat ->
  load_ops bound h b = UB \/
  exists l1 l2, l = l1 ++ l2 /\ l2 <> [] /\ b = flat_map enc_named_op l1.
Proof.
  induction l as [|[id o] l IH]; intros bound h b Hn HF HC Hb; [now apply cut_nil in HC|].
  inversion Hn as [|? ? N1 N2]; subst. inversion HF as [|? ? (F1 & F2 & F3 & q & F4 & F5 & F6) FF]; subst.
  cbn [fst snd flat_map] in *.
  destruct (rd_str_enc id F1) as [S1 S2].
  destruct (restore_decodes q o F5 F6 (kept_tidy _ F3) F2) as [T1 T2].
  destruct b as [|c0 b0].
  { right. exists [], ((id, o) :: l). split; auto. split; [discriminate|reflexivity]. }
  destruct bound as [|c bound]; [cbn in Hb; lia|].
  apply cut_app in HC as [HC|(b' & E & HC)].
  - left. rewrite load_ops_step by discriminate. unfold enc_named_op in HC. cbn [fst snd] in HC.
    apply cut_app in HC as [HC|(b' & E & HC)].
    + now rewrite (S2 _ HC).
    + rewrite E, S1. cbn [rbind fst snd]. rewrite F4. now rewrite (T2 _ HC).
  - assert (L : (0 < length (enc_named_op (id, o)))%nat).
    { pose proof (enc_named_op_ne (id, o)). destruct (enc_named_op (id, o)); [congruence|cbn; lia]. }
    pose proof (f_equal (@length _) E) as EL. rewrite app_length in EL.
    destruct (IH bound (sset id (restored q o) h) b') as [U|(l1 & l2 & E1 & E2 & E3)]; auto.
    + rewrite Forall_forall in *. intros [id' o'] Hx. destruct (FF _ Hx) as (G1 & G2 & G3 & q' & G4 & G5 & G6).
      cbn [fst snd] in *. split; auto. split; auto. split; auto. exists q'. split; auto.
      rewrite sfind_sset. destruct (String.eqb_spec id' id) as [->|]; auto.
      exfalso. apply N1. change id with (fst (id, o')). now apply in_map.
    + cbn in Hb, EL. lia.
    + left. rewrite load_ops_step by discriminate. rewrite E. unfold enc_named_op. cbn [fst snd]. rewrite <- app_assoc, S1.
      cbn [rbind fst snd]. rewrite F4, T1. cbn [rbind fst snd]. exact U.
    + right. exists ((id, o) :: l1), l2. subst l. split; auto. split; auto. rewrite E, E3. reflexivity.
Qed.

Lemma NoDup_prefix {A} (l l' : list A) : NoDup (l ++ l') -> NoDup l.
Proof.
  induction l as [|x l IH]; cbn; intros H; constructor; inversion H; subst; auto.
  intros X. apply H2. apply in_or_app. now left.
Qed.

(** what becomes of a snapshot cut short: either the reader runs past its end, or the cut is
    between two operators and the operators after it are as new *)
Lemma load_cut init p q0 b : kept_program p -> swf (p_ops p) -> fits_program p ->
  init (p_text p) = Ok q0 -> new_program q0 -> same_definition p q0 ->
  cut b (serialize p) ->
  load init b = UB \/
  exists l1 l2 q, p_ops p = l1 ++ l2 /\ l2 <> [] /\ load init b = Ok q /\
    p_entry q = p_entry p /\ p_filter q = p_filter p /\ p_text q = p_text p /\
    forall id, sfind id (p_ops q) = match sfind id l1 with
                                    | Some o => option_map (fun f => restored f o) (sfind id (p_ops q0))
                                    | None => sfind id (p_ops q0)
                                    end.
Proof.
  intros K W [F1 F2] I [Wq Nq] (D1 & D2 & D3 & D4) HC.
  assert (N : NoDup (skeys (p_ops p))) by now apply swf_NoDup.
  assert (HF : Forall (fun x => short_str (fst x) /\ fits (snd x) /\ kept (snd x) /\
                   exists q, sfind (fst x) (p_ops q0) = Some q /\ fresh_op q /\ erase q = erase (snd x)) (p_ops p)).
  { rewrite Forall_forall in *. intros [id o] Hx. destruct (F2 _ Hx) as [G1 G2]. cbn [fst snd] in *.
    assert (Fo : sfind id (p_ops p) = Some o) by now apply In_sfind.
    split; auto. split; auto. split; [exact (K id o Fo)|].
    destruct (erase_heap_find _ _ _ _ D4 Fo) as (f & Ff & Ef). exists f. split; auto. split; auto.
    apply new_kept. eauto. }
  unfold serialize in HC. destruct (rd_str_enc (p_text p) F1) as [S1 S2].
  apply cut_app in HC as [HC|(b' & E & HC)].
  - left. unfold load. now rewrite (S2 _ HC).
  - subst b. unfold load. rewrite S1. cbn [rbind fst snd]. rewrite I. cbn [rbind].
    destruct (load_ops_cut _ b' (p_ops q0) b' N HF HC) as [U|(l1 & l2 & E1 & E2 & E3)]; auto.
    + left. now rewrite U.
    + right. rewrite E1 in N, HF.
      destruct (load_ops_spec l1 b' (p_ops q0)) as (h' & L & G).
      * unfold skeys in *. rewrite map_app in N. now apply NoDup_prefix in N.
      * apply Forall_app in HF. apply HF.
      * now rewrite E3.
      * exists l1, l2, (set_ops q0 h'). split; auto. split; auto. rewrite E3 at 2. rewrite L. cbn [rbind].
        cbn [set_ops p_ops p_entry p_filter p_text]. auto 10.
Qed.

(** ** Restored programs are equivalent *)

(** the operators whose restored version is equivalent *)
Definition recovers (o : op) : bool :=
  match op_kind o with
  | KRSI _ _ _ _ initialized => negb initialized
  | KPipeline _ _ _ _ _ => false
  | _ => true
  end.

Lemma restored_equiv f o : kept o -> recovers o = true -> kept f -> fresh_op f -> erase f = erase o ->
  equiv_op o (restored f o).
Proof.
  intros Ko Ro Kf Ff E. split; [apply Ko|].
  destruct o as [b k], f as [b0 k0]. destruct (erase_parts _ _ _ _ E) as [Eb Ek].
  unfold restored. cbn [op_kind op_base] in *.
  destruct k; try (now left).
  - right. left. exists b, b0, accumulated. split; auto. split; auto.
    destruct Ko as (_ & _ & _ & C1). destruct Kf as (_ & _ & _ & C2). cbn in C1.
    unfold erase_kind in Ek. destruct k0; try discriminate Ek. cbn in C2. auto.
  - right. right. unfold erase_kind in Ek. destruct k0; try discriminate Ek.
    cbn in Ro. destruct initialized; [discriminate Ro|]. destruct Ff as [_ Ff]. cbn in Ff. subst. repeat eexists.
Qed.

Lemma load_equiv init p q0 : kept_program p -> swf (p_ops p) -> fits_program p ->
  (forall id o, sfind id (p_ops p) = Some o -> recovers o = true) ->
  init (p_text p) = Ok q0 -> new_program q0 -> same_definition p q0 ->
  exists q, load init (serialize p) = Ok q /\ equiv_program p q.
Proof.
  intros K W F S I N D. destruct (load_spec init p q0 K W F I N D) as (q & L & E1 & E2 & E3 & G).
  exists q. split; auto. split; [auto|]. split; [auto|]. intros id. specialize (G id).
  destruct (sfind id (p_ops p)) as [o|] eqn:Fo, (sfind id (p_ops q)) as [o'|]; auto.
  destruct G as (f & Ff & ->). destruct D as (_ & _ & _ & D4).
  destruct (erase_heap_find _ _ _ _ D4 Fo) as (f' & Ff' & Ef). rewrite Ff in Ff'. injection Ff' as <-.
  destruct (new_kept f) as (K1 & K2 & _); [eapply (proj2 N); eauto|].
  apply restored_equiv; auto; [exact (K id o Fo)|eauto].
Qed.

End Restored.
