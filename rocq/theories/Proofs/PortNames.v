(** * The ports of newly created operators: their names, and that they are empty *)

From Coq Require Import String Ascii ZArith Bool List Lia.
From Verif Require Import Base.StrMap Base.Num Model.Core Model.Ops Model.Make Model.Graph Model.Json.
From Verif Require Import Spec.Shape Spec.Preserving Spec.Snapshot Spec.Definition Proofs.Ports Proofs.MakeP Proofs.JsonP Proofs.Restored Proofs.Deep.
Import ListNotations.
Open Scope string_scope.
Open Scope list_scope.
Open Scope Z_scope.
Open Scope rtbot_scope.

Section PortNames.
Context {NO : NumOps}.

Definition new_ports (name : nat -> string) (m : smap inport) : Prop :=
  Forall (fun x => exists k max, fst x = name k /\ snd x = new_port (name k) max) m.
Definition new_base (b : base) : Prop :=
  new_ports iport (o_data b) /\ new_ports cport (o_ctrl b) /\ Forall (fun x => exists k, x = oport k) (o_outs b).

Lemma Forall_sset {A} (P : string * A -> Prop) k v m : Forall P m -> P (k, v) -> Forall P (sset k v m).
Proof.
  intros H K. induction H as [|[k' v'] m H1 H IH]; cbn; [auto|].
  destruct (String.eqb k k'); [auto|]. destruct (sltb k k'); auto.
Qed.
Lemma Forall_semplace {A} (P : string * A -> Prop) k v m : Forall P m -> P (k, v) -> Forall P (semplace k v m).
Proof. intros H K. unfold semplace. destruct (sfind k m); [exact H|now apply Forall_sset]. Qed.
Lemma Forall_sset_add (P : string -> Prop) k s : Forall P s -> P k -> Forall P (sset_add k s).
Proof.
  intros H K. induction H as [|k' s H1 H IH]; cbn; [auto|].
  destruct (String.eqb k k'); [auto|]. destruct (sltb k k'); auto.
Qed.

Lemma add_data_new b i max b' : add_data b (iport i) max = Ok b' -> new_base b -> new_base b'.
Proof.
  unfold add_data. destruct (String.eqb (iport i) ""); [discriminate|]. destruct (_ || _); [discriminate|].
  intros [= <-] (H1 & H2 & H3). split; [|split]; auto. apply Forall_semplace; [exact H1|]. exists i, max. auto.
Qed.
Lemma add_ctrl_new b i max b' : add_ctrl b (cport i) max = Ok b' -> new_base b -> new_base b'.
Proof.
  unfold add_ctrl. destruct (String.eqb (cport i) ""); [discriminate|]. destruct (_ || _); [discriminate|].
  intros [= <-] (H1 & H2 & H3). split; [|split]; auto. apply Forall_semplace; [exact H2|]. exists i, max. auto.
Qed.
Lemma add_out_new b i : new_base b -> new_base (add_out b (oport i)).
Proof. intros (H1 & H2 & H3). split; [|split]; auto. apply Forall_sset_add; eauto. Qed.
Lemma base0_new id : new_base (base0 id).
Proof. split; [|split]; constructor. Qed.

Lemma add_ports_new max outs ks : forall b b', add_ports ks max outs b = Ok b' -> new_base b -> new_base b'.
Proof.
  induction ks as [|i ks IH]; intros b b' E W; cbn [add_ports] in E; [injection E as <-; auto|].
  apply rbind_ok in E as (b1 & E1 & E). eapply IH; [exact E|].
  destruct outs; [apply add_out_new|]; eapply add_data_new; eauto.
Qed.
Lemma add_ctrls_new ks : forall b b', add_ctrls ks b = Ok b' -> new_base b -> new_base b'.
Proof.
  induction ks as [|i ks IH]; intros b b' E W; cbn [add_ctrls] in E; [injection E as <-; auto|].
  apply rbind_ok in E as (b1 & E1 & E). eapply IH; [exact E|].
  apply add_out_new; eapply add_ctrl_new; eauto.
Qed.

Lemma simple_new id max k o : mk_simple id max k = Ok o -> new_base (op_base o).
Proof.
  unfold mk_simple, simple_base. intros E. apply rbind_ok in E as (b & E1 & E). injection E as <-.
  apply rbind_ok in E1 as (b1 & E1 & E2). injection E2 as <-. cbn [op_base].
  apply (add_out_new b1 1). eapply (add_data_new _ 1); [exact E1|apply base0_new].
Qed.

Ltac go E :=
  repeat match type of E with
  | (if ?c then _ else _) = Ok _ => destruct c; [discriminate E|]
  | rbind _ _ = Ok _ =>
      let x := fresh "b" in let Ex := fresh "E" in apply rbind_ok in E as (x & Ex & E)
  end.

Lemma created_ports o : created o -> new_base (op_base o).
Proof.
  intros H. destruct H as
    [id n o H|id n o H|id n o H|id n o H|id f o H|id c o H|id n o H|id f v o H|id v o H|id v o H|id v o H|id v o H
    |id o H|id n o H|id n o H|id n o H|id c o H|id c o H|id o H|id o H|id u o H|id dt times o H|id dt g1 g2 o H
    |id dt o H|id dt o H|id l ty o H|id v o H|id n g1 g2 g3 g4 o H]; try exact (simple_new _ _ _ _ H).
  - unfold mk_input in H. go H. injection H as <-. eapply add_ports_new; eauto using base0_new.
  - unfold mk_output in H. go H. injection H as <-. eapply add_ports_new; eauto using base0_new.
  - unfold mk_collector in H. go H. injection H as <-. eapply (add_data_new _ 1); eauto using base0_new.
  - unfold mk_join in H. go H. injection H as <-. eapply add_ports_new; eauto using base0_new.
  - unfold mk_binary in H. go H. injection H as <-. apply (add_out_new _ 1). eapply add_ports_new; eauto using base0_new.
  - unfold mk_linear in H. go H. injection H as <-. apply (add_out_new _ 1). eapply add_ports_new; eauto using base0_new.
  - unfold mk_demux in H. go H. injection H as <-. eapply (add_data_new _ 1); eauto. eapply add_ctrls_new; eauto using base0_new.
  - unfold mk_constres in H. destruct (dt <=? 0); [discriminate H|]. exact (simple_new _ _ _ _ H).
  - unfold mk_function in H. destruct (Nat.ltb _ 2); [discriminate H|].
    destruct (String.eqb ty "linear"); [exact (simple_new _ _ _ _ H)|]. destruct (String.eqb ty "hermite"); [exact (simple_new _ _ _ _ H)|discriminate H].
  - unfold mk_variable in H. go H. injection H as <-. apply (add_out_new _ 1). eapply (add_ctrl_new _ 1); eauto.
    eapply (add_data_new _ 1); eauto using base0_new.
Qed.

Lemma pipe_inputs_new keys : forall c b pm y, pipe_inputs c keys b pm = Ok y -> new_base b -> new_base (fst y).
Proof.
  induction keys as [|k keys IH]; intros c b pm y H B; cbn [pipe_inputs] in H; [injection H as <-; auto|].
  apply rbind_ok in H as (b' & E & H). eapply IH; [exact H|]. eapply add_data_new; eauto.
Qed.
Lemma pipe_outs_new keys : forall c b pm, new_base b -> new_base (fst (pipe_outs c keys b pm)).
Proof.
  induction keys as [|k keys IH]; intros c b pm B; cbn [pipe_outs]; [auto|]. apply IH. now apply add_out_new.
Qed.

Lemma mk_pipeline_new f id text prog o : mk_pipeline f id text prog = Ok o -> new_base (op_base o).
Proof.
  unfold mk_pipeline. intros H. apply rbind_ok in H as (xs & _ & H). apply rbind_ok in H as (h0 & _ & H).
  apply rbind_ok in H as (cs & _ & H). apply rbind_ok in H as ([[h ui] uo] & _ & H). apply rbind_ok in H as (y & E & H).
  pose proof (pipe_outs_new (skeys (free_outputs uo h)) 1 (fst y) (snd y) (pipe_inputs_new _ _ _ _ _ E (base0_new id))) as X.
  destruct (pipe_outs 1 (skeys (free_outputs uo h)) (fst y) (snd y)) as [b pm]. apply Ok_inj in H. subst o. exact X.
Qed.

Context {JT : JsonText}.

Lemma created_simple o : created o -> is_pipeline o = false.
Proof.
  intros C. destruct (new_kept (with_conns [] o)) as (_ & _ & P); [exists o, []; auto|]. destruct o as [b k]. exact P.
Qed.

(** ** What holds of created operators holds everywhere in a new program *)

Section Everywhere.
Variable L : op -> Prop.
Hypothesis L_created : forall o, created o -> L o.
Hypothesis L_pipeline : forall f id text prog o, mk_pipeline f id text prog = Ok o -> L o.
Hypothesis L_conns : forall b k cs, L (Op b k) -> L (Op (set_conns b cs) k).

Lemma connect1_every c h h' : connect1 c h = Ok h' -> all_every L h -> all_every L h'.
Proof.
  unfold connect1. intros H A. destruct (sfind (c_from c) h) as [a|] eqn:Fa; [|discriminate].
  destruct (sfind (c_to c) h) as [b|]; [|discriminate]. apply rbind_ok in H as ([a'|] & E & H); [|discriminate]. injection H as <-.
  destruct (connect_spec _ _ _ _ _ _ E) as (o & i & _ & ->). apply all_sset; [exact A|].
  pose proof (all_find _ _ _ _ A Fa) as X. destruct a as [ba ka]. cbn [op_base op_kind every] in *. destruct X as [X1 X2]. split; auto.
Qed.
Lemma read_conns_every l : forall h h', read_conns l h = Ok h' -> all_every L h -> all_every L h'.
Proof.
  induction l as [|x l IH]; intros h h' H A; cbn [read_conns] in H; [injection H as <-; auto|].
  apply rbind_ok in H as (c & _ & H). apply rbind_ok in H as (h1 & E & H). eapply IH; eauto. eapply connect1_every; eauto.
Qed.
Lemma read_ops_every f l : (forall x o, f x = Ok o -> every L o) -> forall h h', read_ops f l h = Ok h' -> all_every L h -> all_every L h'.
Proof.
  intros F. induction l as [|x l IH]; intros h h' E A; cbn [read_ops] in E; [injection E as <-; exact A|].
  apply rbind_ok in E as (idj & _ & E). apply rbind_ok in E as (o1 & E2 & E). apply rbind_ok in E as (i & _ & E).
  eapply IH; [exact E|]. unfold semplace. destruct (sfind i h); [exact A|]. apply all_sset; eauto.
Qed.
Lemma all_every_nil : all_every L [].
Proof. intros ? ? []. Qed.

Lemma read_op_every n : forall g j o, read_op_n n g j = Ok o -> every L o.
Proof.
  induction n as [|n IH]; intros g j o H; [discriminate|]. cbn [read_op_n] in H.
  apply rbind_ok in H as (tj & E1 & H). apply rbind_ok in H as (ty & E2 & H).
  destruct (String.eqb ty "Pipeline").
  - apply rbind_ok in H as (idj & E3 & H). apply rbind_ok in H as (id & E4 & H). apply rbind_ok in H as (prog & E5 & H).
    pose proof (L_pipeline _ _ _ _ _ H) as X.
    destruct (mk_pipeline_ok _ _ _ _ _ H) as (xs & h0 & cs & h & ui & uo & b & ins & outs & pm & _ & R & _ & C & -> & _).
    apply every_pipe. split; [exact X|]. apply pipe_conns_conns in C. eapply read_conns_every; [exact C|].
    eapply read_ops_every; [|exact R|apply all_every_nil]. eauto.
  - destruct (from_json g ty j) as [r|] eqn:E; [|discriminate]. subst r. pose proof (from_json_created _ _ _ _ E) as C.
    apply simple_every; [|auto]. now apply created_simple.
Qed.

Lemma new_prog_every g text p : new_prog g text = Ok p -> all_every L (p_ops p).
Proof.
  unfold new_prog. intros H. apply rbind_ok in H as (j & _ & H).
  destruct (init_cases _ _ _ _ H) as (entry & filter & h & h' & cs & o & _ & _ & _ & E & _ & R & _ & [[_ ->]|[_ ->]]); cbn [p_ops];
    [|apply all_every_nil].
  eapply read_conns_every; [exact R|]. unfold operators_of in E. apply rbind_ok in E as (xs & _ & E).
  eapply read_ops_every; [|exact E|apply all_every_nil]. intros x o' Ho. eapply read_op_every; exact Ho.
Qed.
End Everywhere.

Lemma new_prog_new g text p : new_prog g text = Ok p -> all_every (fun o => new_base (op_base o)) (p_ops p).
Proof.
  apply new_prog_every; [apply created_ports|apply mk_pipeline_new|]. intros b k cs H. exact H.
Qed.

End PortNames.
