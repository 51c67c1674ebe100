(** * What constructors and connections produce is well formed *)

From Coq Require Import String ZArith Bool List Lia.
From Verif Require Import Base.StrMap Base.Num Model.Core Model.Ops Model.Make Model.Graph Model.Run.
From Verif Require Import Spec.Shape Spec.Log Spec.Build.
Import ListNotations.
Open Scope string_scope.
Open Scope list_scope.
Open Scope rtbot_scope.

Section MakeP.
Context {NO : NumOps}.

(** what every constructor of an operator other than a pipeline guarantees *)
Definition made (id : string) (o : op) : Prop :=
  wf_op o /\ o_id (op_base o) = id /\ is_pipeline o = false.

Definition wf_base (b : base) : Prop := swf (o_data b) /\ swf (o_ctrl b).

Lemma rbind_ok {A B} (x : res A) (f : A -> res B) b : rbind x f = Ok b -> exists a, x = Ok a /\ f a = Ok b.
Proof. destruct x; try discriminate. cbn. eauto. Qed.

Lemma add_data_wf b port max b' : add_data b port max = Ok b' -> wf_base b -> wf_base b' /\ o_id b' = o_id b.
Proof.
  unfold add_data. intros E [W1 W2]. destruct (String.eqb port ""); [discriminate E|].
  destruct (shas port (o_data b) || shas port (o_ctrl b)); [discriminate E|]. injection E as <-.
  split; [split|]; cbn; auto. now apply swf_semplace.
Qed.
Lemma add_ctrl_wf b port max b' : add_ctrl b port max = Ok b' -> wf_base b -> wf_base b' /\ o_id b' = o_id b.
Proof.
  unfold add_ctrl. intros E [W1 W2]. destruct (String.eqb port ""); [discriminate E|].
  destruct (shas port (o_data b) || shas port (o_ctrl b)); [discriminate E|]. injection E as <-.
  split; [split|]; cbn; auto. now apply swf_semplace.
Qed.
Lemma add_out_wf b port : wf_base b -> wf_base (add_out b port) /\ o_id (add_out b port) = o_id b.
Proof. intros [W1 W2]. split; [split|]; auto. Qed.

Lemma add_ports_wf max outs ks : forall b b', add_ports ks max outs b = Ok b' -> wf_base b -> wf_base b' /\ o_id b' = o_id b.
Proof.
  induction ks as [|i ks IH]; intros b b' E W; cbn [add_ports] in E; [injection E as <-; auto|].
  apply rbind_ok in E as (b1 & E1 & E). destruct (add_data_wf _ _ _ _ E1 W) as [W1 I1].
  destruct outs.
  - destruct (add_out_wf b1 (oport i) W1) as [W2 I2]. destruct (IH _ _ E W2) as [W3 I3]. split; auto. congruence.
  - destruct (IH _ _ E W1) as [W3 I3]. split; auto. congruence.
Qed.
Lemma add_ctrls_wf ks : forall b b', add_ctrls ks b = Ok b' -> wf_base b -> wf_base b' /\ o_id b' = o_id b.
Proof.
  induction ks as [|i ks IH]; intros b b' E W; cbn [add_ctrls] in E; [injection E as <-; auto|].
  apply rbind_ok in E as (b1 & E1 & E). destruct (add_ctrl_wf _ _ _ _ E1 W) as [W1 I1].
  destruct (add_out_wf b1 (oport i) W1) as [W2 I2]. destruct (IH _ _ E W2) as [W3 I3]. split; auto. congruence.
Qed.

Lemma base0_wf id : wf_base (base0 id). Proof. split; apply swf_nil. Qed.

Definition plain (k : kind) : bool := match k with KPipeline _ _ _ _ _ => false | _ => true end.

Lemma made_plain id b k : wf_base b -> o_id b = id -> plain k = true -> made id (Op b k).
Proof. intros [W1 W2] I P. split; [|split]; destruct k; try discriminate P; cbn; auto. Qed.

Ltac go E :=
  repeat match type of E with
  | (if ?c then _ else _) = Ok _ => destruct c; [discriminate E|]
  | rbind _ _ = Ok _ =>
      let x := fresh "b" in let Ex := fresh "E" in apply rbind_ok in E as (x & Ex & E)
  end.

Lemma mk_input_made id n o : mk_input id n = Ok o -> made id o.
Proof.
  intros E. unfold mk_input in E. go E. injection E as <-.
  destruct (add_ports_wf _ _ _ _ _ E0 (base0_wf id)). now apply made_plain.
Qed.
Lemma mk_output_made id n o : mk_output id n = Ok o -> made id o.
Proof.
  intros E. unfold mk_output in E. go E. injection E as <-.
  destruct (add_ports_wf _ _ _ _ _ E0 (base0_wf id)). now apply made_plain.
Qed.
Lemma mk_collector_made id n o : mk_collector id n = Ok o -> made id o.
Proof.
  intros E. unfold mk_collector in E. go E. injection E as <-.
  destruct (add_data_wf _ _ _ _ E0 (base0_wf id)). now apply made_plain.
Qed.
Lemma mk_join_made id n o : mk_join id n = Ok o -> made id o.
Proof.
  intros E. unfold mk_join in E. go E. injection E as <-.
  destruct (add_ports_wf _ _ _ _ _ E0 (base0_wf id)). now apply made_plain.
Qed.
Lemma mk_binary_made id f o : mk_binary id f = Ok o -> made id o.
Proof.
  intros E. unfold mk_binary in E. go E. injection E as <-.
  destruct (add_ports_wf _ _ _ _ _ E0 (base0_wf id)). destruct (add_out_wf b "o1" H). apply made_plain; auto; change (o_id (base0 id)) with id in *; congruence.
Qed.
Lemma mk_linear_made id c o : mk_linear id c = Ok o -> made id o.
Proof.
  intros E. unfold mk_linear in E. go E. injection E as <-.
  destruct (add_ports_wf _ _ _ _ _ E0 (base0_wf id)). destruct (add_out_wf b "o1" H). apply made_plain; auto; change (o_id (base0 id)) with id in *; congruence.
Qed.
Lemma mk_demux_made id n o : mk_demux id n = Ok o -> made id o.
Proof.
  intros E. unfold mk_demux in E. go E. injection E as <-.
  destruct (add_ctrls_wf _ _ _ E0 (base0_wf id)). destruct (add_data_wf _ _ _ _ E1 H). apply made_plain; auto; change (o_id (base0 id)) with id in *; congruence.
Qed.
Lemma mk_simple_made id max k o : plain k = true -> mk_simple id max k = Ok o -> made id o.
Proof.
  intros P E. unfold mk_simple, simple_base in E. apply rbind_ok in E as (b & E0 & E). injection E as <-. apply rbind_ok in E0 as (b0 & E1 & E0). injection E0 as <-.
  destruct (add_data_wf _ _ _ _ E1 (base0_wf id)). destruct (add_out_wf b0 "o1" H). apply made_plain; auto; change (o_id (base0 id)) with id in *; congruence.
Qed.
Lemma mk_variable_made id v o : mk_variable id v = Ok o -> made id o.
Proof.
  intros E. unfold mk_variable in E. go E. injection E as <-.
  destruct (add_data_wf _ _ _ _ E0 (base0_wf id)). destruct (add_ctrl_wf _ _ _ _ E1 H).
  destruct (add_out_wf b0 "o1" H1). apply made_plain; auto; change (o_id (base0 id)) with id in *; congruence.
Qed.
Lemma mk_function_made id l ty o : mk_function id l ty = Ok o -> made id o.
Proof.
  intros E. unfold mk_function in E. go E.
  destruct (String.eqb ty "linear"); [|destruct (String.eqb ty "hermite"); [|discriminate E]];
    (eapply mk_simple_made; [|exact E]; reflexivity).
Qed.
Lemma mk_constres_made id dt g1 g2 o : mk_constres id dt g1 g2 = Ok o -> made id o.
Proof. intros E. unfold mk_constres in E. go E. eapply mk_simple_made; [|exact E]; reflexivity. Qed.

(** connecting keeps what there was *)
Lemma connect_made src child cid out inp src' : connect src child cid out inp = Ok (Some src') ->
  (wf_op src -> wf_op src') /\ o_id (op_base src') = o_id (op_base src).
Proof.
  destruct src as [b k]. unfold connect. intros E.
  repeat match type of E with
  | (if ?c then _ else _) = Ok _ => destruct c; try discriminate E
  end; injection E as <-; split; auto.
Qed.

Lemma collect_ops_wf l : forall h, (forall o, In (Ok o) l -> wf_op o) -> collect_ops l = Ok h -> wf_heap h /\ named h.
Proof.
  induction l as [|x l IH]; intros h W E; cbn [collect_ops] in E.
  - injection E as <-. split; [split; [apply swf_nil|discriminate]|]. intros i o H. discriminate H.
  - apply rbind_ok in E as (o & -> & E). apply rbind_ok in E as (h1 & E1 & E). injection E as <-.
    destruct (IH h1) as [[W1 W2] N]; auto. { intros; apply W; now right. }
    split; [split|].
    + now apply swf_sset.
    + intros i o' H. rewrite sfind_sset in H. destruct (String.eqb_spec i (o_id (op_base o))).
      * injection H as <-. apply W. now left.
      * eauto.
    + intros i o' H. rewrite sfind_sset in H. destruct (String.eqb_spec i (o_id (op_base o))).
      * injection H as <-. auto.
      * auto.
Qed.

Lemma connect_all_wf cs : forall h h', wf_heap h -> named h -> connect_all cs h = Ok h' -> wf_heap h' /\ named h'.
Proof.
  induction cs as [|[[[from out] to] inp] cs IH]; intros h h' [W1 W2] N E; cbn [connect_all] in E.
  - injection E as <-. repeat split; auto.
  - destruct (sfind from h) as [a|] eqn:Ha; [|discriminate E]. destruct (sfind to h) as [b|]; [|discriminate E].
    apply rbind_ok in E as ([a'|] & E1 & E); [|discriminate E].
    destruct (connect_made _ _ _ _ _ _ E1) as [Wa Ia].
    eapply IH; [| |exact E].
    + split; [now apply swf_sset|]. intros i o H. rewrite sfind_sset in H.
      destruct (String.eqb_spec i from); [injection H as <-; eauto|eauto].
    + intros i o H. rewrite sfind_sset in H.
      destruct (String.eqb_spec i from) as [->|]; [injection H as <-; rewrite Ia; auto|auto].
Qed.

Lemma build_wf ops cs entry filter p : (forall o, In (Ok o) ops -> wf_op o) -> build ops cs entry filter = Ok p ->
  wf_heap (p_ops p) /\ named (p_ops p).
Proof.
  intros W E. unfold build in E. apply rbind_ok in E as (h & E1 & E). apply rbind_ok in E as (h' & E2 & E).
  injection E as <-. cbn. destruct (collect_ops_wf _ _ W E1). eapply connect_all_wf; eauto.
Qed.

End MakeP.
