(** * Valid definitions are created *)

From Coq Require Import String Ascii ZArith Bool List Lia.
From Verif Require Import Base.StrMap Base.Num Base.NumInt Model.Core Model.Ops Model.Make Model.Graph Model.Codec Model.Json Model.Factory Model.Schema.
From Verif Require Import Spec.Shape Spec.Log Spec.Definition Spec.Schema.
From Verif Require Import Proofs.Ports Proofs.MakeP Proofs.ShapeP Proofs.JoinKinds Proofs.JsonP Proofs.ReliableP Proofs.ReliableNew.
Import ListNotations.
Open Scope string_scope.
Open Scope list_scope.
Open Scope Z_scope.
Open Scope rtbot_scope.

Section Valid.
Context {NO : NumOps} {SL : SchemaLib}.

Fixpoint valid_props (m : list (string * json)) (ps : list (string * schema)) : bool :=
  match ps with
  | [] => true
  | (k, s') :: r => match sfind k m with Some x => valid s' x | None => true end && valid_props m r
  end.

Lemma valid_props_In m ps k s x : valid_props m ps = true -> In (k, s) ps -> sfind k m = Some x -> valid s x = true.
Proof.
  induction ps as [|[k' s'] ps IH]; intros H I F; [destruct I|]. cbn in H. apply andb_prop in H as [H1 H2].
  destruct I as [[= -> ->]|I]; [now rewrite F in H1|auto].
Qed.

Lemma valid_object_eq ps pat req add m : valid (SObject ps pat req add) (JObj m) =
  forallb (fun k => shas k m) req && valid_props m ps &&
  match pat with
  | Some s' => forallb (fun kx => negb (pattern_matches (fst kx)) || valid s' (snd kx)) m
  | None => true
  end &&
  (add || forallb (fun kx => str_in (fst kx) (map fst ps) ||
                             match pat with Some _ => pattern_matches (fst kx) | None => false end) m).
Proof.
  cbn [valid]. f_equal. f_equal. f_equal. induction ps as [|[k s] ps IH]; [reflexivity|]. cbn [valid_props]. now rewrite <- IH.
Qed.

Lemma valid_object ps pat req add x : valid (SObject ps pat req add) x = true ->
  exists m, x = JObj m /\ (forall k, In k req -> exists y, sfind k m = Some y) /\
    (forall k s y, In (k, s) ps -> sfind k m = Some y -> valid s y = true).
Proof.
  destruct x as [|b|z|v|s|l|m]; try discriminate. rewrite valid_object_eq, !andb_true_iff. intros [[[H1 H2] _] _]. exists m. split; [reflexivity|]. split.
  - intros k I. rewrite forallb_forall in H1. specialize (H1 _ I). unfold shas in H1. destruct (sfind k m); eauto. discriminate.
  - intros k s y I F. eapply valid_props_In; eauto.
Qed.

Lemma valid_op ty ps req x : valid (op_schema ty ps req) x = true ->
  exists m id, x = JObj m /\ sfind "type" m = Some (JStr ty) /\ sfind "id" m = Some (JStr id) /\
    (forall k, In k req -> exists y, sfind k m = Some y) /\
    (forall k s y, In (k, s) ps -> sfind k m = Some y -> valid s y = true).
Proof.
  intros H. apply valid_object in H as (m & -> & R & P). exists m.
  destruct (R "id") as [i Fi]; [right; now left|]. destruct (R "type") as [t Ft]; [now left|].
  pose proof (P "id" SString i (or_introl eq_refl) Fi) as Vi.
  assert (Vt : valid (SEnum [ty]) t = true).
  { apply (P "type"); [|exact Ft]. right. apply in_or_app. right. now left. }
  destruct i as [| | | |id| |]; try discriminate Vi. exists id. split; [reflexivity|].
  destruct t as [| | | |t| |]; try discriminate Vt. cbn in Vt. rewrite orb_false_r in Vt. apply String.eqb_eq in Vt. subst t.
  split; [exact Ft|]. split; [exact Fi|]. split.
  - intros k I. apply R. now right; right.
  - intros k s y I F. apply (P k); [|exact F]. right. apply in_or_app. now left.
Qed.

Fixpoint how_many (x : json) (l : list schema) : nat :=
  match l with [] => O | s' :: r => ((if valid s' x then 1 else 0) + how_many x r)%nat end.

Lemma valid_oneof_eq l x : valid (SOneOf l) x = Nat.eqb (how_many x l) 1.
Proof. cbn [valid]. f_equal. induction l as [|s l IH]; [reflexivity|]. cbn [how_many]. now rewrite <- IH. Qed.

Lemma valid_oneof l x : valid (SOneOf l) x = true -> exists s, In s l /\ valid s x = true.
Proof.
  rewrite valid_oneof_eq. intros H. apply Nat.eqb_eq in H.
  assert (N : how_many x l <> O) by lia. clear H. induction l as [|s l IH]; [now cbn in N|]. cbn in N.
  destruct (valid s x) eqn:E; [exists s; split; [now left|auto]|]. destruct (IH N) as (s' & I & V). exists s'. split; [now right|auto].
Qed.

(** ** Ports *)

Definition same (l l' : list string) : Prop := (forall p, In p l <-> In p l') /\ length l = length l'.

Lemma same_refl l : same l l. Proof. split; [tauto|auto]. Qed.

Lemma same_one l l' : same l l' -> forall p, l = [p] <-> l' = [p].
Proof.
  intros [I L] p. split; intros ->.
  - destruct l' as [|q [|? ?]]; try discriminate L. destruct (proj2 (I q) (or_introl eq_refl)) as [->|[]]. reflexivity.
  - destruct l as [|q [|? ?]]; try discriminate L. destruct (proj1 (I q) (or_introl eq_refl)) as [->|[]]. reflexivity.
Qed.

Lemma same_nil l l' : same l l' -> (l = [] <-> l' = []).
Proof. intros [_ L]. split; intros ->; [destruct l'|destruct l]; auto; discriminate L. Qed.

Lemma same_app a b a' b' p : same a a' -> same b b' -> (In p (a ++ b) <-> In p (a' ++ b')).
Proof. intros [I _] [J _]. rewrite !in_app_iff, I, J. tauto. Qed.

Lemma numbered_In f letter n p : (forall k, f k = (letter ++ string_of_nat k)%string) ->
  (In p (numbered letter n) <-> exists k, (1 <= k <= n)%nat /\ p = f k).
Proof.
  intros E. unfold numbered. rewrite in_map_iff. split.
  - intros (k & <- & I). apply in_seq in I. exists k. split; [lia|auto].
  - intros (k & I & ->). exists k. split; [auto|]. apply in_seq. lia.
Qed.
Lemma numbered_length letter n : length (numbered letter n) = n.
Proof. unfold numbered. now rewrite map_length, seq_length. Qed.

Lemma fold_add_length ks : forall s, NoDup ks -> (forall k, In k ks -> ~ In (oport k) s) ->
  length (fold_left (fun s k => sset_add (oport k) s) ks s) = (length ks + length s)%nat.
Proof.
  induction ks as [|k ks IH]; intros s ND N; cbn; [auto|]. inversion ND as [|? ? Nk ND']; subst.
  rewrite IH; auto.
  - rewrite sset_add_length; [lia|]. apply N. now left.
  - intros j I. rewrite sset_add_In. intros [E|E]; [apply oport_inj in E; now subst|]. apply (N j); [now right|auto].
Qed.

Lemma outs_same n : same (fold_left (fun s k => sset_add (oport k) s) (seq 1 n) []) (numbered "o" n).
Proof.
  split.
  - intros p. rewrite fold_add_In. rewrite (numbered_In oport) by reflexivity. split.
    + intros [[]|(k & I & ->)]. apply in_seq in I. exists k. split; [lia|auto].
    + intros (k & I & ->). right. exists k. split; [apply in_seq; lia|auto].
  - rewrite fold_add_length; [|apply seq_NoDup|intros k _ []]. rewrite seq_length, numbered_length. cbn. lia.
Qed.

(** the ports of an operator are those its definition describes *)
Definition has_ports (data control outs : list string) (o : op) : Prop :=
  same (skeys (o_data (op_base o))) data /\ same (skeys (o_ctrl (op_base o))) control /\
  same (o_outs (op_base o)) outs.

Lemma simple_has id max k o : mk_simple id max k = Ok o -> has_ports ["i1"] [] ["o1"] o.
Proof. intros H. apply Ok_inj in H. subst o. repeat split; auto; apply same_refl. Qed.

Lemma ports_data id n max outs b : add_ports (seq 1 n) max outs (base0 id) = Ok b ->
  same (skeys (o_data b)) (numbered "i" n) /\ o_ctrl b = [] /\
  o_outs b = if outs then fold_left (fun s k => sset_add (oport k) s) (seq 1 n) [] else [].
Proof.
  intros H. destruct (ports_fit _ _ _ _ _ H) as (_ & C & _ & _ & K & _ & _ & L).
  split; [|split; [exact C|]].
  - split; [|rewrite numbered_length; unfold limits in L; rewrite map_length in L; unfold skeys; now rewrite map_length].
    intros p. rewrite K. symmetry. now apply numbered_In.
  - destruct (add_ports_spec (seq 1 n) max outs (base0 id)) as (b' & E & _ & _ & _ & _ & _ & _ & O); auto using seq_NoDup; [constructor|].
    rewrite H in E. injection E as <-. exact O.
Qed.

Lemma ports_exist id n max outs : exists b, add_ports (seq 1 n) max outs (base0 id) = Ok b.
Proof. destruct (add_ports_spec (seq 1 n) max outs (base0 id)) as (b & E & _); eauto using seq_NoDup. constructor. Qed.

Lemma input_has id n : exists o, mk_input id n = Ok o /\ has_ports (numbered "i" n) [] (numbered "o" n) o.
Proof.
  destruct (ports_exist id n 1 true) as [b E]. unfold mk_input. rewrite E. eexists. split; [reflexivity|].
  destruct (ports_data _ _ _ _ _ E) as (D & C & O). unfold has_ports. cbn [op_base]. rewrite C, O. split; [exact D|]. split; [apply same_refl|apply outs_same].
Qed.
Lemma output_has id n : exists o, mk_output id n = Ok o /\ has_ports (numbered "i" n) [] (numbered "o" n) o.
Proof.
  destruct (ports_exist id n 1 true) as [b E]. unfold mk_output. rewrite E. eexists. split; [reflexivity|].
  destruct (ports_data _ _ _ _ _ E) as (D & C & O). unfold has_ports. cbn [op_base]. rewrite C, O. split; [exact D|]. split; [apply same_refl|apply outs_same].
Qed.
Lemma join_has id n : (2 <= n)%nat -> exists o, mk_join id n = Ok o /\ has_ports (numbered "i" n) [] (numbered "o" n) o.
Proof.
  intros N. destruct (ports_exist id n 0 true) as [b E]. unfold mk_join. destruct (Nat.ltb_spec n 2); [lia|]. rewrite E. eexists. split; [reflexivity|].
  destruct (ports_data _ _ _ _ _ E) as (D & C & O). unfold has_ports. cbn [op_base]. rewrite C, O. split; [exact D|]. split; [apply same_refl|apply outs_same].
Qed.
Lemma linear_has id c : (2 <= length c)%nat -> exists o, mk_linear id c = Ok o /\ has_ports (numbered "i" (length c)) [] ["o1"] o.
Proof.
  intros N. destruct (ports_exist id (length c) 0 false) as [b E]. unfold mk_linear. destruct (Nat.ltb_spec (length c) 2); [lia|]. rewrite E. eexists. split; [reflexivity|].
  destruct (ports_data _ _ _ _ _ E) as (D & C & O). unfold has_ports. cbn [op_base add_out set_outs o_data o_ctrl o_outs]. rewrite C, O. split; [exact D|]. split; apply same_refl.
Qed.
Lemma binary_has id f : exists o, mk_binary id f = Ok o /\ has_ports ["i1"; "i2"] [] ["o1"] o.
Proof. eexists. split; [reflexivity|]. repeat split; auto; apply same_refl. Qed.
Lemma variable_has id v : exists o, mk_variable id v = Ok o /\ has_ports ["i1"] ["c1"] ["o1"] o.
Proof. eexists. split; [reflexivity|]. repeat split; auto; apply same_refl. Qed.

Lemma demux_has id n : (1 <= n)%nat -> exists o, mk_demux id n = Ok o /\ has_ports ["i1"] (numbered "c" n) (numbered "o" n) o.
Proof.
  intros N. unfold mk_demux. destruct (Nat.ltb_spec n 1); [lia|].
  destruct (add_ctrls_spec (seq 1 n) (base0 id)) as (b & E & W & Fc & D & _ & _ & _ & O); auto using seq_NoDup; [constructor|].
  rewrite E. cbn [rbind]. cbn in Fc.
  assert (X : shas "i1" (o_ctrl b) = false).
  { unfold shas. rewrite Fc. unfold num_ports. destruct (find _ _) as [k|] eqn:Ef; [|reflexivity].
    apply find_some in Ef as [_ Ef]. apply String.eqb_eq in Ef. discriminate Ef. }
  unfold add_data. rewrite X, D. cbn [base0 o_data]. cbn [String.eqb Ascii.eqb Bool.eqb shas sfind orb rbind].
  eexists. split; [reflexivity|]. unfold has_ports. cbn [op_base set_data o_data o_ctrl o_outs]. rewrite O. split; [apply same_refl|]. split; [|apply outs_same].
  assert (K : forall x, In x (skeys (o_ctrl b)) <-> exists k, (1 <= k <= n)%nat /\ x = cport k).
  { intros x. split.
    - intros I. apply In_skeys_sfind in I as [p F]. rewrite Fc in F. unfold num_ports in F. destruct (find _ _) as [k|] eqn:Ef; [|discriminate F].
      apply find_some in Ef as [Ik Ef]. apply in_seq in Ik. apply String.eqb_eq in Ef. exists k. split; [lia|auto].
    - intros (k & Hk & ->). apply (sfind_In_key (cport k) (new_port (cport k) 0)). rewrite Fc. unfold num_ports.
      rewrite find_from; auto using cport_inj. apply in_seq. lia. }
  split.
  - intros p. rewrite K. symmetry. now apply numbered_In.
  - rewrite numbered_length. assert (ND : NoDup (skeys (o_ctrl b))) by now apply swf_NoDup.
    assert (ND' : NoDup (numbered "c" n)).
    { unfold numbered. apply FinFun.Injective_map_NoDup; [|apply seq_NoDup]. intros a c Hac. now apply cport_inj. }
    rewrite <- (numbered_length "c" n). apply Nat.le_antisymm; apply NoDup_incl_length; auto; intros p I.
    + apply (numbered_In cport); [reflexivity|]. now apply K.
    + apply K. now apply (numbered_In cport) in I.
Qed.

(** ** Operators *)

Context {JT : JsonText}.

Definition fits_definition (x : json) (o : op) : Prop := has_ports (data_inputs x) (control_inputs x) (outputs x) o.

Lemma read_known g m ty id o : sfind "type" m = Some (JStr ty) -> sfind "id" m = Some (JStr id) -> ty <> "Pipeline" ->
  from_json g ty (JObj m) = Some (Ok o) -> read_op g (JObj m) = Ok o.
Proof.
  intros T I N F. rewrite read_op_unfold. cbn [jat]. rewrite T. cbn [rbind get_str].
  destruct (String.eqb_spec ty "Pipeline"); [contradiction|]. now rewrite F.
Qed.

Lemma number_u64 x : number_fits x -> exists z, get_u64 x = Ok z.
Proof. destruct x; try contradiction; cbn; eauto. intros (z & -> & _). eauto. Qed.
Lemma number_int x : number_fits x -> exists z, get_int x = Ok z.
Proof.
  destruct x; try contradiction; cbn; eauto. intros (z & E & L). unfold int_of_V. rewrite E.
  destruct (Z.ltb_spec z (2 ^ 31)); [eauto|lia].
Qed.

Lemma jvalue_given {A} (get : json -> res A) key d m (P : json -> Prop) :
  (forall y, P y -> exists a, get y = Ok a) -> if_given key P (JObj m) -> exists a, jvalue get key d (JObj m) = Ok a.
Proof. intros H. unfold if_given. cbn [member jvalue]. destruct (sfind key m); eauto. Qed.

Lemma numbers_given l : forallb (valid SNumber) l = true -> exists c, map_res get_V l = Ok c /\ length c = length l.
Proof.
  induction l as [|x l IH]; intros H; [exists []; auto|]. cbn [forallb] in H. apply andb_prop in H as [H1 H2].
  destruct (IH H2) as (c & E & L). destruct x; try discriminate H1; cbn [map_res get_V rbind]; rewrite E; cbn [rbind]; eexists (_ :: c);
    (split; [reflexivity|cbn; now rewrite L]).
Qed.

Lemma valid_array lo x : valid (SArray lo None SNumber) x = true ->
  exists l c, x = JArr l /\ get_Vs x = Ok c /\ length c = length l /\ (lo <= length l)%nat.
Proof.
  destruct x as [| | | | |l|]; try discriminate. cbn [valid]. rewrite !andb_true_iff. intros [[L _] H].
  destruct (numbers_given _ H) as (c & E & Lc). exists l, c. apply Nat.leb_le in L. auto.
Qed.

Lemma valid_number x : valid SNumber x = true -> exists v, get_V x = Ok v.
Proof. destruct x; try discriminate; cbn; eauto. Qed.

(** the number of ports *)
Lemma few_int lo m : 0 < lo -> (forall y, sfind "numPorts" m = Some y -> valid (SInteger (Some lo)) y = true) ->
  if_given "numPorts" few_ports (JObj m) ->
  exists z, jvalue get_int "numPorts" 1 (JObj m) = Ok z /\ ports_of z = Ok (count "numPorts" 1 (JObj m)) /\
    (sfind "numPorts" m <> None -> lo <= Z.of_nat (count "numPorts" 1 (JObj m))) /\ (1 <= count "numPorts" 1 (JObj m))%nat.
Proof.
  intros L V F. unfold if_given, count in *. cbn [member jvalue] in *. destruct (sfind "numPorts" m) as [y|]; [|exists 1; split; [reflexivity|]; split; [reflexivity|]; split; [intros N; now destruct N|lia]].
  destruct y as [| |z| | | |]; try contradiction. specialize (V _ eq_refl). cbn in V, F. exists z. cbn [get_int]. rewrite wrap32_id by lia.
  split; [reflexivity|]. rewrite Z.mod_small in V by lia. apply Z.leb_le in V. unfold ports_of.
  destruct (Z.leb_spec 0 z); [|lia]. destruct (Z.ltb_spec z (2 ^ 31 - 1)); [|lia]. cbn [andb]. split; [reflexivity|]. rewrite Z2Nat.id by lia. lia.
Qed.
Lemma few_u64 m : (forall y, sfind "numPorts" m = Some y -> valid (SInteger (Some 2)) y = true) ->
  if_given "numPorts" few_ports (JObj m) -> member "numPorts" (JObj m) <> None ->
  exists z, u64_of "numPorts" (JObj m) = Ok z /\ ports_of z = Ok (count "numPorts" 1 (JObj m)) /\ (2 <= count "numPorts" 1 (JObj m))%nat.
Proof.
  intros V F N. unfold if_given, count, u64_of in *. cbn [member jindex] in *. destruct (sfind "numPorts" m) as [y|]; [|contradiction].
  destruct y as [| |z| | | |]; try contradiction. specialize (V _ eq_refl). cbn in V, F. exists z. cbn [get_u64 rbind].
  assert (2 ^ 31 < two64) by reflexivity. rewrite wrap_id by lia.
  split; [reflexivity|]. rewrite Z.mod_small in V by lia. apply Z.leb_le in V. unfold ports_of.
  destruct (Z.leb_spec 0 z); [|lia]. destruct (Z.ltb_spec z (2 ^ 31 - 1)); [|lia]. cbn [andb]. split; [reflexivity|]. lia.
Qed.

Lemma u64_given key m : (exists y, sfind key m = Some y) -> if_given key number_fits (JObj m) -> exists z, u64_of key (JObj m) = Ok z.
Proof.
  intros [y F] R. unfold if_given in R. cbn [member] in R. unfold u64_of. cbn [jindex]. rewrite F in *. now apply number_u64.
Qed.
Lemma V_given key m s : (exists y, sfind key m = Some y) -> (forall y, sfind key m = Some y -> valid s y = true) ->
  s = SNumber \/ s = SInteger None -> exists v, V_of key (JObj m) = Ok v.
Proof.
  intros [y F] P S. unfold V_of. cbn [jindex]. rewrite F. cbn [rbind]. specialize (P _ F). destruct S as [->| ->]; [now apply valid_number|].
  destruct y; try discriminate P; cbn; eauto.
Qed.
Lemma Vs_given m lo : (exists y, sfind "coeff" m = Some y) -> (forall y, sfind "coeff" m = Some y -> valid (SArray lo None SNumber) y = true) ->
  exists c, Vs_of "coeff" (JObj m) = Ok c /\ length c = count "coeff" 0 (JObj m) /\ (lo <= length c)%nat.
Proof.
  intros [y F] P. unfold Vs_of, count. cbn [jindex member]. rewrite F. cbn [rbind]. destruct (valid_array _ _ (P _ F)) as (l & c & -> & E & L & G).
  exists c. rewrite L. auto.
Qed.

Lemma read_valid g x : valid (SOneOf (map snd operator_schemas)) x = true -> ready x ->
  exists o, read_op g x = Ok o /\ jindex "id" x = Ok (JStr (text_at "id" x)) /\ fits_definition x o.
Proof.
  intros V R. apply valid_oneof in V as (s & I & V). cbn [operator_schemas map snd simple_op value_op In] in I.
  repeat (destruct I as [<-|I]); try destruct I;
    apply valid_op in V as (m & id & -> & T & Fi & Q & P);
    (assert (Ty : text_at "type" (JObj m) = match sfind "type" m with Some (JStr s) => s | _ => "" end) by reflexivity);
    rewrite T in Ty;
    unfold ready in R; rewrite Ty in R;
    (assert (Ei : id_of (JObj m) = Ok id) by (unfold id_of; cbn [jindex]; now rewrite Fi));
    (assert (Ej : jindex "id" (JObj m) = Ok (JStr (text_at "id" (JObj m)))) by (cbn [jindex]; unfold text_at; cbn [member]; now rewrite Fi)).
  all: cbv beta iota delta [In] in *.
  all: match type of T with sfind _ _ = Some (JStr ?ty) =>
         enough (X : exists o, from_json g ty (JObj m) = Some (Ok o) /\ fits_definition (JObj m) o);
           [destruct X as (o & X1 & X2); exists o; split; [apply (read_known g m ty id o T Fi ltac:(discriminate) X1)|split; [exact Ej|exact X2]]|] end.
  all: unfold fits_definition, data_inputs, control_inputs, outputs; rewrite Ty; cbv iota.
  all: unfold from_json; cbv [String.eqb Ascii.eqb Bool.eqb].
  all: try rewrite Ei; cbn [rbind].
  (* no parameters *)
  all: try (destruct (binary_has id BOr) as (o & E & H); exists o; rewrite E; split; [reflexivity|exact H]).
  all: try (destruct (binary_has id BAnd) as (o & E & H); exists o; rewrite E; split; [reflexivity|exact H]).
  all: try (destruct (binary_has id BDiv) as (o & E & H); exists o; rewrite E; split; [reflexivity|exact H]).
  all: try (destruct (binary_has id BPlus) as (o & E & H); exists o; rewrite E; split; [reflexivity|exact H]).
  all: try (destruct (binary_has id BMinus) as (o & E & H); exists o; rewrite E; split; [reflexivity|exact H]).
  all: try (destruct (binary_has id BMult) as (o & E & H); exists o; rewrite E; split; [reflexivity|exact H]).
  all: try (destruct (binary_has id BGreater) as (o & E & H); exists o; rewrite E; split; [reflexivity|exact H]).
  all: try (destruct (binary_has id BLess) as (o & E & H); exists o; rewrite E; split; [reflexivity|exact H]).
  all: try (eexists; split; [reflexivity|eapply simple_has; reflexivity]).
  (* one required parameter *)
  all: try (destruct (u64_given "n" m (Q "n" (or_introl eq_refl)) R) as [z E]; rewrite E; eexists; split; [reflexivity|eapply simple_has; reflexivity]).
  all: try (destruct (u64_given "dt" m (Q "dt" (or_introl eq_refl)) R) as [z E]; rewrite E; eexists; split; [reflexivity|eapply simple_has; reflexivity]).
  all: try (destruct (V_given "value" m _ (Q "value" (or_introl eq_refl)) (fun y => P "value" _ y (or_introl eq_refl)) ltac:(auto)) as [v E];
    rewrite E; eexists; split; [reflexivity|eapply simple_has; reflexivity]).
  (* optional parameters *)
  all: try (destruct (jvalue_given get_int "value" 0 m _ number_int R) as [v E]; rewrite E; cbn [rbind];
    destruct (variable_has id (vofZ v)) as (o & E' & H); rewrite E'; exists o; split; [reflexivity|exact H]).
  all: try (destruct R as [R1 R2]; destruct (jvalue_given get_int "dt" 1 m _ number_int R1) as [v E]; rewrite E; cbn [rbind];
    destruct (jvalue_given get_int "times" 1 m _ number_int R2) as [v' E']; rewrite E'; cbn [rbind];
    eexists; split; [reflexivity|eapply simple_has; reflexivity]).
  (* ports *)
  all: try (destruct (few_int 1 m ltac:(lia) (fun y => P "numPorts" _ y (or_introl eq_refl)) R) as (z & E & E' & _ & L); rewrite E; cbn [rbind]; rewrite E'; cbn [rbind]).
  - destruct (input_has id (count "numPorts" 1 (JObj m))) as (o & Eo & H). rewrite Eo. exists o. auto.
  - destruct (output_has id (count "numPorts" 1 (JObj m))) as (o & Eo & H). rewrite Eo. exists o. auto.
  - destruct R as [R1 R2]. destruct (few_u64 m (fun y => P "numPorts" _ y (or_introl eq_refl)) R2 R1) as (z & E & E' & L).
    rewrite E. cbn [rbind]. rewrite E'. cbn [rbind]. destruct (join_has id _ L) as (o & Eo & H). rewrite Eo. exists o. auto.
  - destruct (demux_has id _ L) as (o & Eo & H). rewrite Eo. exists o. auto.
  - (* ConstantResampler *)
    destruct (Q "interval" (or_introl eq_refl)) as [y F]. pose proof (P "interval" _ y (or_introl eq_refl) F) as Vy.
    unfold if_given in R. cbn [member] in R. unfold u64_of. cbn [jindex]. rewrite F in *. destruct R as [z ->]. cbn [rbind get_u64].
    cbn [valid above] in Vy. apply Z.leb_le in Vy. unfold mk_constres.
    assert (Pz : 0 < wrap z).
    { unfold wrap, two64. pose proof (Z.mod_pos_bound z (2 ^ 64) ltac:(lia)). destruct (Z.eq_dec (z mod 2 ^ 64) 0) as [E0|]; [|lia].
      exfalso. rewrite Z.add_mod, E0 in Vy by lia. cbn in Vy. lia. }
    destruct (Z.leb_spec (wrap z) 0); [lia|]. eexists. split; [reflexivity|eapply simple_has; reflexivity].
  - destruct (Vs_given m _ (Q "coeff" (or_introl eq_refl)) (fun y => P "coeff" _ y (or_introl eq_refl))) as (c & E & _).
    rewrite E. eexists. split; [reflexivity|eapply simple_has; reflexivity].
  - destruct R.
  - destruct (Vs_given m _ (Q "coeff" (or_introl eq_refl)) (fun y => P "coeff" _ y (or_introl eq_refl))) as (c & E & _).
    rewrite E. eexists. split; [reflexivity|eapply simple_has; reflexivity].
  - cbn [member] in R. destruct (sfind "coeff" m) as [y|] eqn:F; [|contradiction].
    destruct (Vs_given m 2 (ex_intro _ y F) (fun y => P "coeff" _ y (or_introl eq_refl))) as (c & E & L & G).
    rewrite E. cbn [rbind]. destruct (linear_has id c G) as (o & Eo & H). rewrite Eo. exists o. split; [auto|]. now rewrite <- L.
Qed.

(** ** Programs *)

(** the operators of a heap are those described, the first of each id *)
Definition holds (ops : list json) (h : heap) : Prop :=
  forall id, match described ops id with
             | Some x => exists o, sfind id h = Some o /\ fits_definition x o
             | None => sfind id h = None
             end.

Lemma sfind_semplace_cases {A} k k' (v : A) m : sfind k (semplace k' v m) =
  match sfind k m with Some x => Some x | None => if String.eqb k k' then Some v else None end.
Proof.
  destruct (sfind k' m) as [y|] eqn:F.
  - unfold semplace, shas. rewrite F. destruct (sfind k m) eqn:G; auto. destruct (String.eqb_spec k k') as [->|]; congruence.
  - unfold semplace, shas. rewrite F, sfind_sset. destruct (String.eqb_spec k k') as [->|]; [now rewrite F|]. destruct (sfind k m); auto.
Qed.

Lemma read_ops_valid g ops : forallb (valid (SOneOf (map snd operator_schemas))) ops = true -> Forall ready ops ->
  forall h, exists h', read_ops (read_op g) ops h = Ok h' /\
    forall id, match sfind id h with
               | Some o => sfind id h' = Some o
               | None => match described ops id with
                         | Some x => exists o, sfind id h' = Some o /\ fits_definition x o
                         | None => sfind id h' = None
                         end
               end.
Proof.
  induction ops as [|x ops IH]; intros V R h; cbn [read_ops].
  - exists h. split; [reflexivity|]. intros id. cbn. destruct (sfind id h); auto.
  - cbn [forallb] in V. apply andb_prop in V as [V1 V2]. inversion R as [|? ? R1 R2]; subst.
    destruct (read_valid g x V1 R1) as (o & E & Ei & F). rewrite Ei. cbn [rbind]. rewrite E. cbn [rbind get_str].
    destruct (IH V2 R2 (semplace (text_at "id" x) o h)) as (h' & E' & H). exists h'. split; [exact E'|].
    intros id. specialize (H id). rewrite sfind_semplace_cases in H. destruct (sfind id h) as [o'|]; [exact H|].
    cbn [described find]. destruct (String.eqb id (text_at "id" x)); [exists o; auto|exact H].
Qed.

End Valid.
