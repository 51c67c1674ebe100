(** * Pipelines: their ports, and that they behave like their inner program *)

From Coq Require Import String Ascii ZArith Bool List Lia.
From Verif Require Import Base.StrMap Base.Num Model.Core Model.Ops Model.Make Model.Run Model.Graph Model.Json.
From Verif Require Import Spec.Shape Spec.Log Spec.Snapshot Spec.Definition Spec.Pipeline.
From Verif Require Import Proofs.Ports Proofs.MakeP Proofs.ShapeP Proofs.Merge Proofs.LogP Proofs.LogRun Proofs.LogProg Proofs.Fuel Proofs.JsonP Properties.Graph.
Import ListNotations.
Open Scope string_scope.
Open Scope list_scope.
Open Scope rtbot_scope.

(** ** Keys "id:port" *)

Lemma split2_key id port : has_colon id = false -> split2 (id ++ ":" ++ port)%string = (id, port).
Proof.
  induction id as [|c id IH]; cbn [has_colon]; intros H; [reflexivity|].
  apply orb_false_iff in H as [H1 H2]. cbn [append split2]. rewrite H1.
  change (id ++ String ":" port)%string with (id ++ ":" ++ port)%string. now rewrite (IH H2).
Qed.

Lemma key_inj id port id' port' : has_colon id = false -> has_colon id' = false ->
  (id ++ ":" ++ port)%string = (id' ++ ":" ++ port')%string -> id = id' /\ port = port'.
Proof.
  intros H H' E. apply (f_equal split2) in E. rewrite !split2_key in E by auto. now injection E.
Qed.

Lemma has_colon_key id port : has_colon (id ++ ":" ++ port)%string = true.
Proof. induction id as [|c id IH]; [reflexivity|]. cbn in *. rewrite IH. apply orb_true_r. Qed.

Lemma uint_colon u : has_colon (DecimalString.NilEmpty.string_of_uint u) = false.
Proof. induction u; cbn in *; auto. Qed.
Lemma iport_colon k : has_colon (iport k) = false.
Proof. unfold iport, string_of_nat. cbn. apply uint_colon. Qed.

(** ** The free ports of a heap *)

Section Free.
Context {NO : NumOps}.

Section One.
Variable used : list string.
Variable ports_of : op -> list string.

Definition fold_free (h : heap) (acc : smap string) : smap string :=
  fold_left (fun acc x => free_ports (fst x) used (ports_of (snd x)) acc) h acc.

Lemma free_ports_sound id ports : forall acc key i, sfind key (free_ports id used ports acc) = Some i ->
  sfind key acc = Some i \/ (i = id /\ exists port, In port ports /\ key = (id ++ ":" ++ port)%string /\ ~ In key used).
Proof.
  induction ports as [|p ports IH]; intros acc key i H; cbn [free_ports fold_left] in H; [auto|].
  apply IH in H as [H|(-> & port & Hp & E & N)]; [|right; split; auto; exists port; repeat split; auto; now right].
  destruct (sset_mem (id ++ ":" ++ p)%string used) eqn:M; [auto|].
  rewrite sfind_semplace in H. destruct (sfind key acc) eqn:F; [auto|].
  destruct (String.eqb_spec key (id ++ ":" ++ p)%string) as [->|]; [|discriminate H]. injection H as <-.
  right. split; [auto|]. exists p. split; [now left|]. split; [auto|]. intros X. apply sset_mem_In in X. congruence.
Qed.

Lemma free_ports_keeps id ports : forall acc key i, sfind key acc = Some i -> sfind key (free_ports id used ports acc) = Some i.
Proof.
  induction ports as [|p ports IH]; intros acc key i H; cbn [free_ports fold_left]; [auto|].
  apply IH. destruct (sset_mem _ used); [auto|]. rewrite sfind_semplace. now rewrite H.
Qed.

Lemma free_ports_complete id ports : forall acc port, In port ports -> ~ In (id ++ ":" ++ port)%string used ->
  exists i, sfind (id ++ ":" ++ port)%string (free_ports id used ports acc) = Some i.
Proof.
  induction ports as [|p ports IH]; intros acc port H N; [destruct H|]. cbn [free_ports fold_left].
  destruct H as [->|H]; [|apply IH; auto].
  destruct (sset_mem (id ++ ":" ++ port)%string used) eqn:M; [apply sset_mem_In in M; contradiction|].
  set (acc1 := semplace _ _ _).
  assert (X : exists i, sfind (id ++ ":" ++ port)%string acc1 = Some i).
  { unfold acc1. rewrite sfind_semplace. destruct (sfind (id ++ ":" ++ port)%string acc); [eauto|]. rewrite String.eqb_refl. eauto. }
  destruct X as [i X]. exists i. now apply free_ports_keeps.
Qed.

Lemma fold_free_sound h : forall acc key i, sfind key (fold_free h acc) = Some i ->
  sfind key acc = Some i \/ exists o port, In (i, o) h /\ In port (ports_of o) /\ key = (i ++ ":" ++ port)%string /\ ~ In key used.
Proof.
  induction h as [|[id o] h IH]; intros acc key i H; cbn [fold_free fold_left] in H; [auto|].
  apply IH in H as [H|(o' & port & A & B & C & D)].
  - cbn [fst snd] in H. apply free_ports_sound in H as [H|(-> & port & A & B & C)]; [auto|].
    right. exists o, port. repeat split; auto. now left.
  - right. exists o', port. repeat split; auto. now right.
Qed.

Lemma fold_free_keeps h : forall acc key i, sfind key acc = Some i -> sfind key (fold_free h acc) = Some i.
Proof.
  induction h as [|[id o] h IH]; intros acc key i H; cbn [fold_free fold_left]; [auto|].
  apply IH. now apply free_ports_keeps.
Qed.

Lemma fold_free_complete h : forall acc id o port, In (id, o) h -> In port (ports_of o) -> ~ In (id ++ ":" ++ port)%string used ->
  exists i, sfind (id ++ ":" ++ port)%string (fold_free h acc) = Some i.
Proof.
  induction h as [|[id' o'] h IH]; intros acc id o port H P N; [destruct H|]. cbn [fold_free fold_left fst snd].
  destruct H as [[= -> ->]|H]; [|eapply IH; eauto].
  destruct (free_ports_complete id (ports_of o) acc port P N) as [i E]. exists i. now apply fold_free_keeps.
Qed.

Lemma free_ports_swf id ports : forall acc, swf acc -> swf (free_ports id used ports acc).
Proof.
  induction ports as [|p ports IH]; intros acc W; cbn [free_ports fold_left]; [auto|].
  apply IH. destruct (sset_mem _ used); [auto|now apply swf_semplace].
Qed.
Lemma fold_free_swf h : forall acc, swf acc -> swf (fold_free h acc).
Proof.
  induction h as [|[id o] h IH]; intros acc W; cbn [fold_free fold_left]; [auto|]. apply IH. now apply free_ports_swf.
Qed.

(** all ids without ':' *)
Definition plain_ids (h : heap) : Prop := forall id o, sfind id h = Some o -> has_colon id = false.

Lemma fold_free_keys h : swf h -> forall key, In key (skeys (fold_free h [])) <->
  exists id port, key = (id ++ ":" ++ port)%string /\ (exists o, sfind id h = Some o /\ In port (ports_of o)) /\ ~ In key used.
Proof.
  intros W key. split.
  - intros H. apply In_skeys_sfind in H as [i H]. apply fold_free_sound in H as [H|(o & port & A & B & C & D)]; [discriminate H|].
    exists i, port. split; [auto|]. split; [|auto]. exists o. split; [now apply In_sfind|auto].
  - intros (id & port & -> & (o & F & P) & N). destruct (fold_free_complete h [] id o port (sfind_In _ _ _ F) P N) as [i E].
    eapply sfind_In_key; eauto.
Qed.

Lemma fold_free_find h id port : swf h -> plain_ids h -> has_colon id = false ->
  In (id ++ ":" ++ port)%string (skeys (fold_free h [])) -> sfind (id ++ ":" ++ port)%string (fold_free h []) = Some id.
Proof.
  intros W P Hid H. apply In_skeys_sfind in H as [i H]. rewrite H. f_equal.
  apply fold_free_sound in H as [H|(o & p & A & B & C & D)]; [discriminate H|].
  apply key_inj in C as [C _]; auto. eapply P. eapply In_sfind; eauto.
Qed.
End One.

(** ** The ports which connections use *)

Lemma used_input_is h h1 f c ports : resolves h c ports -> rewired h h1 f ->
  used_input c h1 = (c_to c ++ ":" ++ snd ports)%string.
Proof.
  intros (a & b & Fa & Fb & Co & Ci) R. specialize (R (c_to c)). rewrite Fb in R.
  unfold used_input. destruct (sfind (c_to c) h1) as [b1|]; [|contradiction].
  destruct R as [SP _]. apply same_ports_fields in SP as (_ & D & C & _). rewrite D, C.
  destruct Ci as [(N & -> & H)|(E & D1 & C1 & N)].
  - destruct (o_data (op_base b)) as [|[p x] [|? ?]]; auto. destruct (o_ctrl (op_base b)); auto.
    cbn in H. destruct H as [->|[]]. reflexivity.
  - unfold skeys in D1, C1. destruct (o_data (op_base b)) as [|[p x] [|? ?]]; try discriminate D1.
    destruct (o_ctrl (op_base b)); [|discriminate C1]. cbn in D1. injection D1 as ->. reflexivity.
Qed.

Lemma used_output_is h h1 f c ports : resolves h c ports -> rewired h h1 f ->
  used_output c h1 = (c_from c ++ ":" ++ fst ports)%string.
Proof.
  intros (a & b & Fa & Fb & Co & Ci) R. specialize (R (c_from c)). rewrite Fa in R.
  unfold used_output. destruct (sfind (c_from c) h1) as [a1|]; [|contradiction].
  destruct R as [SP _]. apply same_ports_fields in SP as (D & _). rewrite D.
  destruct Co as [(N & -> & H)|(E & D1 & N)].
  - destruct (o_outs (op_base a)) as [|p [|? ?]]; auto. destruct H as [->|[]]. reflexivity.
  - rewrite D1. reflexivity.
Qed.

Lemma pipe_conns_ok l : forall h ui uo h' ui' uo', pipe_conns l h ui uo = Ok (h', ui', uo') ->
  exists cs rs, Forall2 (resolves h) cs rs /\ rewired h h' (fun id port => listed id port (combine cs rs)) /\
    (forall key, In key ui' <-> In key ui \/ exists c ports, In (c, ports) (combine cs rs) /\ key = (c_to c ++ ":" ++ snd ports)%string) /\
    (forall key, In key uo' <-> In key uo \/ exists c ports, In (c, ports) (combine cs rs) /\ key = (c_from c ++ ":" ++ fst ports)%string).
Proof.
  induction l as [|x l IH]; intros h ui uo h' ui' uo' H; cbn [pipe_conns] in H.
  - injection H as <- <- <-. exists [], []. split; [constructor|]. split; [apply rewired_refl|].
    split; intros key; (split; [auto|]); intros [K|(c & p & [] & _)]; auto.
  - apply rbind_ok in H as (c & _ & H). apply rbind_ok in H as (h1 & E & H).
    destruct (connect1_ok _ _ _ E) as (ports & R & W). apply IH in H as (cs & rs & F & W' & Ui & Uo).
    rewrite (used_input_is _ _ _ _ _ R W) in Ui. rewrite (used_output_is _ _ _ _ _ R W) in Uo.
    exists (c :: cs), (ports :: rs). split; [constructor; [exact R|eapply Forall2_rewired; eauto]|]. split; [|split].
    + cbn [combine]. eapply rewired_ext; [|eapply rewired_trans; [exact W|exact W']]. intros id port. symmetry. apply listed_cons.
    + intros key. rewrite Ui, sset_add_In. split.
      * intros [[->|K]|(c' & p & I & ->)]; [right|now left|right]; [exists c, ports|exists c', p]; split; auto; [now left|now right].
      * intros [K|(c' & p & [[= <- <-]|I] & ->)]; [auto|auto|]. right. exists c', p. auto.
    + intros key. rewrite Uo, sset_add_In. split.
      * intros [[->|K]|(c' & p & I & ->)]; [right|now left|right]; [exists c, ports|exists c', p]; split; auto; [now left|now right].
      * intros [K|(c' & p & [[= <- <-]|I] & ->)]; [auto|auto|]. right. exists c', p. auto.
Qed.

Lemma in_listed x id port l : In x (listed id port l) <->
  exists c ports, In (c, ports) l /\ c_from c = id /\ fst ports = port /\ x = (c_to c, snd ports).
Proof.
  unfold listed. rewrite in_map_iff. split.
  - intros ([c ports] & <- & H). apply filter_In in H as [H1 H2]. cbn in H2. apply andb_true_iff in H2 as [A B].
    apply String.eqb_eq in A, B. exists c, ports. auto.
  - intros (c & ports & H & <- & <- & ->). exists (c, ports). split; [reflexivity|]. apply filter_In. split; [auto|].
    cbn. now rewrite !String.eqb_refl.
Qed.

Lemma resolves_from h c ports : resolves h c ports -> (exists o, sfind (c_from c) h = Some o) /\ (exists o, sfind (c_to c) h = Some o).
Proof. intros (a & b & Fa & Fb & _). eauto. Qed.

Lemma Forall2_combine {A B} (R : A -> B -> Prop) l l' x y : Forall2 R l l' -> In (x, y) (combine l l') -> R x y.
Proof. induction 1; cbn; [intros []|]. intros [[= <- <-]|H']; auto. Qed.

(** ** Numbering *)

Lemma pipe_inputs_ok keys : forall c b pm y, pipe_inputs c keys b pm = Ok y ->
  (forall j, (c <= j)%nat -> sfind (iport j) pm = None) ->
  (forall name, In name (skeys (o_data (fst y))) <-> In name (skeys (o_data b)) \/ exists k, (k < length keys)%nat /\ name = iport (c + k)) /\
  (forall k key, nth_error keys k = Some key -> sfind (iport (c + k)) (snd y) = Some key) /\
  (forall name key, sfind name (snd y) = Some key -> sfind name pm = Some key \/ exists k, nth_error keys k = Some key /\ name = iport (c + k)) /\
  (forall name key, sfind name pm = Some key -> sfind name (snd y) = Some key) /\ o_outs (fst y) = o_outs b.
Proof.
  induction keys as [|key keys IH]; intros c b pm y H F; cbn [pipe_inputs] in H.
  - injection H as <-. cbn [fst snd length]. split; [|split; [|split; [|split]]]; auto.
    + intros name. split; [auto|]. intros [X|(k & L & _)]; [auto|lia].
    + intros k key X. destruct k; discriminate X.
  - apply rbind_ok in H as (b' & E & H).
    assert (F' : forall j, (S c <= j)%nat -> sfind (iport j) (semplace (iport c) key pm) = None).
    { intros j L. rewrite sfind_semplace, F by lia. destruct (String.eqb_spec (iport j) (iport c)) as [X|]; [|auto].
      apply iport_inj in X. lia. }
    destruct (IH _ _ _ _ H F') as (D & N & S & K & O). clear IH.
    assert (Ek : sfind (iport c) (semplace (iport c) key pm) = Some key).
    { rewrite sfind_semplace, F by lia. now rewrite String.eqb_refl. }
    assert (Db : forall name, In name (skeys (o_data b')) <-> In name (skeys (o_data b)) \/ name = iport c).
    { unfold add_data in E. destruct (String.eqb (iport c) ""); [discriminate|]. destruct (_ || _) eqn:X; [discriminate|].
      injection E as <-. intros name. cbn [o_data set_data]. unfold semplace.
      apply orb_false_iff in X as [X _]. unfold shas in X. destruct (sfind (iport c) (o_data b)); [discriminate X|].
      rewrite skeys_sset_In. tauto. }
    assert (Ob : o_outs b' = o_outs b).
    { unfold add_data in E. destruct (String.eqb (iport c) ""); [discriminate|]. destruct (_ || _) eqn:X; [discriminate|]. now injection E as <-. }
    split; [|split; [|split; [|split]]].
    + intros name. rewrite D, Db. cbn [length]. split.
      * intros [[X| ->]|(k & L & ->)]; [auto| |].
        -- right. exists 0%nat. split; [lia|f_equal; lia].
        -- right. exists (Datatypes.S k). split; [lia|f_equal; lia].
      * intros [X|([|k] & L & ->)]; [auto| |].
        -- left. right. f_equal. lia.
        -- right. exists k. split; [lia|f_equal; lia].
    + intros [|k] key' X; cbn in X.
      * injection X as <-. rewrite Nat.add_0_r. now apply K.
      * apply N in X. rewrite <- X. f_equal. f_equal. lia.
    + intros name key' X. apply S in X as [X|(k & X & ->)].
      * rewrite sfind_semplace in X. destruct (sfind name pm); [auto|]. destruct (String.eqb_spec name (iport c)) as [->|]; [|discriminate X].
        injection X as <-. right. exists 0%nat. split; [reflexivity|f_equal; lia].
      * right. exists (Datatypes.S k). split; [exact X|f_equal; lia].
    + intros name key' X. apply K. rewrite sfind_semplace. now rewrite X.
    + congruence.
Qed.

Lemma pipe_outs_ok keys : forall c b pm, NoDup keys -> (forall key, In key keys -> sfind key pm = None) ->
  let y := pipe_outs c keys b pm in
  o_data (fst y) = o_data b /\
  (forall name, In name (o_outs (fst y)) <-> In name (o_outs b) \/ exists k, (k < length keys)%nat /\ name = oport (c + k)) /\
  (forall k key, nth_error keys k = Some key -> sfind key (snd y) = Some (oport (c + k))) /\
  (forall key, ~ In key keys -> sfind key (snd y) = sfind key pm).
Proof.
  induction keys as [|key keys IH]; intros c b pm ND F; cbn [pipe_outs].
  - cbn [fst snd length]. split; [auto|]. split; [|split].
    + intros name. split; [auto|]. intros [X|(k & L & _)]; [auto|lia].
    + intros k key X. destruct k; discriminate X.
    + auto.
  - inversion ND as [|? ? NI ND']; subst.
    assert (F' : forall key', In key' keys -> sfind key' (semplace key (oport c) pm) = None).
    { intros key' I. rewrite sfind_semplace, F by (now right). destruct (String.eqb_spec key' key) as [->|]; [contradiction|auto]. }
    destruct (IH (Datatypes.S c) (add_out b (oport c)) _ ND' F') as (D & O & N & K). clear IH.
    set (y := pipe_outs _ _ _ _) in *. cbn zeta. split; [exact D|]. split; [|split].
    + intros name. rewrite O. cbn [add_out set_outs o_outs length]. rewrite sset_add_In. split.
      * intros [[->|X]|(k & L & ->)]; [|auto|].
        -- right. exists 0%nat. split; [lia|f_equal; lia].
        -- right. exists (Datatypes.S k). split; [lia|f_equal; lia].
      * intros [X|([|k] & L & ->)]; [auto| |].
        -- left. left. f_equal. lia.
        -- right. exists k. split; [lia|f_equal; lia].
    + intros [|k] key' X; cbn in X.
      * injection X as <-. rewrite K by auto. rewrite sfind_semplace, F by (now left). rewrite String.eqb_refl. do 2 f_equal. lia.
      * apply N in X. rewrite X. do 2 f_equal. lia.
    + intros key' NI'. rewrite K by (intros X; apply NI'; now right). rewrite sfind_semplace.
      destruct (sfind key' pm); [auto|]. destruct (String.eqb_spec key' key) as [->|]; [|auto]. exfalso. apply NI'. now left.
Qed.

(** ** The results of a Pipeline *)

Section Outputs.
Variable outs pm : smap string.
Hypothesis found : forall key, In key (skeys outs) -> exists name, sfind key pm = Some name.
Definition out_name (id port : string) : option string :=
  let key := (id ++ ":" ++ port)%string in if shas key outs then sfind key pm else None.

Lemma pipe_ports_ok id om : forall acc, exists acc', pipe_ports id om outs pm acc = Ok acc' /\
  (forall name ms, sfind name acc = Some ms -> sfind name acc' = Some ms) /\
  (forall name ms, sfind name acc' = Some ms -> sfind name acc = Some ms \/ exists port, In (port, ms) om /\ out_name id port = Some name) /\
  (forall port ms name, In (port, ms) om -> out_name id port = Some name -> sfind name acc' <> None).
Proof.
  induction om as [|[port ms] om IH]; intros acc; cbn [pipe_ports].
  - exists acc. repeat split; auto.
  - destruct (shas (id ++ ":" ++ port)%string outs) eqn:Hk.
    + destruct (found (id ++ ":" ++ port)%string) as [name E]; [now apply shas_spec|].
      rewrite E. destruct (IH (semplace name ms acc)) as (acc' & E' & A & B & C). exists acc'. split; [exact E'|]. split; [|split].
      * intros name' ms' X. apply A. rewrite sfind_semplace. now rewrite X.
      * intros name' ms' X. apply B in X as [X|(p & I & X)]; [|right; exists p; split; [now right|auto]].
        rewrite sfind_semplace in X. destruct (sfind name' acc); [auto|]. destruct (String.eqb_spec name' name) as [->|]; [|discriminate X].
        injection X as <-. right. exists port. split; [now left|]. unfold out_name. now rewrite Hk.
      * intros p ms' name' [[= <- <-]|I] X; [|eapply C; eauto].
        unfold out_name in X. rewrite Hk, E in X. injection X as <-.
        destruct (sfind name (semplace name ms acc)) as [ms0|] eqn:Y; [apply A in Y; congruence|].
        rewrite sfind_semplace in Y. destruct (sfind name acc); [discriminate Y|]. rewrite String.eqb_refl in Y. discriminate Y.
    + destruct (IH acc) as (acc' & E' & A & B & C). exists acc'. split; [exact E'|]. split; [exact A|]. split.
      * intros name' ms' X. apply B in X as [X|(p & I & X)]; [auto|]. right. exists p. split; [now right|auto].
      * intros p ms' name' [[= <- <-]|I] X; [|eapply C; eauto]. unfold out_name in X. rewrite Hk in X. discriminate X.
Qed.

Lemma pipe_outputs_ok r : forall acc, exists acc', pipe_outputs r outs pm acc = Ok acc' /\
  (forall name ms, sfind name acc = Some ms -> sfind name acc' = Some ms) /\
  (forall name ms, sfind name acc' = Some ms -> sfind name acc = Some ms \/
     exists id om port, In (id, om) r /\ In (port, ms) om /\ out_name id port = Some name) /\
  (forall id om port ms name, In (id, om) r -> In (port, ms) om -> out_name id port = Some name -> sfind name acc' <> None).
Proof.
  induction r as [|[id om] r IH]; intros acc; cbn [pipe_outputs].
  - exists acc. repeat split; auto.
  - destruct (pipe_ports_ok id om acc) as (acc1 & E1 & A1 & B1 & C1). rewrite E1. cbn [rbind].
    destruct (IH acc1) as (acc' & E' & A & B & C). exists acc'. split; [exact E'|]. split; [auto|]. split.
    + intros name ms X. apply B in X as [X|(i & m & p & I & J & X)].
      * apply B1 in X as [X|(p & I & X)]; [auto|]. right. exists id, om, p. split; [now left|auto].
      * right. exists i, m, p. split; [now right|auto].
    + intros i m p ms name [[= <- <-]|I] J X; [|eapply C; eauto].
      pose proof (C1 _ _ _ J X) as Y. destruct (sfind name acc1) as [ms1|] eqn:Z; [|congruence].
      apply A in Z. congruence.
Qed.
End Outputs.

(** connections go to operators of the heap *)
Definition closed (h : heap) : Prop := forall a b, wired h a b -> exists o, sfind b h = Some o.

Lemma wires_targets h id o port : sfind id h = Some o -> wires h id port = targets o port.
Proof. intros F. unfold wires, targets. rewrite F. now destruct (sfind port (o_conns (op_base o))). Qed.

Lemma targets_nil o port : o_conns (op_base o) = [] -> targets o port = [].
Proof. unfold targets. now intros ->. Qed.

(** wiring operators that were not connected *)
Lemma wired_new h h' cs rs : (forall id o, sfind id h = Some o -> o_conns (op_base o) = []) ->
  Forall2 (resolves h) cs rs -> rewired h h' (fun id port => listed id port (combine cs rs)) ->
  (forall id o port, sfind id h' = Some o -> targets o port = listed id port (combine cs rs)) /\ closed h' /\
  (forall c ports, In (c, ports) (combine cs rs) -> exists o, sfind (c_from c) h' = Some o).
Proof.
  intros N F R.
  assert (T : forall id o port, sfind id h' = Some o -> targets o port = listed id port (combine cs rs)).
  { intros id o port Fo. specialize (R id). rewrite Fo in R. destruct (sfind id h) as [o0|] eqn:F0; [|contradiction].
    destruct R as [_ R]. rewrite R, (targets_nil o0) by eauto. reflexivity. }
  assert (X : forall id, (exists o, sfind id h = Some o) -> exists o, sfind id h' = Some o).
  { intros id [o Fo]. specialize (R id). rewrite Fo in R. destruct (sfind id h'); [eauto|contradiction]. }
  split; [exact T|]. split.
  - intros a b (port & p & W). destruct (sfind a h') as [o|] eqn:Fa; [|unfold wires in W; rewrite Fa in W; destruct W].
    rewrite (wires_targets _ _ _ _ Fa), (T _ _ _ Fa) in W. apply in_listed in W as (c & ports & I & _ & _ & [= -> ->]).
    apply X. eapply resolves_from. eapply Forall2_combine; eauto.
  - intros c ports I. apply X. eapply resolves_from. eapply Forall2_combine; eauto.
Qed.

End Free.

Section Made.
Context {NO : NumOps} {JT : JsonText}.

(** what is known of a Pipeline made from a definition *)
Record pipeline_spec (h : heap) (b : base) (ins outs pm : smap string) : Prop := {
  ps_wf : wf_heap h;
  ps_named : named h;
  ps_closed : closed h;
  ps_toproc : o_toproc b = [];
  ps_ctrl : o_ctrl b = [];
  ps_ins_sorted : swf ins;
  ps_outs_sorted : swf outs;
  ps_ins : plain_ids h -> forall key, In key (skeys ins) <-> exists i p, key = (i ++ ":" ++ p)%string /\ free_input h i p;
  ps_outs : plain_ids h -> forall key, In key (skeys outs) <-> exists i p, key = (i ++ ":" ++ p)%string /\ free_output h i p;
  ps_ins_find : plain_ids h -> forall id port, has_colon id = false -> In (id ++ ":" ++ port)%string (skeys ins) ->
    sfind (id ++ ":" ++ port)%string ins = Some id;
  ps_data_names : forall name, In name (skeys (o_data b)) <-> exists k, (k < length (skeys ins))%nat /\ name = iport (S k);
  ps_out_names : forall name, In name (o_outs b) <-> exists k, (k < length (skeys outs))%nat /\ name = oport (S k);
  ps_in_key : forall k key, nth_error (skeys ins) k = Some key -> sfind (iport (S k)) pm = Some key;
  ps_out_key : forall k key, nth_error (skeys outs) k = Some key -> sfind key pm = Some (oport (S k))
}.

Lemma mk_pipeline_spec g id text prog o : mk_pipeline (read_op g) id text prog = Ok o ->
  exists h b ins outs pm, o = Op b (KPipeline text h ins outs pm) /\ pipeline_spec h b ins outs pm /\
    exists h0 cs, operators_of g prog = Ok h0 /\ jat "connections" prog = Ok cs /\ read_conns (jitems cs) h0 = Ok h.
Proof.
  intros H. destruct (mk_pipeline_ok _ _ _ _ _ H) as (? & ? & ? & ? & ? & ? & b0 & ? & ? & ? & _ & _ & _ & _ & Eo & BB & _).
  unfold mk_pipeline in H. apply rbind_ok in H as (xs & E1 & H). apply rbind_ok in H as (h0 & E2 & H).
  apply rbind_ok in H as (cs & E3 & H). apply rbind_ok in H as ([[h ui] uo] & E4 & H). apply rbind_ok in H as (y & E5 & H).
  assert (O : operators_of g prog = Ok h0) by (unfold operators_of; rewrite E1; exact E2).
  destruct (operators_good _ _ _ O) as [G0 C0]. pose proof (pipe_conns_conns _ _ _ _ _ _ _ E4) as RC.
  pose proof (read_conns_good _ _ _ RC G0) as [G N].
  destruct (pipe_conns_ok _ _ _ _ _ _ _ E4) as (cl & rs & F2 & RW & Ui & Uo).
  destruct (wired_new _ _ _ _ C0 F2 RW) as (T & CL & FR).
  set (ins := free_inputs ui h) in *. set (outs := free_outputs uo h) in *.
  assert (Wi : swf ins) by (apply (fold_free_swf ui (fun o => skeys (o_data (op_base o))) h); apply swf_nil).
  assert (Wo : swf outs) by (apply (fold_free_swf uo (fun o => o_outs (op_base o)) h); apply swf_nil).
  pose proof (fold_free_keys ui (fun o => skeys (o_data (op_base o))) h (proj1 G)) as Ki.
  pose proof (fold_free_keys uo (fun o => o_outs (op_base o)) h (proj1 G)) as Ko.
  change (fold_free ui (fun o => skeys (o_data (op_base o))) h []) with ins in Ki.
  change (fold_free uo (fun o => o_outs (op_base o)) h []) with outs in Ko.
  destruct (pipe_inputs_ok _ _ _ _ _ E5) as (D & Nk & Sn & _ & Ob); [reflexivity|].
  pose proof (pipe_outs_ok (skeys outs) 1 (fst y) (snd y)) as P. cbn zeta in P.
  destruct (pipe_outs 1 (skeys outs) (fst y) (snd y)) as [b pm] eqn:EP. cbn [fst snd] in P.
  destruct P as (Db & Ub & Pk & Pn).
  { now apply swf_NoDup. }
  { intros key I. destruct (sfind key (snd y)) as [?|] eqn:Fk; [|auto]. exfalso.
    apply Sn in Fk as [Fk|(k & _ & ->)]; [discriminate Fk|]. apply Ko in I as (i & p & E & _).
    pose proof (iport_colon (1 + k)) as X. rewrite E, has_colon_key in X. discriminate X. }
  apply Ok_inj in H. subst o. injection Eo as <- <- <- <- <-.
  exists h, b, ins, outs, pm. split; [reflexivity|]. split; [|exists h0, cs; auto].
  constructor; auto.
  - apply BB.
  - apply BB.
  - intros PL key. rewrite Ki. split.
    + intros (i & p & -> & X & NU). exists i, p. split; [auto|]. split; [exact X|].
      intros src o q Fo It. rewrite (T _ _ _ Fo) in It. apply in_listed in It as (c & ports & I & _ & _ & [= -> ->]).
      apply NU. apply Ui. right. eauto.
    + intros (i & p & -> & X & NU). exists i, p. split; [auto|]. split; [exact X|].
      intros U. apply Ui in U as [[]|(c & ports & I & E)].
      destruct X as (o & Fo & _). destruct (FR _ _ I) as [oc Foc].
      assert (Ft : exists ot, sfind (c_to c) h = Some ot).
      { apply (CL (c_from c)). exists (fst ports), (snd ports). rewrite (wires_targets _ _ _ _ Foc), (T _ _ _ Foc).
        apply in_listed. exists c, ports. auto. }
      destruct Ft as [ot Fot]. apply key_inj in E as [-> ->]; [|eauto|eauto].
      apply (NU (c_from c) oc (fst ports) Foc). rewrite (T _ _ _ Foc). apply in_listed. exists c, ports. auto.
  - intros PL key. rewrite Ko. split.
    + intros (i & p & -> & (o & Fo & I) & NU). exists i, p. split; [auto|]. exists o. split; [auto|]. split; [auto|].
      rewrite (T _ _ _ Fo). destruct (listed i p (combine cl rs)) as [|z1 l1] eqn:L; [auto|]. exfalso.
      assert (X : In z1 (listed i p (combine cl rs))) by (rewrite L; now left).
      apply in_listed in X as (c & ports & Ic & <- & <- & _). apply NU. apply Uo. right. eauto.
    + intros (i & p & -> & (o & Fo & I & Tn)). exists i, p. split; [auto|]. split; [eauto|].
      intros U. apply Uo in U as [[]|(c & ports & Ic & E)]. destruct (FR _ _ Ic) as [oc Foc].
      apply key_inj in E as [-> ->]; [|eauto|eauto]. rewrite (T _ _ _ Fo) in Tn.
      assert (X : In (c_to c, snd ports) (listed (c_from c) (fst ports) (combine cl rs))) by (apply in_listed; exists c, ports; auto).
      rewrite Tn in X. destruct X.
  - intros PL i p Hc I. now apply (fold_free_find ui (fun o => skeys (o_data (op_base o)))); [apply G|..].
  - intros name. rewrite Db, D. split; [intros [[]|X]; exact X|auto].
  - intros name. rewrite Ub, Ob. split; [intros [[]|X]; exact X|auto].
  - intros k key X. pose proof (Nk _ _ X) as Y. rewrite Pn; [exact Y|].
    intros I. apply Ko in I as (i & p & E & _). pose proof (iport_colon (S k)) as Z. rewrite E, has_colon_key in Z. discriminate Z.
Qed.

Lemma numbered_at free mk keys name id port : ssorted keys ->
  (forall key, In key keys <-> exists i p, key = (i ++ ":" ++ p)%string /\ free i p) ->
  (numbered free mk name id port <-> exists k, nth_error keys k = Some (id ++ ":" ++ port)%string /\ free id port /\ name = mk (S k)).
Proof.
  intros S K. split.
  - intros (keys' & k & S' & K' & F & E & ->). assert (keys' = keys) as ->; [|eauto].
    apply ssorted_ext; auto. intros key. now rewrite K, K'.
  - intros (k & E & F & ->). exists keys, k. auto.
Qed.

(** ids in results belong to operators of the heap *)
Lemma result_ids n p batch r p' : wf_heap (p_ops p) -> named (p_ops p) -> closed (p_ops p) ->
  receive_debug n p batch = (Ok r, p') ->
  forall id om, In (id, om) r -> exists o, sfind id (p_ops p) = Some o.
Proof.
  intros W N C E. pose proof (receive_debug_log _ _ _ _ _ W N E) as (l & El & -> & _).
  destruct (C28_result _ _ _ _ _ W N E) as (l' & El' & _ & _ & _ & R & NE).
  rewrite El in El'. injection El' as <-.
  assert (Hep : exists o, sfind (p_entry p) (p_ops p) = Some o).
  { unfold receive_debug in E. unfold shas in E. destruct (sfind (p_entry p) (p_ops p)); [eauto|discriminate E]. }
  pose proof (lsend_all_mentions _ _ _ _ _ _ W N El) as M.
  assert (P : forall id, reachable (p_ops p) (p_entry p) id -> exists o, sfind id (p_ops p) = Some o).
  { intros id H. induction H; eauto. }
  intros id om I.
  assert (Wl : wf_pm (collate l)) by apply collate_wf.
  assert (F : sfind id (collate l) = Some om) by (apply In_sfind; [apply Wl|exact I]).
  destruct (NE _ _ F) as [Nom Nms]. destruct om as [|[port ms] om]; [congruence|].
  assert (Fp : sfind port ((port, ms) :: om) = Some ms) by (cbn; now rewrite String.eqb_refl).
  pose proof (R id port) as X. unfold result_at in X. rewrite F in X. cbn [odefault] in X. rewrite Fp in X. cbn [odefault] in X.
  specialize (Nms _ _ Fp). destruct (sfind id (p_ops p)) as [o|] eqn:Fo; [eauto|]. exfalso.
  assert (NP : ~ reachable (p_ops p) (p_entry p) id) by (intros H; apply P in H as [o H]; congruence).
  destruct (mentions_calls _ _ _ M NP) as [_ Y]. rewrite Y in X. contradiction.
Qed.

Lemma plain_same h h' : erase_heap h' = erase_heap h -> plain_ids h -> plain_ids h'.
Proof.
  intros E P id o F. pose proof (sfind_erase h' id) as X. rewrite E, sfind_erase, F in X. cbn in X.
  destruct (sfind id h) eqn:Y; [eauto|discriminate X].
Qed.
Lemma closed_same h h' : erase_heap h' = erase_heap h -> closed h -> closed h'.
Proof.
  intros E C a b W. apply (wired_same h h') in W; [|exact E]. apply C in W as [o F].
  pose proof (sfind_erase h' b) as X. rewrite E, sfind_erase, F in X. cbn in X. destruct (sfind b h'); [eauto|discriminate X].
Qed.

Section Step.
Variables (h0 : heap) (b : base) (ins outs pm : smap string) (text : string).
Hypothesis PS : pipeline_spec h0 b ins outs pm.
Hypothesis PL : plain_ids h0.

Lemma outs_found key : In key (skeys outs) -> exists name, sfind key pm = Some name.
Proof.
  intros I. apply In_nth_error in I as [k E]. exists (oport (S k)). now apply (ps_out_key _ _ _ _ _ PS).
Qed.

Lemma out_name_is i p name : has_colon i = false ->
  (out_name outs pm i p = Some name <-> output_is h0 name i p).
Proof.
  intros Hi. unfold output_is. rewrite (numbered_at _ _ (skeys outs)); [|apply PS|now apply PS]. unfold out_name.
  destruct (shas (i ++ ":" ++ p)%string outs) eqn:Hs.
  - apply shas_spec in Hs. pose proof (proj1 (ps_outs _ _ _ _ _ PS PL _) Hs) as (i' & p' & E & F').
    pose proof F' as (o' & Fo & _). apply key_inj in E as [-> ->]; [|auto|eauto].
    apply In_nth_error in Hs as [k E]. pose proof (ps_out_key _ _ _ _ _ PS _ _ E) as X. rewrite X. split.
    + intros [= <-]. eauto.
    + intros (k' & E' & _ & ->). pose proof (ps_out_key _ _ _ _ _ PS _ _ E') as X'. congruence.
  - split; [discriminate|]. intros (k & E & _). apply nth_error_In in E. apply shas_spec in E. congruence.
Qed.

Lemma output_is_inj name i p i' p' : output_is h0 name i p -> output_is h0 name i' p' -> i = i' /\ p = p'.
Proof.
  unfold output_is. rewrite !(numbered_at _ _ (skeys outs)); [|apply PS|now apply PS|apply PS|now apply PS].
  intros (k & E & (o & F & _) & ->) (k' & E' & (o' & F' & _) & X). apply oport_inj in X. injection X as <-.
  rewrite E in E'. injection E' as E'. apply key_inj in E'; eauto.
Qed.

Lemma pipe_shows r : wf_pm r -> (forall id om, In (id, om) r -> has_colon id = false) ->
  (forall id om, sfind id r = Some om -> om <> [] /\ forall port ms, sfind port om = Some ms -> ms <> []) ->
  exists om, pipe_outputs r outs pm [] = Ok om /\ shows h0 r om.
Proof.
  intros [W1 W2] Hc NE. destruct (pipe_outputs_ok outs pm outs_found r []) as (om & E & _ & B & C). exists om. split; [exact E|].
  assert (B' : forall name ms, sfind name om = Some ms -> exists i omi p, sfind i r = Some omi /\ sfind p omi = Some ms /\ output_is h0 name i p).
  { intros name ms F. apply B in F as [F|(i & omi & p & I & J & X)]; [discriminate F|].
    assert (Fi : sfind i r = Some omi) by (now apply In_sfind). exists i, omi, p. split; [auto|].
    split; [apply In_sfind; [eauto|auto]|]. apply out_name_is in X; eauto. }
  split.
  - intros name i p X. unfold result_at. destruct (sfind name om) as [ms|] eqn:F; cbn [odefault].
    + apply B' in F as (i' & omi & p' & Fi & Fp & X'). destruct (output_is_inj _ _ _ _ _ X X') as [<- <-].
      rewrite Fi. cbn [odefault]. now rewrite Fp.
    + destruct (sfind i r) as [omi|] eqn:Fi; [cbn [odefault]|reflexivity].
      destruct (sfind p omi) as [ms|] eqn:Fp; [|reflexivity]. exfalso. revert F. eapply C; [exact (sfind_In _ _ _ Fi)|exact (sfind_In _ _ _ Fp)|].
      apply out_name_is; [|exact X]. eapply Hc. exact (sfind_In _ _ _ Fi).
  - intros name ms F. apply B' in F as (i & omi & p & Fi & Fp & X). split; [eapply NE; eauto|eauto].
Qed.

Definition piped (h : heap) : op := Op b (KPipeline text h ins outs pm).

Lemma input_found name i p : input_is h0 name i p -> exists oi, sfind i h0 = Some oi /\ has_colon i = false /\
  sfind name pm = Some (i ++ ":" ++ p)%string /\ sfind (i ++ ":" ++ p)%string ins = Some i /\ name <> "".
Proof.
  unfold input_is. rewrite (numbered_at _ _ (skeys ins)); [|apply PS|now apply PS]. intros (k & E & ((oi & F & _) & _) & ->).
  exists oi. split; [auto|]. split; [eauto|]. split; [now apply (ps_in_key _ _ _ _ _ PS)|]. split; [|discriminate].
  apply (ps_ins_find _ _ _ _ _ PS); eauto. now apply nth_error_In in E.
Qed.

Lemma pipe_recv n h name i p m oi : input_is h0 name i p -> sfind i h = Some oi ->
  recv_data (S n) (piped h) m name =
  match recv_data n oi m p with
  | (Ok _, oi') => (Ok tt, Op (set_toproc b [(i ++ ":" ++ p)%string]) (KPipeline text (sset i oi' h) ins outs pm))
  | (r, oi') => (r, piped (sset i oi' h))
  end.
Proof.
  intros X F. destruct (input_found _ _ _ X) as (_ & _ & Hc & F1 & F2 & N). cbn [recv_data piped op_kind op_base].
  assert (K : match ins with
              | [(k, _)] => if String.eqb name "" then Some k else sfind name pm
              | _ => sfind name pm end = Some (i ++ ":" ++ p)%string).
  { destruct ins as [|[k x] [|? ?]]; auto. destruct (String.eqb_spec name ""); [contradiction|auto]. }
  rewrite K, F2, F, split2_key by auto. cbn [snd].
  destruct (recv_data n oi m p) as [[u| | | |] oi']; try reflexivity. rewrite (ps_toproc _ _ _ _ _ PS). reflexivity.
Qed.

Lemma pipe_call_ok n h name i p m : erase_heap h = erase_heap h0 -> input_is h0 name i p ->
  match program_call n h (i, p, m) with
  | (Ok r, h') => exists om, pipe_call n (piped h) (name, m) = (Ok om, piped h') /\ shows h0 r om /\ erase_heap h' = erase_heap h0
  | (e, _) => same_failure e (fst (pipe_call n (piped h) (name, m)))
  end.
Proof.
  intros K X. destruct (input_found _ _ _ X) as (oi0 & F0 & Hc & _ & F2 & _).
  assert (Fi : exists oi, sfind i h = Some oi).
  { pose proof (sfind_erase h i) as Y. rewrite K, sfind_erase, F0 in Y. cbn in Y. destruct (sfind i h); [eauto|discriminate Y]. }
  destruct Fi as [oi Fi].
  assert (W : wf_heap h) by (eapply wf_heap_same; [exact K|apply PS]).
  assert (N : named h) by (eapply named_same; [exact K|apply PS]).
  assert (C : closed h) by (eapply closed_same; [exact K|apply PS]).
  assert (P : plain_ids h) by (eapply plain_same; [exact K|exact PL]).
  unfold program_call. destruct (receive_debug n (mkProgram "" h i []) [(p, [m])]) as [rr pp] eqn:E.
  pose proof E as E0. unfold receive_debug in E0. cbn [p_entry p_ops] in E0. unfold shas in E0. rewrite Fi in E0.
  cbn [send_batch send_port] in E0. unfold send1 in E0. rewrite Fi in E0.
  unfold pipe_call. cbn [fst snd]. rewrite (pipe_recv _ _ _ _ _ _ _ X Fi).
  destruct (recv_data n oi m p) as [[u| | | |] oi']; cbn [bind sbind] in E0 |- *;
    try (injection E0 as <- <-; cbn; auto; fail).
  cbn [exec_local op_kind op_base]. unfold pipe_exec. cbn [o_toproc set_toproc pipe_run]. rewrite F2.
  destruct (exec n false i (sset i oi' h)) as [[x| | | |] h'] eqn:Ex; cbn [bind sbind] in E0 |- *;
    try (injection E0 as <- <-; cbn; auto; fail).
  injection E0 as <- <-. cbn [set_ops p_ops]. set (q := mkProgram "" h i []) in *.
  destruct (pipe_shows (merge_pm [] x)) as (om & Eo & S).
  - apply merge_pm_wf, wf_pm_nil.
  - intros id om I. destruct (result_ids _ q _ _ _ W N C E _ _ I) as [o Fo]. cbn in Fo. eauto.
  - destruct (C28_result _ q _ _ _ W N E) as (l & _ & _ & _ & _ & _ & NE). exact NE.
  - exists om. rewrite Eo. split; [|split; [exact S|]].
    + unfold piped. f_equal. f_equal. unfold set_toproc. cbn [o_id o_data o_ctrl o_outs o_conns o_toproc].
      rewrite <- (ps_toproc _ _ _ _ _ PS). now destruct b.
    + pose proof (receive_debug_log _ q _ _ _ W N E) as (l & El & _). cbn [p_ops set_ops p_entry] in El.
      rewrite <- K. eapply lsend_all_keeps; eauto.
Qed.

Lemma pipe_calls_ok n l l' : Forall2 (fun x y => input_is h0 (fst x) (fst (fst y)) (snd (fst y)) /\ snd x = snd y) l l' ->
  forall h, erase_heap h = erase_heap h0 ->
  match program_calls n h l' with
  | (Ok rs, h') => exists oms, pipe_calls n (piped h) l = (Ok oms, piped h') /\ Forall2 (shows h0) rs oms
  | (e, _) => same_failure e (fst (pipe_calls n (piped h) l))
  end.
Proof.
  induction 1 as [|[name m] [[i p] m'] l l' [X Em] F IH]; intros h K; cbn [program_calls pipe_calls].
  - exists []. auto.
  - cbn in X, Em. subst m'. pose proof (pipe_call_ok n h name i p m K X) as S.
    destruct (program_call n h (i, p, m)) as [[r| | | |] h1]; cbn [bind sbind].
    + destruct S as (om & -> & S & K1). cbn [bind sbind]. specialize (IH h1 K1).
      destruct (program_calls n h1 l') as [[rs| | | |] h2]; cbn [bind sbind].
      * destruct IH as (oms & -> & S2). cbn [bind sbind]. eauto.
      * destruct (pipe_calls n (piped h1) l) as [[?| | | |] ?]; cbn in *; auto.
      * destruct (pipe_calls n (piped h1) l) as [[?| | | |] ?]; cbn in *; auto.
      * destruct (pipe_calls n (piped h1) l) as [[?| | | |] ?]; cbn in *; auto.
      * destruct (pipe_calls n (piped h1) l) as [[?| | | |] ?]; cbn in *; auto.
    + destruct (pipe_call n (piped h) (name, m)) as [[?| | | |] ?]; cbn in *; auto; contradiction.
    + destruct (pipe_call n (piped h) (name, m)) as [[?| | | |] ?]; cbn in *; auto; contradiction.
    + destruct (pipe_call n (piped h) (name, m)) as [[?| | | |] ?]; cbn in *; auto; contradiction.
    + destruct (pipe_call n (piped h) (name, m)) as [[?| | | |] ?]; cbn in *; auto; contradiction.
Qed.
End Step.

End Made.

(** ** Operators in a program, Pipelines included *)

Section Replay.
Context {NO : NumOps}.

Lemma extends_le {S A} (f : nat -> sres S A) : (forall n, extends (f n) (f (Datatypes.S n))) ->
  forall n n', (n <= n')%nat -> extends (f n) (f n').
Proof.
  intros E n n' L. induction L as [|n' L IH]; [apply extends_refl|].
  intros H. rewrite E; [now apply IH|]. rewrite IH by auto. exact H.
Qed.

Lemma call_extends n o e : extends (call n o e) (call (S n) o e).
Proof.
  destruct e as [port m|port m| |]; cbn [call]; try apply extends_refl.
  - apply extends_bind; [apply recv_data_extends|]. intros. apply extends_refl.
  - apply exec_local_extends. intros ctl id h. apply exec_extends.
Qed.

Lemma calls_of_extends n evs : forall o, extends (calls_of n o evs) (calls_of (S n) o evs).
Proof.
  induction evs as [|e evs IH]; intros o; cbn [calls_of]; [apply extends_refl|].
  apply extends_bind; [apply call_extends|]. intros x o1. apply extends_bind; [apply IH|]. intros. apply extends_refl.
Qed.

Lemma calls_of_more n n' o evs outs o' : (n <= n')%nat -> calls_of n o evs = (Ok outs, o') -> calls_of n' o evs = (Ok outs, o').
Proof.
  intros L E. pose proof (extends_le (fun n => calls_of n o evs) (fun n => calls_of_extends n evs o) n n' L) as X.
  cbn beta in X. rewrite X; [exact E|]. rewrite E. discriminate.
Qed.

Lemma calls_of_app n e1 e2 : forall o, calls_of n o (e1 ++ e2) =
  (do! (x, o1) <- calls_of n o e1; do! (y, o2) <- calls_of n o1 e2; (Ok (x ++ y), o2)).
Proof.
  induction e1 as [|e e1 IH]; intros o; cbn [calls_of app].
  - cbn [bind sbind]. destruct (calls_of n o e2) as [[?| | | |] ?]; reflexivity.
  - destruct (call n o e) as [[x| | | |] o1]; cbn [bind sbind]; try reflexivity. rewrite IH.
    destruct (calls_of n o1 e1) as [[xs| | | |] o2]; cbn [bind sbind]; try reflexivity.
    destruct (calls_of n o2 e2) as [[ys| | | |] o3]; reflexivity.
Qed.

Lemma replays_all_nil h : replays_all h [] h.
Proof. intros id o F. exists o. split; [auto|]. exists 0%nat. reflexivity. Qed.

Lemma replays_all_app h l1 h1 l2 h2 : replays_all h l1 h1 -> replays_all h1 l2 h2 -> replays_all h (l1 ++ l2) h2.
Proof.
  intros A B id o F. destruct (A id o F) as (o1 & F1 & n1 & R1). destruct (B id o1 F1) as (o2 & F2 & n2 & R2).
  exists o2. split; [auto|]. exists (Nat.max n1 n2). intros n L. rewrite calls_app, returned_app, calls_of_app, R1 by lia.
  cbn [bind sbind]. rewrite R2 by lia. reflexivity.
Qed.

Lemma replays_all_emit id port m h l h' : replays_all h l h' -> replays_all h (LEmit id port m :: l) h'.
Proof. intros A i o F. exact (A i o F). Qed.

Lemma replays_all_call n h id o o' e out : sfind id h = Some o -> call n o e = (Ok out, o') ->
  replays_all h [LCall id e out] (sset id o' h).
Proof.
  intros F E i oi Fi. rewrite sfind_sset. cbn [calls returned flat_map]. destruct (String.eqb_spec i id) as [->|N].
  - rewrite F in Fi. injection Fi as <-. exists o'. split; [auto|]. exists n. intros n' L. cbn [app].
    eapply calls_of_more; [exact L|]. cbn [calls_of]. rewrite E. reflexivity.
  - exists oi. split; [auto|]. exists 0%nat. reflexivity.
Qed.

Lemma replays_all_deliver n m cs : forall h l h', ldeliver n m cs h = (Ok l, h') -> replays_all h l h'.
Proof.
  induction cs as [|c cs IH]; intros h l h' E; cbn [ldeliver] in E; [injection E as <- <-; apply replays_all_nil|].
  apply bind_ok in E as (l1 & h1 & E1 & E). apply bind_ok in E as (l2 & h2 & E2 & E). injection E as <- <-.
  apply replays_all_app with h1; [|eapply IH; eauto]. clear IH E2.
  destruct c as [dst port]. unfold ldeliver1 in E1. destruct (sfind dst h) as [o|] eqn:Ho; [|discriminate E1].
  destruct (is_data_input o port).
  - destruct (recv_data n o m port) as [[u| | | |] o'] eqn:R; try discriminate E1. injection E1 as <- <-.
    eapply (replays_all_call n); [exact Ho|]. cbn [call]. rewrite R. reflexivity.
  - destruct (is_control_input o port).
    + destruct (recv_ctrl_local o m port) as [[u| | | |] o'] eqn:R; try discriminate E1. injection E1 as <- <-.
      eapply (replays_all_call n); [exact Ho|]. cbn [call]. rewrite R. reflexivity.
    + injection E1 as <- <-. apply replays_all_nil.
Qed.

Lemma log_replays_all n ctl id h l h' : wf_heap h -> named h -> lexec n ctl id h = (Ok l, h') -> replays_all h l h'.
Proof.
  intros W N E.
  eapply (log_principle (erase_heap h) (fun _ => True) replays_all) with (n := n); eauto.
  - apply replays_all_nil.
  - apply replays_all_app.
  - intros k i port m h0 l0 h1 _ _ Ed. apply replays_all_emit. eapply replays_all_deliver; eauto.
  - intros k c i o h0 out o' _ _ Fo Ex. apply (replays_all_call k) with o; [exact Fo|].
    destruct c; cbn [call]; exact Ex.
  - repeat split; auto; apply W.
Qed.

Lemma lsend_all_replays_all n ep ms h l h' : wf_heap h -> named h -> lsend_all n ep ms h = (Ok l, h') -> replays_all h l h'.
Proof.
  intros W N E. revert ms h l h' W N E. apply (lsend_all_ind n ep (fun h _ l h' => replays_all h l h')).
  - apply replays_all_nil.
  - intros h port m l1 h1 ms l2 h2 W N W1 N1 K E1 E2. apply replays_all_app with h1; [|exact E2].
    destruct (lsend1_ok _ _ _ _ _ _ _ W E1) as (o & u & o' & l' & Ho & R & E & -> & K').
    apply replays_all_app with (sset ep o' h).
    + intros i oi Fi. refine (replays_all_call n h ep o o' (EData port m) [] Ho _ i oi Fi). cbn [call]. rewrite R. reflexivity.
    + eapply log_replays_all; [| |exact E]; [eapply wf_heap_same; eauto|eapply named_same; eauto].
Qed.

Lemma one_by_one_calls n l : forall o outs o', calls_of n o (one_by_one l) = (Ok outs, o') ->
  exists oms, outs = flat_map (fun om => [[]; om]) oms /\ pipe_calls n o l = (Ok oms, o').
Proof.
  induction l as [|[name m] l IH]; intros o outs o' E; cbn [one_by_one flat_map app calls_of] in E.
  - injection E as <- <-. exists []. auto.
  - apply bind_ok in E as (x & o1 & E1 & E). apply bind_ok in E as (xs & o2 & E2 & E). injection E as <- <-.
    cbn [call] in E1. apply bind_ok in E1 as (u & o1' & R & E1). injection E1 as <- <-.
    apply bind_ok in E2 as (om & o3 & E3 & E4). apply bind_ok in E4 as (ys & o4 & E4 & E). injection E as <- <-.
    apply IH in E4 as (oms & -> & P). exists (om :: oms). split; [reflexivity|]. cbn [pipe_calls].
    assert (X : pipe_call n o (name, m) = (Ok om, o3)).
    { unfold pipe_call. cbn [fst snd].
      rewrite (recv_data_extends n o m name) by (cbn [fst snd] in R; rewrite R; discriminate).
      cbn [fst snd] in R. rewrite R. cbn [bind sbind]. exact E3. }
    rewrite X. cbn [bind sbind]. rewrite P. reflexivity.
Qed.
End Replay.
