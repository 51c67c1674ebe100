(** * C88: a program fails only where an operator, by itself, fails on what the wiring gives it;
    and the Bollinger bands of C87 are answered *)

From Coq Require Import String ZArith QArith Qcanon Bool List Lia Sorted.
From Verif Require Import Base.StrMap Base.Num Base.NumInt Base.NumQc Base.NumTrunc Model.Core Model.Ops Model.Make Model.Run Model.Graph Model.Json.
From Verif Require Import Spec.Shape Spec.Preserving Spec.Streams Spec.Operators Spec.Multi Spec.Join Spec.Show Spec.Build Spec.Snapshot Spec.Definition Spec.Depth Spec.Bounds Spec.Pipeline Spec.Reliable Spec.Resample Proofs.Resample Spec.Filter Spec.Windows Spec.Shipped Spec.Cause.
From Verif Require Import Proofs.Ports Proofs.Lists Proofs.InputP Proofs.JsonP Proofs.MakeP Proofs.Window Proofs.Conns Proofs.Prompt Proofs.Wiring Proofs.Resample Proofs.HermiteFirst Proofs.CauseP Proofs.Contract.
From Verif Require Import Spec.Log Spec.Synchronous Properties.Synchronous Properties.Shipped.
From Verif Require Properties.Reliable Properties.Graph Properties.Definition.
Import ListNotations.
Open Scope string_scope.
Open Scope list_scope.
Open Scope Z_scope.
Open Scope rtbot_scope.

Section C88.
Context {NO : NumOps} {NI : NumInt NO} {JT : JsonText}.

(** the answers of a session, and what the program computed for them *)
Lemma session_computed n batches : forall p rs p', receive_all n p batches = (Ok rs, p') ->
  Forall (fun r => exists out, r = Ok out) (fst (session n p batches)).
Proof.
  induction batches as [|b bs IH]; intros p rs p' E; [constructor|]. cbn [receive_all] in E. cbn [session]. unfold receive.
  destruct (receive_debug n p b) as [[d| | | |] p1]; cbn [bind sbind] in E; try discriminate E.
  destruct (receive_all n p1 bs) as [[rs1| | | |] p2] eqn:E2; cbn in E; try discriminate E. cbn [fst snd].
  specialize (IH p1 rs1 p2 E2). destruct (session n p1 bs) as [rs' p3]. constructor; eauto.
Qed.

Lemma session_failed n before batch : forall p oks r, fst (session n p (before ++ [batch])) = oks ++ [r] ->
  Forall (fun r => exists out, r = Ok out) oks -> ending r <> Ok tt ->
  ending (fst (receive_all n p (before ++ [batch]))) = ending r.
Proof.
  induction before as [|b bs IH]; intros p oks r E A Nr.
  - cbn [app session receive_all] in *. unfold receive in E.
    assert (oks = [] /\ fst (receive_debug n p batch) = fst (receive_debug n p batch)) as [-> _].
    { split; [|reflexivity]. destruct oks as [|x [|]]; auto; destruct (receive_debug n p batch) as [[] ?]; discriminate E. }
    destruct (receive_debug n p batch) as [[d| | | |] p1]; cbn in E; injection E as <-; cbn in *; auto; congruence.
  - cbn [app session receive_all] in *. destruct (receive n p b) as [r1 p1] eqn:R. destruct (session n p1 (bs ++ [batch])) as [rs p2] eqn:E2.
    cbn [fst] in E. destruct oks as [|x oks].
    { exfalso. destruct rs as [|]; [|discriminate E]. clear - E2.
      assert (X : length (fst (session n p1 (bs ++ [batch]))) = length (bs ++ [batch])).
      { generalize (bs ++ [batch]). intros l. revert p1 E2. clear. intros p1 _. revert p1. induction l as [|b l IH]; intros p1; [reflexivity|].
        cbn [session]. destruct (receive n p1 b) as [r q]. specialize (IH q). destruct (session n q l). cbn in *. now rewrite IH. }
      rewrite E2, app_length in X. cbn in X. lia. }
    injection E as -> ->. inversion A as [|? ? (out & Ex) A2]; subst. unfold receive in R.
    destruct (receive_debug n p b) as [[d| | | |] p1']; cbn in R; try discriminate R. injection R as _ ->. cbn [bind sbind].
    specialize (IH p1 oks r). rewrite E2 in IH. specialize (IH eq_refl A2 Nr).
    destruct (receive_all n p1 (bs ++ [batch])) as [[rs1| | | |] p3]; cbn in *; auto.
Qed.

(** If a new program without cycles and Pipelines, where no input has two connections, answers the
    calls [before] but not the next one, then there are sequences of calls [did] on its operators,
    with results [made], such that these calls are what the wiring gives, every operator run by
    itself on them answers [made], and one operator run by itself on one call more, which the wiring
    gives it too, fails in the way the program did. *)
Theorem C88_cause (g : string -> junk) (text : string) (p : program) (rank : string -> nat) (n : nat)
    (before : list opmsg) (batch : opmsg) (oks : list (res progmsg)) (r : res progmsg) :
  new_prog g text = Ok p -> p_ops p <> [] ->
  (forall id o, sfind id (p_ops p) = Some o -> is_pipeline o = false) ->
  ranked rank (p_ops p) -> one_feed (p_ops p) -> (heap_size (p_ops p) < n)%nat ->
  fst (session n p (before ++ [batch])) = oks ++ [r] -> Forall (fun r => exists out, r = Ok out) oks -> ending r <> Ok tt ->
  exists did made id o e,
    (forall a oa, sfind a (p_ops p) = Some oa ->
       given (p_ops p) (p_entry p) (all_messages (before ++ [batch])) made a (did a) /\
       exists oa', run oa (did a) = (Ok (made a), oa')) /\
    sfind id (p_ops p) = Some o /\
    given (p_ops p) (p_entry p) (all_messages (before ++ [batch])) made id (did id ++ [e]) /\
    breaks o (did id ++ [e]) (ending r).
Proof.
  intros H Ne Np Rk Of L E A Nr. destruct (Properties.Definition.created_well_formed g text p H) as [W N].
  pose proof (session_failed n before batch p oks r E A Nr) as X.
  destruct (receive_all n p (before ++ [batch])) as [r1 p1] eqn:Er. cbn [fst] in X.
  apply (program_fails rank n p (before ++ [batch]) r1 p1 (ending r)); auto.
  - eapply new_closed; eauto.
  - eapply ReliableNew.new_entry; eauto.
  - rewrite <- X. intros Q. assert (Q1 : r1 = OutOfFuel) by (destruct r1; try discriminate Q; reflexivity). subst r1.
    assert (Ac : acyclic (p_ops p)).
    { apply (Properties.Graph.ranked_acyclic rank); auto. intros id b js ops ins outs pm F. apply Np in F. discriminate F. }
    apply (DepthP.acyclic_fits false (p_ops p) W Ac); [discriminate|]. intros (level & F & Hl).
    apply (receive_all_quiet n (before ++ [batch]) p level W F); [specialize (Hl (p_entry p)); lia|]. now rewrite Er.
Qed.

(** So a program all of whose operators keep a contract answers every call. *)
Theorem C88_no_failure (g : string -> junk) (text : string) (p : program) (rank : string -> nat) (n : nat)
    (history : list opmsg) (G : string -> string -> list msg -> Prop) :
  new_prog g text = Ok p -> p_ops p <> [] ->
  (forall id o, sfind id (p_ops p) = Some o -> is_pipeline o = false) ->
  ranked rank (p_ops p) -> one_feed (p_ops p) -> (heap_size (p_ops p) < n)%nat ->
  contract (p_ops p) (p_entry p) (all_messages history) G ->
  Forall (fun r => exists out, r = Ok out) (fst (session n p history)).
Proof.
  intros H Ne Np Rk Of L C. destruct (Properties.Definition.created_well_formed g text p H) as [W N].
  destruct (contract_no_failure rank n p history G) as (rs & p' & E); auto.
  - eapply new_closed; eauto.
  - eapply ReliableNew.new_entry; eauto.
  - eapply session_computed; eauto.
Qed.

(** A reliable operator (C56) of a new program keeps every contract that asks nothing of what it
    emits. *)
Theorem C88_reliable (g : string -> junk) (text : string) (p : program) (history : list opmsg)
    (id : string) (o : op) (made : string -> list opmsg) (evs : list ev) :
  new_prog g text = Ok p -> sfind id (p_ops p) = Some o -> reliable o -> is_pipeline o = false ->
  (id = p_entry p -> Forall (addressed p) history) ->
  given (p_ops p) (p_entry p) (all_messages history) made id evs ->
  exists outs o', run o evs = (Ok outs, o') /\
    forall out port l, In out outs -> In (port, l) out -> sset_mem port (o_outs (op_base o)) = true.
Proof.
  intros H F R Np Ad [G1 G2]. eapply new_reliable; eauto.
  destruct (string_dec id (p_entry p)) as [->|Ne]; [|now apply G2].
  destruct (G1 eq_refl) as (z & Ez). assert (X : Forall (for_inputs o) (evs ++ z)); [|now apply Forall_app in X].
  rewrite <- Ez. apply Forall_flat_map. apply Forall_forall. intros [port m] Hin.
  unfold all_messages in Hin. apply in_flat_map in Hin as (b & Hb & Hin). unfold batch_messages in Hin.
  apply in_flat_map in Hin as ([port' ms] & Hp & Hin). apply in_map_iff in Hin as (m' & [= <- <-] & _).
  specialize (Ad eq_refl). rewrite Forall_forall in Ad. destruct (Ad b Hb port' ms Hp) as (o' & F' & K). rewrite F in F'. injection F' as <-.
  repeat constructor. cbn. unfold is_data_input. now apply shas_spec.
Qed.

End C88.
Print Assumptions C88_cause.
Print Assumptions C88_no_failure.
Print Assumptions C88_reliable.

(** ** C87: every call of the Bollinger bands is answered *)
Section Bands.
Context {NO : NumOps} {NF : NumField NO} {NT : NumTrunc NO} {NI : NumInt NO} {JT : JsonText}.

(** a HermiteResampler emits on "o1" only *)
Lemma hermite_ports evs : forall b d c bf outs o', run (Op b (KHermiteResampler d c bf)) evs = (Ok outs, o') ->
  forall out port l, In out outs -> In (port, l) out -> port = "o1".
Proof.
  induction evs as [|e evs IH]; intros b d c bf outs o' R; [injection R as <- _; intros out port l []|].
  cbn [run] in R.
  assert (X : forall x o1, step (Op b (KHermiteResampler d c bf)) e = (Ok x, o1) ->
    (forall port l, In (port, l) x -> port = "o1") /\ exists b1 c1 bf1, o1 = Op b1 (KHermiteResampler d c1 bf1)).
  { intros x o1 S. destruct e as [port m|port m| |]; cbn [step] in S.
    - unfold recv_data_local in S. destruct (recv_data_base b m port) as [[u| | | |] b1]; cbn in S; try discriminate S.
      injection S as <- <-. split; [intros ? ? []|eauto].
    - unfold recv_ctrl_local in S. destruct (recv_ctrl_base b m port) as [[u| | | |] b1]; cbn in S; try discriminate S.
      injection S as <- <-. split; [intros ? ? []|eauto].
    - unfold exec_data_local, exec_base in S. destruct (ready_ports b (o_toproc b)) as [[|t tp]| | | |]; try discriminate S.
      + injection S as <- <-. split; [intros ? ? []|eauto].
      + cbn [process_data] in S. destruct (rbind _ _) as [[[es c1] bf1]| | | |]; try discriminate S. injection S as <- <-. split; [|eauto].
        destruct es; [intros ? ? []|]. intros port l [E|[]]. now injection E.
    - cbn in S. injection S as <- <-. split; [intros ? ? []|eauto]. }
  destruct (step (Op b (KHermiteResampler d c bf)) e) as [[x| | | |] o1]; cbn [bind sbind] in R; try discriminate R.
  destruct (X x o1 eq_refl) as [Px (b1 & c1 & bf1 & ->)].
  destruct (run (Op b1 (KHermiteResampler d c1 bf1)) evs) as [[xs| | | |] o2] eqn:R1; cbn in R; try discriminate R.
  injection R as <- _. intros out port l [<-|I] Hp; [eauto|]. eapply IH; eauto.
Qed.

Lemma run_initial o evs all outs o' : initial evs all -> run o all = (Ok outs, o') ->
  exists outs1 o1, run o evs = (Ok outs1, o1) /\ initial outs1 outs.
Proof.
  intros (z & ->) R. rewrite run_app in R. destruct (run o evs) as [[outs1| | | |] o1] eqn:R1; cbn in R; try discriminate R.
  exists outs1, o1. split; auto. destruct (run o1 z) as [[outs2| | | |] o2]; cbn in R; try discriminate R. injection R as <- _. now exists outs2.
Qed.

Lemma initial_on_port q (x y : list opmsg) : initial x y -> initial (on_port q x) (on_port q y).
Proof. intros (z & ->). rewrite on_port_app. now exists (on_port q z). Qed.

Lemma initial_feed port x y : initial x y -> initial (feed port x) (feed port y).
Proof. intros (z & ->). rewrite feed_app. now exists (feed port z). Qed.

Lemma bands_size g text : parse text = Ok bands_definition -> exists p, new_prog g text = Ok p /\ heap_size (p_ops p) = 8%nat.
Proof. intros P. eexists. unfold new_prog. rewrite P. split; vm_compute; reflexivity. Qed.

Theorem C87_answered (g : string -> junk) (text : string) : parse text = Ok bands_definition ->
  exists p, new_prog g text = Ok p /\
  forall (n : nat) (history : list opmsg), (8 < n)%nat ->
    Forall (Forall (fun pm => fst pm = "i1")) history ->
    let x := records (sent_to "i1" history) in
    0 <= first_time x -> newest_time x + 1 < two64 -> gaps_below (2 ^ 31 - 3) x -> mtime (nth 3 x msg0) < 2 ^ 30 ->
    Forall (fun r => exists out, r = Ok out) (fst (session n p history)).
Proof.
  intros P. destruct (bands_created g text P) as (p & Hp & Ee & Ef & Eo & Es & Ew).
  destruct (bands_size g text P) as (p2 & Hp2 & Sz). rewrite Hp in Hp2. injection Hp2 as <-.
  exists p. split; [exact Hp|]. intros n history Hn Hi x H0 Hm Hg H3.
  destruct (Properties.Definition.created_well_formed g text p Hp) as [W N].
  pose proof (@op_at NO (p_ops p)) as At. rewrite Eo in At. pose proof (fed_from Ew) as Fd.
  assert (Rk : ranked bands_rank (p_ops p)) by (apply ranked_check; rewrite Es; reflexivity).
  assert (Of : one_feed (p_ops p)) by (apply one_feed_check; rewrite Es; reflexivity).
  assert (Ix : increasing (times x)) by apply records_increasing.
  assert (Msgs : Forall (fun pm => exists j, (1 <= j <= 1)%nat /\ fst pm = iport j) (all_messages history)).
  { unfold all_messages. apply Forall_flat_map. eapply Forall_impl; [|exact Hi]. intros b Hb. unfold batch_messages. apply Forall_flat_map.
    eapply Forall_impl; [|exact Hb]. intros pm Epm. apply Forall_forall. intros pm' Hin. apply in_map_iff in Hin as (m & <- & _). exists 1%nat. split; [lia|exact Epm]. }
  assert (Known : forall id o, sfind id (p_ops p) = Some o -> exists r, In (id, r) (plain_ops (p_ops p)) /\ r = Ok (unwired o)).
  { intros id o F. apply sfind_In in F. exists (Ok (unwired o)). split; [|reflexivity]. unfold plain_ops. apply in_map_iff. exists (id, o). auto. }
  assert (Kinds : forall id o, sfind id (p_ops p) = Some o -> is_pipeline o = false /\ (id = "262" \/ reliable o)).
  { intros id o F. destruct (Known id o F) as (r & Hin & Er). rewrite Eo in Hin. subst r. destruct o as [b k]. unfold unwired in Hin.
    repeat (destruct Hin as [Hin|Hin]; [apply pair_equal_spec in Hin as [<- Hin]; apply (f_equal (fun r : res op => match r with Ok o => Some (op_kind o) | _ => None end)) in Hin; vm_compute in Hin; injection Hin as <-; cbn; auto|]). destruct Hin. }
  assert (Hh : exists oh cs, mk_hermite "262" 1 = Ok oh /\ sfind "262" (p_ops p) = Some (with_conns cs oh)).
  { destruct (At "262" (mk_hermite "262" 1)) as (oh & cs & Hmk & F); [apply W|cbn; auto 10|]. eauto. }
  destruct Hh as (oh & cs & Hmk & Fh). unfold mk_hermite in Hmk. rewrite mk_simple_sop in Hmk. apply Ok_inj in Hmk.
  assert (Rh : exists outs o', run (with_conns cs oh) (feed "i1" x) = (Ok outs, o')).
  { assert (exists outs o', run oh (feed "i1" x) = (Ok outs, o')) as (outs & o' & R).
    { destruct x as [|a [|b x']] eqn:Ex.
      - eexists _, _. reflexivity.
      - subst oh. eexists _, _. vm_compute. reflexivity.
      - assert (H1 : 1 <= mtime b - mtime a).
        { clear - Ix. cbn in Ix. apply StronglySorted_inv in Ix as [_ Fa]. inversion Fa as [|? ? Hab _]. lia. }
        assert (exists y, (4 <= length (a :: b :: x'))%nat -> hermite_before (firstn 4 (a :: b :: x')) = Ok y) as (y & Hy).
        { destruct x' as [|c [|e l]]; [exists msg0; cbn; lia|exists msg0; cbn; lia|].
          assert (Tt : mtime a < mtime b /\ mtime b < mtime c /\ mtime c < mtime e).
          { clear - Ix. unfold increasing, times in Ix. cbn [map] in Ix. inversion Ix as [|? ? I1 F1]; subst. inversion I1 as [|? ? I2 F2]; subst.
            inversion I2 as [|? ? I3 F3]; subst. inversion F1; inversion F2; inversion F3; subst. lia. }
          cbn [first_time nth] in *. destruct (hermite_before4 a b c e) as (m & k & _ & Hb); try lia. cbv zeta in Hb. eexists. intros _. exact Hb. }
        subst oh. destruct (run_hermite_first "262" ["o1"] [] 1 (a :: b :: x') y) as (os & o' & R & _); auto; try lia. eauto. }
    rewrite run_conns, R. eexists _, _. reflexivity. }
  destruct Rh as (outsh & oh' & Rh).
  apply (C88_no_failure g text p bands_rank n history (fun a q l => a = "754" -> q = "o1" -> initial l x)); auto.
  { intros X. rewrite X in Sz. discriminate Sz. }
  { intros id o F. now apply Kinds in F. }
  { lia. }
  intros id o made evs F Gs Gv. destruct (Kinds id o F) as [Np Kd]. destruct (string_dec id "262") as [->|N262].
  - rewrite Fh in F. injection F as <-.
    assert (Ie : initial evs (feed "i1" x)).
    { destruct Gv as [_ Gv]. destruct Gv as (_ & _ & Gv); [rewrite Ee; discriminate|]. eapply initial_trans; [apply (Gv "i1" "754" "o1")|].
      - split; [apply Fd; cbn; auto 10|]. split; [eexists; split; [exact Fh|subst oh; reflexivity]|].
        intros port' src o Fb Fo D. rewrite Fh in Fo. injection Fo as <-. subst oh. unfold is_data_input, is_control_input, shas in D. cbn in D.
        destruct (String.eqb_spec port' "i1"); [auto|discriminate D].
      - apply initial_feed. apply (Gs "i1" "754" "o1"); auto. apply Fd. cbn; auto 10. }
    destruct (run_initial _ _ _ _ _ Ie Rh) as (outs & o' & R & _). exists outs, o'. split; [exact R|]. split; [|discriminate].
    intros out port l I1 I2. subst oh. assert (port = "o1") as -> by exact (hermite_ports evs _ 1 0 None outs o' R out port l I1 I2). reflexivity.
  - destruct Kd as [->|Rl]; [now destruct N262|].
    destruct (C88_reliable g text p history id o made evs) as (outs & o' & R & De); auto.
    { intros ->. rewrite Forall_forall in Hi |- *. intros b Hb port ms I. specialize (Hi b Hb). rewrite Forall_forall in Hi. specialize (Hi _ I). cbn in Hi. subst port.
      exists o. split; [exact F|]. rewrite Ee in F.
      destruct (At "754" (mk_input "754" 1)) as (oi & ci & Hmi & Fi); [apply W|cbn; auto 10|]. rewrite F in Fi. injection Fi as ->.
      vm_compute in Hmi. apply Ok_inj in Hmi. subst oi. now left. }
    exists outs, o'. split; [exact R|]. split; [exact De|]. intros q -> ->.
    destruct (At "754" (mk_input "754" 1)) as (oi & ci & Hmi & Fi); [apply W|cbn; auto 10|]. rewrite F in Fi. injection Fi as ->.
    destruct (run_input "754" 1 (flat_map (fun pm => [EData (fst pm) (snd pm); EExec]) (all_messages history))) as (o2 & outs2 & b2 & ls & Hm2 & R2 & _ & Out & _).
    { unfold data_on. apply Forall_flat_map. eapply Forall_impl; [|exact Msgs]. intros [y m] (j & Hj & Ej). cbn in *. repeat constructor. eauto. }
    rewrite Hmi in Hm2. injection Hm2 as <-.
    assert (R3 : run (with_conns ci oi) (flat_map (fun pm => [EData (fst pm) (snd pm); EExec]) (all_messages history)) =
      (Ok outs2, with_conns ci (Op b2 (KInput (port_map iport 1) ls)))) by now rewrite run_conns, R2.
    destruct Gv as [Gv _]. destruct (run_initial _ _ _ _ _ (Gv (eq_sym Ee)) R3) as (outs3 & o3 & R4 & Io). rewrite R in R4. injection R4 as <- _.
    apply (initial_on_port "o1") in Io. change "o1" with (oport 1) in Io at 2. rewrite Out in Io by lia.
    replace x with (records (processed (project (iport 1) (flat_map (fun pm => [EData (fst pm) (snd pm); EExec]) (all_messages history))))); [exact Io|].
    unfold x, sent_to. f_equal. clear. unfold processed, project. induction (all_messages history) as [|[y m] r IH]; [reflexivity|]. cbn [flat_map app filter fst snd].
    change (iport 1) with "i1" in *. destruct (String.eqb y "i1"); cbn; [f_equal|]; exact IH.
Qed.

End Bands.
Print Assumptions C87_answered.

(** ** Both at work *)
Section Examples.
Import Properties.Definition.

(** in -> rsi -> out, in -> out: RelativeStrengthIndex with n = 0 throws at its second message *)
Definition brittle : @json QcOps := obj [
  ("entryOperator", JStr "in");
  ("operators", JArr [definition "Input" "in" [("numPorts", JInt 1)];
                      definition "RelativeStrengthIndex" "rsi" [("n", JInt 0)];
                      definition "Scale" "sc" [("value", JInt 2)]; definition "Output" "out" [("numPorts", JInt 2)]]);
  ("connections", JArr [a_conn "in" "sc"; a_conn "sc" "rsi"; a_conn_to "rsi" "out" "i1"; a_conn_to "sc" "out" "i2"])].
Definition brittle_program : res (@program QcOps) := new_prog (JT := a_text brittle JNull) j0 "text".
Definition brittle_rank (id : string) : nat :=
  if String.eqb id "in" then 3%nat else if String.eqb id "sc" then 2%nat else if String.eqb id "rsi" then 1%nat else 0%nat.

Definition how_ended {A} (r : res A) : string :=
  match r with Ok _ => "answered" | Throw _ => "exception" | UB => "undefined behaviour" | Diverges => "endless loop" | OutOfFuel => "fuel" end.

Example C88_example : match brittle_program with
  | Ok p => p_ops p <> [] /\ (forall id o, sfind id (p_ops p) = Some o -> is_pipeline o = false) /\
            ranked brittle_rank (p_ops p) /\ one_feed (p_ops p) /\ heap_size (p_ops p) = 4%nat
  | _ => False
  end.
Proof.
  assert (X : exists p, brittle_program = Ok p /\ map (fun x => is_pipeline (snd x)) (p_ops p) = [false; false; false; false] /\
    feeds (p_ops p) = [("sc", "i1", ("in", "o1")); ("out", "i1", ("rsi", "o1")); ("rsi", "i1", ("sc", "o1")); ("out", "i2", ("sc", "o1"))] /\
    heap_size (p_ops p) = 4%nat).
  { eexists. split; [reflexivity|]. split; [reflexivity|]. split; reflexivity. }
  destruct X as (p & -> & K & Es & Sz). split; [|split; [|split; [|split]]].
  - intros E. rewrite E in Sz. discriminate Sz.
  - intros id o F. apply sfind_In in F. apply (in_map (fun x => is_pipeline (snd x))) in F. rewrite K in F. cbn in F.
    repeat (destruct F as [F|F]; [now symmetry|]). destruct F.
  - apply ranked_check. rewrite Es. reflexivity.
  - apply one_feed_check. rewrite Es. reflexivity.
  - exact Sz.
Qed.

Example C88_example_run : match brittle_program with
  | Ok p => map how_ended (fst (session 5 p [[("i1", [im 1 5])]; [("i1", [im 2 7; im 3 1])]]))
  | _ => []
  end = ["answered"; "exception"].
Proof. vm_compute. reflexivity. Qed.

(** the operator that breaks is the RelativeStrengthIndex: by itself it fails at the second message *)
Example C88_example_operator : match brittle_program with
  | Ok p => match sfind "rsi" (p_ops p) with
            | Some o => (how_ended (fst (run o (feed "i1" [im 1 10]))), how_ended (fst (run o (feed "i1" [im 1 10; im 2 14]))))
            | None => ("", "")
            end
  | _ => ("", "")
  end = ("answered", "exception").
Proof. vm_compute. reflexivity. Qed.

(** the history of C87_example meets the conditions of C87_answered *)
Example C87_answered_example :
  let x := records (sent_to "i1" steps) in
  Forall (Forall (fun pm => fst pm = "i1")) steps /\ (2 <= length x)%nat /\ 0 <= first_time x /\ newest_time x + 1 < two64 /\
  gaps_below (2 ^ 31 - 3) x /\ mtime (nth 3 x msg0) < 2 ^ 30.
Proof.
  destruct C87_example as (A & B & C & D & E & _). cbv zeta in *. repeat (split; [assumption|]). reflexivity.
Qed.

End Examples.
