(** * Properties of the operators with one input (C01 - C13). *)

From Coq Require Import String ZArith QArith Qcanon Bool List Lia Sorted.
From Verif Require Import Base.StrMap Base.Num Base.NumQc Model.Core Model.Ops Model.Make Model.Run.
From Verif Require Import Spec.Streams Spec.Operators Spec.Multi Spec.Show.
From Verif Require Import Proofs.Lists Proofs.Window Proofs.Basic Proofs.Ports Proofs.InputP Proofs.Fire Proofs.AutoReg.
Import ListNotations.
Open Scope string_scope.
Open Scope list_scope.
Open Scope Z_scope.

(** ** C01 *)

(** For every number of ports and every schedule of arrivals and executions, output [ok]
    carries exactly the messages that are later than all earlier ones among the messages
    of port [ik] (those that were the latest when the operator was executed); nothing is emitted
    anywhere else. *)
Theorem C01_input_forwards_newer {NO : NumOps} (id : string) (n : nat) (evs : list ev) :
  data_on n evs ->
  exists o outs o',
    mk_input id n = Ok o /\ run o evs = (Ok outs, o') /\
    (forall k, (1 <= k <= n)%nat -> on_port (oport k) outs = records (processed (project (iport k) evs))) /\
    (forall x, (forall k, (1 <= k <= n)%nat -> x <> oport k) -> on_port x outs = []).
Proof.
  intros H. destruct (run_input id n evs H) as (o & outs & b & ls & E & R & _ & Out & Oth).
  exists o, outs, (Op b (KInput (port_map iport n) ls)). auto.
Qed.
Print Assumptions C01_input_forwards_newer.

(** the arrivals of a program: every message is followed by an execution *)
Definition arrivals {NO : NumOps} (l : list (nat * msg)) : list ev :=
  flat_map (fun km => [EData (iport (fst km)) (snd km); EExec]) l.
Definition of_port {NO : NumOps} (k : nat) (l : list (nat * msg)) : list msg :=
  map snd (filter (fun km => Nat.eqb (fst km) k) l).

Lemma arrivals_processed {NO : NumOps} k l : processed (project (iport k) (arrivals l)) = of_port k l.
Proof.
  unfold processed. induction l as [|[j m] l IH]; [reflexivity|].
  cbn [arrivals flat_map app]. unfold project. cbn [filter fst snd]. unfold of_port. cbn [filter fst].
  destruct (String.eqb_spec (iport j) (iport k)) as [E|E].
  - apply iport_inj in E. subst j. rewrite Nat.eqb_refl. cbn. f_equal. exact IH.
  - destruct (Nat.eqb_spec j k) as [->|]; [contradiction|]. exact IH.
Qed.

(** Driven as in a program, output [ok] is exactly the strictly-newer messages of [ik]:
    each message whose time exceeds the time of every earlier message of that port. *)
Theorem C01_input_in_program {NO : NumOps} (id : string) (n : nat) (l : list (nat * msg)) :
  Forall (fun km => 1 <= fst km <= n)%nat l ->
  exists o outs o',
    mk_input id n = Ok o /\ run o (arrivals l) = (Ok outs, o') /\
    forall k, (1 <= k <= n)%nat ->
      on_port (oport k) outs = records (of_port k l) /\
      increasing (times (on_port (oport k) outs)).
Proof.
  intros H. destruct (C01_input_forwards_newer id n (arrivals l)) as (o & outs & o' & E & R & Out & _).
  { unfold data_on, arrivals. apply Forall_flat_map. eapply Forall_impl; [|exact H].
    intros [k m] Hk. cbn in *. repeat constructor. eauto. }
  exists o, outs, o'. split; auto. split; auto. intros k Hk. rewrite Out, arrivals_processed by auto.
  split; auto. apply records_increasing.
Qed.
Print Assumptions C01_input_in_program.

Example C01_example :
  match mk_input "in" 2 with
  | Ok o =>
      let r := fst (run o (arrivals [(1%nat, im 5 1); (2%nat, im 3 7); (1%nat, im 5 2); (1%nat, im 4 3); (1%nat, im 9 4)])) in
      (show_port "o1" r, show_port "o2" r)
  | _ => ([], [])
  end = ([(5, 1%Q); (9, 4%Q)], [(3, 7%Q)]).
Proof. vm_compute. reflexivity. Qed.

(** ** C02 *)

(** the port of size [n] after receiving the messages [h] one by one *)
Theorem C02_bounded_port {NO : NumOps} (name : string) (n : Z) (h : list msg) :
  0 < n ->
  exists p, fold_left (fun r m => rbind r (fun p => port_receive p m)) h (Ok (new_port name n)) = Ok p /\
    ip_data p = lastn (Z.to_nat n) h.
Proof.
  intros Hn. exists (port_after name n h). split.
  - induction h as [|m h IH] using rev_ind; [reflexivity|].
    rewrite fold_left_app, IH. cbn. now rewrite port_receive_after by lia.
  - rewrite port_after_data, eff_id by lia. reflexivity.
Qed.
Print Assumptions C02_bounded_port.

Theorem C02_running_sum {NO : NumOps} {NF : NumField NO} (name : string) (n : Z) (h : list msg) (p : inport) :
  0 < n ->
  fold_left (fun r m => rbind r (fun p => port_receive p m)) h (Ok (new_port name n)) = Ok p ->
  ip_sum p = vsum (values (lastn (Z.to_nat n) h)).
Proof.
  intros Hn E.
  assert (P : fold_left (fun r m => rbind r (fun p => port_receive p m)) h (Ok (new_port name n)) = Ok (port_after name n h)).
  { clear E. induction h as [|m h IH] using rev_ind; [reflexivity|].
    rewrite fold_left_app, IH. cbn. now rewrite port_receive_after by lia. }
  rewrite P in E. injection E as <-. rewrite port_after_sum, port_after_data, eff_id by lia. reflexivity.
Qed.
Print Assumptions C02_running_sum.

Example C02_example :
  match fold_left (fun r m => rbind r (fun p => port_receive p m)) [im 1 10; im 2 20; im 3 30] (Ok (new_port "i1" 2)) with
  | Ok p => (map show_msg (ip_data p), this (ip_sum p : Qc))
  | _ => ([], 0%Q)
  end = ([(2, 20%Q); (3, 30%Q)], 50%Q).
Proof. vm_compute. reflexivity. Qed.

(** ** C03 *)

(** the windowed operators that always have something to say: operator of window [n] *)
Definition always_emits {NO : NumOps} (n : Z) (k : kind) : Prop :=
  match k with
  | KMovAvg | KStdDev => 0 < n
  | KFIR coeff => n = Z.of_nat (length coeff) /\ coeff <> []
  | KAdd _ | KScale _ | KPower _ | KConstant _ | KIdentity => n = 1
  | _ => False
  end.

(** and those that may keep silent *)
Definition may_emit {NO : NumOps} (n : Z) (k : kind) : Prop :=
  match k with KPeak => 0 < n | KFilter _ _ => n = 1 | _ => False end.

Lemma answers_react {NO : NumOps} n (f : list msg -> opmsg) evs :
  answers (fun h => if Z.of_nat (length h) <? n then [] else f h) evs =
  map (fun p => if reacts n p then f (received p) else []) (prefixes evs).
Proof.
  unfold answers. apply map_ext. intros p. unfold answer, reacts.
  destruct (rev p) as [|[] r]; auto. destruct (pending (rev r)); auto. cbn [andb].
  destruct (Z.ltb_spec (Z.of_nat (length (received p))) n), (Z.leb_spec n (Z.of_nat (length (received p)))); auto; lia.
Qed.

Lemma answers_react_full {NO : NumOps} n (f : list msg -> opmsg) evs :
  answers (when_full n f) evs =
  map (fun p => if reacts n p then f (lastn (Z.to_nat n) (received p)) else []) (prefixes evs).
Proof. exact (answers_react n (fun h => f (lastn (Z.to_nat n) h)) evs). Qed.

Lemma reacts_length {NO : NumOps} n p : reacts n p = true -> n <= Z.of_nat (length (received p)) /\ received p <> [].
Proof.
  unfold reacts. destruct (rev p) as [|[] r] eqn:R; try discriminate. intros H. apply andb_prop in H as [H1 H2].
  apply Z.leb_le in H2. split; auto. apply pending_received in H1.
  apply (f_equal (@rev _)) in R. rewrite rev_involutive in R. cbn in R. rewrite R, received_app. cbn.
  now rewrite app_nil_r.
Qed.

Theorem C03_fires_once {NO : NumOps} (id : string) (n : Z) (k : kind) (o : op) (evs : list ev) :
  always_emits n k -> mk_simple id n k = Ok o -> one_input evs ->
  exists outs o', run o evs = (Ok outs, o') /\
    Forall2 (fun p out => if reacts n p
                          then exists v, out = emits (mkMsg (last_time (received p)) v)
                          else out = emits_nothing) (prefixes evs) outs.
Proof.
  intros Hk Ho Hone. rewrite mk_simple_sop in Ho. injection Ho as <-.
  assert (G : forall f, (forall h, h <> [] -> n <= Z.of_nat (length h) -> exists v, f h = emits (mkMsg (last_time h) v)) ->
    Forall2 (fun p out => if reacts n p
                          then exists v, out = emits (mkMsg (last_time (received p)) v)
                          else out = emits_nothing)
       (prefixes evs) (answers (fun h => if Z.of_nat (length h) <? n then [] else f h) evs)).
  { intros f Hf. rewrite answers_react. induction (prefixes evs) as [|p l IH]; cbn; constructor; auto.
    destruct (reacts n p) eqn:R; [|reflexivity]. apply reacts_length in R as [R1 R2]. auto. }
  destruct k; cbn in Hk; try contradiction.
  1-5: subst n; eexists _, _; split; [eapply run_map; [reflexivity|auto]|];
     unfold mapping, when_full;
     apply (G (fun h => apply_value _ (last (lastn (Z.to_nat 1) h) msg0)));
     intros h Hh _; rewrite lastn_last by (cbn; lia); eexists; reflexivity.
  - eexists _, _. split; [apply run_moving_average_any; auto|]. apply G. intros. eauto.
  - eexists _, _. split; [apply run_std_any; auto|]. apply G. intros. eauto.
  - destruct Hk as [-> Hc]. eexists _, _. split; [apply run_fir; auto|]. unfold fir, when_full.
    assert (0 < Z.of_nat (length coeff)) by (destruct coeff; cbn; [congruence|lia]).
    apply (G (fun h => emits (mkMsg (last_time (lastn (Z.to_nat (Z.of_nat (length coeff))) h)) _))).
    intros h Hh _. unfold last_time. rewrite lastn_last by lia. eexists. reflexivity.
Qed.
Print Assumptions C03_fires_once.

Theorem C03_may_emit_only_then {NO : NumOps} (id : string) (n : Z) (k : kind) (o : op) (evs : list ev) :
  may_emit n k -> mk_simple id n k = Ok o -> one_input evs ->
  exists outs o', run o evs = (Ok outs, o') /\
    Forall2 (fun p out => out = emits_nothing \/
                          reacts n p = true /\ exists m, In m (lastn (Z.to_nat n) (received p)) /\ out = emits m)
            (prefixes evs) outs.
Proof.
  intros Hk Ho Hone. rewrite mk_simple_sop in Ho. injection Ho as <-.
  assert (G : forall f, 0 < n ->
    (forall w, length w = Z.to_nat n -> f w = emits_nothing \/ exists m, In m w /\ f w = emits m) ->
    Forall2 (fun p out => out = emits_nothing \/
                          reacts n p = true /\ exists m, In m (lastn (Z.to_nat n) (received p)) /\ out = emits m)
       (prefixes evs) (answers (when_full n f) evs)).
  { intros f Hn Hf. rewrite answers_react_full. induction (prefixes evs) as [|p l IH]; cbn; constructor; auto.
    destruct (reacts n p) eqn:R; [|left; reflexivity]. apply reacts_length in R as [R1 R2].
    destruct (Hf (lastn (Z.to_nat n) (received p))) as [E|(m & Hm & E)]; eauto.
    apply lastn_full_length; lia. }
  destruct k; cbn in Hk; try contradiction.
  - subst n. eexists _, _. split; [eapply run_map; [reflexivity|auto]|]. apply G; [lia|].
    intros w Hw. unfold keep_if. destruct w as [|m [|]]; try discriminate Hw. cbn [last].
    destruct (filter_test _ _ _); auto. right. exists m. cbn; auto.
  - eexists _, _. split; [apply run_peak; auto|]. apply G; [auto|]. intros w Hw.
    cbn zeta. destruct (forallb _ _); auto. right. eexists. split; [|reflexivity]. apply nth_In.
    apply Nat.div_lt; lia.
Qed.
Print Assumptions C03_may_emit_only_then.

(** a declared size of 0 means an unbounded port: a windowed operator then never emits *)
Theorem C03_window_zero_never_emits {NO : NumOps} (id : string) (evs : list ev) :
  one_input evs -> Z.of_nat (length (received evs)) < two64 - 1 ->
  forall k o, In k [KMovAvg; KStdDev; KPeak] -> mk_simple id 0 k = Ok o ->
  exists o', run o evs = (Ok (map (fun _ => emits_nothing) evs), o').
Proof.
  intros Hone Hlen k o Hk Ho. rewrite mk_simple_sop in Ho. injection Ho as <-.
  destruct (run_moving_average_zero id ["o1"] [] evs Hone Hlen) as (A & B & C).
  destruct Hk as [<-|[<-|[<-|[]]]];
  match goal with |- context [run ?o evs] => destruct (run o evs) as [r o'] eqn:E end;
  cbn [fst] in *; subst r; eexists; reflexivity.
Qed.
Print Assumptions C03_window_zero_never_emits.

Example C03_example :
  show_outs (fst (run (sop "ma" ["o1"] [] (new_port "i1" 2) false KMovAvg)
     [EData "i1" (im 1 10); EExec; EData "i1" (im 2 20); EExec; EExec; EData "" (im 3 40); EExec]))
  = Ok [[]; []; []; [("o1", [(2, 15%Q)])]; []; []; [("o1", [(3, 30%Q)])]].
Proof. vm_compute. reflexivity. Qed.

(** ** C04 *)

Theorem C04_moving_average {NO : NumOps} {NF : NumField NO} (id : string) (n : Z) (o : op) (evs : list ev) :
  0 < n -> mk_movavg id n = Ok o -> one_input evs ->
  exists o', run o evs = (Ok (answers (moving_average n) evs), o').
Proof.
  intros Hn Ho Hone. unfold mk_movavg in Ho. rewrite mk_simple_sop in Ho. injection Ho as <-.
  eexists. apply run_moving_average; auto.
Qed.
Print Assumptions C04_moving_average.

Example C04_example :
  show_outs (fst (run (sop "ma" ["o1"] [] (new_port "i1" 3) false KMovAvg) (feed "i1" [im 1 1; im 2 2; im 5 6; im 9 7])))
  = Ok [[]; []; []; []; []; [("o1", [(5, 3%Q)])]; []; [("o1", [(9, 5%Q)])]].
Proof. vm_compute. reflexivity. Qed.

(** ** C06 *)

Theorem C06_standard_deviation {NO : NumOps} {NF : NumField NO} (id : string) (n : Z) (o : op) (evs : list ev) :
  2 <= n < two64 -> mk_stddev id n = Ok o -> one_input evs ->
  exists o', run o evs = (Ok (answers (standard_deviation n) evs), o').
Proof.
  intros Hn Ho Hone. unfold mk_stddev in Ho. rewrite mk_simple_sop in Ho. injection Ho as <-.
  eexists. apply run_std; auto. lia.
Qed.
Print Assumptions C06_standard_deviation.

(** (the rational instance has no square root: the radicand is shown) *)
Example C06_example :
  show_outs (fst (run (sop "sd" ["o1"] [] (new_port "i1" 2) false KStdDev) (feed "i1" [im 1 1; im 2 5; im 5 6])))
  = Ok [[]; []; []; [("o1", [(2, 8%Q)])]; []; [("o1", [(5, (1 # 2)%Q)])]].
Proof. vm_compute. reflexivity. Qed.

(** ** C07 *)

Theorem C07_fir {NO : NumOps} (id : string) (coeff : list V) (o : op) (evs : list ev) :
  coeff <> [] -> mk_fir id coeff = Ok o -> one_input evs ->
  exists o', run o evs = (Ok (answers (fir coeff) evs), o').
Proof.
  intros Hc Ho Hone. unfold mk_fir in Ho. rewrite mk_simple_sop in Ho. injection Ho as <-.
  eexists. apply run_fir; auto.
Qed.
Print Assumptions C07_fir.

Example C07_example :
  let c := map qc_ofZ [10; 1] : list (@V QcOps) in
  show_outs (fst (run (sop "fir" ["o1"] [] (new_port "i1" 2) false (KFIR c)) (feed "i1" [im 1 1; im 2 5; im 5 6])))
  = Ok [[]; []; []; [("o1", [(2, 51%Q)])]; []; [("o1", [(5, 65%Q)])]].
Proof. vm_compute. reflexivity. Qed.

(** ** C08 *)

(** What the code does: one message per input, at its time, following the recurrence in
    which the coefficients run from the oldest output to the newest. *)
Theorem C08_autoregressive_reversed_partial {NO : NumOps} (id : string) (coeff : list V) (o : op) (ms : list msg) :
  coeff <> [] -> Z.of_nat (length coeff) < deque_max -> mk_autoreg id coeff = Ok o ->
  exists outs o', run o (feed "i1" ms) = (Ok outs, o') /\
    times (on_port "o1" outs) = times ms /\
    recurrence (reversed_lag (length coeff)) coeff (values ms) (values (on_port "o1" outs)).
Proof.
  intros Hc Hm Ho. assert (Hn : (1 <= length coeff)%nat) by (destruct coeff; cbn; [congruence|lia]).
  assert (E : o = ar_op coeff id ["o1"] [] []).
  { unfold mk_autoreg in Ho. rewrite mk_simple_sop in Ho. injection Ho as <-. unfold sop, ar_op, new_port.
    destruct (Z.eqb_spec (Z.of_nat (length coeff)) 0); [lia|]. reflexivity. }
  subst o. eexists _, _. split; [apply run_ar; auto|]. rewrite combine_emits.
  split; [apply ar_outs_times|apply ar_outs_recurrence; auto].
Qed.
Print Assumptions C08_autoregressive_reversed_partial.

(** the documented recurrence holds for coefficient lists that read the same both ways,
    in particular for one coefficient *)
Theorem C08_autoregressive_symmetric_partial {NO : NumOps} {NF : NumField NO} (id : string) (coeff : list V) (o : op) (ms : list msg) :
  coeff <> [] -> rev coeff = coeff -> Z.of_nat (length coeff) < deque_max -> mk_autoreg id coeff = Ok o ->
  exists outs o', run o (feed "i1" ms) = (Ok outs, o') /\
    times (on_port "o1" outs) = times ms /\
    recurrence documented_lag coeff (values ms) (values (on_port "o1" outs)).
Proof.
  intros Hc Hr Hm Ho.
  destruct (C08_autoregressive_reversed_partial id coeff o ms Hc Hm Ho) as (outs & o' & R & T & L & Rec).
  exists outs, o'. split; auto. split; auto. split; auto. intros k Hk. rewrite Rec by auto.
  set (g := fun lag i => vmul (nth i coeff v0) (y_at (values (on_port "o1" outs)) (Z.of_nat k - lag i))).
  change (fold_left vadd (map (g (reversed_lag (length coeff))) (seq 0 (length coeff))) (nth k (values ms) v0) =
          fold_left vadd (map (g documented_lag) (seq 0 (length coeff))) (nth k (values ms) v0)).
  assert (P : map (g (reversed_lag (length coeff))) (seq 0 (length coeff)) = rev (map (g documented_lag) (seq 0 (length coeff)))).
  { apply nth_ext with (d := v0) (d' := v0); rewrite ?rev_length, ?map_length; auto.
    intros i Hi. rewrite seq_length in Hi.
    rewrite rev_nth by (rewrite map_length, seq_length; lia). rewrite map_length, seq_length.
    assert (N : forall f j, (j < length coeff)%nat -> nth j (map f (seq 0 (length coeff))) v0 = f j).
    { intros f j Hj. rewrite (nth_indep _ v0 (f 0%nat)) by (rewrite map_length, seq_length; lia).
      rewrite map_nth, seq_nth by lia. reflexivity. }
    rewrite !N by lia. unfold g, reversed_lag, documented_lag. f_equal; [|f_equal; lia].
    rewrite <- Hr at 1. rewrite rev_nth by lia. reflexivity. }
  rewrite P. generalize (map (g documented_lag) (seq 0 (length coeff))) as l. intros l.
  rewrite Proofs.FieldFacts.fold_vadd_acc, (Proofs.FieldFacts.fold_vadd_acc l). f_equal. clear -NF.
  induction l as [|x l IH]; [reflexivity|]. cbn [rev]. rewrite Proofs.FieldFacts.vsum_app, IH.
  rewrite (Proofs.FieldFacts.vsum_cons x l). cbn. rewrite v_add_0_l. apply v_add_comm.
Qed.
Print Assumptions C08_autoregressive_symmetric_partial.

(** The documented recurrence fails: coefficients 1, 0 and inputs 1, 0. *)
Theorem C08_autoregressive_refuted :
  ~ (forall (id : string) (coeff : list V) (o : op) (ms : list msg),
      coeff <> [] -> Z.of_nat (length coeff) < deque_max -> mk_autoreg id coeff = Ok o ->
      exists outs o', run o (feed "i1" ms) = (Ok outs, o') /\
        recurrence documented_lag coeff (values ms) (values (on_port "o1" outs))).
Proof.
  intros H. set (c := @cons (@V QcOps) (qc_ofZ 1) (@cons (@V QcOps) (qc_ofZ 0) nil)).
  specialize (H "ar" c _ [im 1 1; im 2 0] ltac:(discriminate) ltac:(reflexivity) eq_refl).
  destruct H as (outs & o' & R & _ & Rec). specialize (Rec 1%nat ltac:(cbn; lia)).
  match type of R with ?r = _ =>
    assert (E : show_port "o1" (fst r) = [(1, 1%Q); (2, 0%Q)]) by (vm_compute; reflexivity)
  end.
  rewrite R in E. cbn [fst show_port] in E. set (l := on_port "o1" outs) in *. clearbody l. clear R outs o'.
  destruct l as [|a [|b [|]]]; try discriminate E. cbn [map] in E. unfold show_msg in E. injection E as _ Ea _ Eb.
  cbn [seq length c map fold_left values im mval nth] in Rec. unfold y_at, documented_lag in Rec.
  change (Z.of_nat 1 - (Z.of_nat 0 + 1)) with 0 in Rec. change (Z.of_nat 1 - (Z.of_nat 1 + 1)) with (-1) in Rec.
  cbn [Z.ltb Z.compare Z.to_nat nth map values] in Rec.
  assert (La : mval a = qc_ofZ 1) by (apply Qc_is_canon; rewrite Ea; reflexivity).
  apply (f_equal (fun x : Qc => this x)) in Rec. rewrite Eb, La in Rec.
  match type of Rec with _ = ?r => assert (F : r = 1%Q) by (vm_compute; reflexivity) end.
  rewrite F in Rec. discriminate Rec.
Qed.
Print Assumptions C08_autoregressive_refuted.

(** ** C09 *)

Theorem C09_peak_detector {NO : NumOps} (id : string) (n : Z) (o : op) (evs : list ev) :
  0 < n -> mk_peak id n = Ok o -> one_input evs ->
  exists o', run o evs = (Ok (answers (peak n) evs), o').
Proof.
  intros Hn Ho Hone. unfold mk_peak in Ho. rewrite mk_simple_sop in Ho. injection Ho as <-.
  eexists. apply run_peak; auto.
Qed.
Print Assumptions C09_peak_detector.

Example C09_example :
  show_outs (fst (run (sop "p" ["o1"] [] (new_port "i1" 3) false KPeak) (feed "i1" [im 1 1; im 2 5; im 5 5; im 7 4; im 8 4])))
  = Ok [[]; []; []; []; []; [("o1", [(2, 5%Q)])]; []; [("o1", [(5, 5%Q)])]; []; []].
Proof. vm_compute. reflexivity. Qed.

(** ** C10 *)

(** what must be emitted by the last call of a history, given a function of the messages
    processed so far *)
Definition aggregate {NO : NumOps} (f : list msg -> V) (evs : list ev) : opmsg :=
  match rev evs with
  | EExec :: before =>
      if pending (rev before) then emits (mkMsg (last_time (received evs)) (f (processed evs))) else emits_nothing
  | _ => emits_nothing
  end.

Theorem C10_count {NO : NumOps} (id : string) (o : op) (evs : list ev) :
  mk_count id = Ok o -> one_input evs ->
  exists o', run o evs = (Ok (map (aggregate (fun ms => vofZ (wrap (Z.of_nat (length ms))))) (prefixes evs)), o').
Proof.
  intros Ho Hone. unfold mk_count in Ho. rewrite mk_simple_sop in Ho. injection Ho as <-.
  eexists. apply run_count; auto.
Qed.
Print Assumptions C10_count.

Theorem C10_cumulative_sum {NO : NumOps} (id : string) (o : op) (evs : list ev) :
  mk_cumsum id = Ok o -> one_input evs ->
  exists o', run o evs = (Ok (map (aggregate (fun ms => vsum (values ms))) (prefixes evs)), o').
Proof.
  intros Ho Hone. unfold mk_cumsum in Ho. rewrite mk_simple_sop in Ho. injection Ho as <-.
  eexists. apply run_cumsum; auto.
Qed.
Print Assumptions C10_cumulative_sum.

Example C10_example :
  show_outs (fst (run (sop "c" ["o1"] [] (new_port "i1" 1) false (KCumSum (v0 : Qc))) (feed "i1" [im 1 1; im 2 5; im 5 5])))
  = Ok [[]; [("o1", [(1, 1%Q)])]; []; [("o1", [(2, 6%Q)])]; []; [("o1", [(5, 11%Q)])]].
Proof. vm_compute. reflexivity. Qed.

(** ** C11 *)

(** times up to 2^53 (beyond, the conversion of the time through double loses precision) *)
Theorem C11_difference_partial {NO : NumOps} {NT : NumTime NO} (id : string) (o : op) (evs : list ev) :
  mk_difference id true = Ok o -> one_input evs ->
  (forall m, In m (received evs) -> 0 <= mtime m <= 2 ^ 53) ->
  exists o', run o evs = (Ok (answers difference evs), o').
Proof.
  intros Ho Hone Ht. unfold mk_difference in Ho. rewrite mk_simple_sop in Ho. injection Ho as <-.
  eexists. apply run_difference; auto. split; auto.
Qed.
Print Assumptions C11_difference_partial.

Example C11_example :
  show_outs (fst (run (sop "d" ["o1"] [] (new_port "i1" 2) false (KDifference true)) (feed "i1" [im 1 1; im 2 5; im 5 3])))
  = Ok [[]; []; []; [("o1", [(2, 4%Q)])]; []; [("o1", [(5, (-2)%Q)])]].
Proof. vm_compute. reflexivity. Qed.

(** ** C12 *)

Theorem C12_maps {NO : NumOps} (id : string) (c : V) (evs : list ev) :
  one_input evs ->
  (forall o, mk_add id c = Ok o ->
     exists o', run o evs = (Ok (answers (mapping (apply_value (fun x => vadd x c))) evs), o')) /\
  (forall o, mk_scale id c = Ok o ->
     exists o', run o evs = (Ok (answers (mapping (apply_value (fun x => vmul x c))) evs), o')) /\
  (forall o, mk_power id c = Ok o ->
     exists o', run o evs = (Ok (answers (mapping (apply_value (fun x => vpow x c))) evs), o')) /\
  (forall o, mk_constant id c = Ok o ->
     exists o', run o evs = (Ok (answers (mapping (apply_value (fun _ => c))) evs), o')) /\
  (forall o, mk_identity id = Ok o ->
     exists o', run o evs = (Ok (answers (mapping emits) evs), o')).
Proof.
  intros Hone. repeat split; intros o Ho;
    unfold mk_add, mk_scale, mk_power, mk_constant, mk_identity in Ho; rewrite mk_simple_sop in Ho; injection Ho as <-;
    eexists; (erewrite run_map; [|reflexivity|auto]); try reflexivity.
  f_equal. f_equal. apply answers_ext. intros h. unfold mapping, when_full, apply_value.
  destruct (_ <? 1); auto. now destruct (last _ _).
Qed.
Print Assumptions C12_maps.

(** forwards the messages with [test], unchanged *)
Theorem C12_filters {NO : NumOps} (id : string) (c : V) (evs : list ev) :
  one_input evs ->
  (forall o, mk_filter id FGreater c = Ok o ->
     exists o', run o evs = (Ok (answers (mapping (keep_if (fun x => vlt c x))) evs), o')) /\
  (forall o, mk_filter id FLess c = Ok o ->
     exists o', run o evs = (Ok (answers (mapping (keep_if (fun x => vlt x c))) evs), o')) /\
  (forall o, mk_filter id FEqual c = Ok o ->
     exists o', run o evs = (Ok (answers (mapping (keep_if (fun x => veq x c))) evs), o')).
Proof.
  intros Hone. repeat split; intros o Ho;
    unfold mk_filter in Ho; rewrite mk_simple_sop in Ho; injection Ho as <-;
    eexists; (erewrite run_map; [|reflexivity|auto]); reflexivity.
Qed.
Print Assumptions C12_filters.

Example C12_example :
  show_outs (fst (run (sop "g" ["o1"] [] (new_port "i1" 1) false (KFilter FGreater (qc_ofZ 3))) (feed "i1" [im 1 1; im 2 5; im 5 3])))
  = Ok [[]; []; []; [("o1", [(2, 5%Q)])]; []; []] /\
  show_outs (fst (run (sop "s" ["o1"] [] (new_port "i1" 1) false (KScale (qc_ofZ 3))) (feed "i1" [im 1 1; im 2 5])))
  = Ok [[]; [("o1", [(1, 3%Q)])]; []; [("o1", [(2, 15%Q)])]].
Proof. vm_compute. auto. Qed.

(** ** C13 *)

(** the documented time: [t + dt * times], negative results clamped to 0 *)
Definition shifted (dt times t : Z) : Z := Z.max 0 (t + dt * times).
Definition shift_message {NO : NumOps} (dt times : Z) (m : msg) : opmsg :=
  emits (mkMsg (shifted dt times (mtime m)) (mval m)).

(** [dt] is an unsigned 64 bit number, [times] an [int] *)
Definition shift_params (dt times : Z) : Prop := 0 <= dt < two64 /\ - 2 ^ 31 <= times < 2 ^ 31.

(** holds when the shift is not zero and no result leaves the 64 bit range *)
Theorem C13_time_shift_partial {NO : NumOps} (id : string) (dt times : Z) (o : op) (evs : list ev) :
  shift_params dt times ->
  dt * times <> 0 -> - two64 < dt * times < two64 ->
  mk_timeshift id dt times = Ok o -> one_input evs ->
  (forall m, In m (received evs) -> 0 <= mtime m < two64 /\ 0 <= mtime m + dt * times < two64) ->
  exists o', run o evs = (Ok (answers (mapping (shift_message dt times)) evs), o').
Proof.
  intros Hp Hz Hr Ho Hone Hm. unfold mk_timeshift in Ho. rewrite mk_simple_sop in Ho. injection Ho as <-.
  eexists. erewrite run_map; [|reflexivity|auto]. f_equal. f_equal.
  unfold answers. apply map_ext_in. intros p Hpre. unfold answer.
  destruct (rev p) as [|[] r] eqn:R; auto. destruct (pending (rev r)) eqn:Pn; auto.
  unfold mapping, when_full. destruct (_ <? 1) eqn:L; auto.
  apply pending_received in Pn.
  assert (Rp : received p <> []) by (apply (f_equal (@rev _)) in R; rewrite rev_involutive in R; cbn in R; rewrite R, received_app; cbn; now rewrite app_nil_r).
  rewrite lastn_last by (cbn; lia).
  assert (I : In (last (received p) msg0) (received evs)).
  { apply In_prefixes in Hpre as (_ & s & ->). rewrite received_app. apply in_or_app. left.
    clear - Rp. destruct (received p) as [|a l _] using rev_ind; [congruence|]. rewrite last_last. apply in_or_app. right. now left. }
  destruct (Hm _ I) as [H1 H2]. unfold shift_message. do 2 f_equal. unfold shifted, shift_time.
  set (t := mtime _) in *. clearbody t.
  unfold wrap. rewrite Z.mul_mod_idemp_r by (unfold two64; lia).
  assert (Q : (dt * times) mod two64 <> 0).
  { intros E. apply Z.mod_divide in E as [q E]; [|unfold two64; lia]. assert (q = 0) by nia. lia. }
  pose proof (Z.mod_pos_bound (dt * times) two64 eq_refl).
  replace (_ >? 0) with true by lia. rewrite orb_true_r.
  rewrite Z.add_mod_idemp_r by (unfold two64; lia). rewrite Z.mod_small by lia. lia.
Qed.
Print Assumptions C13_time_shift_partial.

Lemma timeshift_once id dt times t :
  0 <= t ->
  match mk_timeshift id dt times with
  | Ok o => fst (run o (feed "i1" [im t 1])) = Ok [[]; [("o1", [im (shift_time dt times t) 1])]]
  | _ => False
  end.
Proof. intros H. reflexivity. Qed.

(** Everywhere else the code differs: a zero shift sends everything to time 0, and a
    shift below 0 wraps around instead of being clamped. *)
Theorem C13_time_shift_refuted :
  ~ (forall (id : string) (dt times : Z) (o : op) (evs : list ev),
       shift_params dt times -> - two64 < dt * times < two64 ->
       mk_timeshift id dt times = Ok o -> one_input evs ->
       (forall m, In m (received evs) -> 0 <= mtime m < two64) ->
       exists o', run o evs = (Ok (answers (mapping (shift_message dt times)) evs), o')).
Proof.
  intros H. 
  destruct (H "ts" 0 1 _ (feed "i1" [im 7 1]) ltac:(split; cbn; lia) ltac:(cbn; lia) eq_refl) as [o' E].
  - apply one_input_feed; auto.
  - intros m [<-|[]]. cbn. unfold two64. lia.
  - apply (f_equal (fun r => show_port "o1" (fst r))) in E. vm_compute in E. discriminate E.
Qed.
Print Assumptions C13_time_shift_refuted.

(** the exact behaviour of a zero shift, and of every shift that should be clamped *)
Theorem C13_zero_shift {NO : NumOps} (id : string) (times : Z) (o : op) (evs : list ev) :
  mk_timeshift id 0 times = Ok o -> one_input evs ->
  exists o', run o evs = (Ok (answers (mapping (fun m => emits (mkMsg 0 (mval m)))) evs), o').
Proof.
  intros Ho Hone. unfold mk_timeshift in Ho. rewrite mk_simple_sop in Ho. injection Ho as <-.
  eexists. erewrite run_map; [|reflexivity|auto]. f_equal.
Qed.
Print Assumptions C13_zero_shift.

Theorem C13_no_clamp (dt times t : Z) :
  0 <= dt < two64 -> - two64 < dt * times < 0 -> 0 <= t < two64 -> t + dt * times < 0 ->
  match mk_timeshift "ts" dt times with
  | Ok o => fst (run o (feed "i1" [im t 1])) = Ok [[]; [("o1", [im (two64 + (t + dt * times)) 1])]]
  | _ => False
  end.
Proof.
  intros Hd Hr Ht Hneg. pose proof (timeshift_once "ts" dt times t ltac:(lia)) as G.
  destruct (mk_timeshift "ts" dt times); auto. rewrite G. repeat f_equal.
  unfold shift_time, wrap. rewrite Z.mul_mod_idemp_r by (unfold two64; lia).
  assert (E : (dt * times) mod two64 = dt * times + two64).
  { symmetry. apply Z.mod_unique with (-1); lia. }
  rewrite E. replace (_ >? 0) with true by lia. rewrite orb_true_r.
  rewrite Z.mod_small by lia. lia.
Qed.
Print Assumptions C13_no_clamp.

Example C13_example :
  show_outs (fst (run (sop "t" ["o1"] [] (new_port "i1" 1) false (KTimeShift 2 (-3))) (feed "i1" [im 10 1; im 12 5])))
  = Ok [[]; [("o1", [(4, 1%Q)])]; []; [("o1", [(6, 5%Q)])]].
Proof. vm_compute. reflexivity. Qed.
