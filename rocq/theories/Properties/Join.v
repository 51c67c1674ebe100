(** * Properties of Join, the two-input operators and Linear (C21-C25). *)

From Coq Require Import String ZArith QArith Qcanon Bool List Lia Sorted.
From Verif Require Import Base.StrMap Base.Num Base.NumQc Base.NumB64 Model.Core Model.Ops Model.Make Model.Run.
From Verif Require Import Spec.Streams Spec.Show Spec.Multi Spec.Join.
From Verif Require Import Proofs.Lists Proofs.Ports Proofs.JoinP Proofs.JoinRun Proofs.JoinKinds Proofs.JoinOrder.
Import ListNotations.
Open Scope string_scope.
Open Scope list_scope.
Open Scope Z_scope.

(** ** The specification says what it should *)

Theorem C21_common_times {NO : NumOps} (n : nat) (evs : list ev) :
  (1 <= n)%nat -> ordered_ports n evs ->
  increasing (common_times n evs) /\
  (forall t, In t (common_times n evs) <-> forall k, (1 <= k <= n)%nat -> exists m, In m (hist (iport k) evs) /\ mtime m = t) /\
  (forall t k m, In t (common_times n evs) -> (1 <= k <= n)%nat -> In m (hist (iport k) evs) -> mtime m = t ->
     m = at_time (hist (iport k) evs) t).
Proof.
  intros Hn Ord. split; [now apply common_times_increasing|]. split.
  - intros t. rewrite (common_times_spec n (map iport (seq 1 n))); auto.
    + split.
      * intros H k Hk. assert (X : In t (times (hist (iport k) evs))) by (apply H, in_map, in_seq; lia).
        apply in_map_iff in X as (m & E & Hm). eauto.
      * intros H x Hx. apply in_map_iff in Hx as (k & <- & Hk). apply in_seq in Hk.
        destruct (H k) as (m & Hm & <-); [lia|]. now apply in_map.
    + intros x. rewrite in_map_iff. split; intros (k & A & B); exists k.
      * apply in_seq in B. split; auto. lia.
      * split; auto. apply in_seq. lia.
  - intros t k m _ Hk Hm <-. apply in_split in Hm as (a & b & E). pose proof (Ord k Hk) as Hi. rewrite E in Hi |- *.
    symmetry. now apply at_time_front.
Qed.
Print Assumptions C21_common_times.

(** ** C21: every emission is one message per port, all of one time, times increase *)

(** For every interleaving of arrivals and executions Join never fails; every call emits
    nothing, or for one time common to all ports the message each port received then; the
    times emitted are an initial part of the increasing list of all common times. *)
Theorem C21_join_synchronized {NO : NumOps} (id : string) (n : nat) (o : op) (evs : list ev) :
  mk_join id n = Ok o -> data_on n evs -> ordered_ports n evs ->
  exists outs o' pending, run o evs = (Ok outs, o') /\ synchronized n (one_per_port n evs) evs outs pending.
Proof.
  intros Ho On Ord. destruct (mk_join_fresh id n o Ho) as (b & -> & Hn & Fr & Pr).
  edestruct (join_sync n b _ _ (one_per_port n) evs ltac:(lia) Fr Pr) as (outs & o' & pend & R & S & _); auto; try lia.
  - intros t _. apply join_one_per_port; auto; try lia; [|apply Fr]. apply swf_NoDup, Fr.
  - eauto.
Qed.
Print Assumptions C21_join_synchronized.

Theorem C21_join_exists {NO : NumOps} (id : string) (n : nat) : (2 <= n)%nat <-> exists o, mk_join id n = Ok o.
Proof.
  unfold mk_join. destruct (Nat.ltb_spec n 2); split; try lia.
  - intros (o & H0). discriminate.
  - intros _. destruct (add_ports_spec (seq 1 n) 0 true (base0 id)) as (b & E & _); auto using seq_NoDup; [constructor|].
    rewrite E. cbn. eauto.
Qed.

(** ** C22: no common time is lost; the interleaving does not matter *)

(** A common time not emitted yet is still queued on every port. *)
Theorem C22_join_keeps_pending {NO : NumOps} (id : string) (n : nat) (o : op) (evs : list ev) :
  mk_join id n = Ok o -> data_on n evs -> ordered_ports n evs ->
  exists outs o' pending, run o evs = (Ok outs, o') /\ synchronized n (one_per_port n evs) evs outs pending /\
    forall t, In t pending -> forall k, (1 <= k <= n)%nat -> queued o' (iport k) t.
Proof.
  intros Ho On Ord. destruct (mk_join_fresh id n o Ho) as (b & -> & Hn & Fr & Pr).
  edestruct (join_sync n b _ _ (one_per_port n) evs ltac:(lia) Fr Pr) as (outs & o' & pend & R & S & Q); auto; try lia.
  - intros t _. apply join_one_per_port; auto; try lia; [|apply Fr]. apply swf_NoDup, Fr.
  - exists outs, o', pend. auto.
Qed.
Print Assumptions C22_join_keeps_pending.

(** After at most as many further executions as messages were received, every common time
    has been emitted. *)
Theorem C22_join_complete {NO : NumOps} (id : string) (n : nat) (o : op) (evs : list ev) (N : nat) :
  mk_join id n = Ok o -> data_on n evs -> ordered_ports n evs -> (length (received evs) <= N)%nat ->
  exists outs o', run o (evs ++ repeat EExec N) = (Ok outs, o') /\
    forall k, (1 <= k <= n)%nat -> on_port (oport k) outs = map (at_time (hist (iport k) evs)) (common_times n evs).
Proof.
  intros Ho On Ord HN. destruct (mk_join_fresh id n o Ho) as (b & -> & Hn & Fr & Pr).
  edestruct (join_sync_flush n b _ _ (one_per_port n) evs N ltac:(lia) Fr Pr) as (outs & o' & R & S); auto; try lia.
  - intros e t _. apply join_one_per_port; auto; try lia; [|apply Fr]. apply swf_NoDup, Fr.
  - exists outs, o'. split; auto. intros k Hk. destruct (on_port_join n _ _ _ k Hk S) as (ts & E & ->).
    rewrite app_nil_r, common_execs in E. now rewrite E, hist_execs.
Qed.
Print Assumptions C22_join_complete.

(** Two histories in which every port receives the same messages, however interleaved with
    each other and with executions, give the same messages on every output. *)
Theorem C22_join_interleaving {NO : NumOps} (id : string) (n : nat) (o : op) (evs evs' : list ev) (N N' : nat)
    (outs outs' : list opmsg) (o1 o1' : op) :
  mk_join id n = Ok o -> data_on n evs -> data_on n evs' -> ordered_ports n evs ->
  (forall k, (1 <= k <= n)%nat -> hist (iport k) evs = hist (iport k) evs') ->
  (length (received evs) <= N)%nat -> (length (received evs') <= N')%nat ->
  run o (evs ++ repeat EExec N) = (Ok outs, o1) -> run o (evs' ++ repeat EExec N') = (Ok outs', o1') ->
  forall x, on_port x outs = on_port x outs'.
Proof.
  intros Ho On On' Ord Eh HN HN' R R' x.
  assert (Ord' : ordered_ports n evs') by (intros k Hk; rewrite <- Eh by auto; auto).
  destruct (mk_join_fresh id n o Ho) as (b & -> & Hn & Fr & Pr).
  assert (Hf : forall evs t, In t (common_times n evs) ->
     one_per_port n evs t (jtuple (skeys (o_data b)) (map (fun x => at_time (hist x evs) t) (skeys (o_data b))) (port_map iport n) [])).
  { intros e t _. apply join_one_per_port; auto; try lia; [|apply Fr]. apply swf_NoDup, Fr. }
  edestruct (join_sync_flush n b _ _ (one_per_port n) evs N ltac:(lia) Fr Pr) as (u & v & R1 & S1); auto; try lia.
  edestruct (join_sync_flush n b _ _ (one_per_port n) evs' N' ltac:(lia) Fr Pr) as (u' & v' & R2 & S2); auto; try lia.
  assert (u = outs) by congruence. assert (u' = outs') by congruence. subst.
  assert (Ec : common_times n evs = common_times n evs').
  { unfold common_times. rewrite Eh by lia. apply filter_ext_in. intros t _.
    assert (A : forall l, (forall k, In k l -> (1 <= k <= n)%nat) ->
      forallb (fun k => has_time t (hist (iport k) evs)) l = forallb (fun k => has_time t (hist (iport k) evs')) l).
    { induction l as [|k l IH]; cbn; intros Hl; auto. rewrite Eh, IH; auto. }
    apply A. intros k Hk. apply in_seq in Hk. lia. }
  destruct (in_dec string_dec x (map oport (seq 1 n))) as [i|ni].
  - apply in_map_iff in i as (k & <- & Hk). apply in_seq in Hk. assert (Hk' : (1 <= k <= n)%nat) by lia.
    destruct (on_port_join n _ _ _ k Hk' S1) as (ts & E1 & ->). destruct (on_port_join n _ _ _ k Hk' S2) as (ts' & E2 & ->).
    rewrite app_nil_r, common_execs in E1, E2. rewrite <- E1, <- E2, !hist_execs, Ec, Eh; auto.
  - assert (Hx : forall k, (1 <= k <= n)%nat -> x <> oport k).
    { intros k Hk ->. apply ni, in_map, in_seq. lia. }
    now rewrite (on_port_other n _ _ _ x Hx S1), (on_port_other n _ _ _ x Hx S2).
Qed.
Print Assumptions C22_join_interleaving.

(** three ports, arrivals in a tangled order: the common times are 2 and 5 *)
Definition tangled : list (@ev QcOps) :=
  [EData "i1" (im 1 10); EData "i1" (im 2 20); EExec; EData "i3" (im 2 22); EData "i2" (im 2 21); EExec;
   EData "i2" (im 3 31); EExec; EData "i1" (im 5 50); EData "i3" (im 4 42); EData "i3" (im 5 52); EExec; EData "i2" (im 5 51); EExec; EExec; EExec].
Example C21_example :
  @data_on QcOps 3 tangled /\ @ordered_ports QcOps 3 tangled /\ @common_times QcOps 3 tangled = [2; 5] /\
  match mk_join "j" 3 with
  | Ok o => let r := fst (@run QcOps o tangled) in
            (show_port "o1" r, show_port "o2" r, show_port "o3" r)
  | _ => ([], [], [])
  end = ([(2, (20 # 1)%Q); (5, (50 # 1)%Q)], [(2, (21 # 1)%Q); (5, (51 # 1)%Q)], [(2, (22 # 1)%Q); (5, (52 # 1)%Q)]).
Proof.
  split; [|split; [|split]].
  - unfold tangled. repeat constructor;
      first [exists 1%nat; split; [lia|reflexivity] | exists 2%nat; split; [lia|reflexivity] | exists 3%nat; split; [lia|reflexivity]].
  - intros k Hk. assert (E : k = 1%nat \/ k = 2%nat \/ k = 3%nat) by lia.
    destruct E as [->|[->| ->]]; vm_compute; repeat constructor.
  - vm_compute. reflexivity.
  - vm_compute. reflexivity.
Qed.

(** ** C23: emission as soon as a time is complete *)

(** When all ports follow one clock and every arrival is followed by an execution, no
    common time is ever left waiting: after every arrival all common times are emitted. *)
Theorem C23_one_clock_partial {NO : NumOps} (id : string) (n : nat) (o : op) (arrivals : list (nat * msg)) (clk : list Z) :
  mk_join id n = Ok o -> Forall (fun km => (1 <= fst km <= n)%nat) arrivals -> one_clock n clk (paced arrivals) ->
  exists outs o', run o (paced arrivals) = (Ok outs, o') /\
    synchronized n (one_per_port n (paced arrivals)) (paced arrivals) outs [].
Proof.
  intros Ho Ha Hc. destruct (mk_join_fresh id n o Ho) as (b & -> & Hn & Fr & Pr).
  edestruct (paced_run b _ n _ arrivals clk ltac:(lia) Fr Pr) as (outs & ports & ts & R & Se); auto; try lia.
  edestruct (run_ok_sync n b _ _ (one_per_port n (paced arrivals)) (paced arrivals) outs ports ts ltac:(lia) Fr Pr)
    as (pend & S & _ & E); auto; try lia.
  - eapply one_clock_ordered; eauto.
  - intros t _. apply join_one_per_port; auto; try lia; [|apply Fr]. apply swf_NoDup, Fr.
  - rewrite (E Se) in S. exists outs, (Op (set_data b ports) (KJoin (port_map iport n))). split; auto. apply R.
Qed.
Print Assumptions C23_one_clock_partial.

Definition one_clock_arrivals : list (nat * @msg QcOps) :=
  [(1%nat, im 1 1); (1%nat, im 4 2); (2%nat, im 1 3); (1%nat, im 7 4); (2%nat, im 4 5)].
Example C23_example :
  @one_clock QcOps 2 [1; 4; 7] (paced one_clock_arrivals) /\
  match mk_join "j" 2 with
  | Ok o => show_port "o2" (fst (@run QcOps o (paced one_clock_arrivals)))
  | _ => []
  end = [(1, (3 # 1)%Q); (4, (5 # 1)%Q)].
Proof.
  split; [split|].
  - repeat constructor.
  - intros k Hk. assert (E : k = 1%nat \/ k = 2%nat) by lia. destruct E as [->| ->]; [exists []|exists [7]]; reflexivity.
  - vm_compute. reflexivity.
Qed.

(** The same without a common clock: ports may skip times, as long as the messages arrive in
    the order of their times, whatever their ports. *)
Theorem C23_global_order_partial {NO : NumOps} (id : string) (n : nat) (o : op) (arrivals : list (nat * msg)) :
  mk_join id n = Ok o -> Forall (fun km => (1 <= fst km <= n)%nat) arrivals -> ordered_ports n (paced arrivals) ->
  StronglySorted Z.le (times (map snd arrivals)) ->
  exists outs o', run o (paced arrivals) = (Ok outs, o') /\
    synchronized n (one_per_port n (paced arrivals)) (paced arrivals) outs [].
Proof.
  intros Ho Ha Hp St. destruct (mk_join_fresh id n o Ho) as (b & -> & Hn & Fr & Pr).
  edestruct (ordered_run b _ n _ arrivals ltac:(lia) Fr Pr) as (outs & ports & ts & R & Se); auto; try lia.
  edestruct (run_ok_sync n b _ _ (one_per_port n (paced arrivals)) (paced arrivals) outs ports ts ltac:(lia) Fr Pr)
    as (pend & S & _ & E); auto; try lia.
  - intros t _. apply join_one_per_port; auto; try lia; [|apply Fr]. apply swf_NoDup, Fr.
  - rewrite (E Se) in S. exists outs, (Op (set_data b ports) (KJoin (port_map iport n))). split; auto. apply R.
Qed.
Print Assumptions C23_global_order_partial.

Definition global_arrivals : list (nat * @msg QcOps) :=
  [(1%nat, im 1 1); (3%nat, im 2 2); (2%nat, im 4 3); (3%nat, im 4 4); (1%nat, im 4 5); (2%nat, im 5 6); (1%nat, im 7 7);
   (3%nat, im 7 8); (2%nat, im 7 9)].
Example C23_global_example :
  StronglySorted Z.le (times (map snd global_arrivals)) /\ ordered_ports 3 (paced global_arrivals) /\
  match mk_join "j" 3 with
  | Ok o => show_port "o2" (fst (@run QcOps o (paced global_arrivals)))
  | _ => []
  end = [(4, (3 # 1)%Q); (7, (9 # 1)%Q)].
Proof.
  split; [|split].
  - vm_compute. repeat constructor; discriminate.
  - intros k Hk. assert (E : k = 1%nat \/ k = 2%nat \/ k = 3%nat) by lia.
    destruct E as [->|[->| ->]]; vm_compute; repeat constructor.
  - vm_compute. reflexivity.
Qed.

(** In general the time waits: port i1 receives 5, 8, 10 and port i2 7, 10, each arrival
    followed by an execution.  Time 10 is complete, nothing was emitted. *)
Definition waiting : list (nat * @msg QcOps) :=
  [(1%nat, im 5 1); (1%nat, im 8 2); (1%nat, im 10 3); (2%nat, im 7 4); (2%nat, im 10 5)].
Theorem C23_as_soon_as_complete_refuted :
  exists (o o' : @op QcOps) outs, mk_join "j" 2 = Ok o /\ run o (paced waiting) = (Ok outs, o') /\
    ordered_ports 2 (paced waiting) /\ common_times 2 (paced waiting) = [10] /\
    Forall (fun out => out = emits_nothing) outs.
Proof.
  destruct (mk_join "j" 2) as [o| | | |] eqn:Ho; try discriminate Ho.
  destruct (run o (paced waiting)) as [r o'] eqn:R.
  assert (E : match r with Ok l => map (@length _) l | _ => [1%nat] end = [0;0;0;0;0;0;0;0;0;0]%nat).
  { replace r with (fst (run o (paced waiting))) by now rewrite R. injection Ho as <-. vm_compute. reflexivity. }
  destruct r as [outs| | | |]; try discriminate. exists o, o', outs. split; auto. split; auto. split; [|split].
  - intros k Hk. assert (K : k = 1%nat \/ k = 2%nat) by lia. destruct K as [->| ->]; vm_compute; repeat constructor.
  - vm_compute. reflexivity.
  - clear -E. do 10 (destruct outs as [|[|] outs]; try discriminate E; constructor; [reflexivity|]; cbn in E).
    destruct outs; [constructor|discriminate E].
Qed.
Print Assumptions C23_as_soon_as_complete_refuted.

(** ** C24: the two-input operators *)

Lemma bin_apply_two_input {NO : NumOps} f a c : comparable a -> bin_apply f a c = two_input f a c.
Proof.
  unfold comparable. intros H. destruct f; cbn; unfold truth, of_bool; auto.
  - now destruct (veq c v0).
  - rewrite H. reflexivity.
  - rewrite H. reflexivity.
Qed.

Lemma hist_received {NO : NumOps} port evs m : In m (hist port evs) -> In m (received evs).
Proof.
  unfold hist, project. induction evs as [|[p x| | |] evs IH]; cbn; auto.
  destruct (String.eqb p port); cbn; intuition.
Qed.

Lemma binary_emits {NO : NumOps} f evs t : comparable_values evs -> In t (common_times 2 evs) ->
  two_input_emits f evs t (match map (fun x => at_time (hist x evs) t) ["i1"; "i2"] with
      | [m0; m1] => match bin_apply f (mval m0) (mval m1) with Some v => out1 (mkMsg (mtime m0) v) | None => [] end
      | _ => [] end).
Proof.
  intros Cv Hc. unfold two_input_emits. cbn [map].
  assert (H1 : In t (times (hist "i1" evs))).
  { unfold common_times in Hc. now apply filter_In in Hc as [Hc _]. }
  destruct (at_time_spec _ _ H1) as [I1 T1]. rewrite T1.
  rewrite bin_apply_two_input; [reflexivity|]. unfold comparable_values in Cv. rewrite Forall_forall in Cv.
  apply (Cv _ (hist_received _ _ _ I1)).
Qed.

(** For every interleaving the operator never fails; each call emits nothing or handles one
    common time [t], and then emits at [t] the function of the two values ([i1] first), or
    nothing where the function has no value; no common time is handled twice or skipped. *)
Theorem C24_two_input {NO : NumOps} (id : string) (f : binop) (o : op) (evs : list ev) :
  mk_binary id f = Ok o -> data_on 2 evs -> ordered_ports 2 evs -> comparable_values evs ->
  exists outs o' pending, run o evs = (Ok outs, o') /\ synchronized 2 (two_input_emits f evs) evs outs pending.
Proof.
  intros Ho On Ord Cv. destruct (mk_binary_fresh id f o Ho) as (b & -> & Fr & K & Pr).
  edestruct (join_sync 2 b _ _ (two_input_emits f) evs ltac:(lia) Fr Pr) as (outs & o' & pend & R & S & _); auto.
  - intros t Ht. rewrite K. now apply binary_emits.
  - eauto.
Qed.
Print Assumptions C24_two_input.

(** messages of the two-input operator at the common times, in order *)
Definition two_input_stream {NO : NumOps} (f : binop) (evs : list ev) : list msg :=
  flat_map (fun t => match two_input f (mval (at_time (hist "i1" evs) t)) (mval (at_time (hist "i2" evs) t)) with
                     | Some v => [mkMsg t v]
                     | None => []
                     end) (common_times 2 evs).

Theorem C24_two_input_complete {NO : NumOps} (id : string) (f : binop) (o : op) (evs : list ev) (N : nat) :
  mk_binary id f = Ok o -> data_on 2 evs -> ordered_ports 2 evs -> comparable_values evs -> (length (received evs) <= N)%nat ->
  exists outs o', run o (evs ++ repeat EExec N) = (Ok outs, o') /\ on_port "o1" outs = two_input_stream f evs.
Proof.
  intros Ho On Ord Cv HN. destruct (mk_binary_fresh id f o Ho) as (b & -> & Fr & K & Pr).
  edestruct (join_sync_flush 2 b _ _ (fun e t out => comparable_values e -> two_input_emits f e t out) evs N ltac:(lia) Fr Pr) as (outs & o' & R & ts & S & E); auto.
  { intros e t Ht Ce. rewrite K. now apply binary_emits. }
  exists outs, o'. split; auto. unfold two_input_stream. rewrite app_nil_r, common_execs in E. rewrite E. clear E R.
  assert (Ce : comparable_values (evs ++ repeat EExec N)).
  { unfold comparable_values. rewrite received_app. replace (received (repeat EExec N)) with (@nil msg); [now rewrite app_nil_r|].
    clear. induction N; cbn; auto. }
  induction S as [|t out ts outs H S IH]; auto. unfold on_port in *. cbn [flat_map]. rewrite IH. destruct t as [t|]; cbn [somes flat_map].
  - specialize (H Ce). unfold two_input_emits in H. rewrite H, !hist_execs. f_equal. clear.
    generalize (two_input f (mval (at_time (hist "i1" evs) t)) (mval (at_time (hist "i2" evs) t))). intros [v|]; reflexivity.
  - rewrite H. reflexivity.
Qed.
Print Assumptions C24_two_input_complete.

(** in exact arithmetic every value is comparable *)
Theorem C24_exact_values_comparable {NO : NumOps} {NF : NumField NO} (evs : list ev) : comparable_values evs.
Proof. apply Forall_forall. intros m _. apply v_le_spec. Qed.

Definition pairs : list (@ev QcOps) :=
  [EData "i1" (im 1 6); EData "i2" (im 1 3); EExec; EData "i2" (im 2 0); EData "i1" (im 2 5); EExec;
   EData "i1" (im 3 1); EData "i2" (im 4 4); EData "i1" (im 4 8); EExec].
Definition pairs_of (f : binop) : list (Z * Q) :=
  match mk_binary "b" f with Ok o => show_port "o1" (fst (@run QcOps o pairs)) | _ => [] end.
Example C24_example :
  @data_on QcOps 2 pairs /\ @ordered_ports QcOps 2 pairs /\
  pairs_of BDiv = [(1, (2 # 1)%Q); (4, (2 # 1)%Q)] /\ pairs_of BMinus = [(1, (3 # 1)%Q); (2, (5 # 1)%Q); (4, (4 # 1)%Q)] /\
  pairs_of BLess = [] /\ pairs_of BAnd = [(1, (1 # 1)%Q); (2, (0 # 1)%Q); (4, (1 # 1)%Q)].
Proof.
  split; [|split; [|vm_compute; auto]].
  - unfold pairs. repeat constructor; first [exists 1%nat; split; [lia|reflexivity] | exists 2%nat; split; [lia|reflexivity]].
  - intros k Hk. assert (E : k = 1%nat \/ k = 2%nat) by lia. destruct E as [->| ->]; vm_compute; repeat constructor.
Qed.

(** ** C25: Linear *)

Lemma fold_left_vsum {NO : NumOps} (h : nat -> msg) l coeff : forall acc,
  fold_left (fun a mc => vadd a (vmul (mval (fst mc)) (snd mc))) (combine (map h l) coeff) acc =
  fold_left vadd (map (fun kc => vmul (mval (h (fst kc))) (snd kc)) (combine l coeff)) acc.
Proof. revert coeff. induction l as [|k l IH]; intros [|c coeff] acc; cbn; auto. Qed.

Lemma linear_sync {NO : NumOps} l coeff evs t b :
  (1 <= length coeff)%nat -> fresh (length coeff) b -> skeys (o_data b) = map iport l -> length l = length coeff ->
  In t (common_times (length coeff) evs) ->
  linear_emits l coeff evs t
    ((fun ms => out1 (mkMsg (mtime (hd msg0 ms)) (fold_left (fun a mc => vadd a (vmul (mval (fst mc)) (snd mc))) (combine ms coeff) v0)))
       (map (fun x => at_time (hist x evs) t) (skeys (o_data b)))).
Proof.
  intros Hn Fr K Ll Ht. unfold linear_emits. rewrite K, map_map. unfold vsum. rewrite <- (fold_left_vsum (fun k => at_time (hist (iport k) evs) t)).
  cbv beta. unfold emits, out1. f_equal. f_equal. f_equal. f_equal.
  rewrite (common_times_spec (length coeff) (skeys (o_data b))) in Ht; [|lia|apply Fr]. rewrite K in Ht.
  destruct l as [|k l]; [cbn in Ll; lia|]. cbn [map hd]. apply (at_time_spec (hist (iport k) evs) t). apply Ht. cbn; auto.
Qed.

Lemma linear_exists {NO : NumOps} id (coeff : list V) : (2 <= length coeff)%nat -> exists o, mk_linear id coeff = Ok o.
Proof.
  intros H. unfold mk_linear. destruct (Nat.ltb_spec (length coeff) 2); [lia|].
  destruct (add_ports_spec (seq 1 (length coeff)) 0 false (base0 id)) as (b & E & _); auto using seq_NoDup; [constructor|].
  rewrite E. cbn. eauto.
Qed.

Lemma keys_numbers names n : numbered n names -> exists l, names = map iport l.
Proof.
  unfold numbered. intros H. assert (A : forall x, In x names -> exists k, x = iport k).
  { intros x Hx. apply H in Hx as (k & _ & ->). eauto. }
  clear H. induction names as [|x names IH]; [exists []; auto|]. destruct (A x) as (k & ->); [cbn; auto|].
  destruct IH as (l & ->); [intros; apply A; cbn; auto|]. exists (k :: l). reflexivity.
Qed.

(** For every number of coefficients: the coefficients in order are paired with the ports
    in the alphabetical order of their names. *)
Theorem C25_linear_alphabetical_partial {NO : NumOps} (id : string) (coeff : list V) (o : op) :
  mk_linear id coeff = Ok o ->
  exists order, alphabetical (length coeff) order /\ forall evs, data_on (length coeff) evs -> ordered_ports (length coeff) evs ->
    exists outs o' pending, run o evs = (Ok outs, o') /\
      synchronized (length coeff) (linear_emits order coeff evs) evs outs pending.
Proof.
  intros Ho. destruct (mk_linear_fresh id coeff o Ho) as (b & -> & Hn & Fr & Ln & Pr).
  destruct (keys_numbers (skeys (o_data b)) (length coeff)) as (l & K); [apply Fr|].
  assert (Ll : length l = length coeff) by (rewrite <- Ln, <- (map_length fst (o_data b)); fold (skeys (o_data b)); rewrite K; now rewrite map_length).
  exists l. split.
  - split.
    + intros k. destruct Fr as (_ & Nu & _). rewrite K in Nu. split.
      * intros Hk. destruct (proj1 (Nu (iport k))) as (j & Hj & E); [now apply in_map|]. apply iport_inj in E. now subst.
      * intros Hk. assert (X : In (iport k) (map iport l)) by (apply Nu; eauto). apply in_map_iff in X as (j & E & Hj).
        apply iport_inj in E. now subst.
    + rewrite <- K. apply Fr.
  - intros evs On Ord. edestruct (join_sync (length coeff) b _ _ (linear_emits l coeff) evs ltac:(lia) Fr Pr)
      as (outs & o' & pend & R & S & _); auto; try lia.
    + intros t Ht. apply linear_sync; auto. lia.
    + eauto.
Qed.
Print Assumptions C25_linear_alphabetical_partial.

Fixpoint sorted_check (l : list string) : bool :=
  match l with [] => true | x :: r => forallb (sltb x) r && sorted_check r end.
Lemma sorted_check_ok l : sorted_check l = true -> StronglySorted slt l.
Proof.
  induction l as [|x l IH]; intros H; constructor; cbn in H; apply andb_prop in H as [H1 H2]; auto.
  rewrite forallb_forall in H1. apply Forall_forall. exact H1.
Qed.

Lemma alphabetical_9 n : (n <= 9)%nat -> alphabetical n (seq 1 n).
Proof.
  intros H. split; [intros k; rewrite in_seq; lia|].
  apply sorted_check_ok. do 10 (destruct n as [|n]; [vm_compute; reflexivity|]). lia.
Qed.

Lemma alphabetical_unique {NO : NumOps} n l1 l2 : alphabetical n l1 -> alphabetical n l2 -> l1 = l2.
Proof.
  intros [A1 S1] [A2 S2]. assert (E : map iport l1 = map iport l2).
  { apply ssorted_ext; auto. intros x. rewrite !in_map_iff. split; intros (k & <- & Hk); exists k; split; auto; [apply A2, A1|apply A1, A2]; auto. }
  revert l2 E A1 A2 S1 S2. clear. intros l2 E _ _ _ _. revert l2 E. induction l1 as [|k l1 IH]; intros [|j l2] E; try discriminate; auto.
  cbn in E. injection E as E1 E2. apply string_of_nat_inj in E1. f_equal; auto.
Qed.

(** Up to nine coefficients, the k-th coefficient is paired with port ik. *)
Theorem C25_linear_partial {NO : NumOps} (id : string) (coeff : list V) (o : op) (evs : list ev) :
  mk_linear id coeff = Ok o -> (length coeff <= 9)%nat -> data_on (length coeff) evs -> ordered_ports (length coeff) evs ->
  exists outs o' pending, run o evs = (Ok outs, o') /\
    synchronized (length coeff) (linear_emits (seq 1 (length coeff)) coeff evs) evs outs pending.
Proof.
  intros Ho H9 On Ord. destruct (C25_linear_alphabetical_partial id coeff o Ho) as (l & Al & H).
  rewrite (alphabetical_unique _ _ _ Al (alphabetical_9 _ H9)) in H. auto.
Qed.
Print Assumptions C25_linear_partial.

Example C25_example :
  match mk_linear "l" [qc_ofZ 2; qc_ofZ 3; qc_ofZ (-1)] with
  | Ok o => show_port "o1" (fst (@run QcOps o tangled))
  | _ => []
  end = [(2, ((2 * 20 + 3 * 21 - 22) # 1)%Q); (5, ((2 * 50 + 3 * 51 - 52) # 1)%Q)].
Proof. vm_compute. reflexivity. Qed.

(** With ten coefficients, of which only the second is 1, and one message per port, value 1
    on port i2 and 0 elsewhere: the emission should be 1 * 1, it is 0. *)
Definition ten_coeff : list (@V QcOps) := map qc_ofZ [0; 1; 0; 0; 0; 0; 0; 0; 0; 0].
Definition ten_ports : list (@ev QcOps) :=
  map (fun k => EData (iport k) (im 1 (if Nat.eqb k 2 then 1 else 0))) (seq 1 10) ++ [EExec].
Definition ten_out : res (list (@opmsg QcOps)) :=
  match mk_linear "l" ten_coeff with Ok o => fst (@run QcOps o ten_ports) | _ => UB end.
Theorem C25_linear_refuted :
  exists (o o' : @op QcOps) outs, mk_linear "l" ten_coeff = Ok o /\ data_on 10 ten_ports /\ ordered_ports 10 ten_ports /\
    run o ten_ports = (Ok outs, o') /\
    forall pending, ~ synchronized 10 (linear_emits (seq 1 10) ten_coeff ten_ports) ten_ports outs pending.
Proof.
  destruct (linear_exists "l" ten_coeff) as (o & Ho); [cbn; lia|].
  destruct (run o ten_ports) as [r o'] eqn:R.
  assert (E : show_port "o1" r = [(1, (0 # 1)%Q)]).
  { replace r with ten_out; [vm_compute; reflexivity|]. unfold ten_out. rewrite Ho. now rewrite R. }
  destruct r as [outs| | | |]; try discriminate E. exists o, o', outs. split; auto. split; [|split; [|split]]; auto.
  - unfold ten_ports, data_on. apply Forall_app. split; [|repeat constructor]. apply Forall_forall. intros e He.
    apply in_map_iff in He as (k & <- & Hk). apply in_seq in Hk. exists k. split; auto. lia.
  - intros k Hk. do 11 (destruct k as [|k]; [try lia; vm_compute; repeat constructor|]). lia.
  - intros pend (ts & F & C).
    assert (C' : common_times 10 ten_ports = [1]) by (vm_compute; reflexivity). rewrite C' in C.
    assert (X : forall m, In m (on_port "o1" outs) -> show_msg m = (1, (1 # 1)%Q)).
    { clear E R Ho C'. assert (T : forall t, In t (somes ts) -> t = 1).
      { intros t Ht. assert (I : In t [1]) by (rewrite C; apply in_or_app; auto). destruct I as [|[]]; auto. }
      clear C. induction F as [|t out ts outs H F IH]; [intros m []|]. intros m Hm. unfold on_port in Hm. cbn [flat_map] in Hm.
      apply in_app_or in Hm as [Hm|Hm].
      - destruct t as [t|]; [|rewrite H in Hm; destruct Hm]. rewrite (T t) in H by (cbn; auto). rewrite H in Hm.
        destruct Hm as [<-|[]]. vm_compute. reflexivity.
      - apply IH; auto. intros u Hu. apply T. destruct t; cbn; auto. }
    cbn [show_port] in E. destruct (on_port "o1" outs) as [|m l]; [discriminate|]. cbn [map] in E.
    rewrite (X m (or_introl eq_refl)) in E. discriminate E.
Qed.
Print Assumptions C25_linear_refuted.

(** ** C50 for operators with synchronised ports: when all ports follow one clock, every arrival is
    followed by an execution, and no port ever is more than [d] messages ahead of another, no port
    of a Join (a two-input operator, a Linear) holds more than [d] messages *)
Theorem C50_synchronised_partial {NO : NumOps} (id : string) (n : nat) (o : op) (arrivals : list (nat * msg)) (clk : list Z) (d : nat) :
  (mk_join id n = Ok o \/ (exists f, n = 2%nat /\ mk_binary id f = Ok o) \/ (exists c, n = length c /\ mk_linear id c = Ok o)) ->
  Forall (fun km => (1 <= fst km <= n)%nat) arrivals -> one_clock n clk (paced arrivals) ->
  (forall j k, (1 <= j <= n)%nat -> (1 <= k <= n)%nat ->
     (length (hist (iport j) (paced arrivals)) <= length (hist (iport k) (paced arrivals)) + d)%nat) ->
  exists outs o', run o (paced arrivals) = (Ok outs, o') /\
    forall port q, sfind port (o_data (op_base o')) = Some q -> (length (ip_data q) <= d)%nat.
Proof.
  intros Ho Ha Hc Hd.
  assert (X : exists b k g, o = Op b k /\ (2 <= n)%nat /\ fresh n b /\ processes b k g).
  { destruct Ho as [Ho|[(f & -> & Ho)|(c & -> & Ho)]].
    - destruct (mk_join_fresh id n o Ho) as (b & -> & Hn & Fr & Pr). eauto 9.
    - destruct (mk_binary_fresh id f o Ho) as (b & -> & Fr & _ & Pr). eexists _, _, _. eauto.
    - destruct (mk_linear_fresh id c o Ho) as (b & -> & Hn & Fr & _ & Pr). eexists _, _, _. eauto. }
  destruct X as (b & k & g & -> & Hn & Fr & Pr).
  destruct (paced_run b k n g arrivals clk ltac:(lia) Fr Pr Ha Hc) as (outs & ports & ts & (R & W & J & _) & x0 & p0 & Hx0 & Ex0).
  exists outs, (Op (set_data b ports) k). split; [exact R|]. intros port q F. apply sfind_In in F. cbn in F.
  destruct Hc as [Hi Hc]. destruct Fr as (_ & Nu & _).
  assert (Hcl : forall x, In x (skeys (o_data b)) -> exists later, clk = times (hist x (paced arrivals)) ++ later).
  { intros x Hx. apply Nu in Hx as (j & Hj & ->). auto. }
  pose proof (clocked_lengths _ _ _ _ _ J Hi Hcl x0 p0 Hx0) as L0. pose proof (clocked_lengths _ _ _ _ _ J Hi Hcl port q F) as L1.
  rewrite Ex0 in L0. cbn [length] in L0. destruct J as (K & _).
  assert (H0 : In x0 (skeys (o_data b))) by (rewrite <- K; exact (in_map fst _ _ Hx0)).
  assert (H1 : In port (skeys (o_data b))) by (rewrite <- K; exact (in_map fst _ _ F)).
  apply Nu in H0 as (j0 & Hj0 & ->). apply Nu in H1 as (j1 & Hj1 & ->). specialize (Hd j1 j0 Hj1 Hj0). cbn beta in *. lia.
Qed.
Print Assumptions C50_synchronised_partial.

Example C50_synchronised_example :
  @one_clock QcOps 2 [1; 4; 7] (paced one_clock_arrivals) /\
  (forall j k, (1 <= j <= 2)%nat -> (1 <= k <= 2)%nat ->
     (length (hist (iport j) (paced one_clock_arrivals)) <= length (hist (iport k) (paced one_clock_arrivals)) + 1)%nat) /\
  match mk_join "j" 2 with
  | Ok o => map (fun x => map mtime (ip_data (snd x))) (o_data (op_base (snd (@run QcOps o (paced one_clock_arrivals)))))
  | _ => []
  end = [[7]; []].
Proof.
  split; [apply C23_example|]. split; [|vm_compute; reflexivity].
  intros j k Hj Hk. assert (E : j = 1%nat \/ j = 2%nat) by lia. assert (E' : k = 1%nat \/ k = 2%nat) by lia.
  destruct E as [->| ->], E' as [->| ->]; vm_compute; lia.
Qed.
