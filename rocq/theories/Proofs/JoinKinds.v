(** * Join, BinaryJoin and Linear, from their constructors *)

From Coq Require Import String ZArith Bool List Lia Sorted FinFun.
From Verif Require Import Base.StrMap Base.Num Model.Core Model.Ops Model.Make Model.Run.
From Verif Require Import Spec.Streams Spec.Multi Spec.Join Proofs.Lists Proofs.Ports Proofs.VariableP Proofs.JoinP Proofs.JoinRun.
Import ListNotations.
Open Scope string_scope.
Open Scope list_scope.
Open Scope Z_scope.
Open Scope rtbot_scope.

Section Kinds.
Context {NO : NumOps}.

(** everything about one run, for ports [i1..in] *)
Definition fresh (n : nat) (b0 : base) : Prop :=
  swf (o_data b0) /\ numbered n (skeys (o_data b0)) /\ (forall x p, In (x, p) (o_data b0) -> ip_data p = []).

Definition processes (b0 : base) (k : kind) (g : list msg -> opmsg) : Prop :=
  is_join k /\ forall ports1 t, skeys ports1 = skeys (o_data b0) -> swf ports1 -> all_at t ports1 ->
    join_process (set_data b0 ports1) k = Ok (g (map (fun np => hd msg0 (ip_data (snd np))) ports1)).

Definition queued (o : op) (port : string) (t : Z) : Prop :=
  exists p, sfind port (o_data (op_base o)) = Some p /\ In t (times (ip_data p)).

Lemma names_ne n b0 : (1 <= n)%nat -> fresh n b0 -> skeys (o_data b0) <> [].
Proof. intros Hn (_ & Nu & _) E. assert (X : In (iport 1) (skeys (o_data b0))) by (apply Nu; exists 1%nat; auto). rewrite E in X. destruct X. Qed.

Lemma run_ok_sync n b0 k g (f : Z -> opmsg -> Prop) evs outs ports ts :
  (1 <= n)%nat -> fresh n b0 -> processes b0 k g -> ordered_ports n evs ->
  (forall t, In t (common_times n evs) -> f t (g (map (fun x => at_time (hist x evs) t) (skeys (o_data b0))))) ->
  run_ok b0 k (skeys (o_data b0)) g evs outs ports ts ->
  exists pending, synchronized n f evs outs pending /\
    (forall t, In t pending -> forall j, (1 <= j <= n)%nat -> queued (Op (set_data b0 ports) k) (iport j) t) /\
    (some_empty ports -> pending = []).
Proof.
  intros Hn Fr (Kj & Hg) Ord Hf (R & W & I & F).
  pose proof (names_ne n b0 Hn Fr) as Nn. destruct Fr as (W0 & Nu & Em).
  destruct (join_inv_common _ _ _ _ W I (numbered_increasing _ _ _ Nu Ord) (common_times n evs)
              (common_times_increasing n evs Hn Ord) (fun t => common_times_spec n _ evs t Hn Nu) Nn) as (A & B & C).
  set (pend := filter _ _) in *. exists pend. split; [exists ts; split; auto|].
  - eapply Forall2_impl_In; [exact F|]. intros [t|] out Ht E; [|exact E]. cbn in E. rewrite E. apply Hf.
    rewrite A. apply in_or_app. left. now apply In_somes.
  - split.
    + intros t Ht j Hj. assert (X : In (iport j) (skeys ports)) by (destruct I as (-> & _); apply Nu; eauto).
      apply In_skeys_sfind in X as (p & Fp). exists p. split; [exact Fp|]. apply sfind_In in Fp. eapply C; eauto.
    + intros Se. specialize (B Se). rewrite B in A at 1.
      assert (L : length (somes ts) = length (somes ts ++ pend)) by congruence.
      rewrite app_length in L. destruct pend; auto. cbn in L. lia.
Qed.

Lemma join_sync n b0 k g (f : list ev -> Z -> opmsg -> Prop) evs :
  (1 <= n)%nat -> fresh n b0 -> processes b0 k g -> data_on n evs -> ordered_ports n evs ->
  (forall t, In t (common_times n evs) -> f evs t (g (map (fun x => at_time (hist x evs) t) (skeys (o_data b0))))) ->
  exists outs o' pending, run (Op b0 k) evs = (Ok outs, o') /\ synchronized n (f evs) evs outs pending /\
    (forall t, In t pending -> forall j, (1 <= j <= n)%nat -> queued o' (iport j) t).
Proof.
  intros Hn Fr Pr On Ord Hf. pose proof (names_ne n b0 Hn Fr) as Nn. pose proof Fr as (W0 & Nu & Em). pose proof Pr as (Kj & Hg).
  destruct (join_run b0 k (skeys (o_data b0)) g Kj Nn eq_refl W0 Em Hg evs
              (numbered_data_on _ _ _ Nu On) (numbered_increasing _ _ _ Nu Ord)) as (outs & ports & ts & R & _).
  destruct (run_ok_sync n b0 k g (f evs) evs outs ports ts) as (pend & A & B & _); auto.
  exists outs, (Op (set_data b0 ports) k), pend. split; [apply R|]. auto.
Qed.

Lemma ordered_execs n evs N : ordered_ports n evs -> ordered_ports n (evs ++ repeat EExec N).
Proof.
  intros H j Hj. rewrite hist_app. replace (hist (iport j) (repeat EExec N)) with (@nil msg).
  - rewrite app_nil_r. now apply H.
  - induction N; cbn; auto.
Qed.
Lemma hist_execs port evs N : hist port (evs ++ repeat EExec N) = hist port evs.
Proof. rewrite hist_app. replace (hist port (repeat EExec N)) with (@nil msg); [apply app_nil_r|]. induction N; cbn; auto. Qed.
Lemma common_execs n evs N : common_times n (evs ++ repeat EExec N) = common_times n evs.
Proof.
  unfold common_times. rewrite hist_execs. apply filter_ext. intros t. induction (seq 1 n); cbn; auto. now rewrite hist_execs, IHl.
Qed.

Lemma join_sync_flush n b0 k g (f : list ev -> Z -> opmsg -> Prop) evs N :
  (1 <= n)%nat -> fresh n b0 -> processes b0 k g -> data_on n evs -> ordered_ports n evs ->
  (forall evs t, In t (common_times n evs) -> f evs t (g (map (fun x => at_time (hist x evs) t) (skeys (o_data b0))))) ->
  (length (received evs) <= N)%nat ->
  exists outs o', run (Op b0 k) (evs ++ repeat EExec N) = (Ok outs, o') /\
    synchronized n (f (evs ++ repeat EExec N)) (evs ++ repeat EExec N) outs [].
Proof.
  intros Hn Fr Pr On Ord Hf HN. pose proof (names_ne n b0 Hn Fr) as Nn. pose proof Fr as (W0 & Nu & Em). pose proof Pr as (Kj & Hg).
  destruct (join_run b0 k (skeys (o_data b0)) g Kj Nn eq_refl W0 Em Hg evs
              (numbered_data_on _ _ _ Nu On) (numbered_increasing _ _ _ Nu Ord)) as (outs & ports & ts & R & T).
  destruct (join_flush b0 k (skeys (o_data b0)) g Kj Nn eq_refl Hg evs outs ports ts R (numbered_increasing _ _ _ Nu Ord) N)
    as (outs' & ports' & ts' & R' & D).
  assert (Se : some_empty ports').
  { destruct D as [D|D]; auto. destruct R' as (_ & _ & (K' & _) & _). destruct ports' as [|[x p] l]; [cbn in K'; congruence|].
    exists x, p. split; [cbn; auto|]. cbn in D. destruct (ip_data p); auto. cbn in D. lia. }
  destruct (run_ok_sync n b0 k g (f (evs ++ repeat EExec N)) (evs ++ repeat EExec N) outs' ports' ts') as (pend & A & _ & C); auto.
  { now apply ordered_execs. }
  rewrite (C Se) in A. exists outs', (Op (set_data b0 ports') k). split; [apply R'|]. exact A.
Qed.

(** ** The ports the constructors create *)

Lemma num_ports_In n max x p : num_ports iport (seq 1 n) max x = Some p -> (exists k, (1 <= k <= n)%nat /\ x = iport k) /\ ip_data p = [].
Proof.
  unfold num_ports. destruct (find _ _) as [j|] eqn:E; [|discriminate]. intros [= <-].
  apply find_some in E as [E1 E2]. apply in_seq in E1. apply String.eqb_eq in E2. split; [exists j; split; auto; lia|]. reflexivity.
Qed.

Lemma fresh_ports id n outs b : add_ports (seq 1 n) 0 outs (base0 id) = Ok b -> fresh n b /\ o_ctrl b = [] /\ o_toproc b = [].
Proof.
  intros H. destruct (add_ports_spec (seq 1 n) 0 outs (base0 id)) as (b' & E & W & S & C & _ & T & _); auto using seq_NoDup.
  { constructor. }
  rewrite H in E. injection E as <-. split; [|auto]. split; auto. cbn in S. split.
  - intros x. split.
    + intros Hx. apply In_skeys_sfind in Hx as (p & Fp). rewrite S in Fp. destruct (num_ports _ _ _ _) eqn:N; [|discriminate].
      now apply num_ports_In in N.
    + intros (k & Hk & ->). eapply (sfind_In_key _ (new_port (iport k) 0)). rewrite S. unfold num_ports.
      rewrite find_from; auto using iport_inj. apply in_seq. lia.
  - intros x p Hp. apply (In_sfind _ _ _ W) in Hp. rewrite S in Hp. destruct (num_ports _ _ _ _) eqn:N; [|discriminate].
    injection Hp as <-. now apply num_ports_In in N.
Qed.

(** ** Join *)

Fixpoint jtuple (names : list string) (msgs : list msg) (cm : smap string) (out : opmsg) : opmsg :=
  match names, msgs with
  | x :: ns, m :: ms => match sfind x cm with Some o => jtuple ns ms cm (semplace o [m] out) | None => out end
  | _, _ => out
  end.

Lemma join_tuple_eq cm t ports : forall out,
  all_at t ports -> (forall x, In x (skeys ports) -> sfind x cm <> None) ->
  join_tuple ports cm out = Ok (jtuple (skeys ports) (map (fun np => hd msg0 (ip_data (snd np))) ports) cm out).
Proof.
  induction ports as [|[x p] l IH]; intros out Al Hc; cbn; auto.
  destruct (Al x p) as (m & r & Em & _); [cbn; auto|]. rewrite Em. cbn [hd].
  destruct (sfind x cm) as [o|] eqn:F; [|exfalso; apply (Hc x); cbn; auto].
  apply IH; [intros y q Hy; apply (Al y q); cbn; auto|]. intros y Hy. apply Hc. cbn; auto.
Qed.

Lemma jtuple_spec (f : string -> msg) cm names : forall out,
  NoDup names -> (forall x, In x names -> exists k, x = iport k /\ sfind x cm = Some (oport k)) ->
  forall y, sfind y (jtuple names (map f names) cm out) =
    match sfind y out with
    | Some v => Some v
    | None => match find (fun x => match sfind x cm with Some o => String.eqb y o | None => false end) names with
              | Some x => Some [f x]
              | None => None
              end
    end.
Proof.
  induction names as [|x ns IH]; intros out ND Hc y; cbn; [now destruct (sfind y out)|].
  inversion ND as [|? ? Hx ND']; subst. destruct (Hc x) as (k & Ek & Fk); [cbn; auto|]. rewrite Fk.
  rewrite IH; auto; [|intros; apply Hc; cbn; auto]. rewrite sfind_semplace.
  destruct (sfind y out); auto. destruct (String.eqb y (oport k)); auto.
Qed.

Lemma port_map_join n x : (exists k, (1 <= k <= n)%nat /\ x = iport k) -> exists k, x = iport k /\ sfind x (port_map iport n) = Some (oport k).
Proof. intros (k & Hk & ->). exists k. split; auto. apply port_map_find; auto using iport_inj. Qed.

Lemma join_one_per_port n names evs t : (1 <= n)%nat -> NoDup names -> numbered n names ->
  one_per_port n evs t (jtuple names (map (fun x => at_time (hist x evs) t) names) (port_map iport n) []).
Proof.
  intros Hn ND Nu.
  assert (Hc : forall x, In x names -> exists k, x = iport k /\ sfind x (port_map iport n) = Some (oport k)).
  { intros x Hx. apply port_map_join. now apply Nu. }
  split.
  - intros k Hk. rewrite (jtuple_spec (fun x => at_time (hist x evs) t)); auto. cbn [sfind].
    assert (Hi : In (iport k) names) by (apply Nu; eauto).
    destruct (find _ names) as [x|] eqn:F.
    + apply find_some in F as [F1 F2]. destruct (Hc x F1) as (j & -> & Fj). rewrite Fj in F2.
      apply String.eqb_eq, oport_inj in F2. now subst.
    + pose proof (find_none _ _ F _ Hi) as X. cbn in X. rewrite (port_map_find iport n k iport_inj Hk) in X.
      now rewrite String.eqb_refl in X.
  - intros y ms. rewrite (jtuple_spec (fun x => at_time (hist x evs) t)); auto. cbn [sfind].
    destruct (find _ names) as [x|] eqn:F; [|discriminate]. intros _.
    apply find_some in F as [F1 F2]. apply Nu in F1 as (k & Hk & ->). rewrite (port_map_find iport n k iport_inj Hk) in F2.
    apply String.eqb_eq in F2. eauto.
Qed.

Lemma mk_join_fresh id n o : mk_join id n = Ok o ->
  exists b, o = Op b (KJoin (port_map iport n)) /\ (2 <= n)%nat /\ fresh n b /\
    processes b (KJoin (port_map iport n)) (fun ms => jtuple (skeys (o_data b)) ms (port_map iport n) []).
Proof.
  unfold mk_join. destruct (Nat.ltb_spec n 2); [discriminate|].
  destruct (add_ports (seq 1 n) 0 true (base0 id)) as [b| | | |] eqn:A; try discriminate. cbn. intros [= <-].
  apply fresh_ports in A as (Fr & _). exists b. split; auto. split; auto. split; [exact Fr|]. split; [exact I|].
  intros ports1 t K1 W1 Al. cbn [join_process set_data o_data]. rewrite (join_tuple_eq _ t); auto; [now rewrite K1|].
  intros x Hx. rewrite K1 in Hx. apply Fr in Hx. apply port_map_join in Hx as (k & _ & E). congruence.
Qed.

(** ** The two-input operators *)

Lemma mk_binary_fresh id f o : mk_binary id f = Ok o ->
  exists b, o = Op b (KBinary f) /\ fresh 2 b /\ skeys (o_data b) = ["i1"; "i2"] /\
    processes b (KBinary f) (fun ms => match ms with
      | [m0; m1] => match bin_apply f (mval m0) (mval m1) with Some v => out1 (mkMsg (mtime m0) v) | None => [] end
      | _ => [] end).
Proof.
  unfold mk_binary. destruct (add_ports (seq 1 2) 0 false (base0 id)) as [b| | | |] eqn:A; try discriminate.
  change (rbind (Ok b) (fun b => Ok (Op (add_out b "o1") (KBinary f)))) with (@Ok op (Op (add_out b "o1") (KBinary f))).
  intros H. assert (E : Op (add_out b "o1") (KBinary f) = o) by congruence. subst o. clear H.
  exists (add_out b "o1"). split; auto.
  assert (K : skeys (o_data b) = ["i1"; "i2"]) by (cbn in A; injection A as <-; reflexivity).
  apply fresh_ports in A as (Fr & _). split; [exact Fr|]. split; [exact K|]. split; [exact I|].
  intros ports1 t K1 W1 Al. change (o_data (add_out b "o1")) with (o_data b) in K1. rewrite K in K1.
  destruct ports1 as [|[x0 p0] [|[x1 p1] [|]]]; try discriminate. cbn in K1. injection K1 as -> ->.
  destruct (Al "i1" p0) as (m0 & r0 & E0 & T0); [cbn; auto|]. destruct (Al "i2" p1) as (m1 & r1 & E1 & T1); [cbn; auto|].
  cbn. unfold d_msg. cbn. rewrite E0, E1. cbn. reflexivity.
Qed.

(** ** Linear *)

Lemma linear_loop_eq t : forall ports coeff t0 acc, all_at t ports -> length ports = length coeff ->
  linear_loop ports coeff t0 acc =
  Ok (mkMsg (match ports with [] => t0 | _ => t end)
            (fold_left (fun a mc => vadd a (vmul (mval (fst mc)) (snd mc)))
               (combine (map (fun np => hd msg0 (ip_data (snd np))) ports) coeff) acc)).
Proof.
  induction ports as [|[x p] l IH]; intros coeff t0 acc Al L; [reflexivity|].
  destruct coeff as [|c cs]; [discriminate|]. cbn [linear_loop].
  destruct (Al x p) as (m & r & Em & Tm); [cbn; auto|]. rewrite Em.
  rewrite IH by (auto; intros y q Hy; apply (Al y q); cbn; auto). cbn [map combine fold_left fst snd]. rewrite Em. cbn [hd].
  f_equal. f_equal. destruct l; auto.
Qed.

Lemma mk_linear_fresh id coeff o : mk_linear id coeff = Ok o ->
  exists b, o = Op b (KLinear coeff) /\ (2 <= length coeff)%nat /\ fresh (length coeff) b /\
    length (o_data b) = length coeff /\
    processes b (KLinear coeff) (fun ms => out1 (mkMsg (mtime (hd msg0 ms))
      (fold_left (fun a mc => vadd a (vmul (mval (fst mc)) (snd mc))) (combine ms coeff) v0))).
Proof.
  unfold mk_linear. destruct (Nat.ltb_spec (length coeff) 2); [discriminate|].
  destruct (add_ports (seq 1 (length coeff)) 0 false (base0 id)) as [b| | | |] eqn:A; try discriminate. cbn. intros [= <-].
  apply fresh_ports in A as (Fr & _). exists (add_out b "o1"). split; auto. split; auto. split; [exact Fr|].
  assert (Ln : length (o_data b) = length coeff).
  { destruct Fr as (W & Nu & _). rewrite <- (map_length fst (o_data b)). change (map fst (o_data b)) with (skeys (o_data b)).
    rewrite <- (seq_length (length coeff) 1), <- (map_length iport). apply Nat.le_antisymm; apply NoDup_incl_length.
    - now apply swf_NoDup.
    - intros x Hx. apply Nu in Hx as (k & Hk & ->). apply in_map, in_seq. lia.
    - apply FinFun.Injective_map_NoDup; [|apply seq_NoDup]. intros u v. apply iport_inj.
    - intros x Hx. apply in_map_iff in Hx as (k & <- & Hk). apply in_seq in Hk. apply Nu. exists k. split; auto. lia. }
  split; [exact Ln|]. split; [exact I|].
  intros ports1 t K1 W1 Al. cbn [join_process set_data o_data].
  assert (L1 : length ports1 = length coeff).
  { rewrite <- Ln. rewrite <- (map_length fst ports1), <- (map_length fst (o_data b)). unfold skeys in K1. cbn in K1. now rewrite K1. }
  rewrite (linear_loop_eq t) by auto. cbn [rbind]. f_equal. f_equal.
  destruct ports1 as [|[x p] l]; [cbn in L1; lia|]. cbn [map hd fst snd].
  destruct (Al x p) as (m & r & Em & Tm); [cbn; auto|]. rewrite Em. cbn [hd]. now rewrite Tm.
Qed.

Lemma alphabetical_keys n b l : fresh n b -> alphabetical n l -> skeys (o_data b) = map iport l.
Proof.
  intros (W & Nu & _) (Hl & Sl). unfold numbered in Nu. apply ssorted_ext; auto.
  intros x. rewrite Nu, in_map_iff. split; intros (k & A & B); exists k; [|rewrite Hl in B; auto]. split; auto. now apply Hl.
Qed.

(** ** Ports that follow one clock *)

Lemma increasing_app_l (a b : list Z) : increasing (a ++ b) -> increasing a.
Proof.
  unfold increasing. induction a as [|x l IH]; intros Hi; [constructor|]. cbn in Hi. inversion Hi as [|? ? A B]; subst. constructor; auto.
  rewrite Forall_forall in *. intros y Hy. apply B, in_or_app; auto.
Qed.

Lemma increasing_prefix_below (clk a b : list Z) x y : increasing clk -> clk = a ++ b -> In x a -> In y clk -> y < x -> In y a.
Proof.
  intros Hi E Hx Hy L. subst clk. apply in_app_or in Hy as [|Hy]; auto.
  induction a as [|z a IH]; [destruct Hx|]. cbn in Hi. inversion Hi as [|? ? Hi' F]; subst. rewrite Forall_forall in F.
  destruct Hx as [->|Hx]; [|right; auto]. specialize (F y (in_or_app _ _ _ (or_intror Hy))). lia.
Qed.

Lemma clocked_lengths names H E ports clk :
  join_inv names H E ports -> increasing clk ->
  (forall n, In n names -> exists later, clk = times (H n) ++ later) ->
  forall n p, In (n, p) ports -> length (H n) = (length E + length (ip_data p))%nat.
Proof.
  intros (K & IE & I) Hi Hc n p Hn. destruct (I n p Hn) as (dr & Eh & EE & ED).
  assert (Hn' : In n names) by (rewrite <- K; eapply key_in; eauto).
  destruct (Hc n Hn') as (la & El).
  enough (Ed : times dr = E) by (rewrite Eh, app_length, <- Ed; unfold times; now rewrite map_length).
  assert (Hin : increasing (times (dr ++ ip_data p))).
  { rewrite <- Eh. rewrite El in Hi. now apply increasing_app_l in Hi. }
  apply increasing_app_inv in Hin as (Hin & _ & _).
  apply increasing_ext; auto. intros x. split; auto. intros Hx. destruct (ED x Hx) as [|(n' & Hn'' & Nx & y & Hy & L)]; auto.
  exfalso. apply Nx. destruct (Hc n' Hn'') as (la' & El').
  apply (increasing_prefix_below clk (times (H n')) la' y x Hi El' Hy); auto. rewrite El. apply in_or_app. left.
  rewrite Eh. unfold times. rewrite map_app. apply in_or_app. auto.
Qed.

Lemma clocked_total names H E ports clk :
  join_inv names H E ports -> increasing clk ->
  (forall n, In n names -> exists later, clk = times (H n) ++ later) ->
  total ports = list_sum (map (fun n => (length (H n) - length E)%nat) names).
Proof.
  intros J Hi Hc. pose proof (clocked_lengths _ _ _ _ _ J Hi Hc) as L. destruct J as (<- & _). clear Hi Hc.
  induction ports as [|[n p] l IH]; auto. cbn [total skeys map fst list_sum fold_right].
  rewrite (IH (fun n p Hp => L n p (or_intror Hp))). specialize (L n p (or_introl eq_refl)). unfold list_sum, skeys. cbn. lia.
Qed.

Lemma paced_run b0 k n g arrivals clk :
  (1 <= n)%nat -> fresh n b0 -> processes b0 k g ->
  Forall (fun km => (1 <= fst km <= n)%nat) arrivals -> one_clock n clk (paced arrivals) ->
  exists outs ports ts, run_ok b0 k (skeys (o_data b0)) g (paced arrivals) outs ports ts /\ some_empty ports.
Proof.
  intros Hn Fr (Kj & Hg) Ha (Hi & Hc). pose proof (names_ne n b0 Hn Fr) as Nn. pose proof Fr as (W0 & Nu & Em).
  assert (Hcl : forall x, In x (skeys (o_data b0)) -> exists later, clk = times (hist x (paced arrivals)) ++ later).
  { intros x Hx. apply Nu in Hx as (j & Hj & ->). auto. }
  clear Hc. induction arrivals as [|[j m] arr IH] using rev_ind.
  - exists [], (o_data b0), []. split; [now apply run_nil|]. destruct (o_data b0) as [|[x p] l] eqn:D; [cbn in Nn; congruence|].
    exists x, p. split; [cbn; auto|]. eapply Em. cbn; eauto.
  - apply Forall_app in Ha as [Ha Hj]. inversion Hj as [|? ? Hj' _]; subst. cbn [fst] in Hj'. clear Hj.
    unfold paced in *. rewrite flat_map_app in *. cbn [flat_map fst snd app] in *. fold (paced arr) in *.
    assert (Hcl0 : forall x, In x (skeys (o_data b0)) -> exists later, clk = times (hist x (paced arr)) ++ later).
    { intros x Hx. destruct (Hcl x Hx) as (la & E). rewrite hist_app in E. unfold times in *. rewrite map_app, <- app_assoc in E. eauto. }
    destruct (IH Ha Hcl0) as (outs & ports & ts & R & x0 & p0 & Hx0 & Ex0).
    set (names := skeys (o_data b0)) in *.
    assert (Hcl1 : forall x, In x names -> exists later, clk = times (hist x (paced arr ++ [EData (iport j) m])) ++ later).
    { intros x Hx. destruct (Hcl x Hx) as (la & E). exists la. rewrite E. f_equal. f_equal.
      change (paced arr ++ [EData (iport j) m; EExec]) with (paced arr ++ [EData (iport j) m] ++ [EExec]).
      now rewrite app_assoc, hist_exec. }
    assert (Inc1 : all_increasing names (fun x => hist x (paced arr ++ [EData (iport j) m]))).
    { intros x Hx. destruct (Hcl1 x Hx) as (la & E). cbn. rewrite E in Hi. now apply increasing_app_l in Hi. }
    destruct (data_step b0 k names g Kj (paced arr) outs ports ts (iport j) m) as (ports1 & R1 & T1 & Q1); auto.
    { apply Nu. eauto. }
    { apply iport_ne. }
    destruct (exec_step b0 k names g Kj Nn eq_refl Hg _ _ _ _ Inc1 R1) as (out & ports2 & t & R2 & D).
    rewrite <- app_assoc in R2. cbn [app] in R2.
    exists ((outs ++ [[]]) ++ [out]), ports2, ((ts ++ [None]) ++ [t]). split; auto.
    destruct D as [[Se _]|D]; auto.
    destruct R as (_ & _ & J & _). destruct R1 as (_ & _ & J1 & _). destruct R2 as (_ & W2 & J2 & _).
    pose proof (clocked_lengths _ _ _ _ _ J Hi Hcl0 x0 p0 Hx0) as L0. rewrite Ex0 in L0. cbn in L0.
    rewrite (clocked_total _ _ _ _ _ J1 Hi Hcl1), (clocked_total _ _ _ _ _ J2 Hi Hcl) in D.
    assert (Hh : forall x, hist x (paced arr ++ [EData (iport j) m; EExec]) = hist x (paced arr ++ [EData (iport j) m])).
    { intros x. change (paced arr ++ [EData (iport j) m; EExec]) with (paced arr ++ [EData (iport j) m] ++ [EExec]).
      now rewrite app_assoc, hist_exec. }
    destruct t as [t|].
    + assert (Hx2 : In x0 (skeys ports2)).
      { destruct J2 as (-> & _). destruct J as (<- & _). eapply key_in; eauto. }
      apply In_skeys_sfind in Hx2 as (p2 & F2). apply sfind_In in F2. exists x0, p2. split; auto.
      pose proof (clocked_lengths _ _ _ _ _ J2 Hi Hcl x0 p2 F2) as L2. cbn in L2.
      rewrite Hh, hist_data in L2. rewrite !somes_app, !app_length in L2. cbn in L2. unfold upd in L2.
      destruct (ip_data p2); auto. destruct (String.eqb x0 (iport j)); rewrite ?app_length in L2; cbn in L2; lia.
    + exfalso. rewrite (somes_app (ts ++ [None])), app_nil_r in D.
      replace (map (fun n0 => (length (hist n0 (paced arr ++ [EData (iport j) m; EExec])) - length (somes (ts ++ [None])))%nat) names)
        with (map (fun n0 => (length (hist n0 (paced arr ++ [EData (iport j) m])) - length (somes (ts ++ [None])))%nat) names) in D; [lia|].
      apply map_ext. intros x. now rewrite Hh.
Qed.

Lemma one_clock_ordered n clk evs : one_clock n clk evs -> ordered_ports n evs.
Proof.
  intros (Hi & Hc) j Hj. destruct (Hc j Hj) as (la & E). rewrite E in Hi. now apply increasing_app_l in Hi.
Qed.

(** ** Output ports of Join *)

Lemma on_port_join n evs outs pend k : (1 <= k <= n)%nat -> synchronized n (one_per_port n evs) evs outs pend ->
  exists ts, common_times n evs = ts ++ pend /\ on_port (oport k) outs = map (at_time (hist (iport k) evs)) ts.
Proof.
  intros Hk (ts & F & E). exists (somes ts). split; auto. clear E. induction F as [|t out ts outs H F IH]; auto.
  unfold on_port in *. cbn [flat_map]. rewrite IH. destruct t as [t|]; cbn [somes map].
  - destruct H as [H _]. specialize (H k Hk).
    transitivity ([at_time (hist (iport k) evs) t] ++ map (at_time (hist (iport k) evs)) (somes ts)); [|reflexivity].
    f_equal. etransitivity; [apply (f_equal (fun x => match x with Some ms => ms | None => [] end) H)|]. reflexivity.
  - rewrite H. reflexivity.
Qed.

Lemma on_port_other n evs outs pend x : (forall k, (1 <= k <= n)%nat -> x <> oport k) ->
  synchronized n (one_per_port n evs) evs outs pend -> on_port x outs = [].
Proof.
  intros Hx (ts & F & E). clear E. induction F as [|t out ts outs H F IH]; auto.
  unfold on_port in *. cbn [flat_map]. rewrite IH, app_nil_r. destruct t as [t|]; [|rewrite H; reflexivity].
  assert (S : sfind x out = None).
  { destruct (sfind x out) eqn:S; auto. destruct H as [_ H]. apply H in S as (k & Hk & ->). exfalso. now apply (Hx k Hk). }
  etransitivity; [apply (f_equal (fun x => match x with Some ms => ms | None => [] end) S)|]. reflexivity.
Qed.

Lemma at_time_spec h t : In t (times h) -> In (at_time h t) h /\ mtime (at_time h t) = t.
Proof.
  intros H. unfold at_time. apply in_map_iff in H as (m & E & Hm).
  assert (X : In m (filter (fun m => mtime m =? t) h)) by (apply filter_In; split; auto; now apply Z.eqb_eq).
  destruct (filter _ h) as [|a l] eqn:Fl; [destruct X|]. cbn.
  assert (Y : In a (filter (fun m => mtime m =? t) h)) by (rewrite Fl; cbn; auto).
  apply filter_In in Y as [Y1 Y2]. apply Z.eqb_eq in Y2. auto.
Qed.

End Kinds.
