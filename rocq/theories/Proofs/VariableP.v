(** * Variable: the operator behaves like its specification *)

From Coq Require Import String ZArith Bool List Lia Sorted.
From Verif Require Import Base.StrMap Base.Num Model.Core Model.Ops Model.Make Model.Run.
From Verif Require Import Spec.Streams Spec.Variable Proofs.Lists Proofs.Window.
Import ListNotations.
Open Scope string_scope.
Open Scope list_scope.
Open Scope Z_scope.
Open Scope rtbot_scope.

Section VariableP.
Context {NO : NumOps}.

Lemma increasing_app_inv (l1 l2 : list msg) :
  increasing (times (l1 ++ l2)) ->
  increasing (times l1) /\ increasing (times l2) /\ (forall a b, In a l1 -> In b l2 -> mtime a < mtime b).
Proof.
  induction l1 as [|x l1 IH]; cbn; intros H.
  - split; [constructor|]. split; auto. intros ? ? [].
  - inversion H as [|? ? H1 H2]; subst. destruct (IH H1) as (A & B & C).
    rewrite Forall_forall in H2. split; [|split]; auto.
    + constructor; auto. apply Forall_forall. intros z Hz. apply H2. unfold times. rewrite map_app. apply in_or_app; auto.
    + intros a b [<-|Ha] Hb; auto. apply H2. unfold times. rewrite map_app. apply in_or_app. right. now apply in_map.
Qed.

Lemma covered_app l1 l2 q : covered (l1 ++ l2) q = covered l1 q || covered l2 q.
Proof. apply existsb_app. Qed.

Lemma covered_before l q : (forall m, In m l -> mtime m < q) -> covered l q = false.
Proof.
  intros H. unfold covered. induction l as [|m l IH]; cbn; auto.
  rewrite IH by (intros; apply H; cbn; auto).
  destruct (Z.leb_spec q (mtime m)); auto. assert (mtime m < q) by (apply H; cbn; auto). lia.
Qed.

(** older data does not matter *)
Lemma value_at_app dflt l1 f l2 q :
  mtime f <= q -> value_at dflt (l1 ++ f :: l2) q = value_at dflt (f :: l2) q.
Proof.
  intros H. unfold value_at. rewrite filter_app. cbn [filter].
  destruct (Z.leb_spec (mtime f) q); [|lia].
  generalize (filter (fun m => mtime m <=? q) l1) as l. generalize (filter (fun m => mtime m <=? q) l2) as r.
  intros r l. induction l as [|x l IH]; auto. cbn [app]. rewrite <- IH. destruct l; reflexivity.
Qed.

Lemma value_at_here dflt f l q :
  mtime f <= q -> (forall m, In m l -> q < mtime m) -> value_at dflt (f :: l) q = mval f.
Proof.
  intros H Hl. unfold value_at. cbn [filter]. destruct (Z.leb_spec (mtime f) q); [|lia].
  replace (filter (fun m => mtime m <=? q) l) with (@nil msg); auto.
  symmetry. induction l as [|x l IH]; cbn; auto. destruct (Z.leb_spec (mtime x) q).
  - assert (q < mtime x) by (apply Hl; cbn; auto). lia.
  - apply IH. intros; apply Hl; cbn; auto.
Qed.

Lemma value_at_default dflt l q : (forall m, In m l -> q < mtime m) -> value_at dflt l q = dflt.
Proof.
  intros Hl. unfold value_at.
  replace (filter (fun m => mtime m <=? q) l) with (@nil msg); auto.
  symmetry. induction l as [|x l IH]; cbn; auto. destruct (Z.leb_spec (mtime x) q).
  - assert (q < mtime x) by (apply Hl; cbn; auto). lia.
  - apply IH. intros; apply Hl; cbn; auto.
Qed.

Lemma inc_cons_lt f l : increasing (times (f :: l)) -> forall m, In m l -> mtime f < mtime m.
Proof.
  cbn. intros H m Hm. inversion H as [|? ? _ H2]; subst. rewrite Forall_forall in H2. apply H2. now apply in_map.
Qed.

Lemma var_loop_spec dflt q data f : increasing (times (f :: data)) -> mtime f < q ->
  match var_loop q (f :: data) with
  | (Some v, q') => covered (f :: data) q = true /\ v = value_at dflt (f :: data) q /\
      exists dr g r, q' = g :: r /\ f :: data = dr ++ q' /\ mtime g <= q
  | (None, q') => covered (f :: data) q = false /\
      exists dr g r, q' = g :: r /\ f :: data = dr ++ q' /\ mtime g <= q
  end.
Proof.
  revert f. induction data as [|g l IH]; intros f Hi Hf.
  - cbn. split.
    + destruct (Z.leb_spec q (mtime f)); [lia|reflexivity].
    + exists [], f, []. repeat split; auto. lia.
  - change (var_loop q (f :: g :: l)) with
      (if (mtime f <? q) && (q <? mtime g) then (Some (mval f), f :: g :: l)
       else if q =? mtime g then (Some (mval g), g :: l) else var_loop q (g :: l)).
    assert (Hg : mtime f < mtime g) by (apply (inc_cons_lt f (g :: l)); cbn; auto).
    assert (Hi' : increasing (times (g :: l))) by (inversion Hi; auto).
    pose proof (inc_cons_lt g l Hi') as Hl.
    destruct (Z.ltb_spec (mtime f) q); [|lia]. cbn [andb].
    destruct (Z.ltb_spec q (mtime g)).
    + split; [|split].
      * cbn. destruct (Z.leb_spec q (mtime g)); [|lia]. cbn. now rewrite orb_true_r.
      * rewrite value_at_here; auto; [lia|]. intros m [<-|Hm]; auto. specialize (Hl m Hm). lia.
      * exists [], f, (g :: l). repeat split; auto. lia.
    + destruct (Z.eqb_spec q (mtime g)) as [->|N].
      * split; [|split].
        -- cbn. destruct (Z.leb_spec (mtime g) (mtime g)); [|lia]. cbn. now rewrite orb_true_r.
        -- change (f :: g :: l) with ([f] ++ g :: l). rewrite value_at_app by lia. rewrite value_at_here; auto; lia.
        -- exists [f], g, l. repeat split; auto; lia.
      * specialize (IH g Hi' ltac:(lia)). destruct (var_loop q (g :: l)) as [[v|] q'].
        -- destruct IH as (C & E & dr & h & r & -> & D & T). split; [|split].
           ++ change (f :: g :: l) with ([f] ++ g :: l). rewrite covered_app, C. apply orb_true_r.
           ++ change (f :: g :: l) with ([f] ++ g :: l). rewrite value_at_app by lia. exact E.
           ++ exists (f :: dr), h, r. rewrite D. auto.
        -- destruct IH as (C & dr & h & r & -> & D & T). split.
           ++ change (f :: g :: l) with ([f] ++ g :: l). rewrite covered_app, C, covered_before; auto.
              intros m [<-|[]]. auto.
           ++ exists (f :: dr), h, r. rewrite D. auto.
Qed.

(** the state after receiving [data] and the questions [qs], with [open] unanswered *)
Definition var_inv (id : string) outs conns (dflt : V) (data : list msg) (qs : list Z) (open : option Z) (o : op) : Prop :=
  exists tp sd sc queue cq init dropped,
    o = Op (mkBase id [("i1", mkPort "i1" (two64 - 1) sd queue)] [("c1", mkPort "c1" 1 sc cq)] outs conns tp)
           (KVariable dflt init) /\
    data = dropped ++ queue /\
    (init = false -> dropped = []) /\
    (init = true -> exists g r q, queue = g :: r /\ mtime g <= q /\ In q qs) /\
    map mtime cq = match open with Some q => [q] | None => [] end /\
    (forall q, open = Some q -> exists qs', qs = qs' ++ [q]).

Lemma var_inv_start id v :
  exists o, mk_variable id v = Ok o /\ var_inv id ["o1"] [] v [] [] None o.
Proof.
  eexists. split; [reflexivity|]. eexists [], v0, v0, [], [], false, []. repeat split; try reflexivity; try discriminate.
Qed.

Lemma var_data id outs conns dflt data qs open o p m :
  var_inv id outs conns dflt data qs open o -> p = "i1" \/ p = "" -> Z.of_nat (length data) < two64 - 1 ->
  exists o', step o (EData p m) = (Ok [], o') /\ var_inv id outs conns dflt (data ++ [m]) qs open o'.
Proof.
  intros (tp & sd & sc & queue & cq & init & dropped & -> & D & I0 & I1 & C & Q) Hp L.
  assert (R : resolve p [("i1", mkPort "i1" (two64 - 1) sd queue)] = "i1") by (destruct Hp as [->| ->]; reflexivity).
  assert (Lq : Z.of_nat (length queue) < two64 - 1) by (rewrite D, app_length in L; lia).
  cbn [step recv_data_local]. unfold recv_data_base. cbn [o_data]. rewrite R. cbn [sfind String.eqb Ascii.eqb Bool.eqb].
  unfold port_receive, ip_size. cbn [ip_max ip_data].
  destruct (Z.eqb_spec (two64 - 1) (Z.of_nat (length queue))); [lia|].
  destruct (Z.ltb_spec (two64 - 1) (Z.of_nat (length queue))); [lia|].
  eexists. split; [reflexivity|].
  eexists _, _, _, (queue ++ [m]), cq, init, dropped. split; [reflexivity|]. split; [now rewrite D, app_assoc|].
  split; auto. split; auto. intros E. destruct (I1 E) as (g & r & q & -> & T & Hin). exists g, (r ++ [m]), q. auto.
Qed.

Lemma var_ctrl id outs conns dflt data qs open o p m :
  var_inv id outs conns dflt data qs open o -> p = "c1" \/ p = "" ->
  exists o', step o (ECtrl p m) = (Ok [], o') /\ var_inv id outs conns dflt data (qs ++ [mtime m]) (Some (mtime m)) o'.
Proof.
  intros (tp & sd & sc & queue & cq & init & dropped & -> & D & I0 & I1 & C & Q) Hp.
  assert (R : resolve p [("c1", mkPort "c1" 1 sc cq)] = "c1") by (destruct Hp as [->| ->]; reflexivity).
  cbn [step recv_ctrl_local]. unfold recv_ctrl_base. cbn [o_ctrl]. rewrite R. cbn [sfind String.eqb Ascii.eqb Bool.eqb].
  assert (X : exists p', port_receive (mkPort "c1" 1 sc cq) m = Ok p' /\ exists s, p' = mkPort "c1" 1 s [m]).
  { unfold port_receive, ip_size. cbn [ip_max ip_data]. destruct open as [q|].
    - destruct cq as [|c [|]]; try discriminate C. cbn. eexists. split; [reflexivity|]. eexists. reflexivity.
    - destruct cq; try discriminate C. cbn. eexists. split; [reflexivity|]. eexists. reflexivity. }
  destruct X as (p' & -> & s & ->). eexists. split; [reflexivity|].
  eexists _, _, _, queue, [m], init, dropped. split; [reflexivity|]. split; auto. split; auto. split; [|split].
  - intros E. destruct (I1 E) as (g & r & q & -> & T & H). exists g, r, q. repeat split; auto. apply in_or_app; auto.
  - reflexivity.
  - intros q [= <-]. eauto.
Qed.

Lemma var_query_spec id outs conns dflt data qs open b v i :
  var_inv id outs conns dflt data qs open (Op b (KVariable v i)) -> increasing (times data) ->
  let '(r, (b', k')) := var_query b v i in
  match open with
  | Some q =>
      if covered data q
      then (r = Ok (emits (mkMsg q (value_at dflt data q))) /\ var_inv id outs conns dflt data qs None (Op b' k')) \/
           (exists e q', r = Throw e /\ In q' qs /\ q < q')
      else r = Ok [] /\ var_inv id outs conns dflt data qs open (Op b' k')
  | None => r = Ok [] /\ var_inv id outs conns dflt data qs open (Op b' k')
  end.
Proof.
  intros (tp & sd & sc & queue & cq & init & dropped & E & D & I0 & I1 & C & Q) Hi.
  injection E as -> -> ->. unfold var_query. cbn [o_data o_ctrl ip_data].
  assert (Stay : forall o', o' = open -> var_inv id outs conns dflt data qs o'
            (Op (mkBase id [("i1", mkPort "i1" (two64 - 1) sd queue)] [("c1", mkPort "c1" 1 sc cq)] outs conns tp) (KVariable dflt init))).
  { intros o' ->. exists tp, sd, sc, queue, cq, init, dropped. auto 10. }
  destruct queue as [|d0 rest].
  { assert (init = false) by (destruct init; auto; destruct I1 as (g & r & q & [=] & _); auto). subst init.
    rewrite (I0 eq_refl) in D. cbn in D. subst data. destruct open as [q|]; cbn; auto. }
  destruct open as [q|].
  2:{ destruct cq; try discriminate C. auto. }
  destruct cq as [|c0 [|]]; try discriminate C. injection C as <-.
  assert (Hq : increasing (times (d0 :: rest))) by (rewrite D in Hi; now apply increasing_app_inv in Hi).
  pose proof (inc_cons_lt d0 rest Hq) as Hr.
  assert (Hd : forall m, In m dropped -> mtime m < mtime d0).
  { intros m Hm. rewrite D in Hi. apply increasing_app_inv in Hi as (_ & _ & Hi). apply Hi; cbn; auto. }
  assert (Cd : forall q, mtime d0 <= q -> covered dropped q = false).
  { intros q Hqq. apply covered_before. intros m Hm. specialize (Hd m Hm). lia. }
  assert (Pop : forall i' dr q' g r,
      (i' = false -> dropped ++ dr = []) -> q' = g :: r -> d0 :: rest = dr ++ q' ->
      (i' = true -> mtime g <= mtime c0) -> forall op cq',
      map mtime cq' = match op with Some q => [q] | None => [] end ->
      (forall q : Z, op = Some q -> exists qs' : list Z, qs = qs' ++ [q]) ->
      var_inv id outs conns dflt data qs op
        (Op (mkBase id [("i1", mkPort "i1" (two64 - 1) sd q')] [("c1", mkPort "c1" 1 sc cq')] outs conns tp) (KVariable dflt i'))).
  { intros i' dr q' g r F -> Eq G op cq' Hc Ho. exists tp, sd, sc, (g :: r), cq', i', (dropped ++ dr).
    split; [reflexivity|]. split; [rewrite D, Eq; now rewrite app_assoc|]. split; auto. split; auto.
    intros Hi'. exists g, r, (mtime c0). destruct (Q _ eq_refl) as (qs' & ->). repeat split; auto. apply in_or_app; cbn; auto. }
  destruct (Z.ltb_spec (mtime c0) (mtime d0)) as [L|L].
  - destruct (Z.leb_spec (mtime d0) (mtime c0)); [lia|].
    assert (Cov : covered data (mtime c0) = true).
    { rewrite D, covered_app. cbn. destruct (Z.leb_spec (mtime c0) (mtime d0)); [|lia]. apply orb_true_r. }
    rewrite Cov. destruct init; cbn [andb negb].
    + right. destruct (I1 eq_refl) as (g & r & q & [= <- <-] & T & H1). eexists _, q. split; [reflexivity|]. split; auto. lia.
    + left. rewrite (I0 eq_refl) in *. cbn [app] in D. subst data. split.
      * unfold out1, emits. rewrite value_at_default; auto. intros m [<-|Hm]; auto. specialize (Hr m Hm). lia.
      * apply (Pop false [] (d0 :: rest) d0 rest) with (op := None); auto; discriminate.
  - cbn [andb]. destruct (Z.leb_spec (mtime d0) (mtime c0)); [|lia].
    destruct (Z.eqb_spec (mtime c0) (mtime d0)) as [Eq|Ne].
    + assert (Cov : covered data (mtime c0) = true).
      { rewrite D, covered_app. cbn. destruct (Z.leb_spec (mtime c0) (mtime d0)); [|lia]. apply orb_true_r. }
      rewrite Cov. left. split.
      * unfold out1, emits. rewrite D, value_at_app by lia. rewrite value_at_here; auto. intros m Hm. specialize (Hr m Hm). lia.
      * apply (Pop true [] (d0 :: rest) d0 rest) with (op := None); auto; try discriminate.
    + pose proof (var_loop_spec dflt (mtime c0) rest d0 Hq ltac:(lia)) as S.
      destruct (var_loop (mtime c0) (d0 :: rest)) as [[v|] q'].
      * destruct S as (Cv & -> & dr & g & r & Eq' & Ed & T).
        assert (Cov : covered data (mtime c0) = true) by (rewrite D, covered_app, Cv; apply orb_true_r).
        rewrite Cov. left. split.
        -- unfold out1, emits. rewrite D, value_at_app by lia. reflexivity.
        -- eapply Pop with (op := None); eauto; discriminate.
      * destruct S as (Cv & dr & g & r & Eq' & Ed & T).
        assert (Cov : covered data (mtime c0) = false) by (rewrite D, covered_app, Cv, Cd by lia; reflexivity).
        rewrite Cov. split; auto.
        eapply Pop with (op := Some (mtime c0)); eauto; discriminate.
Qed.

Lemma sorted_app_last (l : list Z) q q' r : nondecreasing ((l ++ [q]) ++ r) -> In q' (l ++ [q]) -> q < q' -> False.
Proof.
  intros H I L. rewrite <- app_assoc in H. apply in_app_or in I as [I|[->|[]]]; [|lia].
  induction l as [|x l IH]; [destruct I|]. cbn in H. inversion H as [|? ? H1 H2]; subst. destruct I as [->|I]; auto.
  rewrite Forall_forall in H2. assert (q' <= q); [|lia]. apply H2, in_or_app. cbn; auto.
Qed.

Lemma run_variable id outs conns dflt evs : forall data qs open o,
  var_inv id outs conns dflt data qs open o -> variable_calls evs ->
  increasing (times (data ++ received evs)) -> Z.of_nat (length (data ++ received evs)) < two64 ->
  (exists open' o', run o evs = (Ok (variable_answers dflt data open evs), o') /\
     var_inv id outs conns dflt (data ++ received evs) (qs ++ questions evs) open' o') \/
  (exists e o', run o evs = (Throw e, o') /\ ~ nondecreasing (qs ++ questions evs)).
Proof.
  induction evs as [|e evs IH]; intros data qs open o Hinv Hc Hi Hl.
  { left. exists open, o. cbn. rewrite !app_nil_r. auto. }
  inversion Hc as [|? ? Hc1 Hc2]; subst.
  assert (Exec : forall k, (e = EExec \/ e = EExecC) ->
    (exists b v i, o = Op b (KVariable v i) /\ step o e = let '(r, (b', k')) := var_query b v i in (r, Op b' k')) -> k = true ->
    (exists open' o', run o (e :: evs) = (Ok (variable_answers dflt data open (e :: evs)), o') /\
       var_inv id outs conns dflt (data ++ received evs) (qs ++ questions evs) open' o') \/
    (exists e' o', run o (e :: evs) = (Throw e', o') /\ ~ nondecreasing (qs ++ questions evs))).
  { intros _ He (b & v & i & -> & S) _.
    assert (Hr : received (e :: evs) = received evs) by (destruct He as [->| ->]; reflexivity).
    rewrite Hr in *.
    pose proof (increasing_app_inv _ _ Hi) as (Hid & _ & _).
    pose proof (var_query_spec id outs conns dflt data qs open b v i Hinv Hid) as Sp.
    assert (SA : variable_answers dflt data open (e :: evs) =
      match open with
      | Some q =>
          if covered data q
          then emits (mkMsg q (value_at dflt data q)) :: variable_answers dflt data None evs
          else emits_nothing :: variable_answers dflt data open evs
      | None => emits_nothing :: variable_answers dflt data open evs
      end) by (destruct He as [->| ->]; reflexivity).
    rewrite SA. cbn [run]. rewrite S. destruct (var_query b v i) as [r [b' k']].
    destruct open as [q|]; [destruct (covered data q)|].
    - destruct Sp as [[-> Inv']|(e' & q' & -> & Hq' & Lt)].
      + destruct (IH data qs None _ Inv' Hc2 Hi Hl) as [(op & o' & R & I)|(e' & o' & R & N)].
        * left. exists op, o'. cbn. rewrite R. auto.
        * right. exists e', o'. cbn. rewrite R. auto.
      + right. exists e'. eexists. split; [reflexivity|]. intros N.
        destruct Hinv as (tp & sd & sc & queue & cq & init & dropped & _ & _ & _ & _ & _ & Q).
        destruct (Q q eq_refl) as (qs' & ->). eapply sorted_app_last; eauto.
    - destruct Sp as [-> Inv'].
      destruct (IH data qs (Some q) _ Inv' Hc2 Hi Hl) as [(op & o' & R & I)|(e' & o' & R & N)].
      + left. exists op, o'. cbn. rewrite R. auto.
      + right. exists e', o'. cbn. rewrite R. auto.
    - destruct Sp as [-> Inv'].
      destruct (IH data qs None _ Inv' Hc2 Hi Hl) as [(op & o' & R & I)|(e' & o' & R & N)].
      + left. exists op, o'. cbn. rewrite R. auto.
      + right. exists e', o'. cbn. rewrite R. auto. }
  destruct e as [p m|p m| |].
  - cbn [received] in *.
    assert (Ea : data ++ m :: received evs = (data ++ [m]) ++ received evs) by (rewrite <- app_assoc; reflexivity).
    rewrite Ea in *.
    destruct (var_data id outs conns dflt data qs open o p m Hinv Hc1) as (o1 & S & Inv').
    { rewrite !app_length in Hl. cbn [length] in Hl. unfold two64 in *. lia. }
    cbn [run variable_answers questions]. rewrite S.
    destruct (IH _ qs open _ Inv' Hc2 Hi Hl) as [(op & o' & R & I)|(e' & o' & R & N)].
    + left. exists op, o'. cbn. rewrite R. auto.
    + right. exists e', o'. cbn. rewrite R. auto.
  - cbn [received questions] in *.
    destruct (var_ctrl id outs conns dflt data qs open o p m Hinv Hc1) as (o1 & S & Inv').
    cbn [run variable_answers]. rewrite S.
    assert (Eq : qs ++ mtime m :: questions evs = (qs ++ [mtime m]) ++ questions evs) by (rewrite <- app_assoc; reflexivity).
    rewrite Eq.
    destruct (IH _ _ _ _ Inv' Hc2 Hi Hl) as [(op & o' & R & I)|(e' & o' & R & N)].
    + left. exists op, o'. cbn. rewrite R. auto.
    + right. exists e', o'. cbn. rewrite R. auto.
  - apply (Exec true); auto. destruct Hinv as (tp & sd & sc & queue & cq & init & dropped & -> & _). eexists _, _, _. split; reflexivity.
  - apply (Exec true); auto. destruct Hinv as (tp & sd & sc & queue & cq & init & dropped & -> & _). eexists _, _, _. split; reflexivity.
Qed.

End VariableP.

(** ** Consequences of the specification *)
Section SpecFacts.
Context {NO : NumOps}.

Fixpoint open_after (data : list msg) (open : option Z) (evs : list ev) : option Z :=
  match evs with
  | [] => open
  | EData _ m :: r => open_after (data ++ [m]) open r
  | ECtrl _ m :: r => open_after data (Some (mtime m)) r
  | _ :: r => match open with
              | Some q => if covered data q then open_after data None r else open_after data open r
              | None => open_after data open r
              end
  end.

Lemma va_app dflt e1 : forall data open e2,
  variable_answers dflt data open (e1 ++ e2) =
  variable_answers dflt data open e1 ++ variable_answers dflt (data ++ received e1) (open_after data open e1) e2.
Proof.
  induction e1 as [|e e1 IH]; intros data open e2; cbn; [now rewrite app_nil_r|].
  destruct e; cbn [app]; rewrite ?IH; auto.
  - now rewrite <- app_assoc.
  - destruct open as [q|]; [destruct (covered data q)|]; cbn; now rewrite ?IH.
  - destruct open as [q|]; [destruct (covered data q)|]; cbn; now rewrite ?IH.
Qed.

Lemma oa_app e1 : forall data open e2,
  open_after data open (e1 ++ e2) = open_after (data ++ received e1) (open_after data open e1) e2.
Proof.
  induction e1 as [|e e1 IH]; intros data open e2; cbn; [now rewrite app_nil_r|].
  destruct e; cbn [app]; rewrite ?IH; auto.
  - now rewrite <- app_assoc.
  - destruct open as [q|]; [destruct (covered data q)|]; cbn; now rewrite ?IH.
  - destruct open as [q|]; [destruct (covered data q)|]; cbn; now rewrite ?IH.
Qed.

Lemma va_length dflt evs : forall data open, length (variable_answers dflt data open evs) = length evs.
Proof.
  induction evs as [|e evs IH]; intros; cbn; auto.
  destruct e; cbn; rewrite ?IH; auto; destruct open as [q|]; [destruct (covered data q)| |destruct (covered data q)|]; cbn; now rewrite ?IH.
Qed.

Lemma questions_app e1 e2 : questions (e1 ++ e2) = questions e1 ++ questions e2.
Proof. induction e1 as [|[] e1 IH]; cbn; auto; now rewrite IH. Qed.

(** an open question is the latest one, and nothing was emitted since *)
Lemma open_latest dflt pre q :
  open_after [] None pre = Some q ->
  exists a p m b, pre = a ++ ECtrl p m :: b /\ mtime m = q /\ questions b = [] /\
    forall j, (length a <= j < length pre)%nat -> nth_error (variable_answers dflt [] None pre) j = Some emits_nothing.
Proof.
  induction pre as [|e pre IH] using rev_ind; cbn; [discriminate|].
  rewrite oa_app. cbn [app].
  assert (Keep : forall x, open_after [] None pre = Some q -> questions [e] = [] ->
     variable_answers dflt (received pre) (Some q) [e] = [x] -> x = emits_nothing ->
     exists a p m b, pre ++ [e] = a ++ ECtrl p m :: b /\ mtime m = q /\ questions b = [] /\
       forall j, (length a <= j < length (pre ++ [e]))%nat -> nth_error (variable_answers dflt [] None (pre ++ [e])) j = Some emits_nothing).
  { intros x O Q V ->. destruct (IH O) as (a & p & m & b & -> & M & Qb & H).
    exists a, p, m, (b ++ [e]). split; [rewrite <- app_assoc; reflexivity|]. split; auto.
    split; [rewrite questions_app, Qb; exact Q|].
    intros j Hj. rewrite va_app. rewrite O. cbn [app]. rewrite V.
    destruct (Nat.eq_dec j (length (a ++ ECtrl p m :: b))) as [->|N].
    - rewrite nth_error_app2 by (rewrite va_length; lia). rewrite va_length, Nat.sub_diag. reflexivity.
    - rewrite app_length in Hj. cbn [length] in Hj. rewrite nth_error_app1 by (rewrite va_length; lia). apply H. lia. }
  destruct e as [p m|p m| |]; cbn [open_after].
  - intros O. eapply Keep; eauto; reflexivity.
  - intros [= <-]. exists pre, p, m, []. repeat split; auto.
    intros j Hj. rewrite app_length in Hj. cbn in Hj. assert (j = length pre) as -> by lia.
    rewrite va_app, nth_error_app2 by (rewrite va_length; lia). rewrite va_length, Nat.sub_diag. reflexivity.
  - destruct (open_after [] None pre) as [q0|] eqn:O; [|discriminate].
    destruct (covered (received pre) q0) eqn:C; [discriminate|]. intros [= ->].
    eapply Keep; eauto. cbn. rewrite C. reflexivity.
  - destruct (open_after [] None pre) as [q0|] eqn:O; [|discriminate].
    destruct (covered (received pre) q0) eqn:C; [discriminate|]. intros [= ->].
    eapply Keep; eauto. cbn. rewrite C. reflexivity.
Qed.

Lemma va_sound dflt pre e post out :
  nth_error (variable_answers dflt [] None (pre ++ e :: post)) (length pre) = Some out -> out <> emits_nothing ->
  (e = EExec \/ e = EExecC) /\
  exists a p m b, pre = a ++ ECtrl p m :: b /\ questions b = [] /\
    (forall j, (length a <= j < length pre)%nat ->
       nth_error (variable_answers dflt [] None (pre ++ e :: post)) j = Some emits_nothing) /\
    covered (received pre) (mtime m) = true /\
    out = emits (mkMsg (mtime m) (value_at dflt (received pre) (mtime m))).
Proof.
  rewrite va_app. rewrite nth_error_app2 by (rewrite va_length; lia). rewrite va_length, Nat.sub_diag.
  intros E Ne. cbn [app] in E.
  assert (X : forall q, open_after [] None pre = Some q -> covered (received pre) q = true ->
    out = emits (mkMsg q (value_at dflt (received pre) q)) ->
    exists a p m b, pre = a ++ ECtrl p m :: b /\ questions b = [] /\
    (forall j, (length a <= j < length pre)%nat ->
       nth_error (variable_answers dflt [] None pre ++ variable_answers dflt ([] ++ received pre) (open_after [] None pre) (e :: post)) j = Some emits_nothing) /\
    covered (received pre) (mtime m) = true /\
    out = emits (mkMsg (mtime m) (value_at dflt (received pre) (mtime m)))).
  { intros q O C ->. destruct (open_latest dflt pre q O) as (a & p & m & b & Ep & M & Q & H).
    exists a, p, m, b. rewrite M. repeat split; auto.
    intros j Hj. rewrite nth_error_app1 by (rewrite va_length; lia). auto. }
  destruct e as [p m|p m| |]; cbn in E.
  - injection E as <-. congruence.
  - injection E as <-. congruence.
  - split; auto. destruct (open_after [] None pre) as [q|]; [|injection E as <-; congruence].
    destruct (covered (received pre) q) eqn:C; injection E as <-; [|congruence]. eapply X; eauto.
  - split; auto. destruct (open_after [] None pre) as [q|]; [|injection E as <-; congruence].
    destruct (covered (received pre) q) eqn:C; injection E as <-; [|congruence]. eapply X; eauto.
Qed.

Lemma increasing_value dflt data r q :
  increasing (times (data ++ r)) -> covered data q = true -> value_at dflt (data ++ r) q = value_at dflt data q.
Proof.
  intros H C. unfold value_at. f_equal. f_equal. rewrite filter_app.
  replace (filter (fun m => mtime m <=? q) r) with (@nil msg); [apply app_nil_r|].
  symmetry. apply existsb_exists in C as (x & Hx & Lx). apply Z.leb_le in Lx.
  apply increasing_app_inv in H as (_ & _ & H).
  induction r as [|y r IH]; cbn; auto. assert (mtime x < mtime y) by (apply H; cbn; auto).
  destruct (Z.leb_spec (mtime y) q); [lia|]. apply IH. intros; apply H; cbn; auto.
Qed.

(** the latest question gets exactly one answer once data covers it *)
Lemma va_complete dflt b : forall data q,
  questions b = [] -> increasing (times (data ++ received b)) -> covered (data ++ received b) q = true ->
  forall e, (e = EExec \/ e = EExecC) ->
  on_port "o1" (variable_answers dflt data (Some q) (b ++ [e])) =
  [mkMsg q (value_at dflt (data ++ received b) q)].
Proof.
  assert (None_ : forall b data, questions b = [] -> forall e, (e = EExec \/ e = EExecC) ->
      on_port "o1" (variable_answers dflt data None (b ++ [e])) = []).
  { clear b. induction b as [|x b IH]; intros data Q e He; [destruct He as [->| ->]; reflexivity|].
    destruct x; cbn [questions app variable_answers] in *; try discriminate; unfold on_port; cbn [flat_map sfind emits_nothing app]; apply IH; auto. }
  induction b as [|x b IH]; intros data q Q Hi C e He.
  - cbn [received app] in *. rewrite app_nil_r in *. destruct He as [->| ->]; cbn; rewrite C; reflexivity.
  - destruct x as [p m|p m| |]; cbn [questions received] in *; try discriminate.
    + cbn [app variable_answers]. change (m :: received b) with ([m] ++ received b) in *.
      rewrite (app_assoc data) in *. unfold on_port. cbn [flat_map sfind emits_nothing app]. apply IH; auto.
    + cbn [app variable_answers]. destruct (covered data q) eqn:C'.
      * change (on_port "o1" (?x :: ?l)) with ([mkMsg q (value_at dflt data q)] ++ on_port "o1" l).
        rewrite None_ by auto. rewrite (increasing_value dflt data _ q Hi C'). reflexivity.
      * unfold on_port. cbn [flat_map sfind emits_nothing app]. apply IH; auto.
    + cbn [app variable_answers]. destruct (covered data q) eqn:C'.
      * change (on_port "o1" (?x :: ?l)) with ([mkMsg q (value_at dflt data q)] ++ on_port "o1" l).
        rewrite None_ by auto. rewrite (increasing_value dflt data _ q Hi C'). reflexivity.
      * unfold on_port. cbn [flat_map sfind emits_nothing app]. apply IH; auto.
Qed.

End SpecFacts.
