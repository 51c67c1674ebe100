(** * RelativeStrengthIndex (C27). *)

From Coq Require Import String ZArith QArith Qcanon Bool List Lia.
From Verif Require Import Base.StrMap Base.Num Base.NumQc Model.Core Model.Ops Model.Make Model.Run.
From Verif Require Import Spec.Streams Spec.Operators Spec.RSI Spec.Show.
From Verif Require Import Proofs.Lists Proofs.Window Proofs.RSIP.
Import ListNotations.
Open Scope string_scope.
Open Scope list_scope.
Open Scope Z_scope.

Section C27.
Context {NO : NumOps} {NF : NumField NO}.

Lemma mk_rsi_sop id n g1 g2 g3 g4 o : 1 <= n < two64 - 1 -> mk_rsi id n g1 g2 g3 g4 = Ok o ->
  o = sop id ["o1"] [] (new_port "i1" (n + 1)) false (KRSI g1 g2 g3 g4 false).
Proof.
  intros Hn Ho. unfold mk_rsi in Ho. rewrite mk_simple_sop in Ho. injection Ho as <-.
  replace (wrap (n + 1)) with (n + 1); [reflexivity|].
  unfold wrap, two64 in *. rewrite Z.mod_small; lia.
Qed.

(** One execution per message, as in a program: for every history the operator emits
    nothing for the first [n] messages and Wilder's index from then on.  [g1] .. [g4] are
    the members the constructor leaves uninitialised: they do not matter. *)
Theorem C27_wilder (id : string) (n : Z) (g1 g2 g3 g4 : V) (o : op) (ms : list msg) :
  1 <= n < two64 - 1 -> mk_rsi id n g1 g2 g3 g4 = Ok o ->
  exists o', run o (feed "i1" ms) = (Ok (answers (relative_strength n) (feed "i1" ms)), o').
Proof.
  intros Hn Ho. rewrite (mk_rsi_sop _ _ _ _ _ _ _ Hn Ho). eexists.
  rewrite run_rsi by (auto; apply one_input_feed). f_equal. f_equal.
  unfold answers. apply map_ext_in. intros p Hp. eapply index_feed; eauto. lia.
Qed.

(** Any schedule of arrivals and executions: the averages are updated once per reacting
    execution, with the last change of the window it sees. *)
Theorem C27_any_schedule (id : string) (n : Z) (g1 g2 g3 g4 : V) (o : op) (evs : list ev) :
  1 <= n < two64 - 1 -> mk_rsi id n g1 g2 g3 g4 = Ok o -> one_input evs ->
  exists outs o', run o evs = (Ok outs, o') /\
    Forall2 (fun p out =>
      if reacts (n + 1) p then
        out = emits (mkMsg (last_time (received p))
                       (strength (wilder_windows n gain (seen_windows n p))
                                 (wilder_windows n loss (seen_windows n p))))
      else out = emits_nothing) (prefixes evs) outs.
Proof.
  intros Hn Ho Hone. rewrite (mk_rsi_sop _ _ _ _ _ _ _ Hn Ho). eexists _, _.
  split; [apply run_rsi; auto|].
  induction (prefixes evs) as [|p l IH]; cbn [map]; constructor; auto.
  unfold index_now. destruct (reacts (n + 1) p); reflexivity.
Qed.

(** every emitted value lies in [0, 100] *)
Theorem C27_in_range (id : string) (n : Z) (g1 g2 g3 g4 : V) (o : op) (evs : list ev) outs o' :
  1 <= n < two64 - 1 -> mk_rsi id n g1 g2 g3 g4 = Ok o -> one_input evs ->
  run o evs = (Ok outs, o') ->
  forall m, In m (on_port "o1" outs) ->
  vle v0 (mval m) = true /\ vle (mval m) (vofZ 100) = true.
Proof.
  intros Hn Ho Hone R m Hm. rewrite (mk_rsi_sop _ _ _ _ _ _ _ Hn Ho) in R.
  rewrite run_rsi in R by auto. injection R as <- _.
  unfold on_port in Hm. apply in_flat_map in Hm as (out & Hout & Hm).
  apply in_map_iff in Hout as (p & <- & _). unfold index_now in Hm.
  destruct (reacts (n + 1) p); [|destruct Hm].
  change (In m [mkMsg (last_time (received p))
                       (strength (wilder_windows n gain (seen_windows n p))
                                 (wilder_windows n loss (seen_windows n p)))]) in Hm.
  destruct Hm as [<-|[]].
  cbn [mval]. apply strength_range; apply wilder_windows_nonneg; try lia;
    auto using gain_nonneg, loss_nonneg, seen_windows_long. 
  all: apply seen_windows_long; lia.
Qed.

(** without a loss so far the index is 100, without a gain (and with a loss) it is 0 *)
Theorem C27_extremes (n : Z) (hist : list msg) :
  1 <= n -> n + 1 <= Z.of_nat (length hist) ->
  let d := changes (values hist) in
  (Forall (fun x => vlt x v0 = false) d ->
     relative_strength n hist = emits (mkMsg (last_time hist) (vofZ 100))) /\
  (vlt v0 (wilder n (map loss d)) = true -> Forall (fun x => vlt v0 x = false) d ->
     relative_strength n hist = emits (mkMsg (last_time hist) v0)).
Proof.
  intros Hn Hl d. unfold relative_strength.
  destruct (Z.ltb_spec (Z.of_nat (length hist)) (n + 1)); [lia|]. fold d. clearbody d.
  assert (Z0 : forall part, Forall (fun x => part x = v0) d -> wilder n (map part d) = v0).
  { intros part Hd. unfold wilder.
    assert (M : Forall (fun x => x = v0) (map part d)).
    { rewrite Forall_forall in *. intros x Hx. apply in_map_iff in Hx as (y & <- & Hy). auto. }
    rewrite <- (firstn_skipn (Z.to_nat n) (map part d)) in M. apply Forall_app in M as [M1 M2].
    assert (B : mean (firstn (Z.to_nat n) (map part d)) = v0).
    { unfold mean. assert (Sv : vsum (firstn (Z.to_nat n) (map part d)) = v0).
      { unfold vsum. induction M1 as [|x l Hx M1 IH]; [reflexivity|]. subst x.
        cbn [fold_left]. rewrite FieldFacts.vsum_zero. exact IH. }
      rewrite Sv. apply FieldFacts.v_zero_div. }
    rewrite B. clear B M1. induction M2 as [|x l Hx M2 IH]; [reflexivity|]. subst x. cbn [fold_left].
    replace (smooth n v0 v0) with v0; [exact IH|]. symmetry. unfold smooth.
    rewrite FieldFacts.v_zero_mul, FieldFacts.vsum_zero. apply FieldFacts.v_zero_div. }
  split.
  - intros Hd. rewrite (Z0 loss). { unfold strength. now rewrite v_lt_irrefl. }
    eapply Forall_impl; [|exact Hd]. intros x Hx. unfold loss. cbv beta in Hx. now rewrite Hx.
  - intros HL Hd. rewrite (Z0 gain).
    + unfold strength. rewrite HL. rewrite FieldFacts.v_zero_div, FieldFacts.v_one_zero, FieldFacts.v_div_one.
      now rewrite FieldFacts.v_sub_self.
    + eapply Forall_impl; [|exact Hd]. intros x Hx. unfold gain. cbv beta in Hx. now rewrite Hx.
Qed.

End C27.
Print Assumptions C27_wilder.
Print Assumptions C27_any_schedule.
Print Assumptions C27_in_range.
Print Assumptions C27_extremes.

(** n = 2: the changes are 2, -1, 3, -4 *)
Example C27_example :
  show_outs (fst (run (sop "rsi" ["o1"] [] (new_port "i1" 3) false (KRSI (qc_ofZ 7) (qc_ofZ 7) (qc_ofZ 7) (qc_ofZ 7) false))
    (feed "i1" [im 1 10; im 2 12; im 3 11; im 4 14; im 5 10])))
  = Ok [[]; []; []; []; []; [("o1", [(3, (200 # 3)%Q)])]; []; [("o1", [(4, (800 # 9)%Q)])];
        []; [("o1", [(5, 32%Q)])]] .
Proof. vm_compute. reflexivity. Qed.
