(** * A ConstantResampler that never stops *)

From Coq Require Import String ZArith Bool List Lia.
From Verif Require Import Base.StrMap Base.Num Model.Core Model.Ops Model.Make Model.Run Model.Graph.
From Verif Require Import Proofs.Lists Proofs.Window Proofs.Iter Proofs.LogRun.
Import ListNotations.
Open Scope string_scope.
Open Scope list_scope.
Open Scope Z_scope.
Open Scope rtbot_scope.

Arguments iter_pos : simpl never.
Arguments cr_process : simpl never.
Local Strategy 1000 [iter_pos cr_process].

Section Spin.
Context {NO : NumOps}.

Lemma iter_n_stuck {S R} (step : S -> S + R) (I : S -> Prop) :
  (forall s, I s -> exists s', step s = inl s' /\ I s') ->
  forall k s, I s -> exists s', iter_n step k s = inl s' /\ I s'.
Proof.
  intros H. induction k as [|k IH]; intros s Hs; cbn; [eauto|].
  destruct (H s Hs) as (s' & -> & Hs'). auto.
Qed.

Lemma cr_spins next lastv m : mtime m = (2 ^ 64 - 1)%Z -> (Z.even next = true /\ 0 <= next < 2 ^ 64)%Z ->
  cr_process 2 next true lastv m = Diverges.
Proof.
  intros Hm Hn. unfold cr_process. cbn [negb]. rewrite iter_pos_n.
  destruct (iter_n_stuck (cr_step 2 (mtime m) lastv) (fun s => (Z.even (fst s) = true /\ 0 <= fst s < 2 ^ 64)%Z))
    with (k := Pos.to_nat 18446744073709551616) (s := (next, @nil msg)) as ((next' & acc) & -> & _); [|exact Hn|reflexivity].
  intros [a acc] [E B]. cbn [fst] in *. unfold cr_step.
  apply Z.even_spec in E as (j & ->).
  destruct (Z.ltb_spec (2 * j) (mtime m)) as [L|L]; [|exfalso; lia].
  eexists. split; [reflexivity|]. cbn [fst]. unfold wrap, two64.
  pose proof (Z.mod_pos_bound (2 * j + 2) 18446744073709551616 ltac:(lia)) as Bd. change (2 ^ 64)%Z with 18446744073709551616%Z. split; [|exact Bd].
  apply Z.even_spec. exists ((j + 1) mod 9223372036854775808)%Z.
  replace (2 * j + 2)%Z with (2 * (j + 1))%Z by lia.
  change 18446744073709551616%Z with (2 * 9223372036854775808)%Z. rewrite Z.mul_mod_distr_l; lia.
Qed.


Definition spin_heap (hist : list msg) (next : Z) (i : bool) (v : V) : heap :=
  [("r", sop "r" ["o1"] [] (port_after "i1" 1 hist) false (KConstResampler 2 next i v))].

Lemma spin_exec hist m next i v :
  exec_data_local (sop "r" ["o1"] [] (port_after "i1" 1 (hist ++ [m])) true (KConstResampler 2 next i v)) =
  match cr_process 2 next i v m with
  | Ok (e, (next', i', v')) =>
      (Ok (match e with [] => [] | _ => [("o1", e)] end),
       sop "r" ["o1"] [] (port_after "i1" 1 (hist ++ [m])) false (KConstResampler 2 next' i' v'))
  | Throw e => (Throw e, sop "r" ["o1"] [] (port_after "i1" 1 (hist ++ [m])) true (KConstResampler 2 next i v))
  | Diverges => (Diverges, sop "r" ["o1"] [] (port_after "i1" 1 (hist ++ [m])) true (KConstResampler 2 next i v))
  | _ => (UB, sop "r" ["o1"] [] (port_after "i1" 1 (hist ++ [m])) true (KConstResampler 2 next i v))
  end.
Proof.
  rewrite exec_sop by reflexivity. rewrite port_after_full by lia. rewrite app_length, Nat2Z.inj_add.
  destruct (Z.ltb_spec (Z.of_nat (length hist) + Z.of_nat (length [m])) (eff 1)) as [L|L]; [exfalso; cbn in L; lia|].
  cbn [negb andb]. unfold proc.
  assert (D : d_last (mkBase "r" [("i1", port_after "i1" 1 (hist ++ [m]))] [] ["o1"] [] ["i1"]) "i1" = Ok m).
  { unfold d_last. cbn [o_data sfind]. rewrite String.eqb_refl, port_after_data by lia. change (Z.to_nat (eff 1)) with 1%nat. rewrite lastn_snoc, last_last. reflexivity. }
  cbn [process_data]. 
  change (single_port (mkBase "r" [("i1", port_after "i1" 1 (hist ++ [m]))] [] ["o1"] [] ["i1"])) with (Ok "i1").
  cbn [rbind]. rewrite D. cbn [rbind].
  destruct (cr_process 2 next i v m) as [[e [[next' i'] v']]|e| | |]; reflexivity.
Qed.

Lemma spin_recv n hist m next i v :
  recv_data n (sop "r" ["o1"] [] (port_after "i1" 1 hist) false (KConstResampler 2 next i v)) m "i1" =
  (Ok tt, sop "r" ["o1"] [] (port_after "i1" 1 (hist ++ [m])) true (KConstResampler 2 next i v)).
Proof.
  rewrite recv_data_simple by reflexivity. apply recv_data_sop; [reflexivity|now left|apply port_receive_after; lia].
Qed.

Lemma spin_first n hist m next i v next' i' v' : cr_process 2 next i v m = Ok ([], (next', i', v')) ->
  send1 (S n) "r" "i1" m (spin_heap hist next i v) = (Ok [], spin_heap (hist ++ [m]) next' i' v').
Proof.
  intros E. pose proof (spin_exec hist m next i v) as X. rewrite E in X.
  unfold send1. change (sfind "r" (spin_heap hist next i v)) with
    (Some (sop "r" ["o1"] [] (port_after "i1" 1 hist) false (KConstResampler 2 next i v))).
  cbn iota beta. rewrite spin_recv. cbn iota beta.
  set (o1 := sop "r" ["o1"] [] (port_after "i1" 1 (hist ++ [m])) true (KConstResampler 2 next i v)) in *.
  change (sset "r" o1 (spin_heap hist next i v)) with [("r", o1)].
  cbn [exec]. change (sfind "r" [("r", o1)]) with (Some o1). cbn iota beta.
  change (exec_local (exec n) false o1) with (exec_data_local o1). rewrite X. reflexivity.
Qed.

Lemma spin_forever n hist m next i v : cr_process 2 next i v m = Diverges ->
  fst (send1 (S n) "r" "i1" m (spin_heap hist next i v)) = Diverges.
Proof.
  intros E. pose proof (spin_exec hist m next i v) as X. rewrite E in X.
  unfold send1. change (sfind "r" (spin_heap hist next i v)) with
    (Some (sop "r" ["o1"] [] (port_after "i1" 1 hist) false (KConstResampler 2 next i v))).
  cbn iota beta. rewrite spin_recv. cbn iota beta.
  set (o1 := sop "r" ["o1"] [] (port_after "i1" 1 (hist ++ [m])) true (KConstResampler 2 next i v)) in *.
  change (sset "r" o1 (spin_heap hist next i v)) with [("r", o1)].
  cbn [exec]. change (sfind "r" [("r", o1)]) with (Some o1). cbn iota beta.
  change (exec_local (exec n) false o1) with (exec_data_local o1). rewrite X. reflexivity.
Qed.

Lemma spin_stuck n hist m next v : mtime m = (2 ^ 64 - 1)%Z -> (Z.even next = true /\ 0 <= next < 2 ^ 64)%Z ->
  fst (send1 (S n) "r" "i1" m (spin_heap hist next true v)) = Diverges.
Proof. intros Hm Hn. apply spin_forever. now apply cr_spins. Qed.

End Spin.
