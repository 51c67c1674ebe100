(** * An operator connected to itself *)

From Coq Require Import String ZArith Bool List Lia.
From Verif Require Import Base.StrMap Base.Num Model.Core Model.Ops Model.Make Model.Run Model.Graph.
From Verif Require Import Proofs.Lists Proofs.Window Proofs.LogRun.
Import ListNotations.
Open Scope string_scope.
Open Scope list_scope.
Open Scope Z_scope.
Open Scope rtbot_scope.

Section Loop.
Context {NO : NumOps}.

Definition loop_op (hist : list msg) (tp : bool) : op :=
  sop "a" ["o1"] [("o1", [("a", "i1")])] (port_after "i1" 1 hist) tp KIdentity.

Lemma loop_exec hist m :
  exec_data_local (loop_op (hist ++ [m]) true) = (Ok [("o1", [m])], loop_op (hist ++ [m]) false).
Proof.
  unfold loop_op. rewrite exec_sop by reflexivity. rewrite port_after_full by lia. rewrite app_length, Nat2Z.inj_add.
  destruct (Z.ltb_spec (Z.of_nat (length hist) + Z.of_nat (length [m])) (eff 1)) as [L|L]; [exfalso; cbn in L; lia|].
  cbn [negb andb]. unfold proc.
  assert (D : d_first (mkBase "a" [("i1", port_after "i1" 1 (hist ++ [m]))] [] ["o1"] [("o1", [("a", "i1")])] ["i1"]) "i1" = Ok m).
  { unfold d_first. cbn [o_data sfind]. rewrite String.eqb_refl, port_after_data by lia. change (Z.to_nat (eff 1)) with 1%nat. rewrite lastn_snoc, lastn_0. reflexivity. }
  cbn [process_data]. unfold map_last, keep.
  change (single_port (mkBase "a" [("i1", port_after "i1" 1 (hist ++ [m]))] [] ["o1"] [("o1", [("a", "i1")])] ["i1"])) with (Ok "i1").
  cbn [rbind]. rewrite D. cbn [rbind]. unfold out1. destruct m; reflexivity.
Qed.

Lemma loop_recv n hist m tp : recv_data n (loop_op hist tp) m "i1" = (Ok tt, loop_op (hist ++ [m]) true).
Proof.
  rewrite recv_data_simple by reflexivity. apply recv_data_sop; [reflexivity|now left|apply port_receive_after; lia].
Qed.

Lemma loop_forever n : forall hist m, fst (exec n false "a" [("a", loop_op (hist ++ [m]) true)]) = OutOfFuel.
Proof.
  induction n as [|n IH]; intros hist m; [reflexivity|]. cbn [exec].
  change (sfind "a" [("a", loop_op (hist ++ [m]) true)]) with (Some (loop_op (hist ++ [m]) true)). cbn iota beta.
  change (exec_local (exec n) false (loop_op (hist ++ [m]) true)) with (exec_data_local (loop_op (hist ++ [m]) true)).
  rewrite loop_exec. cbn iota beta.
  change (sset "a" (loop_op (hist ++ [m]) false) [("a", loop_op (hist ++ [m]) true)]) with [("a", loop_op (hist ++ [m]) false)].
  cbn [emit_op]. change (sset_mem "o1" (o_outs (op_base (loop_op (hist ++ [m]) false)))) with true. cbn iota.
  cbn [emit_port]. unfold emit_msg.
  change (sfind "o1" (o_conns (op_base (loop_op (hist ++ [m]) false)))) with (Some [("a", "i1")]). cbn iota beta.
  cbn [deliver deliver1]. change (sfind "a" [("a", loop_op (hist ++ [m]) false)]) with (Some (loop_op (hist ++ [m]) false)).
  cbn iota beta. change (is_data_input (loop_op (hist ++ [m]) false) "i1") with true. cbn iota.
  rewrite loop_recv. cbn iota beta.
  change (sset "a" (loop_op ((hist ++ [m]) ++ [m]) true) [("a", loop_op (hist ++ [m]) false)]) with [("a", loop_op ((hist ++ [m]) ++ [m]) true)].
  cbn [bind sbind execute_all execute1].
  change (sfind "a" [("a", loop_op ((hist ++ [m]) ++ [m]) true)]) with (Some (loop_op ((hist ++ [m]) ++ [m]) true)).
  cbn iota beta. change (is_data_input (loop_op ((hist ++ [m]) ++ [m]) true) "i1") with true. cbn iota.
  specialize (IH (hist ++ [m]) m).
  destruct (exec n false "a" [("a", loop_op ((hist ++ [m]) ++ [m]) true)]) as [x h]. cbn [fst] in IH. subst x. reflexivity.
Qed.

Lemma loop_send n hist m : fst (send1 n "a" "i1" m [("a", loop_op hist false)]) = OutOfFuel.
Proof.
  unfold send1. change (sfind "a" [("a", loop_op hist false)]) with (Some (loop_op hist false)). cbn iota beta.
  rewrite loop_recv. apply loop_forever.
Qed.

End Loop.
