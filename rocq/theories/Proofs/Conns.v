(** * Calls on an operator do not depend on its connections *)

From Coq Require Import String ZArith Bool List Lia.
From Verif Require Import Base.StrMap Base.Num Model.Core Model.Ops Model.Make Model.Run Model.Graph.
From Verif Require Import Spec.Shape Spec.Log Spec.Preserving Proofs.LogP.
Import ListNotations.
Open Scope string_scope.
Open Scope list_scope.
Open Scope Z_scope.
Open Scope rtbot_scope.

Section Conns.
Context {NO : NumOps}.
Variable cs : smap (list (string * string)).

Definition wc (x : base * kind) : base * kind := (set_conns (fst x) cs, snd x).
(** the same outcome, up to the connections *)
Definition sim {A} (x y : sres (base * kind) A) : Prop := x = (fst y, wc (snd y)).

Ltac triv := reflexivity.
Ltac cases :=
  repeat (cbn [sim wc fst snd]; try reflexivity;
  match goal with
  | |- sim (match ?c with _ => _ end) _ => destruct c
  | |- sim (if ?c then _ else _) _ => destruct c
  end).

Lemma input_conns tp : forall b pm ls out, sim (input_loop tp (set_conns b cs) pm ls out) (input_loop tp b pm ls out).
Proof.
  induction tp as [|p tp IH]; intros b pm ls out; cbn [input_loop]; [triv|].
  change (d_msg (set_conns b cs) p 0) with (d_msg b p 0). destruct (d_msg b p 0); try triv.
  match goal with |- context [if ?c then _ else _] => destruct c end; [|apply IH].
  destruct (sfind p pm); [apply IH|triv].
Qed.
Lemma output_conns tp : forall b pm out, sim (output_loop tp (set_conns b cs) pm out) (output_loop tp b pm out).
Proof.
  induction tp as [|p tp IH]; intros b pm out; cbn [output_loop]; [triv|].
  change (d_last (set_conns b cs) p) with (d_last b p). destruct (d_last b p); try triv.
  destruct (sfind p pm); [apply IH|triv].
Qed.

Lemma process_conns b k : sim (process_data (set_conns b cs) k) (process_data b k).
Proof.
  destruct k; cbn [process_data].
  1: apply input_conns.
  1: apply output_conns.
  all: unfold sim, keep, map_last, wc; try reflexivity;
    change (single_port (set_conns b cs)) with (single_port b).
  all: try (match goal with |- (match ?x with _ => _ end) = (fst (match ?y with _ => _ end), _) =>
    change y with x; destruct x end; cbn [fst snd]; reflexivity).
  all: match goal with |- (match ?x with _ => _ end) = (fst (match ?y with _ => _ end), _) =>
    change y with x; destruct x as [a| | | |]; try reflexivity; destruct a as [? ?]; try reflexivity end;
    match goal with |- context [match ?p with (_, _) => _ end] => destruct p end; try reflexivity;
    match goal with |- context [match ?p with (_, _) => _ end] => destruct p end; reflexivity.
Qed.

Lemma ready_conns b : forall tp, ready_ports (set_conns b cs) tp = ready_ports b tp.
Proof. induction tp as [|p tp IH]; [reflexivity|]. cbn [ready_ports]. now rewrite IH. Qed.

Lemma exec_base_conns b k : sim (exec_base (set_conns b cs) k) (exec_base b k).
Proof.
  unfold exec_base. change (o_toproc (set_conns b cs)) with (o_toproc b). rewrite ready_conns.
  destruct (ready_ports b (o_toproc b)) as [[|p tp]| | | |]; try reflexivity.
  change (set_toproc (set_conns b cs) (p :: tp)) with (set_conns (set_toproc b (p :: tp)) cs).
  pose proof (process_conns (set_toproc b (p :: tp)) k) as P. unfold sim in P. rewrite P.
  destruct (process_data (set_toproc b (p :: tp)) k) as [[] [b' k']]; reflexivity.
Qed.

Lemma join_conns b k : sim (join_exec (set_conns b cs) k) (join_exec b k).
Proof.
  unfold join_exec. change (o_data (set_conns b cs)) with (o_data b).
  destruct (o_data b) as [|[n0 p0] r] eqn:D; [triv|]. destruct (ip_data p0); [triv|].
  destruct (join_latest _ _ _) as [[best t]|]; [|triv]. cbv zeta. cbn [o_data set_data set_conns].
  destruct (join_ready _ _); [|triv].
  assert (E : forall ports, join_process (set_data (set_conns b cs) ports) k = join_process (set_data b ports) k) by (intros; destruct k; reflexivity).
  rewrite E. destruct (join_process _ k); triv.
Qed.

Lemma demux_conns b k cm : sim (demux_join (set_conns b cs) k cm) (demux_join b k cm).
Proof.
  unfold demux_join. change (o_data (set_conns b cs)) with (o_data b). change (o_ctrl (set_conns b cs)) with (o_ctrl b).
  destruct (o_data b) as [|[n0 p0] [|]] eqn:D; try triv. destruct (ip_data p0); [triv|].
  destruct (demux_scan _ _) as [[n| | | |] ctrls]; try triv. cbv zeta. destruct (n =? _); [|triv].
  destruct (demux_out _ _ _ _); triv.
Qed.

Lemma var_conns b v i : sim (var_query (set_conns b cs) v i) (var_query b v i).
Proof.
  unfold var_query. change (o_data (set_conns b cs)) with (o_data b). change (o_ctrl (set_conns b cs)) with (o_ctrl b).
  destruct (o_data b) as [|[n0 p0] [|]] eqn:D; try triv. destruct (o_ctrl b) as [|[n1 p1] [|]] eqn:C; try triv.
  destruct (ip_data p0); [triv|]. destruct (ip_data p1); [triv|]. cbv zeta.
  destruct (_ && _); [triv|]. destruct (_ <=? _); [|triv]. destruct (_ =? _); [triv|].
  destruct (var_loop _ _) as [[]]; triv.
Qed.

Lemma ar_conns b c : sim (ar_exec (set_conns b cs) c) (ar_exec b c).
Proof.
  unfold ar_exec. change (o_data (set_conns b cs)) with (o_data b).
  destruct (o_data b) as [|[n0 p0] [|]] eqn:D; try triv. cbv zeta.
  destruct (ar_loop _ _ _ _ _); try triv. destruct (ip_data p0) as [|? [|]]; triv.
Qed.

Definition simo {A} (x y : sres op A) : Prop := x = (fst y, with_conns cs (snd y)).

Lemma lift_sim {A} (x y : sres (base * kind) A) : sim x y ->
  simo (let '(r, (b', k')) := x in (r, Op b' k')) (let '(r, (b', k')) := y in (r, Op b' k')).
Proof. intros ->. destruct y as [r [b' k']]. reflexivity. Qed.

Lemma exec_data_conns o : simo (exec_data_local (with_conns cs o)) (exec_data_local o).
Proof.
  destruct o as [b k]. unfold with_conns, exec_data_local. cbn [op_base op_kind].
  apply lift_sim. destruct k; auto using exec_base_conns, join_conns, demux_conns, var_conns, ar_conns.
Qed.
Lemma exec_ctrl_conns o : simo (exec_ctrl_local (with_conns cs o)) (exec_ctrl_local o).
Proof.
  destruct o as [b k]. unfold with_conns, exec_ctrl_local. cbn [op_base op_kind].
  apply lift_sim. destruct k; auto using demux_conns, var_conns; reflexivity.
Qed.

Lemma recv_data_conns o m port : simo (recv_data_local (with_conns cs o) m port) (recv_data_local o m port).
Proof.
  destruct o as [b k]. unfold with_conns, recv_data_local. cbn [op_base op_kind].
  assert (B : recv_data_base (set_conns b cs) m port = (fst (recv_data_base b m port), set_conns (snd (recv_data_base b m port)) cs)).
  { unfold recv_data_base. change (o_data (set_conns b cs)) with (o_data b). cbv zeta.
    destruct (sfind _ _); [|reflexivity]. destruct (port_receive _ _); reflexivity. }
  assert (J : recv_data_join (set_conns b cs) m port = (fst (recv_data_join b m port), set_conns (snd (recv_data_join b m port)) cs)).
  { unfold recv_data_join. change (o_data (set_conns b cs)) with (o_data b).
    destruct (String.eqb _ _); [reflexivity|]. destruct (sfind _ _); reflexivity. }
  assert (D : recv_data_demux (set_conns b cs) m port = (fst (recv_data_demux b m port), set_conns (snd (recv_data_demux b m port)) cs)).
  { unfold recv_data_demux. change (o_data (set_conns b cs)) with (o_data b). cbv zeta.
    destruct (sfind _ _); reflexivity. }
  assert (A : recv_data_ar (set_conns b cs) m port = (fst (recv_data_ar b m port), set_conns (snd (recv_data_ar b m port)) cs)).
  { unfold recv_data_ar. change (o_data (set_conns b cs)) with (o_data b). cbv zeta.
    destruct (sfind _ _); [|reflexivity]. destruct (_ <=? _); reflexivity. }
  unfold simo. destruct k; rewrite ?B, ?J, ?D, ?A;
    match goal with |- _ = (fst (let (_, _) := ?x in _), _) => destruct x end; reflexivity.
Qed.

Lemma recv_ctrl_conns o m port : simo (recv_ctrl_local (with_conns cs o) m port) (recv_ctrl_local o m port).
Proof.
  destruct o as [b k]. unfold with_conns, recv_ctrl_local. cbn [op_base op_kind].
  assert (B : recv_ctrl_base (set_conns b cs) m port = (fst (recv_ctrl_base b m port), set_conns (snd (recv_ctrl_base b m port)) cs)).
  { unfold recv_ctrl_base. change (o_ctrl (set_conns b cs)) with (o_ctrl b). cbv zeta.
    destruct (sfind _ _); [|reflexivity]. destruct (port_receive _ _); reflexivity. }
  assert (D : recv_ctrl_demux (set_conns b cs) m port = (fst (recv_ctrl_demux b m port), set_conns (snd (recv_ctrl_demux b m port)) cs)).
  { unfold recv_ctrl_demux. change (o_ctrl (set_conns b cs)) with (o_ctrl b). cbv zeta.
    destruct (sfind _ _); reflexivity. }
  unfold simo. destruct k; rewrite ?B, ?D;
    match goal with |- _ = (fst (let (_, _) := ?x in _), _) => destruct x end; reflexivity.
Qed.

Lemma step_conns o e : simo (step (with_conns cs o) e) (step o e).
Proof.
  destruct e; cbn [step].
  - pose proof (recv_data_conns o m port) as H. unfold simo in *. rewrite H. destruct (recv_data_local o m port) as [[] o']; reflexivity.
  - pose proof (recv_ctrl_conns o m port) as H. unfold simo in *. rewrite H. destruct (recv_ctrl_local o m port) as [[] o']; reflexivity.
  - apply exec_data_conns.
  - apply exec_ctrl_conns.
Qed.

Lemma run_conns evs : forall o, run (with_conns cs o) evs = (fst (run o evs), with_conns cs (snd (run o evs))).
Proof.
  induction evs as [|e evs IH]; intros o; [reflexivity|]. cbn [run]. rewrite (step_conns o e).
  destruct (step o e) as [[x| | | |] o1]; try reflexivity. cbn [fst snd bind sbind]. unfold sbind. cbn [fst snd]. rewrite IH.
  destruct (run o1 evs) as [[] o2]; reflexivity.
Qed.

End Conns.
