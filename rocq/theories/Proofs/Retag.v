(** * Calls on an operator do not depend on its id and its connections (for C97) *)

From Coq Require Import String ZArith Bool List Lia.
From Verif Require Import Base.StrMap Base.Num Model.Core Model.Ops Model.Make Model.Run Model.Graph.
From Verif Require Import Spec.Shape Spec.Log Spec.Preserving Proofs.LogP.
Import ListNotations.
Open Scope string_scope.
Open Scope list_scope.
Open Scope Z_scope.
Open Scope rtbot_scope.

Section Retag.
Context {NO : NumOps}.
Variable name : string.
Variable cs : smap (list (string * string)).

Definition tag (b : base) : base := mkBase name (o_data b) (o_ctrl b) (o_outs b) cs (o_toproc b).
Definition retag (o : op) : op := Op (tag (op_base o)) (op_kind o).

Definition wc (x : base * kind) : base * kind := (tag (fst x), snd x).
(** the same outcome, up to the id and the connections *)
Definition sim {A} (x y : sres (base * kind) A) : Prop := x = (fst y, wc (snd y)).

Ltac triv := reflexivity.
Ltac cases :=
  repeat (cbn [sim wc fst snd]; try reflexivity;
  match goal with
  | |- sim (match ?c with _ => _ end) _ => destruct c
  | |- sim (if ?c then _ else _) _ => destruct c
  end).

Lemma input_tag tp : forall b pm ls out, sim (input_loop tp (tag b) pm ls out) (input_loop tp b pm ls out).
Proof.
  induction tp as [|p tp IH]; intros b pm ls out; cbn [input_loop]; [triv|].
  change (d_msg (tag b) p 0) with (d_msg b p 0). destruct (d_msg b p 0); try triv.
  match goal with |- context [if ?c then _ else _] => destruct c end; [|apply IH].
  destruct (sfind p pm); [apply IH|triv].
Qed.
Lemma output_tag tp : forall b pm out, sim (output_loop tp (tag b) pm out) (output_loop tp b pm out).
Proof.
  induction tp as [|p tp IH]; intros b pm out; cbn [output_loop]; [triv|].
  change (d_last (tag b) p) with (d_last b p). destruct (d_last b p); try triv.
  destruct (sfind p pm); [apply IH|triv].
Qed.

Lemma process_tag b k : sim (process_data (tag b) k) (process_data b k).
Proof.
  destruct k; cbn [process_data].
  1: apply input_tag.
  1: apply output_tag.
  all: unfold sim, keep, map_last, wc; try reflexivity;
    change (single_port (tag b)) with (single_port b).
  all: try (match goal with |- (match ?x with _ => _ end) = (fst (match ?y with _ => _ end), _) =>
    change y with x; destruct x end; cbn [fst snd]; reflexivity).
  all: match goal with |- (match ?x with _ => _ end) = (fst (match ?y with _ => _ end), _) =>
    change y with x; destruct x as [a| | | |]; try reflexivity; destruct a as [? ?]; try reflexivity end;
    match goal with |- context [match ?p with (_, _) => _ end] => destruct p end; try reflexivity;
    match goal with |- context [match ?p with (_, _) => _ end] => destruct p end; reflexivity.
Qed.

Lemma ready_tag b : forall tp, ready_ports (tag b) tp = ready_ports b tp.
Proof. induction tp as [|p tp IH]; [reflexivity|]. cbn [ready_ports]. now rewrite IH. Qed.

Lemma exec_base_tag b k : sim (exec_base (tag b) k) (exec_base b k).
Proof.
  unfold exec_base. change (o_toproc (tag b)) with (o_toproc b). rewrite ready_tag.
  destruct (ready_ports b (o_toproc b)) as [[|p tp]| | | |]; try reflexivity.
  change (set_toproc (tag b) (p :: tp)) with (tag (set_toproc b (p :: tp))).
  pose proof (process_tag (set_toproc b (p :: tp)) k) as P. unfold sim in P. rewrite P.
  destruct (process_data (set_toproc b (p :: tp)) k) as [[] [b' k']]; reflexivity.
Qed.

Lemma join_tag b k : sim (join_exec (tag b) k) (join_exec b k).
Proof.
  unfold join_exec. change (o_data (tag b)) with (o_data b).
  destruct (o_data b) as [|[n0 p0] r] eqn:D; [triv|]. destruct (ip_data p0); [triv|].
  destruct (join_latest _ _ _) as [[best t]|]; [|triv]. cbv zeta. cbn [o_data set_data tag].
  destruct (join_ready _ _); [|triv].
  assert (E : forall ports, join_process (set_data (tag b) ports) k = join_process (set_data b ports) k) by (intros; destruct k; reflexivity).
  rewrite E. destruct (join_process _ k); triv.
Qed.

Lemma demux_tag b k cm : sim (demux_join (tag b) k cm) (demux_join b k cm).
Proof.
  unfold demux_join. change (o_data (tag b)) with (o_data b). change (o_ctrl (tag b)) with (o_ctrl b).
  destruct (o_data b) as [|[n0 p0] [|]] eqn:D; try triv. destruct (ip_data p0); [triv|].
  destruct (demux_scan _ _) as [[n| | | |] ctrls]; try triv. cbv zeta. destruct (n =? _); [|triv].
  destruct (demux_out _ _ _ _); triv.
Qed.

Lemma var_tag b v i : sim (var_query (tag b) v i) (var_query b v i).
Proof.
  unfold var_query. change (o_data (tag b)) with (o_data b). change (o_ctrl (tag b)) with (o_ctrl b).
  destruct (o_data b) as [|[n0 p0] [|]] eqn:D; try triv. destruct (o_ctrl b) as [|[n1 p1] [|]] eqn:C; try triv.
  destruct (ip_data p0); [triv|]. destruct (ip_data p1); [triv|]. cbv zeta.
  destruct (_ && _); [triv|]. destruct (_ <=? _); [|triv]. destruct (_ =? _); [triv|].
  destruct (var_loop _ _) as [[]]; triv.
Qed.

Lemma ar_tag b c : sim (ar_exec (tag b) c) (ar_exec b c).
Proof.
  unfold ar_exec. change (o_data (tag b)) with (o_data b).
  destruct (o_data b) as [|[n0 p0] [|]] eqn:D; try triv. cbv zeta.
  destruct (ar_loop _ _ _ _ _); try triv. destruct (ip_data p0) as [|? [|]]; triv.
Qed.

Definition simo {A} (x y : sres op A) : Prop := x = (fst y, retag (snd y)).

Lemma lift_sim {A} (x y : sres (base * kind) A) : sim x y ->
  simo (let '(r, (b', k')) := x in (r, Op b' k')) (let '(r, (b', k')) := y in (r, Op b' k')).
Proof. intros ->. destruct y as [r [b' k']]. reflexivity. Qed.

Lemma exec_data_tag o : simo (exec_data_local (retag o)) (exec_data_local o).
Proof.
  destruct o as [b k]. unfold retag, exec_data_local. cbn [op_base op_kind].
  apply lift_sim. destruct k; auto using exec_base_tag, join_tag, demux_tag, var_tag, ar_tag.
Qed.
Lemma exec_ctrl_tag o : simo (exec_ctrl_local (retag o)) (exec_ctrl_local o).
Proof.
  destruct o as [b k]. unfold retag, exec_ctrl_local. cbn [op_base op_kind].
  apply lift_sim. destruct k; auto using demux_tag, var_tag; reflexivity.
Qed.

Lemma recv_data_tag o m port : simo (recv_data_local (retag o) m port) (recv_data_local o m port).
Proof.
  destruct o as [b k]. unfold retag, recv_data_local. cbn [op_base op_kind].
  assert (B : recv_data_base (tag b) m port = (fst (recv_data_base b m port), tag (snd (recv_data_base b m port)))).
  { unfold recv_data_base. change (o_data (tag b)) with (o_data b). cbv zeta.
    destruct (sfind _ _); [|reflexivity]. destruct (port_receive _ _); reflexivity. }
  assert (J : recv_data_join (tag b) m port = (fst (recv_data_join b m port), tag (snd (recv_data_join b m port)))).
  { unfold recv_data_join. change (o_data (tag b)) with (o_data b).
    destruct (String.eqb _ _); [reflexivity|]. destruct (sfind _ _); reflexivity. }
  assert (D : recv_data_demux (tag b) m port = (fst (recv_data_demux b m port), tag (snd (recv_data_demux b m port)))).
  { unfold recv_data_demux. change (o_data (tag b)) with (o_data b). cbv zeta.
    destruct (sfind _ _); reflexivity. }
  assert (A : recv_data_ar (tag b) m port = (fst (recv_data_ar b m port), tag (snd (recv_data_ar b m port)))).
  { unfold recv_data_ar. change (o_data (tag b)) with (o_data b). cbv zeta.
    destruct (sfind _ _); [|reflexivity]. destruct (_ <=? _); reflexivity. }
  unfold simo. destruct k; rewrite ?B, ?J, ?D, ?A;
    match goal with |- _ = (fst (let (_, _) := ?x in _), _) => destruct x end; reflexivity.
Qed.

Lemma recv_ctrl_tag o m port : simo (recv_ctrl_local (retag o) m port) (recv_ctrl_local o m port).
Proof.
  destruct o as [b k]. unfold retag, recv_ctrl_local. cbn [op_base op_kind].
  assert (B : recv_ctrl_base (tag b) m port = (fst (recv_ctrl_base b m port), tag (snd (recv_ctrl_base b m port)))).
  { unfold recv_ctrl_base. change (o_ctrl (tag b)) with (o_ctrl b). cbv zeta.
    destruct (sfind _ _); [|reflexivity]. destruct (port_receive _ _); reflexivity. }
  assert (D : recv_ctrl_demux (tag b) m port = (fst (recv_ctrl_demux b m port), tag (snd (recv_ctrl_demux b m port)))).
  { unfold recv_ctrl_demux. change (o_ctrl (tag b)) with (o_ctrl b). cbv zeta.
    destruct (sfind _ _); reflexivity. }
  unfold simo. destruct k; rewrite ?B, ?D;
    match goal with |- _ = (fst (let (_, _) := ?x in _), _) => destruct x end; reflexivity.
Qed.


Lemma recv_tag n o m port : simo (recv_data n (retag o) m port) (recv_data n o m port).
Proof.
  destruct o as [b k]. destruct k; try (destruct n; exact (recv_data_tag (Op b _) m port)).
  destruct n as [|n]; [reflexivity|]. unfold retag. cbn [recv_data op_base op_kind].
  match goal with |- simo (match ?c with _ => _ end) _ => destruct c as [key|]; [|reflexivity] end.
  destruct (sfind key inputs) as [inner|]; [|reflexivity]. destruct (sfind inner all_op) as [oi|]; [|reflexivity].
  destruct (recv_data n oi m (snd (split2 key))) as [[] oi']; reflexivity.
Qed.

Lemma exec_tag rec ctl o : simo (exec_local rec ctl (retag o)) (exec_local rec ctl o).
Proof.
  destruct ctl; [exact (exec_ctrl_tag o)|]. destruct o as [b k]. destruct k; try exact (exec_data_tag (Op b _)).
  unfold exec_local, retag, pipe_exec. cbn [op_base op_kind]. change (o_toproc (tag b)) with (o_toproc b).
  destruct (pipe_run rec (o_toproc b) inputs [] all_op) as [[] ops']; reflexivity.
Qed.

End Retag.

Section Same.
Context {NO : NumOps}.

Lemma retag_self (o : op) : retag (o_id (op_base o)) (o_conns (op_base o)) o = o.
Proof. now destruct o as [[] k]. Qed.

Definition untouched (o : op) {A} (x : sres op A) : Prop :=
  o_id (op_base (snd x)) = o_id (op_base o) /\ o_conns (op_base (snd x)) = o_conns (op_base o).

Lemma simo_self (f : op -> sres op unit) o : simo (o_id (op_base o)) (o_conns (op_base o)) (f (retag (o_id (op_base o)) (o_conns (op_base o)) o)) (f o) -> untouched o (f o).
Proof.
  unfold simo. rewrite retag_self. intros E. unfold untouched. apply (f_equal snd) in E. cbn [snd] in E. rewrite E. split; reflexivity.
Qed.
Lemma simo_self' (f : op -> sres op opmsg) o : simo (o_id (op_base o)) (o_conns (op_base o)) (f (retag (o_id (op_base o)) (o_conns (op_base o)) o)) (f o) -> untouched o (f o).
Proof.
  unfold simo. rewrite retag_self. intros E. unfold untouched. apply (f_equal snd) in E. cbn [snd] in E. rewrite E. split; reflexivity.
Qed.

Lemma recv_untouched n o m port : untouched o (recv_data n o m port).
Proof. apply (simo_self (fun o => recv_data n o m port)), recv_tag. Qed.
Lemma ctrl_untouched o m port : untouched o (recv_ctrl_local o m port).
Proof. apply (simo_self (fun o => recv_ctrl_local o m port)), recv_ctrl_tag. Qed.
Lemma exec_untouched rec ctl o : untouched o (exec_local rec ctl o).
Proof. apply (simo_self' (exec_local rec ctl)), exec_tag. Qed.

End Same.
