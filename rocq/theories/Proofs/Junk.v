(** * Members which constructors leave uninitialised are never read before they are set *)

From Coq Require Import String Ascii ZArith Bool List Lia.
From Verif Require Import Base.StrMap Base.Num Model.Core Model.Ops Model.Make Model.Graph Model.Codec Model.Json Model.Factory.
From Verif Require Import Spec.Definition Spec.Manager Proofs.Ports Proofs.Restored.
Import ListNotations.
Open Scope string_scope.
Open Scope list_scope.
Open Scope Z_scope.
Open Scope rtbot_scope.

Section Junk.
Context {NO : NumOps}.

(** the same operator, but for members that are not initialised yet; Pipelines: for the inner
    operators *)
Inductive jrel : op -> op -> Prop :=
| J_same o : jrel o o
| J_rsi b g1 g2 g3 g4 h1 h2 h3 h4 : jrel (Op b (KRSI g1 g2 g3 g4 false)) (Op b (KRSI h1 h2 h3 h4 false))
| J_cr b dt g1 g2 h1 h2 : jrel (Op b (KConstResampler dt g1 false g2)) (Op b (KConstResampler dt h1 false h2))
| J_pipe b js ops ops' ins outs pm :
    Forall2 (fun x y => fst x = fst y /\ jrel (snd x) (snd y)) ops ops' ->
    jrel (Op b (KPipeline js ops ins outs pm)) (Op b (KPipeline js ops' ins outs pm)).

Definition hjrel (h h' : heap) : Prop := Forall2 (fun x y => fst x = fst y /\ jrel (snd x) (snd y)) h h'.

Lemma jrel_base a b : jrel a b -> op_base a = op_base b.
Proof. intros []; reflexivity. Qed.

Lemma hj_find h h' id : hjrel h h' ->
  (exists a a', sfind id h = Some a /\ sfind id h' = Some a' /\ jrel a a') \/ (sfind id h = None /\ sfind id h' = None).
Proof.
  intros H. induction H as [|[k a] [k' a'] h h' [E J] H IH]; [right; auto|]. cbn [fst snd] in *. subst k'. cbn [sfind].
  destruct (String.eqb id k); [left; exists a, a'; auto|exact IH].
Qed.

Lemma hj_sset h h' id a a' : hjrel h h' -> jrel a a' -> hjrel (sset id a h) (sset id a' h').
Proof.
  intros H J. induction H as [|[k x] [k' x'] h h' [E Jx] H IH]; cbn [sset]; [repeat constructor; auto|].
  cbn [fst snd] in *. subst k'. destruct (String.eqb id k); [constructor; auto|]. destruct (sltb id k); repeat (constructor; auto).
Qed.

Lemma hj_semplace h h' id a a' : hjrel h h' -> jrel a a' -> hjrel (semplace id a h) (semplace id a' h').
Proof.
  intros H J. unfold semplace. destruct (hj_find h h' id H) as [(x & x' & -> & -> & _)|[-> ->]]; [exact H|now apply hj_sset].
Qed.

Lemma hj_refl h : hjrel h h.
Proof. induction h; constructor; auto. split; [reflexivity|apply J_same]. Qed.

Definition jres {A} (x y : sres op A) : Prop := fst x = fst y /\ jrel (snd x) (snd y).
Definition hres {A} (x y : sres heap A) : Prop := fst x = fst y /\ hjrel (snd x) (snd y).

Lemma hres_bind {A B} (x y : sres heap A) (k1 k2 : A -> heap -> sres heap B) :
  hres x y -> (forall a h h', hjrel h h' -> hres (k1 a h) (k2 a h')) -> hres (bind x k1) (bind y k2).
Proof.
  intros [E H] K. destruct x as [rx hx], y as [ry hy]. cbn in E, H. subst ry.
  destruct rx; cbn [bind sbind]; [now apply K|..]; split; auto.
Qed.

Lemma jrel_recv n : forall a b m port, jrel a b -> jres (recv_data n a m port) (recv_data n b m port).
Proof.
  induction n as [|n IH]; intros a b m port J; destruct J as [o|b0|b0|b0 js ops ops' ins outs pm R].
  - split; [reflexivity|apply J_same].
  - cbn [recv_data op_kind]. unfold recv_data_local. destruct (recv_data_base b0 m port). split; [reflexivity|apply J_rsi].
  - cbn [recv_data op_kind]. unfold recv_data_local. destruct (recv_data_base b0 m port). split; [reflexivity|apply J_cr].
  - split; [reflexivity|]. now apply J_pipe.
  - split; [reflexivity|apply J_same].
  - cbn [recv_data op_kind]. unfold recv_data_local. destruct (recv_data_base b0 m port). split; [reflexivity|apply J_rsi].
  - cbn [recv_data op_kind]. unfold recv_data_local. destruct (recv_data_base b0 m port). split; [reflexivity|apply J_cr].
  - cbn [recv_data op_kind].
    match goal with |- context [match ?x with Some _ => _ | None => _ end] => destruct x as [key|] end;
      [|split; [reflexivity|now apply J_pipe]].
    destruct (sfind key ins) as [inner|]; [|split; [reflexivity|now apply J_pipe]].
    destruct (hj_find ops ops' inner R) as [(a & a' & F & F' & J)|[F F']]; rewrite F, F'; [|split; [reflexivity|now apply J_pipe]].
    destruct (IH a a' m (snd (split2 key)) J) as [E J1].
    destruct (recv_data n a m (snd (split2 key))) as [r x], (recv_data n a' m (snd (split2 key))) as [r' x']. cbn [fst snd] in *. subst r'.
    pose proof (hj_sset ops ops' inner x x' R J1) as R2.
    destruct r; (split; [reflexivity|]); now apply J_pipe.
Qed.

Lemma jrel_ctrl a b m port : jrel a b -> jres (recv_ctrl_local a m port) (recv_ctrl_local b m port).
Proof.
  intros [o|b0|b0|b0 js ops ops' ins outs pm R]; [split; [reflexivity|apply J_same]|..];
    unfold recv_ctrl_local; destruct (recv_ctrl_base b0 m port); (split; [reflexivity|]); now constructor.
Qed.

Lemma cr_exec b dt g1 g2 h1 h2 :
  fst (exec_base b (KConstResampler dt g1 false g2)) = fst (exec_base b (KConstResampler dt h1 false h2)) /\
  jrel (let '(b', k') := snd (exec_base b (KConstResampler dt g1 false g2)) in Op b' k')
       (let '(b', k') := snd (exec_base b (KConstResampler dt h1 false h2)) in Op b' k').
Proof.
  unfold exec_base. destruct (ready_ports b (o_toproc b)) as [[|p tp]| | | |]; try (split; [reflexivity|constructor]).
  cbn [process_data]. destruct (single_port (set_toproc b (p :: tp))) as [port| | | |]; cbn [rbind]; try (split; [reflexivity|constructor]).
  destruct (d_last (set_toproc b (p :: tp)) port) as [m| | | |]; cbn [rbind]; try (split; [reflexivity|constructor]).
Qed.

Section Exec.
Variable n : nat.
Hypothesis rec : forall ctl id h h', hjrel h h' -> hres (exec n ctl id h) (exec n ctl id h').

Lemma jrel_pipe_run keys ins : forall out h h', hjrel h h' ->
  hres (pipe_run (exec n) keys ins out h) (pipe_run (exec n) keys ins out h').
Proof.
  induction keys as [|key keys IH]; intros out h h' H; cbn [pipe_run]; [split; auto|].
  destruct (sfind key ins) as [inner|]; [|split; auto]. apply hres_bind; auto.
Qed.

Lemma jrel_exec_local ctl a b : jrel a b -> jres (exec_local (exec n) ctl a) (exec_local (exec n) ctl b).
Proof.
  intros [o|b0 g1 g2 g3 g4 h1 h2 h3 h4|b0 dt g1 g2 h1 h2|b0 js ops ops' ins outs pm R]; [split; [reflexivity|apply J_same]|..]; destruct ctl;
    try (split; [reflexivity|now constructor]); cbn [exec_local op_kind op_base].
  - unfold exec_data_local. destruct (rsi_exec b0 g1 g2 g3 g4 h1 h2 h3 h4) as [E1 E2].
    destruct (exec_base b0 (KRSI g1 g2 g3 g4 false)) as [r1 [b1 k1]], (exec_base b0 (KRSI h1 h2 h3 h4 false)) as [r2 [b2 k2]].
    cbn [fst snd] in *. subst r2. split; [reflexivity|]. destruct E2 as [E2|(b' & E2 & E3)].
    + injection E2 as -> ->. apply J_same.
    + injection E2 as -> ->. injection E3 as -> ->. apply J_rsi.
  - unfold exec_data_local. destruct (cr_exec b0 dt g1 g2 h1 h2) as [E1 E2].
    destruct (exec_base b0 (KConstResampler dt g1 false g2)) as [r1 [b1 k1]], (exec_base b0 (KConstResampler dt h1 false h2)) as [r2 [b2 k2]].
    cbn [fst snd] in *. subst r2. split; [reflexivity|exact E2].
  - unfold pipe_exec. destruct (jrel_pipe_run (o_toproc b0) ins [] ops ops' R) as [E R1].
    destruct (pipe_run (exec n) (o_toproc b0) ins [] ops) as [r x], (pipe_run (exec n) (o_toproc b0) ins [] ops') as [r' x'].
    cbn [fst snd] in *. subst r'. destruct r; (split; [reflexivity|]); now apply J_pipe.
Qed.

Lemma jrel_deliver m cs : forall h h', hjrel h h' -> hres (deliver n m cs h) (deliver n m cs h').
Proof.
  induction cs as [|[dst port] cs IH]; intros h h' H; cbn [deliver]; [split; auto|]. apply hres_bind; [|auto].
  unfold deliver1. destruct (hj_find h h' dst H) as [(a & a' & F & F' & J)|[F F']]; rewrite F, F'; [|split; auto].
  unfold is_data_input, is_control_input. rewrite (jrel_base a a' J). destruct (shas port (o_data (op_base a'))).
  - destruct (jrel_recv n a a' m port J) as [E J1]. destruct (recv_data n a m port), (recv_data n a' m port).
    split; [exact E|]. now apply hj_sset.
  - destruct (shas port (o_ctrl (op_base a'))); [|split; auto].
    destruct (jrel_ctrl a a' m port J) as [E J1]. destruct (recv_ctrl_local a m port), (recv_ctrl_local a' m port).
    split; [exact E|]. now apply hj_sset.
Qed.

Lemma jrel_execute_all cs : forall out h h', hjrel h h' ->
  hres (execute_all (exec n) cs out h) (execute_all (exec n) cs out h').
Proof.
  induction cs as [|[dst port] cs IH]; intros out h h' H; cbn [execute_all]; [split; auto|]. apply hres_bind; [|auto].
  unfold execute1. destruct (hj_find h h' dst H) as [(a & a' & F & F' & J)|[F F']]; rewrite F, F'; [|split; auto].
  unfold is_data_input, is_control_input. rewrite (jrel_base a a' J). destruct (shas port (o_data (op_base a'))); [auto|].
  destruct (shas port (o_ctrl (op_base a'))); [auto|split; auto].
Qed.

Lemma jrel_emit_port b port ms : forall out h h', hjrel h h' ->
  hres (emit_port (exec n) n b port ms out h) (emit_port (exec n) n b port ms out h').
Proof.
  induction ms as [|m ms IH]; intros out h h' H; cbn [emit_port]; [split; auto|]. apply hres_bind; [|auto].
  unfold emit_msg. destruct (sfind port (o_conns b)); [|split; auto].
  apply hres_bind; [now apply jrel_deliver|]. intros; now apply jrel_execute_all.
Qed.

Lemma jrel_emit_op b oms : forall out h h', hjrel h h' ->
  hres (emit_op (exec n) n b oms out h) (emit_op (exec n) n b oms out h').
Proof.
  induction oms as [|[port ms] oms IH]; intros out h h' H; cbn [emit_op]; [split; auto|].
  destruct (sset_mem port (o_outs b)); [|split; auto]. apply hres_bind; [now apply jrel_emit_port|auto].
Qed.
End Exec.

Lemma jrel_exec n : forall ctl id h h', hjrel h h' -> hres (exec n ctl id h) (exec n ctl id h').
Proof.
  induction n as [|n IH]; intros ctl id h h' H; cbn [exec]; [split; auto|].
  destruct (hj_find h h' id H) as [(a & a' & F & F' & J)|[F F']]; rewrite F, F'; [|split; auto].
  destruct (jrel_exec_local n IH ctl a a' J) as [E J1].
  destruct (exec_local (exec n) ctl a) as [r x], (exec_local (exec n) ctl a') as [r' x']. cbn [fst snd] in *. subst r'.
  pose proof (hj_sset h h' id x x' H J1) as H1.
  destruct r; try (split; [reflexivity|exact H1]). rewrite (jrel_base x x' J1). now apply jrel_emit_op.
Qed.

Lemma jrel_send1 n entry port m h h' : hjrel h h' -> hres (send1 n entry port m h) (send1 n entry port m h').
Proof.
  intros H. unfold send1. destruct (hj_find h h' entry H) as [(a & a' & F & F' & J)|[F F']]; rewrite F, F'; [|split; auto].
  destruct (jrel_recv n a a' m port J) as [E J1]. destruct (recv_data n a m port) as [r x], (recv_data n a' m port) as [r' x'].
  cbn [fst snd] in *. subst r'. pose proof (hj_sset h h' entry x x' H J1) as H1.
  destruct r; try (split; [reflexivity|exact H1]). now apply jrel_exec.
Qed.

Lemma jrel_send_port n entry port ms : forall out h h', hjrel h h' ->
  hres (send_port n entry port ms out h) (send_port n entry port ms out h').
Proof.
  induction ms as [|m ms IH]; intros out h h' H; cbn [send_port]; [split; auto|]. apply hres_bind; [now apply jrel_send1|auto].
Qed.

Lemma jrel_send_batch n entry batch : forall out h h', hjrel h h' ->
  hres (send_batch n entry batch out h) (send_batch n entry batch out h').
Proof.
  induction batch as [|[port ms] batch IH]; intros out h h' H; cbn [send_batch]; [split; auto|].
  apply hres_bind; [now apply jrel_send_port|auto].
Qed.

(** ** Programs *)
Definition pjrel (p q : program) : Prop :=
  p_text p = p_text q /\ p_entry p = p_entry q /\ p_filter p = p_filter q /\ hjrel (p_ops p) (p_ops q).

Lemma jrel_receive_debug n p q batch : pjrel p q ->
  fst (receive_debug n p batch) = fst (receive_debug n q batch) /\
  pjrel (snd (receive_debug n p batch)) (snd (receive_debug n q batch)).
Proof.
  intros (E0 & E1 & E2 & H). unfold receive_debug. rewrite E1.
  assert (Es : shas (p_entry q) (p_ops p) = shas (p_entry q) (p_ops q)).
  { unfold shas. destruct (hj_find _ _ (p_entry q) H) as [(a & a' & -> & -> & _)|[-> ->]]; reflexivity. }
  rewrite Es. destruct (shas (p_entry q) (p_ops q)); [|split; [reflexivity|split; auto]].
  destruct (jrel_send_batch n (p_entry q) batch [] _ _ H) as [S1 S2].
  destruct (send_batch n (p_entry q) batch [] (p_ops p)) as [r1 k1], (send_batch n (p_entry q) batch [] (p_ops q)) as [r2 k2].
  cbn [fst snd] in *. split; [exact S1|]. split; auto.
Qed.

Lemma jrel_receive n p q batch : pjrel p q ->
  fst (receive n p batch) = fst (receive n q batch) /\ pjrel (snd (receive n p batch)) (snd (receive n q batch)).
Proof.
  intros H. unfold receive. destruct (jrel_receive_debug n p q batch H) as [E H1].
  destruct (receive_debug n p batch) as [r p1], (receive_debug n q batch) as [r' q1]. cbn [fst snd] in *. subst r'.
  destruct H as (_ & _ & -> & _). destruct r; split; auto.
Qed.

(** ** Creation *)

Definition rres {A} (R : A -> A -> Prop) (x y : res A) : Prop :=
  match x, y with Ok a, Ok b => R a b | Ok _, _ | _, Ok _ => False | _, _ => x = y end.

Lemma rres_bind {A B} (R : A -> A -> Prop) (Q : B -> B -> Prop) x y k1 k2 :
  rres R x y -> (forall a b, R a b -> rres Q (k1 a) (k2 b)) -> rres Q (rbind x k1) (rbind y k2).
Proof. intros H K. destruct x, y; cbn in *; try contradiction; auto; try discriminate. now injection H as ->. Qed.
Lemma rres_eq {A} (x : res A) : rres eq x x.
Proof. destruct x; reflexivity. Qed.
Lemma rres_refl {A} (R : A -> A -> Prop) (x : res A) : (forall a, R a a) -> rres R x x.
Proof. intros H. destruct x; cbn; auto. Qed.

Lemma jrel_simple id max k k' : (forall b, jrel (Op b k) (Op b k')) -> rres jrel (mk_simple id max k) (mk_simple id max k').
Proof. intros H. unfold mk_simple. eapply rres_bind; [apply rres_eq|]. intros b ? <-. apply H. Qed.

Lemma jrel_from_json g g' ty j :
  match from_json g ty j, from_json g' ty j with
  | Some x, Some y => rres jrel x y
  | None, None => True
  | _, _ => False
  end.
Proof.
  unfold from_json.
  repeat (match goal with |- context [if String.eqb ty ?s then _ else _] => destruct (String.eqb ty s) end;
    [try (apply rres_refl; apply J_same)|]).
  - eapply rres_bind; [apply rres_eq|]. intros id ? <-. eapply rres_bind; [apply rres_eq|]. intros n ? <-.
    apply jrel_simple. intros b. apply J_rsi.
  - eapply rres_bind; [apply rres_eq|]. intros id ? <-. eapply rres_bind; [apply rres_eq|]. intros n ? <-.
    unfold mk_constres. destruct (n <=? 0); [reflexivity|]. apply jrel_simple. intros b. apply J_cr.
  - exact I.
Qed.

Lemma jrel_read_ops (r r' : json -> res op) l : (forall j, rres jrel (r j) (r' j)) ->
  forall h h', hjrel h h' -> rres hjrel (read_ops r l h) (read_ops r' l h').
Proof.
  intros Hr. induction l as [|x l IH]; intros h h' H; cbn [read_ops]; [exact H|].
  eapply rres_bind; [apply rres_eq|]. intros idj ? <-. eapply rres_bind; [apply Hr|]. intros o o' J.
  eapply rres_bind; [apply rres_eq|]. intros id ? <-. apply IH. now apply hj_semplace.
Qed.

Lemma jrel_conns a a' cs : jrel a a' ->
  jrel (Op (set_conns (op_base a) cs) (op_kind a)) (Op (set_conns (op_base a') cs) (op_kind a')).
Proof. intros [[b k]| | |b js ops ops' ins outs pm R]; cbn [op_base op_kind]; now constructor. Qed.

Lemma jrel_connect a a' b b' to p q : jrel a a' -> jrel b b' ->
  rres (fun x y => match x, y with Some u, Some v => jrel u v | None, None => True | _, _ => False end)
    (connect a b to p q) (connect a' b' to p q).
Proof.
  intros J J'. unfold connect. pose proof (jrel_base _ _ J) as Eb. pose proof (fun cs => jrel_conns a a' cs J) as Jc.
  destruct a as [ba ka], a' as [ba' ka']. cbn [op_base op_kind] in *. subst ba'. rewrite (jrel_base _ _ J').
  repeat (match goal with
          | |- rres _ (match ?x with _ => _ end) _ => destruct x; try reflexivity
          | |- rres _ (let '(_, _) := ?x in _) _ => destruct x
          | |- rres _ (if ?x then _ else _) _ => destruct x; try reflexivity
          end).
  all: try exact I. all: try apply Jc.
Qed.

Lemma jrel_connect1 c h h' : hjrel h h' -> rres hjrel (connect1 c h) (connect1 c h').
Proof.
  intros H. unfold connect1. destruct (hj_find h h' (c_from c) H) as [(a & a' & -> & -> & J)|[-> ->]]; [|reflexivity].
  destruct (hj_find h h' (c_to c) H) as [(b & b' & -> & -> & J')|[-> ->]]; [|reflexivity].
  eapply rres_bind; [now apply jrel_connect|]. intros [x|] [y|] Jx; try contradiction; [|reflexivity]. now apply hj_sset.
Qed.

Lemma jrel_read_conns l : forall h h', hjrel h h' -> rres hjrel (read_conns l h) (read_conns l h').
Proof.
  induction l as [|x l IH]; intros h h' H; cbn [read_conns]; [exact H|].
  eapply rres_bind; [apply rres_eq|]. intros c ? <-. eapply rres_bind; [now apply jrel_connect1|]. auto.
Qed.

Lemma jrel_used c h h' : hjrel h h' -> used_input c h = used_input c h' /\ used_output c h = used_output c h'.
Proof.
  intros H. unfold used_input, used_output. split.
  - destruct (hj_find h h' (c_to c) H) as [(a & a' & -> & -> & J)|[-> ->]]; [now rewrite (jrel_base _ _ J)|reflexivity].
  - destruct (hj_find h h' (c_from c) H) as [(a & a' & -> & -> & J)|[-> ->]]; [now rewrite (jrel_base _ _ J)|reflexivity].
Qed.

Lemma jrel_pipe_conns l : forall h h' ui uo, hjrel h h' ->
  rres (fun x y => hjrel (fst (fst x)) (fst (fst y)) /\ snd (fst x) = snd (fst y) /\ snd x = snd y)
    (pipe_conns l h ui uo) (pipe_conns l h' ui uo).
Proof.
  induction l as [|x l IH]; intros h h' ui uo H; cbn [pipe_conns]; [cbn; auto|].
  eapply rres_bind; [apply rres_eq|]. intros c ? <-. eapply rres_bind; [now apply jrel_connect1|]. intros a b Hab.
  destruct (jrel_used c a b Hab) as [-> ->]. now apply IH.
Qed.

Lemma jrel_free (F : op -> list string) (used : list string) : (forall a a', jrel a a' -> F a = F a') ->
  forall h h', hjrel h h' -> forall acc,
  fold_left (fun acc x => free_ports (fst x) used (F (snd x)) acc) h acc =
  fold_left (fun acc x => free_ports (fst x) used (F (snd x)) acc) h' acc.
Proof.
  intros HF h h' H. induction H as [|[k a] [k' a'] h h' [E J] H IH]; intros acc; cbn [fold_left]; [reflexivity|].
  cbn [fst snd] in *. subst k'. rewrite (HF a a' J). apply IH.
Qed.

Lemma jrel_pipeline (r r' : json -> res op) id text prog : (forall j, rres jrel (r j) (r' j)) ->
  rres jrel (mk_pipeline r id text prog) (mk_pipeline r' id text prog).
Proof.
  intros Hr. unfold mk_pipeline. eapply rres_bind; [apply rres_eq|]. intros xs ? <-.
  eapply rres_bind; [apply (jrel_read_ops r r' (jitems xs) Hr [] []); constructor|]. intros h h' H.
  eapply rres_bind; [apply rres_eq|]. intros cs ? <-.
  eapply rres_bind; [apply jrel_pipe_conns; exact H|]. intros [[h1 ui] uo] [[h1' ui'] uo'] (H1 & E1 & E2). cbn [fst snd] in *. subst ui' uo'.
  assert (Ei : free_inputs ui h1 = free_inputs ui h1').
  { unfold free_inputs. apply (jrel_free (fun o => skeys (o_data (op_base o)))); auto. intros a a' J. now rewrite (jrel_base _ _ J). }
  assert (Eo : free_outputs uo h1 = free_outputs uo h1').
  { unfold free_outputs. apply (jrel_free (fun o => o_outs (op_base o))); auto. intros a a' J. now rewrite (jrel_base _ _ J). }
  rewrite Ei, Eo. eapply rres_bind; [apply rres_eq|]. intros y ? <-.
  destruct (pipe_outs 1 (skeys (free_outputs uo h1')) (fst y) (snd y)) as [b pm]. apply J_pipe. exact H1.
Qed.

Context {JT : JsonText}.

Lemma jrel_read_op_n n g g' : forall j, rres jrel (read_op_n n g j) (read_op_n n g' j).
Proof.
  induction n as [|n IH]; intros j; cbn [read_op_n]; [reflexivity|].
  eapply rres_bind; [apply rres_eq|]. intros tj ? <-. eapply rres_bind; [apply rres_eq|]. intros ty ? <-.
  destruct (String.eqb ty "Pipeline").
  - eapply rres_bind; [apply rres_eq|]. intros idj ? <-. eapply rres_bind; [apply rres_eq|]. intros id ? <-.
    eapply rres_bind; [apply rres_eq|]. intros prog ? <-. apply jrel_pipeline. exact IH.
  - pose proof (jrel_from_json g g' ty j) as X. destruct (from_json g ty j), (from_json g' ty j); try contradiction; [exact X|reflexivity].
Qed.

Lemma jrel_init g g' text j : rres pjrel (init g text j) (init g' text j).
Proof.
  unfold init. eapply rres_bind; [apply rres_eq|]. intros entry ? <-. destruct (String.eqb entry ""); [reflexivity|].
  eapply rres_bind; [apply rres_eq|]. intros f ? <-. eapply rres_bind; [apply rres_eq|]. intros xs ? <-.
  eapply rres_bind; [apply (jrel_read_ops (read_op g) (read_op g') (jitems xs)); [intros; apply jrel_read_op_n|constructor]|].
  intros h h' H. eapply rres_bind; [apply rres_eq|]. intros cs ? <-.
  eapply rres_bind; [apply jrel_read_conns; exact H|]. intros h1 h1' H1.
  destruct (hj_find h1 h1' entry H1) as [(a & a' & -> & -> & J)|[-> ->]]; [|reflexivity].
  rewrite (jrel_base _ _ J). destruct (o_ctrl (op_base a')); cbn; repeat (split; [reflexivity|]); [exact H1|constructor].
Qed.

Lemma jrel_new_prog g g' text : rres pjrel (new_prog g text) (new_prog g' text).
Proof. unfold new_prog. eapply rres_bind; [apply rres_eq|]. intros j ? <-. apply jrel_init. Qed.

(** ** Snapshots *)
Context {NC : NumCodec NO}.

Lemma jrel_restore a b bs : jrel a b ->
  rres (fun x y => jrel (fst x) (fst y) /\ snd x = snd y) (restore a bs) (restore b bs).
Proof.
  intros [o|b0 g1 g2 g3 g4 h1 h2 h3 h4|b0 dt g1 g2 h1 h2|b0 js ops ops' ins outs pm R]; cbn [restore].
  - apply rres_refl. intros x. split; [apply J_same|reflexivity].
  - unfold pbind. eapply rres_bind; [apply rres_eq|]. intros x ? <-. split; [apply J_rsi|reflexivity].
  - apply rres_refl. intros x. split; [apply J_same|reflexivity].
  - unfold pbind. eapply rres_bind; [apply rres_eq|]. intros x ? <-. split; [now apply J_pipe|reflexivity].
Qed.

Lemma jrel_load_ops bound : forall h h' bs, hjrel h h' -> rres hjrel (load_ops bound h bs) (load_ops bound h' bs).
Proof.
  induction bound as [|c bound IH]; intros h h' bs H; cbn [load_ops]; [destruct bs; [exact H|reflexivity]|].
  destruct bs as [|b bs]; [exact H|]. eapply rres_bind; [apply rres_eq|]. intros x ? <-.
  destruct (hj_find h h' (fst x) H) as [(a & a' & -> & -> & J)|[-> ->]]; [|reflexivity].
  eapply rres_bind; [apply jrel_restore; exact J|]. intros y y' [Jy E]. rewrite E. apply IH. now apply hj_sset.
Qed.

Lemma jrel_load g g' bs : rres pjrel (load (new_prog g) bs) (load (new_prog g') bs).
Proof.
  unfold load. eapply rres_bind; [apply rres_eq|]. intros x ? <-. eapply rres_bind; [apply jrel_new_prog|].
  intros p q (E1 & E2 & E3 & H). eapply rres_bind; [apply jrel_load_ops; exact H|]. intros h h' H'. repeat split; auto.
Qed.

(** ** The manager of programs *)
Definition psjrel (m m' : smap program) : Prop := Forall2 (fun x y => fst x = fst y /\ pjrel (snd x) (snd y)) m m'.
Definition mjrel (m m' : manager) : Prop := f_buffer m = f_buffer m' /\ psjrel (f_programs m) (f_programs m').

Lemma ps_find m m' id : psjrel m m' ->
  (exists p q, sfind id m = Some p /\ sfind id m' = Some q /\ pjrel p q) \/ (sfind id m = None /\ sfind id m' = None).
Proof.
  intros H. induction H as [|[k a] [k' a'] h h' [E J] H IH]; [right; auto|]. cbn [fst snd] in *. subst k'. cbn [sfind].
  destruct (String.eqb id k); [left; exists a, a'; auto|exact IH].
Qed.

Lemma ps_sset m m' id p q : psjrel m m' -> pjrel p q -> psjrel (sset id p m) (sset id q m').
Proof.
  intros H J. induction H as [|[k x] [k' x'] h h' [E Jx] H IH]; cbn [sset]; [constructor; [split; auto|constructor]|].
  cbn [fst snd] in *. subst k'. destruct (String.eqb id k); [constructor; [split|]; auto|].
  destruct (sltb id k); [|constructor; [split|]; auto]. constructor; [split; auto|]. constructor; [split|]; auto.
Qed.

Lemma ps_semplace m m' id p q : psjrel m m' -> pjrel p q -> psjrel (semplace id p m) (semplace id q m').
Proof.
  intros H J. unfold semplace. destruct (ps_find m m' id H) as [(x & y & -> & -> & _)|[-> ->]]; [exact H|now apply ps_sset].
Qed.

Lemma ps_serase m m' id : psjrel m m' -> psjrel (serase id m) (serase id m').
Proof.
  intros H. unfold serase. induction H as [|[k x] [k' x'] h h' [E Jx] H IH]; cbn; [constructor|].
  cbn [fst snd] in *. subst k'. destruct (String.eqb id k); cbn; [exact H || exact IH|]. constructor; [split|]; auto.
Qed.

Lemma ps_shas m m' id : psjrel m m' -> shas id m = shas id m'.
Proof. intros H. unfold shas. destruct (ps_find m m' id H) as [(x & y & -> & -> & _)|[-> ->]]; reflexivity. Qed.

Definition mres {A} (x y : sres manager A) : Prop := fst x = fst y /\ mjrel (snd x) (snd y).

Lemma mres_bind {A B} (x y : sres manager A) (k1 k2 : A -> manager -> sres manager B) :
  mres x y -> (forall a m m', mjrel m m' -> mres (k1 a m) (k2 a m')) -> mres (bind x k1) (bind y k2).
Proof.
  intros [E H] K. destruct x as [rx hx], y as [ry hy]. cbn in E, H. subst ry.
  destruct rx; cbn [bind sbind]; [now apply K|..]; split; auto.
Qed.

Lemma mjrel_process_map d n id batch m m' : mjrel m m' -> mres (process_map d n id batch m) (process_map d n id batch m').
Proof.
  intros [Eb H]. unfold process_map. destruct (ps_find _ _ id H) as [(p & q & -> & -> & J)|[-> ->]]; [|split; [reflexivity|split; auto]].
  assert (R : fst (receive_as d n p batch) = fst (receive_as d n q batch) /\ pjrel (snd (receive_as d n p batch)) (snd (receive_as d n q batch))).
  { destruct d; [now apply jrel_receive_debug|now apply jrel_receive]. }
  destruct (receive_as d n p batch) as [r p1], (receive_as d n q batch) as [r' q1]. cbn [fst snd] in R. destruct R as [-> J1].
  split; [reflexivity|]. split; [exact Eb|]. now apply ps_sset.
Qed.

Lemma mjrel_process_buffer d n id m m' : mjrel m m' -> mres (process_buffer d n id m) (process_buffer d n id m').
Proof.
  intros HM. pose proof HM as [Eb H]. unfold process_buffer. rewrite (ps_shas _ _ id H), Eb.
  destruct (shas id (f_programs m')); [|split; [reflexivity|exact HM]].
  destruct (sfind id (f_buffer m')) as [[|x b]|]; [split; [reflexivity|exact HM]| |split; [reflexivity|exact HM]].
  apply mres_bind; [now apply mjrel_process_map|]. intros r m1 m1' [E1 H1]. rewrite E1. split; [reflexivity|]. split; [reflexivity|exact H1].
Qed.

Lemma mjrel_add id port x m m' : mjrel m m' -> mres (add_to_buffer id port x m) (add_to_buffer id port x m').
Proof.
  intros HM. pose proof HM as [Eb H]. unfold add_to_buffer. rewrite (ps_shas _ _ id H), Eb.
  destruct (shas id (f_programs m')); (split; [reflexivity|]); [split; [reflexivity|exact H]|exact HM].
Qed.

Lemma mjrel_add_all id l : forall m m', mjrel m m' -> mres (add_all id l m) (add_all id l m').
Proof.
  induction l as [|[port x] l IH]; intros m m' H; cbn [add_all]; [split; [reflexivity|exact H]|].
  apply mres_bind; [now apply mjrel_add|]. intros _ m1 m1' H1. now apply IH.
Qed.

Lemma mjrel_with id k m m' : mjrel m m' -> (forall p q, pjrel p q -> k p = k q) -> mres (with_program m id k) (with_program m' id k).
Proof.
  intros HM K. pose proof HM as [Eb H]. unfold with_program.
  destruct (ps_find _ _ id H) as [(p & q & -> & -> & J)|[-> ->]]; (split; [cbn [fst]|exact HM]); auto.
Qed.

Lemma mjrel_call n c c' m m' : same_call c c' -> mjrel m m' ->
  (is_serialize c = false -> fst (do_call n c m) = fst (do_call n c' m')) /\ mjrel (snd (do_call n c m)) (snd (do_call n c' m')).
Proof.
  assert (W : forall (P : Prop) (x y : sres manager reply), mres x y -> (P -> fst x = fst y) /\ mjrel (snd x) (snd y))
    by (intros P x y [X1 X2]; auto).
  intros [id g g' text|id g g' bs|c0] HM; cbn [do_call] in *.
  - apply W. unfold create_text. pose proof (jrel_new_prog g g' text) as R. unfold rres in R.
    destruct (new_prog g text) as [p|e| | |], (new_prog g' text) as [q|e'| | |]; try contradiction; try discriminate R;
      try (split; [reflexivity|exact HM]).
    + split; [reflexivity|]. destruct HM as [Eb H]. split; [exact Eb|]. now apply ps_semplace.
    + assert (E : e = e') by congruence. rewrite <- E. clear R E e' W. destruct e; try (split; [reflexivity|exact HM]).
      repeat (match goal with |- mres (match ?s with _ => _ end) _ => destruct s end; try (split; [reflexivity|exact HM])).
  - apply W. unfold create_bytes. pose proof (jrel_load g g' bs) as R. unfold rres in R. pose proof HM as [Eb H]. rewrite (ps_shas _ _ id H).
    destruct (shas id (f_programs m')); [split; [reflexivity|exact HM]|].
    destruct (load (new_prog g) bs) as [p|e| | |], (load (new_prog g') bs) as [q|e'| | |]; try contradiction; try discriminate R;
      try (split; [cbn [fst]; congruence|exact HM]).
    split; [reflexivity|]. split; [exact Eb|]. now apply ps_semplace.
  - destruct c0; cbn [do_call].
    + apply W. unfold create_text. destruct (new_prog g text) as [p|e| | |]; try (split; [reflexivity|exact HM]).
      * split; [reflexivity|]. destruct HM as [Eb H]. split; [exact Eb|]. apply ps_semplace; [exact H|]. repeat split. apply hj_refl.
      * destruct e; try (split; [reflexivity|exact HM]).
        repeat (match goal with |- mres (match ?s with _ => _ end) _ => destruct s end; try (split; [reflexivity|exact HM])).
    + apply W. unfold create_bytes. pose proof HM as [Eb H]. rewrite (ps_shas _ _ id H).
      destruct (shas id (f_programs m')); [split; [reflexivity|exact HM]|].
      destruct (load (new_prog g) bs) as [p|e| | |]; try (split; [reflexivity|exact HM]).
      split; [reflexivity|]. split; [exact Eb|]. apply ps_semplace; [exact H|]. repeat split. apply hj_refl.
    + apply W. pose proof HM as [Eb H]. unfold delete. rewrite (ps_shas _ _ id H). split; [reflexivity|]. split; [exact Eb|]. now apply ps_serase.
    + apply W. now apply mjrel_add.
    + apply W. now apply mjrel_process_buffer.
    + apply W. now apply mjrel_process_map.
    + apply W. unfold process_batch. destruct (_ && _); [|split; [reflexivity|exact HM]].
      apply mres_bind; [now apply mjrel_add_all|]. intros _ m1 m1' H1. now apply mjrel_process_buffer.
    + split; [discriminate|]. unfold with_program. pose proof HM as [Eb H].
      destruct (ps_find _ _ id H) as [(p & q & -> & -> & J)|[-> ->]]; exact HM.
    + apply W. apply mjrel_with; [exact HM|]. intros p q (_ & E & _). now rewrite E.
    + apply W. apply mjrel_with; [exact HM|]. intros p q (_ & E & _ & H). unfold entry_ports. rewrite E.
      destruct (String.eqb (p_entry q) ""); [reflexivity|].
      destruct (hj_find _ _ (p_entry q) H) as [(a & a' & -> & -> & J)|[-> ->]]; [|reflexivity]. now rewrite (jrel_base _ _ J).
    + apply W. apply mjrel_with; [exact HM|]. intros p q (_ & _ & E & _). now rewrite E.
Qed.

Lemma mjrel_calls n cs cs' : Forall2 same_call cs cs' -> forall m m', mjrel m m' ->
  replies_without_snapshots cs (fst (do_calls n cs m)) = replies_without_snapshots cs' (fst (do_calls n cs' m')).
Proof.
  induction 1 as [|c c' cs cs' C H IH]; intros m m' HM; [reflexivity|]. cbn [do_calls].
  destruct (mjrel_call n c c' m m' C HM) as [E HM1]. destruct (do_call n c m) as [r m1], (do_call n c' m') as [r' m1'].
  specialize (IH m1 m1' HM1). destruct (do_calls n cs m1) as [rs m2], (do_calls n cs' m1') as [rs' m2'].
  cbn [fst snd] in *. unfold replies_without_snapshots in *. cbn [combine filter fst].
  assert (S' : is_serialize c = is_serialize c') by (destruct C; reflexivity). rewrite <- S'.
  destruct (is_serialize c); cbn [negb map]; [exact IH|]. cbn [snd]. now rewrite E, IH.
Qed.

End Junk.
