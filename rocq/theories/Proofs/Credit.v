(** * Calls that succeed execute an operator once for every message it received *)

From Coq Require Import String ZArith Bool List Lia.
From Verif Require Import Base.StrMap Base.Num Model.Core Model.Ops Model.Make Model.Graph Model.Run Model.Json.
From Verif Require Import Spec.Streams Spec.Shape Spec.Snapshot Spec.Log.
From Verif Require Import Proofs.Lists Proofs.ShapeP Proofs.Merge Proofs.LogP Proofs.LogRun Proofs.LogProg Proofs.Rounds Proofs.Window.
From Verif Require Import Proofs.MakeP Proofs.JsonP Proofs.Restored Proofs.Deep Proofs.PortNames.
Import ListNotations.
Open Scope string_scope.
Open Scope list_scope.
Open Scope Z_scope.
Open Scope rtbot_scope.

Ltac go E :=
  repeat match type of E with
  | (if ?c then _ else _) = Ok _ => destruct c; [discriminate E|]
  | rbind _ _ = Ok _ =>
      let x := fresh "b" in let Ex := fresh "E" in apply rbind_ok in E as (x & Ex & E)
  end.

Section Credit.
Context {NO : NumOps}.

(** received and not executed yet: [k] before, the result after the calls; [None] when there
    was an execution without a message *)
Fixpoint credit (k : nat) (es : list ev) : option nat :=
  match es with
  | [] => Some k
  | EData _ _ :: r => credit (S k) r
  | EExec :: r => match k with O => None | S k' => credit k' r end
  | _ :: r => credit k r
  end.

Lemma credit_app a : forall k k' b, credit k a = Some k' -> credit k (a ++ b) = credit k' b.
Proof.
  induction a as [|[p m|p m| |] a IH]; intros k k' b E; cbn [credit app] in *; eauto.
  - now injection E as ->.
  - destruct k; [discriminate E|]. eauto.
Qed.

Definition owed (x : string) (cs : list (bool * string)) : nat :=
  length (filter (fun c => negb (fst c) && String.eqb x (snd c)) cs).

Lemma credit_delivered h x m cs : forall k,
  credit k (calls x (delivered h m cs)) = Some (owed x (executed h cs) + k)%nat.
Proof.
  induction cs as [|c cs IH]; intros k; [reflexivity|]. unfold delivered, executed. cbn [flat_map].
  fold (delivered h m cs). fold (executed h cs). unfold owed. rewrite filter_app, app_length.
  destruct (port_class h c) as [[]|]; cbn [app calls flat_map filter length negb andb fst snd]; fold (calls x (delivered h m cs)).
  - destruct (String.eqb x (fst c)); cbn [app credit]; rewrite IH; reflexivity.
  - destruct (String.eqb x (fst c)); cbn [app credit length]; rewrite IH; unfold owed; f_equal; lia.
  - rewrite IH. reflexivity.
Qed.

Lemma credit_tree h x :
  (forall ctl id l, tree h ctl id l -> forall k, credit (owed x [(ctl, id)] + k) (calls x l) = Some k) /\
  (forall id ms l, emissions h id ms l -> forall k, credit k (calls x l) = Some k) /\
  (forall cs l, trees h cs l -> forall k, credit (owed x cs + k) (calls x l) = Some k).
Proof.
  apply tree_all.
  - intros ctl id out l _ IH k. cbn [calls flat_map]. fold (calls x l). unfold owed. cbn [filter fst snd].
    destruct ctl; cbn [negb andb]; destruct (String.eqb x id); cbn [app length plus credit]; auto.
  - reflexivity.
  - intros id port m ms y l _ IH1 _ IH2 k. rewrite !calls_app. cbn [calls flat_map app]. fold (calls x (delivered h m (wires h id port))).
    rewrite <- (app_nil_l (calls x (delivered _ _ _))). cbn [app].
    erewrite credit_app by apply credit_delivered. erewrite credit_app by apply IH1. apply IH2.
  - reflexivity.
  - intros ctl id cs l1 l2 _ IH1 _ IH2 k. rewrite calls_app.
    assert (E : owed x ((ctl, id) :: cs) = (owed x [(ctl, id)] + owed x cs)%nat).
    { unfold owed. cbn [filter fst snd]. destruct (negb ctl && String.eqb x id); reflexivity. }
    rewrite E, <- Nat.add_assoc. erewrite credit_app by apply IH1. apply IH2.
Qed.

Lemma credit_send n ep x ms : forall h l h', wf_heap h -> named h ->
  lsend_all n ep ms h = (Ok l, h') -> credit 0 (calls x l) = Some 0%nat.
Proof.
  induction ms as [|[port m] ms IH]; intros h l h' W N E; cbn [lsend_all] in E; [now injection E as <- <-|].
  apply bind_ok in E as (l1 & h1 & E1 & E). apply bind_ok in E as (l2 & h2 & E2 & E). injection E as <- <-.
  pose proof (lsend1_keeps _ _ _ _ _ _ _ W E1) as K.
  destruct (lsend1_ok _ _ _ _ _ _ _ W E1) as (o & u & o' & l' & Ho & R & E3 & -> & K1).
  rewrite calls_app. erewrite credit_app; [eapply (IH h1); [eapply wf_heap_same; eauto|eapply named_same; eauto|exact E2]|].
  assert (T : tree (sset ep o' h) false ep l').
  { eapply lexec_tree; [| |reflexivity|exact E3]; [eapply wf_heap_same; eauto|eapply named_same; eauto]. }
  cbn [calls flat_map app]. fold (calls x l'). pose proof (proj1 (credit_tree (sset ep o' h) x) _ _ _ T 0%nat) as X.
  unfold owed in X. cbn [filter fst snd negb andb] in X. destruct (String.eqb x ep); exact X.
Qed.

(** ** AutoRegressive *)

(** (without coefficients the buffer is declared without limit, and every message is refused) *)
Definition ar_is (k : nat) (c : list V) (o : op) : Prop :=
  exists b p, o = Op b (KAutoReg c) /\ o_data b = [("i1", p)] /\
    ((ip_max p = Z.of_nat (length c) /\
      ((k = 0%nat /\ (length (ip_data p) <= length c)%nat) \/ length (ip_data p) = (length c + k)%nat)) \/
     (ip_max p = two64 - 1 /\ ip_data p = [])).
Definition ar_inv (o : op) : Prop := match op_kind o with KAutoReg c => ar_is 0 c o | _ => True end.

Lemma ar_step k c o e out o' k' : ar_is k c o -> step o e = (Ok out, o') -> credit k [e] = Some k' -> ar_is k' c o'.
Proof.
  intros (b & p & -> & D & Hd) E C. destruct e; cbn [step credit] in E, C; try (destruct Hd as [[M Hs]|[M Hs]]; [|]).
  - injection C as <-. unfold recv_data_local, recv_data_ar in E. rewrite D in E.
    destruct (sfind (resolve port [("i1", p)]) [("i1", p)]) as [q|] eqn:F; [|discriminate E].
    cbn [sfind] in F. destruct (String.eqb_spec (resolve port [("i1", p)]) "i1") as [Ei|]; [|discriminate F]. injection F as <-.
    rewrite Ei in E. destruct (deque_max <=? ip_max p - ip_size p); [discriminate E|]. cbn in E. injection E as _ <-.
    eexists _, _. split; [reflexivity|]. split; [reflexivity|]. left. cbn [ip_max ip_data]. split; [exact M|]. right. rewrite !app_length, repeat_length. cbn [length].
    unfold ip_size. rewrite M. destruct Hs as [[-> Hs]|Hs]; lia.
  - exfalso. unfold recv_data_local, recv_data_ar in E. rewrite D in E.
    destruct (sfind (resolve port [("i1", p)]) [("i1", p)]) as [q|] eqn:F; [|discriminate E].
    cbn [sfind] in F. destruct (String.eqb_spec (resolve port [("i1", p)]) "i1") as [Ei|]; [|discriminate F]. injection F as <-.
    unfold ip_size in E. rewrite M, Hs in E. discriminate E.
  - injection C as <-. unfold recv_ctrl_local in E.
    assert (X : o_data (snd (recv_ctrl_base b m port)) = o_data b).
    { unfold recv_ctrl_base. cbv zeta. destruct (sfind _ (o_ctrl b)) as [q|]; [|reflexivity]. destruct (port_receive q m); reflexivity. }
    destruct (recv_ctrl_base b m port) as [[u| | | |] b1]; try discriminate E. cbn in E. injection E as _ <-.
    exists b1, p. cbn [snd] in X. rewrite X. auto.
  - injection C as <-. unfold recv_ctrl_local in E.
    assert (X : o_data (snd (recv_ctrl_base b m port)) = o_data b).
    { unfold recv_ctrl_base. cbv zeta. destruct (sfind _ (o_ctrl b)) as [q|]; [|reflexivity]. destruct (port_receive q m); reflexivity. }
    destruct (recv_ctrl_base b m port) as [[u| | | |] b1]; try discriminate E. cbn in E. injection E as _ <-.
    exists b1, p. cbn [snd] in X. rewrite X. auto.
  - destruct k as [|k]; [discriminate C|]. injection C as <-. destruct Hs as [[Hs _]|Hs]; [discriminate Hs|].
    cbn [exec_data_local] in E. unfold ar_exec in E. rewrite D in E.
    destruct (ar_loop _ _ _ _ _) as [v| | | |]; try discriminate E.
    destruct (ip_data p) as [|a [|a' q]] eqn:Q; try discriminate E. injection E as _ <-.
    eexists _, _. split; [reflexivity|]. split; [reflexivity|]. left. cbn [set_q ip_max ip_data]. split; [exact M|]. right.
    rewrite app_length. pose proof (f_equal (@length _) (app_removelast_last msg0 (l := a' :: q) ltac:(discriminate))) as L.
    rewrite app_length in L. change (removelast (a' :: q)) with (match q with [] => [] | _ :: _ => a' :: removelast q end) in L.
    cbn [length] in *. lia.
  - exfalso. cbn [exec_data_local] in E. unfold ar_exec in E. rewrite D, Hs in E. destruct (ar_loop _ _ _ _ _) as [v| | | |]; discriminate E.
  - injection C as <-. injection E as _ <-. exists b, p. auto.
  - injection C as <-. injection E as _ <-. exists b, p. auto.
Qed.

Lemma ar_run c es : forall k o outs o' k', ar_is k c o -> run o es = (Ok outs, o') -> credit k es = Some k' -> ar_is k' c o'.
Proof.
  induction es as [|e es IH]; intros k o outs o' k' H E C; [injection E as _ <-; injection C as <-; exact H|].
  cbn [run] in E. apply bind_ok in E as (x & o1 & E1 & E). apply bind_ok in E as (xs & o2 & E2 & E). injection E as _ <-.
  change (e :: es) with ([e] ++ es) in C.
  destruct (credit k [e]) as [k1|] eqn:C1.
  - rewrite (credit_app _ _ _ _ C1) in C. eauto using ar_step.
  - destruct e; try discriminate C1. destruct k; discriminate.
Qed.

Lemma ar_receive n p batch r p' : wf_heap (p_ops p) -> named (p_ops p) -> receive n p batch = (Ok r, p') ->
  (forall id o, sfind id (p_ops p) = Some o -> ar_inv o) ->
  wf_heap (p_ops p') /\ named (p_ops p') /\ forall id o, sfind id (p_ops p') = Some o -> ar_inv o.
Proof.
  intros W N E H. unfold receive in E.
  assert (X : exists r0, receive_debug n p batch = (Ok r0, p')).
  { destruct (receive_debug n p batch) as [[r0| | | |] p1]; try discriminate E. injection E as _ <-. eauto. }
  clear E. destruct X as (r0 & E). unfold receive_debug in E. destruct (shas (p_entry p) (p_ops p)); [|discriminate E].
  pose proof (lsend_batch_spec n (p_entry p) batch [] (p_ops p)) as X. change (collate []) with (@nil (string * opmsg)) in X.
  rewrite X in E. destruct (lsend_all n (p_entry p) (batch_messages batch) (p_ops p)) as [[l| | | |] h'] eqn:L; try discriminate E.
  cbn in E. injection E as _ <-. cbn [p_ops set_ops].
  pose proof (lsend_all_keeps _ _ _ _ _ _ W L) as K.
  split; [eapply wf_heap_same; eauto|]. split; [eapply named_same; eauto|].
  pose proof (lsend_all_replays _ _ _ _ _ _ W N L) as [_ R]. intros id o Ho.
  destruct (erase_heap_find _ _ _ _ K Ho) as (o0 & H0 & Eo).
  unfold ar_inv. destruct (op_kind o) eqn:Ko; try exact I.
  assert (P0 : is_pipeline o0 = false).
  { rewrite <- LogRun.erase_is_pipeline, Eo, LogRun.erase_is_pipeline. destruct o as [b k]. cbn in Ko. now subst k. }
  destruct (R id o0 H0 P0) as (o1 & H1 & _ & R1). rewrite Ho in H1. injection H1 as <-.
  specialize (H id o0 H0). unfold ar_inv in H. destruct o as [b k], o0 as [b0 k0]. cbn [op_kind] in *. subst k.
  pose proof (f_equal op_kind Eo) as Ek. destruct k0; try discriminate Ek. injection Ek as ->.
  eapply ar_run; [exact H|exact R1|]. eapply credit_send; eauto.
Qed.

Lemma ar_session n history : forall p, wf_heap (p_ops p) -> named (p_ops p) ->
  Forall (fun r => exists x, r = Ok x) (fst (session n p history)) ->
  (forall id o, sfind id (p_ops p) = Some o -> ar_inv o) ->
  forall id o, sfind id (p_ops (snd (session n p history))) = Some o -> ar_inv o.
Proof.
  induction history as [|b bs IH]; intros p W N F H; [exact H|]. cbn [session] in *.
  destruct (receive n p b) as [r p1] eqn:E. specialize (IH p1). destruct (session n p1 bs) as [rs p2]. cbn [fst snd] in *.
  inversion F as [|? ? [x ->] F']; subst. destruct (ar_receive _ _ _ _ _ W N E H) as (W1 & N1 & H1). eauto.
Qed.

Context {JT : JsonText}.

Lemma ar_new g text p : new_prog g text = Ok p -> forall id o, sfind id (p_ops p) = Some o -> ar_inv o.
Proof.
  intros E id o Ho. assert (X : all_every (ar_inv) (p_ops p)).
  { revert E. apply new_prog_every.
    - intros o1 C. unfold ar_inv. destruct (op_kind o1) eqn:Ko; try exact I.
      destruct C as
        [id1 n o1 H|id1 n o1 H|id1 n o1 H|id1 n o1 H|id1 f o1 H|id1 c o1 H|id1 n o1 H|id1 f v o1 H|id1 v o1 H|id1 v o1 H|id1 v o1 H|id1 v o1 H
        |id1 o1 H|id1 n o1 H|id1 n o1 H|id1 n o1 H|id1 c o1 H|id1 c o1 H|id1 o1 H|id1 o1 H|id1 u o1 H|id1 dt times o1 H|id1 dt g1 g2 o1 H
        |id1 dt o1 H|id1 dt o1 H|id1 l ty o1 H|id1 v o1 H|id1 n g1 g2 g3 g4 o1 H];
        try (injection H as <-; discriminate Ko).
      all: try (unfold mk_input, mk_output, mk_join, mk_binary, mk_linear, mk_demux, mk_variable in H; go H; injection H as <-; discriminate Ko).
      + injection H as <-. injection Ko as <-. eexists _, _. split; [reflexivity|]. split; [reflexivity|]. destruct c as [|a c]; [right; split; reflexivity|].
        left. split; [reflexivity|]. left. cbn. lia.
      + unfold mk_constres in H. destruct (dt <=? 0); [discriminate H|]. injection H as <-. discriminate Ko.
      + unfold mk_function in H. destruct (Nat.ltb _ 2); [discriminate H|].
        destruct (String.eqb ty "linear"); [injection H as <-; discriminate Ko|].
        destruct (String.eqb ty "hermite"); [injection H as <-; discriminate Ko|discriminate H].
    - intros f i t prog o1 M. unfold ar_inv. unfold mk_pipeline in M. apply rbind_ok in M as (xs & _ & M). apply rbind_ok in M as (h0 & _ & M).
      apply rbind_ok in M as (cs & _ & M). apply rbind_ok in M as ([[h ui] uo] & _ & M). apply rbind_ok in M as (y & _ & M).
      destruct (pipe_outs _ _ _ _) as [b1 pm1]. injection M as <-. exact I.
    - intros b k cs X. unfold ar_inv in *. cbn [op_kind] in *. destruct k; try exact I.
      destruct X as (b0 & p0 & X1 & X2). injection X1 as <-. exists (set_conns b cs), p0. split; [reflexivity|exact X2]. }
  exact (every_L _ _ (all_find _ _ _ _ X Ho)).
Qed.

End Credit.
