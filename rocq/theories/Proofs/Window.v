(** * The bounded input port and the base class' [executeData]. *)

From Coq Require Import String ZArith Bool List Lia.
From Verif Require Import Base.StrMap Base.Num Model.Core Model.Ops Model.Make Model.Run.
From Verif Require Import Spec.Streams Proofs.Lists.
Import ListNotations.
Open Scope string_scope.
Open Scope list_scope.
Open Scope Z_scope.
Open Scope rtbot_scope.

Section Window.
Context {NO : NumOps}.

(** the effective size of a port *)
Definition eff (n : Z) : Z := if n =? 0 then two64 - 1 else n.

Lemma eff_pos n : 0 <= n -> 0 < eff n.
Proof. unfold eff. intros. destruct (n =? 0) eqn:E; [reflexivity|lia]. Qed.

Lemma eff_id n : 0 < n -> eff n = n.
Proof. unfold eff. intros. destruct (n =? 0) eqn:E; lia. Qed.

(** the port after a history of messages *)
Definition port_after (name : string) (n : Z) (hist : list msg) : inport :=
  fold_left (fun p m => match port_receive p m with Ok p' => p' | _ => p end) hist (new_port name n).

Lemma port_after_snoc name n h m :
  port_after name n (h ++ [m]) =
  match port_receive (port_after name n h) m with Ok p' => p' | _ => port_after name n h end.
Proof. unfold port_after. now rewrite fold_left_app. Qed.

Lemma port_receive_ok p m :
  0 < ip_max p -> ip_size p <= ip_max p -> exists p', port_receive p m = Ok p' /\
    ip_max p' = ip_max p /\ ip_id p' = ip_id p /\
    ip_data p' = (if ip_max p =? ip_size p then tl (ip_data p) else ip_data p) ++ [m].
Proof.
  intros H1 H2. unfold port_receive.
  destruct (ip_max p =? ip_size p) eqn:E.
  - unfold ip_pop. destruct (ip_data p) as [|a q] eqn:D.
    + unfold ip_size in E. rewrite D in E. cbn in E. lia.
    + eexists. split; [reflexivity|]. cbn. auto.
  - destruct (ip_max p <? ip_size p) eqn:E2; [lia|].
    eexists. split; [reflexivity|]. cbn. auto.
Qed.

Lemma port_after_inv name n h :
  0 <= n ->
  ip_max (port_after name n h) = eff n /\ ip_id (port_after name n h) = name /\
  ip_data (port_after name n h) = lastn (Z.to_nat (eff n)) h.
Proof.
  intros Hn. pose proof (eff_pos n Hn) as He.
  induction h as [|m h IH] using rev_ind.
  - cbn. repeat split.
  - destruct IH as (IM & II & ID). rewrite port_after_snoc.
    destruct (port_receive_ok (port_after name n h) m) as (p' & E & M & I & D).
    + lia.
    + unfold ip_size. rewrite ID, IM, lastn_length. lia.
    + rewrite E. rewrite M, I, D. repeat split; auto.
      destruct (Z.to_nat (eff n)) as [|k] eqn:K; [lia|]. rewrite lastn_snoc, ID.
      unfold ip_size. rewrite ID, IM, lastn_length. f_equal.
      destruct (eff n =? Z.of_nat (Nat.min (S k) (length h))) eqn:E2.
      * apply Z.eqb_eq in E2. symmetry. apply lastn_S_tl. lia.
      * apply Z.eqb_neq in E2. rewrite !lastn_all by lia. reflexivity.
Qed.

Lemma port_receive_after name n h m :
  0 <= n -> port_receive (port_after name n h) m = Ok (port_after name n (h ++ [m])).
Proof.
  intros Hn. pose proof (eff_pos n Hn). destruct (port_after_inv name n h Hn) as (IM & II & ID).
  rewrite port_after_snoc.
  destruct (port_receive_ok (port_after name n h) m) as (p' & E & _).
  - lia.
  - unfold ip_size. rewrite ID, IM, lastn_length. lia.
  - now rewrite E.
Qed.

Lemma port_after_full name n h : 0 <= n ->
  (ip_size (port_after name n h) <? ip_max (port_after name n h)) = (Z.of_nat (length h) <? eff n).
Proof.
  intros Hn. pose proof (eff_pos n Hn). destruct (port_after_inv name n h Hn) as (IM & II & ID).
  unfold ip_size. rewrite ID, IM, lastn_length.
  apply eq_true_iff_eq. rewrite !Z.ltb_lt. lia.
Qed.

(** ** Operators with one data input [i1] and the base class' receive and execute *)

Definition base_kind (k : kind) : bool :=
  match k with
  | KJoin _ | KBinary _ | KLinear _ | KDemux _ | KAutoReg _ | KVariable _ _ | KPipeline _ _ _ _ _ => false
  | _ => true
  end.

Definition sop (id : string) (outs : list string) (conns : smap (list (string * string)))
  (p : inport) (tp : bool) (k : kind) : op :=
  Op (mkBase id [("i1", p)] [] outs conns (if tp then ["i1"] else [])) k.

Lemma mk_simple_sop id n k : mk_simple id n k = Ok (sop id ["o1"] [] (new_port "i1" n) false k).
Proof. reflexivity. Qed.

Lemma recv_data_sop id outs conns p tp k m port p' :
  base_kind k = true -> port = "i1" \/ port = "" -> port_receive p m = Ok p' ->
  recv_data_local (sop id outs conns p tp k) m port = (Ok tt, sop id outs conns p' true k).
Proof.
  intros Hk Hp E. unfold sop, recv_data_local.
  assert (R : recv_data_base (mkBase id [("i1", p)] [] outs conns (if tp then ["i1"] else [])) m port
      = (Ok tt, mkBase id [("i1", p')] [] outs conns ["i1"])).
  { unfold recv_data_base. assert (Rp : resolve port [("i1", p)] = "i1").
    { unfold resolve. destruct Hp as [->| ->]; reflexivity. }
    cbn [o_data]. rewrite Rp. change (sfind "i1" [("i1", p)]) with (Some p). cbv beta iota. rewrite E. destruct tp; reflexivity. }
  destruct k; try discriminate Hk; now rewrite R.
Qed.

(** what [process_data] does for an operator whose kind is [k] and port is [p] *)
Definition proc (id : string) (outs : list string) (conns : smap (list (string * string)))
  (p : inport) (k : kind) : sres (base * kind) opmsg :=
  process_data (mkBase id [("i1", p)] [] outs conns ["i1"]) k.

Lemma exec_sop id outs conns p tp k :
  base_kind k = true ->
  exec_data_local (sop id outs conns p tp k) =
  if tp && negb (ip_size p <? ip_max p) then
    match proc id outs conns p k with
    | (Ok out, (b', k')) => (Ok out, Op (set_toproc b' []) k')
    | (r, (b', k')) => (r, Op b' k')
    end
  else (Ok [], sop id outs conns p false k).
Proof.
  intros Hk. unfold sop, exec_data_local.
  assert (R : exec_base (mkBase id [("i1", p)] [] outs conns (if tp then ["i1"] else [])) k =
    if tp && negb (ip_size p <? ip_max p) then
      match proc id outs conns p k with
      | (Ok out, (b', k')) => (Ok out, (set_toproc b' [], k'))
      | r => r
      end
    else (Ok [], (mkBase id [("i1", p)] [] outs conns [], k))).
  { unfold exec_base. destruct tp; cbn; [|reflexivity].
    unfold d_max, d_size. cbn. destruct (ip_size p <? ip_max p); reflexivity. }
  destruct k; try discriminate Hk; rewrite R;
  destruct tp; cbn [andb]; try reflexivity;
  destruct (ip_size p <? ip_max p); cbn [negb]; try reflexivity;
  match goal with |- context [proc ?a ?b ?c ?d ?e] =>
    destruct (proc a b c d e) as [[] [? ?]] end; reflexivity.
Qed.

(** the general simulation: [K] gives the kind's state after a history of calls, [f] what
    the last call of a history emits *)
Lemma win_run id outs conns n (P : list ev -> Prop) (K : list ev -> kind) (f : list ev -> opmsg) :
  0 <= n ->
  (forall evs e, P (evs ++ [e]) -> P evs) ->
  (forall evs, P evs -> one_input evs) ->
  (forall evs, base_kind (K evs) = true) ->
  (forall evs p m, K (evs ++ [EData p m]) = K evs /\ f (evs ++ [EData p m]) = []) ->
  (forall evs, K (evs ++ [EExecC]) = K evs /\ f (evs ++ [EExecC]) = []) ->
  (forall evs,
     if pending evs && negb (Z.of_nat (length (received evs)) <? eff n) then
       P evs ->
       proc id outs conns (port_after "i1" n (received evs)) (K evs) =
       (Ok (f (evs ++ [EExec])),
        (mkBase id [("i1", port_after "i1" n (received evs))] [] outs conns ["i1"], K (evs ++ [EExec])))
     else K (evs ++ [EExec]) = K evs /\ f (evs ++ [EExec]) = []) ->
  forall evs, P evs ->
  run (sop id outs conns (new_port "i1" n) false (K [])) evs =
  (Ok (map f (prefixes evs)),
   sop id outs conns (port_after "i1" n (received evs)) (pending evs) (K evs)).
Proof.
  intros Hn HP1 HP2 HK HD HC HE evs.
  induction evs as [|e evs IH] using rev_ind; intros HP.
  - reflexivity.
  - pose proof (HP1 _ _ HP) as HP'. pose proof (HP2 _ HP) as Hone.
    specialize (IH HP'). rewrite (run_snoc _ _ _ _ _ IH).
    rewrite prefixes_snoc, map_app, received_app, pending_snoc. cbn [map].
    unfold one_input in Hone. rewrite Forall_app in Hone. destruct Hone as [_ Hone].
    inversion Hone as [|? ? He _]; subst.
    destruct e as [port m|port m| |]; try contradiction; cbn [step received].
    + rewrite (recv_data_sop _ _ _ _ _ _ _ _ _ (HK evs) He (port_receive_after _ _ _ _ Hn)).
      destruct (HD evs port m) as [-> ->]. reflexivity.
    + rewrite exec_sop by auto. rewrite app_nil_r, port_after_full by auto.
      specialize (HE evs).
      destruct (pending evs && negb (Z.of_nat (length (received evs)) <? eff n)) eqn:E.
      * rewrite HE by assumption. reflexivity.
      * destruct HE as [-> ->]. reflexivity.
    + assert (X : exec_ctrl_local
               (sop id outs conns (port_after "i1" n (received evs)) (pending evs) (K evs)) =
               (Ok [], sop id outs conns (port_after "i1" n (received evs)) (pending evs) (K evs))).
      { specialize (HK evs). unfold sop, exec_ctrl_local. destruct (K evs); try discriminate HK; reflexivity. }
      rewrite X. destruct (HC evs) as [-> ->]. now rewrite app_nil_r.
Qed.

(** specialisation to operators without state of their own *)
Lemma win_run_stateless id outs conns n (P : list ev -> Prop) k (g : list msg -> opmsg) :
  0 <= n -> base_kind k = true ->
  (forall evs e, P (evs ++ [e]) -> P evs) ->
  (forall evs, P evs -> one_input evs) ->
  (forall evs, P evs -> let h := received evs in
     h <> [] -> eff n <= Z.of_nat (length h) ->
     proc id outs conns (port_after "i1" n h) k =
     (Ok (g h), (mkBase id [("i1", port_after "i1" n h)] [] outs conns ["i1"], k))) ->
  forall evs, P evs ->
  run (sop id outs conns (new_port "i1" n) false k) evs =
  (Ok (answers (fun h => if Z.of_nat (length h) <? eff n then [] else g h) evs),
   sop id outs conns (port_after "i1" n (received evs)) (pending evs) k).
Proof.
  intros Hn Hk HP1 HP2 Hg evs HP.
  apply (win_run id outs conns n P (fun _ => k)
           (answer (fun h => if Z.of_nat (length h) <? eff n then [] else g h))); auto.
  - intros. now rewrite answer_snoc.
  - intros. now rewrite answer_snoc.
  - intros e. rewrite answer_snoc. destruct (pending e) eqn:Pe; cbn [andb]; [|auto].
    destruct (Z.of_nat (length (received e)) <? eff n) eqn:L; cbn [negb]; [auto|].
    intros He. apply Hg; auto. now apply pending_received. lia.
Qed.

(** the buffer holds the last messages *)
Lemma port_after_data name n h : 0 <= n ->
  ip_data (port_after name n h) = lastn (Z.to_nat (eff n)) h.
Proof. intros. now apply port_after_inv. Qed.

Lemma port_after_max name n h : 0 <= n -> ip_max (port_after name n h) = eff n.
Proof. intros. now apply port_after_inv. Qed.

End Window.
