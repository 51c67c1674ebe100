(** * Histories of Join, BinaryJoin and Linear *)

From Coq Require Import String ZArith Bool List Lia Sorted.
From Verif Require Import Base.StrMap Base.Num Model.Core Model.Ops Model.Make Model.Run.
From Verif Require Import Spec.Streams Spec.Multi Spec.Join Proofs.Lists Proofs.Ports Proofs.VariableP Proofs.JoinP.
Import ListNotations.
Open Scope string_scope.
Open Scope list_scope.
Open Scope Z_scope.
Open Scope rtbot_scope.

Lemma somes_app {A} (l1 l2 : list (option A)) : somes (l1 ++ l2) = somes l1 ++ somes l2.
Proof. induction l1 as [|[x|] l1 IH]; cbn; auto. now rewrite IH. Qed.

Lemma In_somes {A} (x : A) l : In x (somes l) <-> In (Some x) l.
Proof.
  induction l as [|[y|] l IH]; cbn; [tauto| |].
  - rewrite IH. split; intros [H|H]; auto; [left; congruence|injection H as ->; auto].
  - rewrite IH. split; [auto|]. intros [H|H]; [discriminate|auto].
Qed.

Lemma Forall2_impl_In {A B} (P Q : A -> B -> Prop) l1 l2 :
  Forall2 P l1 l2 -> (forall a b, In a l1 -> P a b -> Q a b) -> Forall2 Q l1 l2.
Proof.
  induction 1 as [|a b l1 l2 H F IH]; intros I; constructor.
  - apply I; cbn; auto.
  - apply IH. intros; apply I; cbn; auto.
Qed.

Section JoinRun.
Context {NO : NumOps}.

Lemma hist_app port e1 e2 : hist port (e1 ++ e2) = hist port e1 ++ hist port e2.
Proof. unfold hist, project. now rewrite filter_app, received_app. Qed.
Lemma hist_exec port evs : hist port (evs ++ [EExec]) = hist port evs.
Proof. rewrite hist_app. cbn. apply app_nil_r. Qed.
Lemma hist_data port evs p m : hist port (evs ++ [EData p m]) = upd (fun n => hist n evs) p m port.
Proof.
  rewrite hist_app. unfold upd, hist at 2, project. cbn. rewrite (String.eqb_sym port p).
  destruct (String.eqb p port); cbn; auto. apply app_nil_r.
Qed.

Definition is_join (k : kind) : Prop := match k with KJoin _ | KBinary _ | KLinear _ => True | _ => False end.

Lemma step_exec b k : is_join k -> step (Op b k) EExec = let '(r, (b', k')) := join_exec b k in (r, Op b' k').
Proof. destruct k; cbn; try tauto; intros _; destruct (join_exec b _) as [r [b' k']]; reflexivity. Qed.
Lemma step_data b k p m : is_join k ->
  step (Op b k) (EData p m) = do! (_u, o1) <- (let '(r, b') := recv_data_join b m p in (r, Op b' k)); (Ok [], o1).
Proof. destruct k; cbn; tauto. Qed.

Definition on_names (names : list string) (evs : list ev) : Prop :=
  Forall (fun e => match e with EData p _ => In p names /\ p <> "" | EExec => True | _ => False end) evs.

Section General.
Variables (b0 : base) (k : kind) (names : list string) (g : list msg -> opmsg).
Hypothesis Kj : is_join k.
Hypothesis Nn : names <> [].
Hypothesis Kn : skeys (o_data b0) = names.
Hypothesis W0 : swf (o_data b0).
Hypothesis Em : forall n p, In (n, p) (o_data b0) -> ip_data p = [].
Hypothesis Hg : forall ports1 t, skeys ports1 = names -> swf ports1 -> all_at t ports1 ->
  join_process (set_data b0 ports1) k = Ok (g (map (fun np => hd msg0 (ip_data (snd np))) ports1)).

Definition emitted (evs : list ev) (t : option Z) (out : opmsg) : Prop :=
  match t with
  | Some t => out = g (map (fun n => at_time (hist n evs) t) names)
  | None => out = emits_nothing
  end.

Definition run_ok (evs : list ev) outs ports ts : Prop :=
  run (Op b0 k) evs = (Ok outs, Op (set_data b0 ports) k) /\ swf ports /\
  join_inv names (fun n => hist n evs) (somes ts) ports /\ Forall2 (emitted evs) ts outs.

Lemma set_data_set_data b p q : set_data (set_data b p) q = set_data b q.
Proof. reflexivity. Qed.

Lemma total_empty (ports : smap inport) : (forall n p, In (n, p) ports -> ip_data p = []) -> total ports = 0%nat.
Proof.
  induction ports as [|[n p] l IH]; intros H; cbn; auto. rewrite (H n p) by (cbn; auto). cbn. apply IH.
  intros; eapply H; cbn; eauto.
Qed.

Lemma run_nil : run_ok [] [] (o_data b0) [].
Proof.
  split; [cbn; now destruct b0|]. split; auto. split; [|constructor].
  split; auto. split; [constructor|]. intros n p Hn. exists []. rewrite (Em n p Hn). cbn. repeat split; auto; tauto.
Qed.

Definition some_empty (ports : smap inport) : Prop := exists n p, In (n, p) ports /\ ip_data p = [].

Lemma inv_emitted_times H E ports : join_inv names H E ports -> forall e, In e E -> forall n, In n names -> In e (times (H n)).
Proof.
  intros (K & _ & I) e He n Hn. rewrite <- K in Hn. apply in_map_iff in Hn as ([n' p] & <- & Hp). cbn.
  destruct (I _ _ Hp) as (dr & Eh & EE & _). rewrite Eh. unfold times. rewrite map_app. apply in_or_app. left. now apply EE.
Qed.

Lemma exec_step evs outs ports ts :
  all_increasing names (fun n => hist n evs) -> run_ok evs outs ports ts ->
  exists out ports' t, run_ok (evs ++ [EExec]) (outs ++ [out]) ports' (ts ++ [t]) /\
    ((some_empty ports' /\ ports' = ports) \/ (total ports' < total ports)%nat).
Proof.
  intros Inc (R & W & I & F).
  destruct (join_exec_step names (fun n => hist n evs) (somes ts) (set_data b0 ports) k g)
    as (out & ports' & J & W' & D); auto.
  { intros ports1 t K1 Al. rewrite set_data_set_data. apply (Hg ports1 t); auto.
    unfold swf. rewrite K1. destruct I as (<- & _). exact W. }
  rewrite set_data_set_data in J.
  assert (R' : run (Op b0 k) (evs ++ [EExec]) = (Ok (outs ++ [out]), Op (set_data b0 ports') k)).
  { rewrite (run_snoc _ _ _ _ _ R), step_exec, J by auto. reflexivity. }
  assert (He : forall t out, emitted evs t out -> emitted (evs ++ [EExec]) t out).
  { intros [t|] o Ho; auto. cbn in *. rewrite Ho. f_equal. apply map_ext. intros n. now rewrite hist_exec. }
  assert (F' : Forall2 (emitted (evs ++ [EExec])) ts outs) by (eapply Forall2_impl_In; eauto).
  assert (Hi : forall E p, join_inv names (fun n => hist n evs) E p -> join_inv names (fun n => hist n (evs ++ [EExec])) E p).
  { intros E p (A & B & C). split; auto. split; auto. intros n q Hn. destruct (C n q Hn) as (dr & X & Y & Z).
    exists dr. rewrite hist_exec. split; auto. split; auto. intros d Hd. destruct (Z d Hd) as [|(n' & ?)]; auto.
    right. exists n'. now rewrite hist_exec. }
  destruct D as [(Se & -> & Eq & I')|(L & [(-> & I')|(t & -> & Ht & I')])].
  - exists [], ports', None. split; [|auto]. split; auto. split; auto. split; [|now apply Forall2_app; auto; repeat constructor].
    rewrite somes_app, app_nil_r. auto.
  - exists [], ports', None. split; [|auto]. split; auto. split; auto. split; [|now apply Forall2_app; auto; repeat constructor].
    rewrite somes_app, app_nil_r. auto.
  - eexists _, ports', (Some t). split; [|auto]. split; [exact R'|]. split; auto. split.
    + rewrite somes_app. auto.
    + apply Forall2_app; auto. constructor; [|constructor]. apply He. reflexivity.
Qed.

Lemma data_step evs outs ports ts p m :
  In p names -> p <> "" ->
  all_increasing names (fun n => hist n (evs ++ [EData p m])) -> run_ok evs outs ports ts ->
  exists ports', run_ok (evs ++ [EData p m]) (outs ++ [[]]) ports' (ts ++ [None]) /\ total ports' = S (total ports) /\
    forall n q, In (n, q) ports' -> exists q', In (n, q') ports /\ ip_data q = ip_data q' ++ (if String.eqb n p then [m] else []).
Proof.
  intros Hp Ne Inc (R & W & I & F).
  assert (Inc' : all_increasing names (upd (fun n => hist n evs) p m)).
  { intros n Hn. specialize (Inc n Hn). cbn in Inc. now rewrite hist_data in Inc. }
  destruct (join_recv_step names (fun n => hist n evs) (somes ts) (set_data b0 ports) p m)
    as (ports' & J & W' & I' & T); auto.
  rewrite set_data_set_data in J. exists ports'. split; [split; [|split; [|split]]|]; auto.
  - rewrite (run_snoc _ _ _ _ _ R), step_data, J by auto. reflexivity.
  - rewrite somes_app, app_nil_r. destruct I' as (A & B & C). split; auto. split; auto. intros n q Hn.
    destruct (C n q Hn) as (dr & X & Y & Z). exists dr. rewrite hist_data. split; auto. split; auto. intros d Hd.
    destruct (Z d Hd) as [|(n' & ?)]; auto. right. exists n'. now rewrite hist_data.
  - apply Forall2_app; [|now repeat constructor]. eapply Forall2_impl_In; [exact F|]. intros [t|] o Ht Ho; auto. cbn in *.
    rewrite Ho. f_equal. apply map_ext_in. intros n Hn. rewrite hist_data. unfold upd.
    destruct (String.eqb n p); auto. symmetry. apply at_time_app.
    apply (inv_emitted_times (fun n => hist n evs) (somes ts) ports); auto. now apply In_somes.
  - split; auto. intros n q Hn. unfold recv_data_join in J. cbn [o_data set_data] in J.
    destruct (String.eqb_spec p "") as [|_]; [contradiction|]. destruct (sfind p ports) as [q0|] eqn:Fq; [|discriminate].
    assert (Ep : sset p (ip_push q0 m) ports = ports') by (injection J as J; exact J). subst ports'.
    apply In_sfind in Hn; auto. rewrite sfind_sset in Hn. destruct (String.eqb_spec n p) as [->|].
    + injection Hn as <-. exists q0. split; [now apply sfind_In|]. reflexivity.
    + exists q. split; [now apply sfind_In|]. now rewrite app_nil_r.
Qed.

Lemma all_increasing_snoc evs e : all_increasing names (fun n => hist n (evs ++ [e])) -> all_increasing names (fun n => hist n evs).
Proof.
  intros H n Hn. specialize (H n Hn). cbn in H. rewrite hist_app in H. now apply increasing_app_inv in H as (? & _ & _).
Qed.

Lemma received_length_snoc evs e : length (received (evs ++ [e])) = (length (received evs) + match e with EData _ _ => 1 | _ => 0 end)%nat.
Proof. rewrite received_app, app_length. destruct e; reflexivity. Qed.

Theorem join_run evs : on_names names evs -> all_increasing names (fun n => hist n evs) ->
  exists outs ports ts, run_ok evs outs ports ts /\ (total ports <= length (received evs))%nat.
Proof.
  induction evs as [|e evs IH] using rev_ind; intros On Inc.
  - exists [], (o_data b0), []. split; [apply run_nil|]. rewrite total_empty; cbn; auto. 
  - apply Forall_app in On as [On Oe]. inversion Oe as [|? ? He _]; subst.
    destruct (IH On (all_increasing_snoc _ _ Inc)) as (outs & ports & ts & R & T).
    rewrite received_length_snoc. destruct e as [p m| | |]; try tauto.
    + destruct (data_step evs outs ports ts p m) as (ports' & R' & T' & _); try tauto.
      exists (outs ++ [[]]), ports', (ts ++ [None]). split; auto. lia.
    + destruct (exec_step evs outs ports ts) as (out & ports' & t & R' & D); auto.
      { now apply all_increasing_snoc in Inc. }
      exists (outs ++ [out]), ports', (ts ++ [t]). split; auto. destruct D as [[_ ->]|D]; lia.
Qed.

(** executing often enough empties some queue *)
Lemma all_increasing_execs evs n : all_increasing names (fun x => hist x evs) -> all_increasing names (fun x => hist x (evs ++ repeat EExec n)).
Proof.
  intros H x Hx. cbn. rewrite hist_app. replace (hist x (repeat EExec n)) with (@nil msg).
  - rewrite app_nil_r. now apply H.
  - induction n; cbn; auto.
Qed.

Lemma repeat_snoc {A} (x : A) n : repeat x (S n) = repeat x n ++ [x].
Proof. induction n; cbn in *; auto. now rewrite <- IHn. Qed.

Theorem join_flush evs outs ports ts : run_ok evs outs ports ts -> all_increasing names (fun n => hist n evs) ->
  forall n, exists outs' ports' ts', run_ok (evs ++ repeat EExec n) outs' ports' ts' /\
    (some_empty ports' \/ (total ports' + n <= total ports)%nat).
Proof.
  intros R Inc n. induction n as [|n IH].
  - cbn. rewrite app_nil_r. exists outs, ports, ts. split; auto. right. lia.
  - destruct IH as (outs' & ports' & ts' & R' & D). rewrite repeat_snoc, app_assoc.
    destruct (exec_step _ _ _ _ (all_increasing_execs evs n Inc) R') as (out & ports2 & t & R2 & D2).
    exists (outs' ++ [out]), ports2, (ts' ++ [t]). split; auto.
    destruct D2 as [[Se ->]|D2]; auto. destruct D as [Se|D]; [|right; lia].
    (* an empty queue stays empty *)
    left. destruct R' as (Q1 & Q2 & Q3 & _). destruct R2 as (Q4 & _ & Q5 & _).
    exfalso. revert D2. enough (ports2 = ports') by (subst; lia).
    rewrite (run_snoc _ _ _ _ _ Q1), step_exec in Q4 by auto.
    destruct (join_exec_cases (set_data b0 ports') k) as [[_ J]|(t' & A & _)]; auto.
    + destruct Q3 as (K & _). cbn. intros ->. cbn in K. congruence.
    + rewrite J in Q4. now injection Q4.
    + destruct Se as (n' & p' & Hn & Hp). destruct (A n' p' Hn) as (m & r & X & _). congruence.
Qed.

End General.

(** ** From names to numbers *)

Definition numbered (n : nat) (names : list string) : Prop :=
  forall x, In x names <-> exists k, (1 <= k <= n)%nat /\ x = iport k.

Lemma numbered_data_on n names evs : numbered n names -> data_on n evs -> on_names names evs.
Proof.
  intros Hn H. eapply Forall_impl; [|exact H]. intros [p m| | |]; auto. intros (k & Hk & ->).
  split; [apply Hn; eauto|apply iport_ne].
Qed.

Lemma numbered_increasing n names evs : numbered n names -> ordered_ports n evs -> all_increasing names (fun x => hist x evs).
Proof. intros Hn H x Hx. apply Hn in Hx as (k & Hk & ->). now apply H. Qed.

Lemma common_times_spec n names evs t : (1 <= n)%nat -> numbered n names ->
  (In t (common_times n evs) <-> forall x, In x names -> In t (times (hist x evs))).
Proof.
  intros Hn Nn. unfold common_times. rewrite filter_In, forallb_forall. split.
  - intros [_ F] x Hx. apply Nn in Hx as (k & Hk & ->). apply has_time_In, F, in_seq. lia.
  - intros H. split; [apply H, Nn; exists 1%nat; split; auto; lia|]. intros k Hk. apply in_seq in Hk.
    apply has_time_In, H, Nn. exists k. split; auto. lia.
Qed.

Lemma common_times_increasing n evs : (1 <= n)%nat -> ordered_ports n evs -> increasing (common_times n evs).
Proof. intros Hn H. apply increasing_filter. apply H. lia. Qed.

End JoinRun.
