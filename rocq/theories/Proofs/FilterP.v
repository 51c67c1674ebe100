(** * The output filter *)

From Coq Require Import String ZArith Bool List Lia.
From Verif Require Import Base.StrMap Base.Num Model.Core Model.Ops Model.Graph Model.Run.
From Verif Require Import Spec.Filter.
Import ListNotations.
Open Scope string_scope.
Open Scope list_scope.
Open Scope rtbot_scope.

Section FilterP.
Context {NO : NumOps}.

Lemma odef_find (x : option opmsg) port :
  match x with Some om => sfind port om | None => None end = sfind port (odefault [] x).
Proof. destruct x; reflexivity. Qed.

Lemma merge_one a port (ms : list msg) : merge_op a [(port, ms)] = sset port (odefault [] (sfind port a) ++ ms) a.
Proof. reflexivity. Qed.

Lemma filter_ports_find ports : NoDup ports -> forall om acc,
  (forall p, In p ports -> sfind p (odefault [] acc) = None) ->
  forall port, sfind port (odefault [] (filter_ports ports om acc)) =
    if existsb (String.eqb port) ports then sfind port om else sfind port (odefault [] acc).
Proof.
  induction 1 as [|p ports Hp ND IH]; intros om acc Ha port; [reflexivity|].
  cbn [filter_ports existsb].
  destruct (sfind p om) as [ms|] eqn:Eo.
  - set (acc' := Some _).
    assert (A : odefault [] acc' = sset p ms (odefault [] acc)).
    { unfold acc'. destruct acc as [a|]; cbn [odefault]; [|reflexivity].
      rewrite merge_one. specialize (Ha p (or_introl eq_refl)). cbn [odefault] in Ha. now rewrite Ha. }
    rewrite IH, A.
    + rewrite sfind_sset. destruct (String.eqb_spec port p) as [->|]; cbn [orb]; [|reflexivity].
      destruct (existsb (String.eqb p) ports) eqn:Ex; auto.
    + intros q Hq. rewrite A, sfind_sset. destruct (String.eqb_spec q p) as [->|]; [contradiction|].
      apply Ha. now right.
  - rewrite IH by (intros; apply Ha; now right).
    destruct (String.eqb_spec port p) as [->|]; cbn [orb]; [|reflexivity].
    rewrite (Ha p (or_introl eq_refl)), Eo. now destruct (existsb (String.eqb p) ports).
Qed.

Lemma filter_ports_nonempty ports : forall om acc a, (forall x, acc = Some x -> x <> []) ->
  filter_ports ports om acc = Some a -> a <> [].
Proof.
  induction ports as [|p ports IH]; intros om acc a Ha E; cbn [filter_ports] in E; [eauto|].
  destruct (sfind p om) as [ms|]; [|eapply IH; eauto].
  eapply IH; [|exact E]. intros x [= <-]. destruct acc as [x|]; [|discriminate].
  specialize (Ha x eq_refl). intros C.
  assert (X : sfind p (sset p (odefault [] (sfind p x) ++ ms) x) = None) by (now rewrite C).
  rewrite sfind_sset_same in X. discriminate X.
Qed.

Lemma apply_filter_find f : swf f -> (forall id ports, sfind id f = Some ports -> NoDup ports) ->
  forall r acc, (forall id, In id (skeys f) -> sfind id acc = None) ->
  forall id, sfind id (apply_filter f r acc) =
    match sfind id f with
    | Some ports => match sfind id r with
                    | Some om => filter_ports ports om None
                    | None => None
                    end
    | None => sfind id acc
    end.
Proof.
  induction f as [|[i ports] f IH]; intros W ND r acc Ha id; [reflexivity|].
  destruct (swf_cons_inv _ _ _ W) as [W' F]. cbn [apply_filter].
  assert (Nf : sfind i f = None).
  { destruct (sfind i f) eqn:E; auto. apply sfind_In_key in E. rewrite Forall_forall in F. apply F in E.
    unfold slt in E. now rewrite sltb_irrefl in E. }
  rewrite (Ha i (or_introl eq_refl)).
  set (acc' := match sfind i r with Some om => _ | None => _ end).
  assert (A : forall j, sfind j acc' = if String.eqb j i then match sfind i r with Some om => filter_ports ports om None | None => None end else sfind j acc).
  { intros j. unfold acc'. destruct (sfind i r) as [om|].
    - destruct (filter_ports ports om None) as [a|] eqn:E.
      + rewrite sfind_sset. destruct (String.eqb_spec j i); auto.
      + destruct (String.eqb_spec j i) as [->|]; auto. now rewrite (Ha i (or_introl eq_refl)).
    - destruct (String.eqb_spec j i) as [->|]; auto. now rewrite (Ha i (or_introl eq_refl)). }
  rewrite IH; auto.
  - rewrite A. cbn [sfind]. destruct (String.eqb_spec id i) as [->|Ne].
    + now rewrite Nf.
    + reflexivity.
  - intros j p Hj. apply (ND j). cbn [sfind]. destruct (String.eqb_spec j i) as [->|]; [congruence|auto].
  - intros j Hj. rewrite A. destruct (String.eqb_spec j i) as [->|]; [|apply Ha; now right].
    apply In_skeys_sfind in Hj. destruct Hj as (? & Hj). congruence.
Qed.

Lemma apply_filter_entry f r : swf f -> (forall id ports, sfind id f = Some ports -> NoDup ports) ->
  (forall id port, entry_at (apply_filter f r []) id port = if listed f id port then entry_at r id port else None) /\
  (forall id om, sfind id (apply_filter f r []) = Some om -> om <> []).
Proof.
  intros W ND. split.
  - intros id port. unfold entry_at, listed. rewrite apply_filter_find by auto.
    destruct (sfind id f) as [ports|] eqn:Ef; [|reflexivity].
    destruct (sfind id r) as [om|]; [|now destruct (existsb _ ports)].
    pose proof (filter_ports_find ports (ND _ _ Ef) om None ltac:(reflexivity) port) as X.
    etransitivity; [apply odef_find|exact X].
  - intros id om. rewrite apply_filter_find by auto.
    destruct (sfind id f) as [ports|]; [|discriminate]. destruct (sfind id r) as [om0|]; [|discriminate].
    intros E. eapply filter_ports_nonempty; [|exact E]. discriminate.
Qed.

End FilterP.
