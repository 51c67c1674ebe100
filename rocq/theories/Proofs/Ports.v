(** * Numbered ports: names are distinct, constructors create exactly the ports 1..n. *)

From Coq Require Import String Ascii ZArith Bool List Lia Decimal DecimalString DecimalNat.
From Verif Require Import Base.StrMap Base.Num Model.Core Model.Ops Model.Make.
Import ListNotations.
Open Scope string_scope.
Open Scope list_scope.
Open Scope Z_scope.
Open Scope rtbot_scope.

Lemma string_of_nat_inj a b : string_of_nat a = string_of_nat b -> a = b.
Proof.
  unfold string_of_nat. intros H.
  apply (f_equal NilEmpty.uint_of_string) in H. rewrite !NilEmpty.usu in H. injection H as H.
  now apply DecimalNat.Unsigned.to_uint_inj.
Qed.

Lemma iport_inj a b : iport a = iport b -> a = b.
Proof. unfold iport. cbn. intros H. injection H as H. now apply string_of_nat_inj. Qed.
Lemma oport_inj a b : oport a = oport b -> a = b.
Proof. unfold oport. cbn. intros H. injection H as H. now apply string_of_nat_inj. Qed.
Lemma cport_inj a b : cport a = cport b -> a = b.
Proof. unfold cport. cbn. intros H. injection H as H. now apply string_of_nat_inj. Qed.

Lemma iport_neq_cport a b : iport a <> cport b.
Proof. unfold iport, cport. cbn. intros H. discriminate. Qed.

Lemma iport_ne a : iport a <> "".
Proof. discriminate. Qed.
Lemma cport_ne a : cport a <> "".
Proof. discriminate. Qed.

Section Ports.
Context {NO : NumOps}.

Lemma sfind_semplace {A} k k' (v : A) m :
  sfind k (semplace k' v m) =
  match sfind k m with
  | Some x => Some x
  | None => if String.eqb k k' then Some v else None
  end.
Proof.
  unfold semplace. destruct (sfind k' m) eqn:E.
  - destruct (sfind k m) eqn:E2; auto. destruct (String.eqb_spec k k'); congruence.
  - rewrite sfind_sset. destruct (String.eqb_spec k k'); [subst; now rewrite E|].
    now destruct (sfind k m).
Qed.

Lemma port_map_gen (from : nat -> string) (ks : list nat) m :
  (forall a b, from a = from b -> a = b) -> NoDup ks ->
  (forall k, In k ks -> sfind (from k) m = None) ->
  forall x, sfind x (fold_left (fun m i => semplace (from i) (oport i) m) ks m) =
  match find (fun k => String.eqb x (from k)) ks with
  | Some k => Some (oport k)
  | None => sfind x m
  end.
Proof.
  intros Hinj. revert m. induction ks as [|k ks IH]; intros m ND Hm x; cbn; [reflexivity|].
  inversion ND as [|? ? Hk ND']; subst. rewrite IH; auto.
  - rewrite sfind_semplace. destruct (String.eqb_spec x (from k)) as [->|n].
    + rewrite (Hm k) by (cbn; auto).
      destruct (find _ ks) eqn:F; [|reflexivity].
      apply find_some in F as [F1 F2]. apply String.eqb_eq in F2. apply Hinj in F2. subst. contradiction.
    + destruct (find _ ks); auto. now destruct (sfind x m).
  - intros j Hj. rewrite sfind_semplace. rewrite Hm by (cbn; auto).
    destruct (String.eqb_spec (from j) (from k)) as [E|]; auto. apply Hinj in E. subst. contradiction.
Qed.

Lemma port_map_find from n k :
  (forall a b, from a = from b -> a = b) -> (1 <= k <= n)%nat ->
  sfind (from k) (port_map from n) = Some (oport k).
Proof.
  intros Hinj Hk. unfold port_map. rewrite port_map_gen; auto using seq_NoDup.
  destruct (find _ (seq 1 n)) as [j|] eqn:F.
  - apply find_some in F as [_ F]. apply String.eqb_eq in F. apply Hinj in F. now subst.
  - exfalso. assert (I : In k (seq 1 n)) by (apply in_seq; lia).
    pose proof (find_none _ _ F k I) as C. cbn in C. now rewrite String.eqb_refl in C.
Qed.

Definition num_ports (from : nat -> string) (ks : list nat) (max : Z) (x : string) : option inport :=
  match find (fun k => String.eqb x (from k)) ks with
  | Some k => Some (new_port (from k) max)
  | None => None
  end.

Lemma find_from (from : nat -> string) ks k :
  (forall a b, from a = from b -> a = b) -> In k ks ->
  find (fun j => String.eqb (from k) (from j)) ks = Some k.
Proof.
  intros Hinj Hk. destruct (find _ ks) as [j|] eqn:F.
  - apply find_some in F as [_ F]. apply String.eqb_eq in F. apply Hinj in F. now subst.
  - pose proof (find_none _ _ F k Hk) as C. cbn in C. now rewrite String.eqb_refl in C.
Qed.

Lemma find_from_none (from : nat -> string) ks k :
  (forall a b, from a = from b -> a = b) -> ~ In k ks ->
  find (fun j => String.eqb (from k) (from j)) ks = None.
Proof.
  intros Hinj Hk. destruct (find _ ks) as [j|] eqn:F; auto.
  apply find_some in F as [F1 F]. apply String.eqb_eq in F. apply Hinj in F. subst. contradiction.
Qed.

Lemma add_ports_spec ks max outs b :
  NoDup ks -> swf (o_data b) ->
  (forall k, In k ks -> sfind (iport k) (o_data b) = None /\ sfind (iport k) (o_ctrl b) = None) ->
  exists b', add_ports ks max outs b = Ok b' /\
    swf (o_data b') /\
    (forall x, sfind x (o_data b') =
       match num_ports iport ks max x with Some p => Some p | None => sfind x (o_data b) end) /\
    o_ctrl b' = o_ctrl b /\ o_conns b' = o_conns b /\ o_toproc b' = o_toproc b /\ o_id b' = o_id b /\
    o_outs b' = if outs then fold_left (fun s k => sset_add (oport k) s) ks (o_outs b) else o_outs b.
Proof.
  revert b. induction ks as [|k ks IH]; intros b ND W H.
  - exists b. cbn. repeat split; auto. destruct outs; auto.
  - inversion ND as [|? ? Hk ND']; subst. cbn [add_ports].
    destruct (H k) as [H1 H2]; [cbn; auto|].
    unfold add_data. change (String.eqb (iport k) "") with false. cbv iota.
    unfold shas. rewrite H1, H2. cbn [orb rbind].
    set (b1 := set_data b (semplace (iport k) (new_port (iport k) max) (o_data b))).
    set (b2 := if outs then add_out b1 (oport k) else b1).
    assert (D2 : o_data b2 = semplace (iport k) (new_port (iport k) max) (o_data b)) by (subst b2; destruct outs; reflexivity).
    assert (C2 : o_ctrl b2 = o_ctrl b) by (subst b2; destruct outs; reflexivity).
    destruct (IH b2) as (b' & E & W' & S & C & CN & T & I & O); auto.
    + rewrite D2. now apply swf_semplace.
    + intros j Hj. rewrite D2, C2. destruct (H j) as [J1 J2]; [cbn; auto|]. split; auto.
      rewrite sfind_semplace, J1. destruct (String.eqb_spec (iport j) (iport k)) as [Ej|]; auto.
      apply iport_inj in Ej. subst. contradiction.
    + exists b'. split; [exact E|]. split; [exact W'|]. split; [|split; [congruence|]].
      * intros x. rewrite S, D2. unfold num_ports. cbn [find].
        destruct (String.eqb_spec x (iport k)) as [->|n].
        -- rewrite find_from_none by (auto; apply iport_inj).
           rewrite sfind_semplace, H1, String.eqb_refl. reflexivity.
        -- destruct (find _ ks); [reflexivity|]. rewrite sfind_semplace.
           destruct (String.eqb_spec x (iport k)); [contradiction|]. now destruct (sfind x (o_data b)).
      * subst b2. destruct outs; cbn in *; repeat split; auto.
Qed.

Lemma add_ctrls_spec ks b :
  NoDup ks -> swf (o_ctrl b) ->
  (forall k, In k ks -> sfind (cport k) (o_data b) = None /\ sfind (cport k) (o_ctrl b) = None) ->
  exists b', add_ctrls ks b = Ok b' /\
    swf (o_ctrl b') /\
    (forall x, sfind x (o_ctrl b') =
       match num_ports cport ks 0 x with Some p => Some p | None => sfind x (o_ctrl b) end) /\
    o_data b' = o_data b /\ o_conns b' = o_conns b /\ o_toproc b' = o_toproc b /\ o_id b' = o_id b /\
    o_outs b' = fold_left (fun s k => sset_add (oport k) s) ks (o_outs b).
Proof.
  revert b. induction ks as [|k ks IH]; intros b ND W H.
  - exists b. cbn. repeat split; auto.
  - inversion ND as [|? ? Hk ND']; subst. cbn [add_ctrls].
    destruct (H k) as [H1 H2]; [cbn; auto|].
    unfold add_ctrl. change (String.eqb (cport k) "") with false. cbv iota.
    unfold shas. rewrite H1, H2. cbn [orb rbind].
    set (b1 := set_ctrl b (semplace (cport k) (new_port (cport k) 0) (o_ctrl b))).
    destruct (IH (add_out b1 (oport k))) as (b' & E & W' & S & C & CN & T & I & O); auto.
    + cbn [b1 add_out set_outs set_ctrl o_ctrl]. now apply swf_semplace.
    + intros j Hj. cbn [b1 add_out set_outs set_ctrl o_ctrl o_data]. destruct (H j) as [J1 J2]; [cbn; auto|]. split; auto.
      rewrite sfind_semplace, J2. destruct (String.eqb_spec (cport j) (cport k)) as [Ej|]; auto.
      apply cport_inj in Ej. subst. contradiction.
    + exists b'. split; [exact E|]. split; [exact W'|]. split; [|repeat split; auto].
      intros x. rewrite S. unfold num_ports. cbn [find add_out o_ctrl set_outs set_ctrl b1].
      destruct (String.eqb_spec x (cport k)) as [->|n].
      * rewrite find_from_none by (auto; apply cport_inj).
        rewrite sfind_semplace, H2, String.eqb_refl. reflexivity.
      * destruct (find _ ks); [reflexivity|]. rewrite sfind_semplace.
        destruct (String.eqb_spec x (cport k)); [contradiction|]. now destruct (sfind x (o_ctrl b)).
Qed.

Lemma fold_add_In ks s x :
  In x (fold_left (fun s k => sset_add (oport k) s) ks s) <-> In x s \/ exists k, In k ks /\ x = oport k.
Proof.
  revert s. induction ks as [|k ks IH]; intros s; cbn.
  - split; [auto|]. now intros [H|(k & [] & _)].
  - rewrite IH, sset_add_In. split.
    + intros [[H|H]|(j & Hj & E)]; eauto. 
    + intros [H|(j & [Hj|Hj] & E)]; subst; eauto.
Qed.

End Ports.
