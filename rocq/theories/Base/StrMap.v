(** * Finite maps and sets keyed by strings, iterated in key order.

    [std::map<std::string, A>] and [std::set<std::string>] of the C++ code are
    association lists (lists) kept sorted by the byte-wise lexicographic order of
    [std::string::compare]; iterating the list is iterating the C++ container. *)

From Coq Require Import List String Ascii Bool NArith Lia Sorted.
Import ListNotations.
Open Scope bool_scope.

(** Byte-wise lexicographic order ([char_traits<char>::compare] compares bytes
    as [unsigned char]). *)
Fixpoint sltb (a b : string) : bool :=
  match a, b with
  | EmptyString, EmptyString => false
  | EmptyString, String _ _ => true
  | String _ _, EmptyString => false
  | String x a', String y b' =>
      if (N_of_ascii x <? N_of_ascii y)%N then true
      else if (N_of_ascii x =? N_of_ascii y)%N then sltb a' b' else false
  end.

Definition slt (a b : string) : Prop := sltb a b = true.

Definition smap (A : Type) := list (string * A).

(** [m.find(k)] / [m.at(k)] *)
Fixpoint sfind {A} (k : string) (m : smap A) : option A :=
  match m with
  | [] => None
  | (k', v) :: m' => if String.eqb k k' then Some v else sfind k m'
  end.

(** [m[k] = v] *)
Fixpoint sset {A} (k : string) (v : A) (m : smap A) : smap A :=
  match m with
  | [] => [(k, v)]
  | (k', v') :: m' =>
      if String.eqb k k' then (k, v) :: m'
      else if sltb k k' then (k, v) :: m
      else (k', v') :: sset k v m'
  end.

(** [m.emplace(k, v)]: does nothing when the key exists *)
Definition semplace {A} (k : string) (v : A) (m : smap A) : smap A :=
  match sfind k m with Some _ => m | None => sset k v m end.

(** [m.erase(k)] *)
Fixpoint serase {A} (k : string) (m : smap A) : smap A :=
  match m with
  | [] => []
  | (k', v') :: m' => if String.eqb k k' then m' else (k', v') :: serase k m'
  end.

(** [m.count(k) > 0] *)
Definition shas {A} (k : string) (m : smap A) : bool :=
  match sfind k m with Some _ => true | None => false end.

Definition skeys {A} (m : smap A) : list string := map fst m.

(** apply a function to every value, in key order *)
Definition smapv {A B} (f : A -> B) (m : smap A) : smap B :=
  map (fun kv => (fst kv, f (snd kv))) m.

(** ** Sets *)

Definition sset_mem (k : string) (s : list string) : bool :=
  existsb (String.eqb k) s.

Fixpoint sset_add (k : string) (s : list string) : list string :=
  match s with
  | [] => [k]
  | k' :: s' =>
      if String.eqb k k' then s
      else if sltb k k' then k :: s
      else k' :: sset_add k s'
  end.

Fixpoint sset_del (k : string) (s : list string) : list string :=
  match s with
  | [] => []
  | k' :: s' => if String.eqb k k' then s' else k' :: sset_del k s'
  end.

(** ** Order facts *)

Lemma sltb_irrefl a : sltb a a = false.
Proof.
  induction a as [|x a IH]; simpl; [reflexivity|].
  rewrite N.ltb_irrefl, N.eqb_refl. exact IH.
Qed.

Lemma sltb_trans a b c : sltb a b = true -> sltb b c = true -> sltb a c = true.
Proof.
  revert b c; induction a as [|x a IH]; intros [|y b] [|z c]; simpl; try congruence.
  intros H1 H2.
  destruct (N.ltb_spec (N_of_ascii x) (N_of_ascii y));
  destruct (N.ltb_spec (N_of_ascii y) (N_of_ascii z));
  destruct (N.ltb_spec (N_of_ascii x) (N_of_ascii z)); try reflexivity; try lia;
  destruct (N.eqb_spec (N_of_ascii x) (N_of_ascii y));
  destruct (N.eqb_spec (N_of_ascii y) (N_of_ascii z));
  destruct (N.eqb_spec (N_of_ascii x) (N_of_ascii z)); try lia; try congruence.
  eauto.
Qed.

Lemma N_of_ascii_inj x y : N_of_ascii x = N_of_ascii y -> x = y.
Proof.
  intros H. rewrite <- (ascii_N_embedding x), <- (ascii_N_embedding y).
  now rewrite H.
Qed.

Lemma sltb_total a b : sltb a b = true \/ a = b \/ sltb b a = true.
Proof.
  revert b; induction a as [|x a IH]; intros [|y b]; simpl; auto.
  destruct (N.ltb_spec (N_of_ascii x) (N_of_ascii y)); auto.
  destruct (N.ltb_spec (N_of_ascii y) (N_of_ascii x)); auto.
  assert (E : N_of_ascii x = N_of_ascii y) by lia.
  rewrite E, N.eqb_refl. apply N_of_ascii_inj in E. subst y.
  destruct (IH b) as [?|[?|?]]; subst; auto.
Qed.

Lemma sltb_neq a b : sltb a b = true -> a <> b.
Proof. intros H ->. rewrite sltb_irrefl in H; discriminate. Qed.

Lemma sltb_asym a b : sltb a b = true -> sltb b a = false.
Proof.
  intros H. destruct (sltb b a) eqn:E; [|reflexivity].
  pose proof (sltb_trans _ _ _ H E). rewrite sltb_irrefl in H0. discriminate.
Qed.

Lemma sltb_false_neq a b : sltb a b = false -> a <> b -> sltb b a = true.
Proof. intros H N. destruct (sltb_total a b) as [?|[?|?]]; congruence. Qed.

(** ** Well-formed (sorted) maps *)

Definition swf {A} (m : smap A) : Prop := StronglySorted slt (skeys m).
Definition ssorted (s : list string) : Prop := StronglySorted slt s.

Lemma swf_nil A : swf (@nil (string * A)).
Proof. constructor. Qed.

Lemma swf_cons_inv {A} k v (m : smap A) :
  swf ((k, v) :: m) -> swf m /\ Forall (slt k) (skeys m).
Proof. unfold swf; simpl; intros H; inversion H; auto. Qed.

Lemma swf_NoDup {A} (m : smap A) : swf m -> NoDup (skeys m).
Proof.
  unfold swf. induction (skeys m) as [|k l IH]; intros H; constructor.
  - inversion H; subst. intros C. rewrite Forall_forall in H3.
    specialize (H3 _ C). unfold slt in H3. rewrite sltb_irrefl in H3. discriminate.
  - inversion H; auto.
Qed.

Lemma ssorted_NoDup s : ssorted s -> NoDup s.
Proof.
  unfold ssorted. induction s as [|k l IH]; intros H; constructor.
  - inversion H; subst. intros C. rewrite Forall_forall in H3.
    specialize (H3 _ C). unfold slt in H3. rewrite sltb_irrefl in H3. discriminate.
  - inversion H; auto.
Qed.

Lemma sfind_In {A} k v (m : smap A) : sfind k m = Some v -> In (k, v) m.
Proof.
  induction m as [|[k' v'] m IH]; simpl; [discriminate|].
  destruct (String.eqb_spec k k'); intros H.
  - injection H as ->. subst; auto.
  - auto.
Qed.

Lemma sfind_In_key {A} k v (m : smap A) : sfind k m = Some v -> In k (skeys m).
Proof. intros H. apply sfind_In in H. apply (in_map fst) in H. exact H. Qed.

Lemma sfind_None {A} k (m : smap A) : sfind k m = None <-> ~ In k (skeys m).
Proof.
  induction m as [|[k' v'] m IH]; simpl; [intuition|].
  destruct (String.eqb_spec k k'); subst.
  - split; [discriminate|]. intros H; exfalso; apply H; auto.
  - rewrite IH. intuition congruence.
Qed.

Lemma In_sfind {A} k v (m : smap A) : swf m -> In (k, v) m -> sfind k m = Some v.
Proof.
  intros W; apply swf_NoDup in W. revert W.
  induction m as [|[k' v'] m IH]; simpl; [tauto|].
  intros ND [E|I].
  - injection E as -> ->. now rewrite String.eqb_refl.
  - inversion ND; subst. destruct (String.eqb_spec k k').
    + subst. exfalso. apply H1. apply (in_map fst) in I. exact I.
    + auto.
Qed.

Lemma In_skeys_sfind {A} k (m : smap A) : In k (skeys m) -> exists v, sfind k m = Some v.
Proof.
  intros H. destruct (sfind k m) eqn:E; eauto.
  apply sfind_None in E. contradiction.
Qed.

Lemma sfind_sset_same {A} k v (m : smap A) : sfind k (sset k v m) = Some v.
Proof.
  induction m as [|[k' v'] m IH]; simpl.
  - now rewrite String.eqb_refl.
  - destruct (String.eqb_spec k k') as [->|n]; simpl.
    + now rewrite String.eqb_refl.
    + destruct (sltb k k'); simpl.
      * now rewrite String.eqb_refl.
      * destruct (String.eqb_spec k k'); [contradiction|exact IH].
Qed.

Lemma sfind_sset_other {A} k k' v (m : smap A) : k <> k' -> sfind k (sset k' v m) = sfind k m.
Proof.
  intros N. induction m as [|[k0 v0] m IH]; simpl.
  - destruct (String.eqb_spec k k'); [contradiction|reflexivity].
  - destruct (String.eqb_spec k' k0) as [->|n]; simpl.
    + destruct (String.eqb_spec k k0); [contradiction|reflexivity].
    + destruct (sltb k' k0); simpl.
      * destruct (String.eqb_spec k k'); [contradiction|reflexivity].
      * destruct (String.eqb_spec k k0); [reflexivity|exact IH].
Qed.

Lemma sfind_sset {A} k k' v (m : smap A) :
  sfind k (sset k' v m) = if String.eqb k k' then Some v else sfind k m.
Proof.
  destruct (String.eqb_spec k k').
  - subst. apply sfind_sset_same.
  - now apply sfind_sset_other.
Qed.

Lemma skeys_sset_In {A} x k v (m : smap A) : In x (skeys (sset k v m)) <-> x = k \/ In x (skeys m).
Proof.
  induction m as [|[k0 v0] m IH]; simpl; [intuition|].
  destruct (String.eqb_spec k k0) as [->|n]; simpl; [intuition|].
  destruct (sltb k k0); simpl; [intuition|]. rewrite IH. intuition.
Qed.

Lemma swf_sset {A} k v (m : smap A) : swf m -> swf (sset k v m).
Proof.
  induction m as [|[k0 v0] m IH]; intros W; simpl.
  - unfold swf; simpl. repeat constructor.
  - destruct (swf_cons_inv _ _ _ W) as [W' F].
    destruct (String.eqb_spec k k0) as [->|n].
    + exact W.
    + destruct (sltb k k0) eqn:E.
      * unfold swf; simpl. constructor; [exact W|]. constructor; [exact E|].
        rewrite Forall_forall in F |- *. intros x Hx. specialize (F x Hx).
        eapply sltb_trans; eauto.
      * unfold swf; simpl. constructor; [apply IH, W'|].
        rewrite Forall_forall in F |- *. intros x Hx.
        apply skeys_sset_In in Hx as [->|Hx]; [|auto].
        apply sltb_false_neq; auto.
Qed.

Lemma swf_semplace {A} k v (m : smap A) : swf m -> swf (semplace k v m).
Proof. unfold semplace; destruct (sfind k m); auto using swf_sset. Qed.

Lemma sfind_serase_other {A} k k' (m : smap A) : k <> k' -> sfind k (serase k' m) = sfind k m.
Proof.
  intros N. induction m as [|[k0 v0] m IH]; simpl; [reflexivity|].
  destruct (String.eqb_spec k' k0) as [->|n]; simpl.
  - destruct (String.eqb_spec k k0); [contradiction|reflexivity].
  - destruct (String.eqb_spec k k0); [reflexivity|exact IH].
Qed.

Lemma skeys_serase_In {A} x k (m : smap A) : In x (skeys (serase k m)) -> In x (skeys m).
Proof.
  induction m as [|[k0 v0] m IH]; simpl; [auto|].
  destruct (String.eqb_spec k k0); simpl; intuition.
Qed.

Lemma swf_serase {A} k (m : smap A) : swf m -> swf (serase k m).
Proof.
  induction m as [|[k0 v0] m IH]; intros W; simpl; [exact W|].
  destruct (swf_cons_inv _ _ _ W) as [W' F].
  destruct (String.eqb_spec k k0); [exact W'|].
  unfold swf; simpl; constructor; [apply IH, W'|].
  rewrite Forall_forall in F |- *. intros x Hx. apply F.
  eapply skeys_serase_In; eauto.
Qed.

Lemma sfind_serase_same {A} k (m : smap A) : swf m -> sfind k (serase k m) = None.
Proof.
  intros W. apply swf_NoDup in W. revert W.
  induction m as [|[k0 v0] m IH]; intros W; simpl; [reflexivity|].
  inversion W; subst.
  destruct (String.eqb_spec k k0) as [->|n]; simpl.
  - now apply sfind_None.
  - destruct (String.eqb_spec k k0); [contradiction|]. auto.
Qed.

(** Extensionality: sorted maps with equal lookups are equal. *)
Lemma swf_ext {A} (m1 m2 : smap A) :
  swf m1 -> swf m2 -> (forall k, sfind k m1 = sfind k m2) -> m1 = m2.
Proof.
  revert m2; induction m1 as [|[k1 v1] m1 IH]; intros [|[k2 v2] m2] W1 W2 H.
  - reflexivity.
  - specialize (H k2). simpl in H. rewrite String.eqb_refl in H. discriminate.
  - specialize (H k1). simpl in H. rewrite String.eqb_refl in H. discriminate.
  - destruct (swf_cons_inv _ _ _ W1) as [W1' F1].
    destruct (swf_cons_inv _ _ _ W2) as [W2' F2].
    rewrite Forall_forall in F1, F2.
    assert (k1 = k2).
    { destruct (String.eqb_spec k1 k2) as [|n]; [assumption|exfalso].
      pose proof (H k1) as Ha. pose proof (H k2) as Hb. simpl in Ha, Hb.
      rewrite String.eqb_refl in Ha, Hb.
      destruct (String.eqb_spec k1 k2); [contradiction|].
      destruct (String.eqb_spec k2 k1); [congruence|].
      symmetry in Ha. apply sfind_In_key in Ha. apply F2 in Ha.
      apply sfind_In_key in Hb. apply F1 in Hb.
      unfold slt in *. rewrite (sltb_asym _ _ Ha) in Hb. discriminate. }
    subst k2.
    pose proof (H k1) as Hk. simpl in Hk. rewrite String.eqb_refl in Hk.
    injection Hk as ->. f_equal. apply IH; auto.
    intros x. specialize (H x). simpl in H.
    destruct (String.eqb_spec x k1) as [Ex|n]; [|exact H]. subst x.
    assert (N1 : sfind k1 m1 = None).
    { apply sfind_None. intros C. apply F1 in C. unfold slt in C.
      rewrite sltb_irrefl in C. discriminate. }
    assert (N2 : sfind k1 m2 = None).
    { apply sfind_None. intros C. apply F2 in C. unfold slt in C.
      rewrite sltb_irrefl in C. discriminate. }
    congruence.
Qed.

Lemma sset_id {A} k v (m : smap A) : sfind k m = Some v -> swf m -> sset k v m = m.
Proof.
  intros H W. apply swf_ext; auto using swf_sset.
  intros k'. rewrite sfind_sset. destruct (String.eqb_spec k' k); congruence.
Qed.

Lemma sset_sset_same {A} k v w (m : smap A) : sset k v (sset k w m) = sset k v m.
Proof.
  induction m as [|[k0 v0] m IH]; simpl.
  - now rewrite String.eqb_refl.
  - destruct (String.eqb_spec k k0) as [->|n]; simpl.
    + now rewrite String.eqb_refl.
    + destruct (sltb k k0) eqn:E; simpl.
      * now rewrite String.eqb_refl.
      * destruct (String.eqb_spec k k0); [contradiction|]. rewrite E. now rewrite IH.
Qed.

(** Overwriting an existing key does not change the set of keys. *)
Lemma skeys_sset_existing {A} k v (m : smap A) :
  swf m -> shas k m = true -> skeys (sset k v m) = skeys m.
Proof.
  unfold shas. intros W.
  induction m as [|[k0 v0] m IH]; simpl; [discriminate|].
  destruct (swf_cons_inv _ _ _ W) as [W' F].
  destruct (String.eqb_spec k k0) as [->|n]; simpl; [reflexivity|].
  intros H. destruct (sltb k k0) eqn:E.
  - exfalso. destruct (sfind k m) eqn:Ef; [|discriminate].
    apply sfind_In_key in Ef. rewrite Forall_forall in F. apply F in Ef.
    unfold slt in Ef. rewrite (sltb_asym _ _ E) in Ef. discriminate.
  - simpl. rewrite (IH W' H). reflexivity.
Qed.

Lemma shas_sset {A} k k' v (m : smap A) : shas k (sset k' v m) = String.eqb k k' || shas k m.
Proof. unfold shas. rewrite sfind_sset. destruct (String.eqb k k'); reflexivity. Qed.

Lemma skeys_smapv {A B} (f : A -> B) m : skeys (smapv f m) = skeys m.
Proof. unfold skeys, smapv. rewrite map_map. reflexivity. Qed.

Lemma swf_smapv {A B} (f : A -> B) m : swf m -> swf (smapv f m).
Proof. unfold swf. rewrite skeys_smapv. auto. Qed.

Lemma sfind_smapv {A B} (f : A -> B) k m : sfind k (smapv f m) = option_map f (sfind k m).
Proof.
  induction m as [|[k0 v0] m IH]; simpl; [reflexivity|].
  destruct (String.eqb k k0); [reflexivity|exact IH].
Qed.

(** ** Sets *)

Lemma sset_mem_In k s : sset_mem k s = true <-> In k s.
Proof.
  unfold sset_mem. rewrite existsb_exists. split.
  - intros (x & Hx & E). apply String.eqb_eq in E. now subst.
  - intros H. exists k. split; auto. apply String.eqb_refl.
Qed.

Lemma sset_add_In x k s : In x (sset_add k s) <-> x = k \/ In x s.
Proof.
  induction s as [|k0 s IH]; simpl; [intuition|].
  destruct (String.eqb_spec k k0) as [->|n]; simpl; [intuition|].
  destruct (sltb k k0); simpl; [intuition|]. rewrite IH. intuition.
Qed.

Lemma ssorted_add k s : ssorted s -> ssorted (sset_add k s).
Proof.
  unfold ssorted. induction s as [|k0 s IH]; intros W; simpl.
  - repeat constructor.
  - inversion W; subst.
    destruct (String.eqb_spec k k0) as [->|n]; [exact W|].
    destruct (sltb k k0) eqn:E.
    + constructor; [exact W|]. constructor; [exact E|].
      rewrite Forall_forall in H2 |- *. intros x Hx. eapply sltb_trans; eauto.
      apply H2, Hx.
    + constructor; [auto|]. rewrite Forall_forall in H2 |- *. intros x Hx.
      apply sset_add_In in Hx as [->|Hx]; [|auto]. apply sltb_false_neq; auto.
Qed.

Lemma sset_del_In_sub x k s : In x (sset_del k s) -> In x s.
Proof.
  induction s as [|k0 s IH]; simpl; [auto|].
  destruct (String.eqb_spec k k0); simpl; intuition.
Qed.

Lemma ssorted_del k s : ssorted s -> ssorted (sset_del k s).
Proof.
  unfold ssorted. induction s as [|k0 s IH]; intros W; simpl; [exact W|].
  inversion W; subst. destruct (String.eqb_spec k k0); [auto|].
  constructor; [auto|]. rewrite Forall_forall in H2 |- *.
  intros x Hx. apply H2. eapply sset_del_In_sub; eauto.
Qed.

Lemma ssorted_ext s1 s2 :
  ssorted s1 -> ssorted s2 -> (forall k, In k s1 <-> In k s2) -> s1 = s2.
Proof.
  intros W1 W2 H.
  assert (E : map (fun k => (k, tt)) s1 = map (fun k => (k, tt)) s2).
  { apply swf_ext; unfold swf, skeys; rewrite ?map_map; simpl; rewrite ?map_id; auto.
    intros k.
    assert (Hs : forall s, sfind k (map (fun k => (k, tt)) s) = if sset_mem k s then Some tt else None).
    { induction s as [|k0 s IH]; simpl; [reflexivity|].
      destruct (String.eqb k k0); simpl; auto. }
    rewrite !Hs.
    destruct (sset_mem k s1) eqn:E1; destruct (sset_mem k s2) eqn:E2; auto; exfalso.
    - apply sset_mem_In in E1. apply H in E1. apply sset_mem_In in E1. congruence.
    - apply sset_mem_In in E2. apply H in E2. apply sset_mem_In in E2. congruence. }
  apply (f_equal (map fst)) in E. rewrite !map_map in E. simpl in E.
  now rewrite !map_id in E.
Qed.
