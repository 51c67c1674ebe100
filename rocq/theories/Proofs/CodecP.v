(** * Reading back what was written *)

From Coq Require Import String Ascii ZArith Bool List Lia Sorted.
From Verif Require Import Base.StrMap Base.Num Model.Core Model.Graph Model.Codec.
From Verif Require Import Spec.Shape Spec.Snapshot Proofs.ShapeP.
Import ListNotations.
Open Scope string_scope.
Open Scope list_scope.
Open Scope Z_scope.

(** ** Parsers that read exactly the given bytes *)

(** [bs] without its last bytes *)
Definition cut (b bs : bytes) : Prop := exists c r, bs = b ++ c :: r.

(** reading [bs] gives [a]; reading less than [bs] runs past the end *)
Definition decodes {A} (p : parser A) (bs : bytes) (a : A) : Prop :=
  (forall rest, p (bs ++ rest) = Ok (a, rest)) /\ (forall b, cut b bs -> p b = UB).

Lemma cut_app b x y : cut b (x ++ y) -> cut b x \/ exists b', b = x ++ b' /\ cut b' y.
Proof.
  revert b. induction x as [|a x IH]; intros b (c & r & E); cbn in E.
  - right. exists b. split; auto. now exists c, r.
  - destruct b as [|a' b]; cbn in E.
    + left. exists a, x. reflexivity.
    + injection E as -> E. destruct (IH b) as [(c' & r' & ->)|(b' & -> & H)].
      * now exists c, r.
      * left. now exists c', r'.
      * right. exists b'. auto.
Qed.

Lemma cut_nil b : ~ cut b [].
Proof. intros (c & r & E). destruct b; discriminate. Qed.

Lemma decodes_ret {A} (a : A) : decodes (pret a) [] a.
Proof. split; [reflexivity|]. intros b H. now apply cut_nil in H. Qed.

Lemma decodes_bind {A B} (p : parser A) (f : A -> parser B) x y a b :
  decodes p x a -> decodes (f a) y b -> decodes (pbind p f) (x ++ y) b.
Proof.
  intros [P1 P2] [F1 F2]. split.
  - intros rest. unfold pbind. rewrite <- app_assoc, P1. cbn. apply F1.
  - intros c Hc. unfold pbind. destruct (cut_app _ _ _ Hc) as [H|(c' & -> & H)].
    + now rewrite (P2 _ H).
    + rewrite P1. cbn. now apply F2.
Qed.

(** the last reader of a chain *)
Lemma decodes_map {A B} (p : parser A) (f : A -> B) x a :
  decodes p x a -> decodes (pbind p (fun a => pret (f a))) x (f a).
Proof.
  intros H. rewrite <- (app_nil_r x). eapply decodes_bind; [exact H|]. apply decodes_ret.
Qed.

Lemma decodes_ext {A} (p q : parser A) x a : (forall bs, p bs = q bs) -> decodes q x a -> decodes p x a.
Proof. intros E [H1 H2]. split; intros; rewrite E; auto. Qed.

Lemma take_decodes bs : decodes (take (length bs)) bs bs.
Proof.
  split.
  - induction bs as [|c bs IH]; intros rest; cbn; [reflexivity|]. rewrite IH. reflexivity.
  - induction bs as [|c bs IH]; intros b H; [now apply cut_nil in H|].
    destruct b as [|c' b]; cbn; [reflexivity|].
    destruct H as (d & r & E). cbn in E. injection E as -> E.
    rewrite IH by now exists d, r. reflexivity.
Qed.

Lemma take_decodes_n n bs : length bs = n -> decodes (take n) bs bs.
Proof. intros <-. apply take_decodes. Qed.

(** ** Numbers *)

Lemma le_length n z : length (le n z) = n.
Proof. revert z. induction n; intros; cbn; auto. Qed.

Lemma byte_of_val z : Z.of_N (N_of_ascii (byte_of z)) = z mod 256.
Proof.
  unfold byte_of. pose proof (Z.mod_pos_bound z 256 eq_refl).
  rewrite N_ascii_embedding by lia. lia.
Qed.

Lemma unle_le n : forall z, 0 <= z < 256 ^ Z.of_nat n -> unle (le n z) = z.
Proof.
  induction n as [|n IH]; intros z Hz.
  - cbn in *. lia.
  - cbn [le unle]. rewrite byte_of_val, IH.
    + rewrite (Z.div_mod z 256) at 3 by lia. lia.
    + rewrite Nat2Z.inj_succ, Z.pow_succ_r in Hz by lia.
      split; [apply Z.div_pos; lia|]. apply Z.div_lt_upper_bound; lia.
Qed.

Lemma rd64_enc64 z : is_time z -> decodes rd64 (enc64 z) z.
Proof.
  intros H. replace z with (unle (enc64 z)) at 2.
  - apply (decodes_map (take 8) unle (enc64 z) (enc64 z)). apply take_decodes_n. apply le_length.
  - apply unle_le. exact H.
Qed.

Lemma rd_bool_enc b : decodes rd_bool (enc_bool b) b.
Proof.
  unfold rd_bool. rewrite <- (app_nil_r (enc_bool b)).
  eapply decodes_bind; [apply take_decodes_n; reflexivity|].
  destruct b; (split; [reflexivity|intros c H; now apply cut_nil in H]).
Qed.

(** ** Strings *)

Lemma length_bytes s : length (list_ascii_of_string s) = String.length s.
Proof. induction s; cbn; auto. Qed.

Lemma rd_chars_enc s : decodes (rd_chars (Z.of_nat (String.length s))) (list_ascii_of_string s) s.
Proof.
  destruct (take_decodes (list_ascii_of_string s)) as [H1 H2].
  rewrite length_bytes in H1, H2. split; unfold rd_chars.
  - intros rest. rewrite app_length, length_bytes, Nat2Z.inj_add.
    destruct (Z.ltb_spec (Z.of_nat (String.length s) + Z.of_nat (length rest)) (Z.of_nat (String.length s))); [lia|].
    rewrite Nat2Z.id, H1. cbn. now rewrite string_of_list_ascii_of_string.
  - intros b H. destruct (Z.of_nat (length b) <? _); auto. rewrite Nat2Z.id. now rewrite (H2 _ H).
Qed.

Lemma rd_str_enc s : short_str s -> decodes rd_str (enc_str s) s.
Proof.
  intros H. unfold rd_str, enc_str. eapply decodes_bind; [apply rd64_enc64|apply rd_chars_enc].
  unfold short_str in H. split; lia.
Qed.

(** ** Loops *)

Lemma loop_decodes {St A} (body : St -> parser St) (enc : A -> bytes) (f : St -> A -> St) l :
  (forall x s, In x l -> decodes (body s) (enc x) (f s x)) ->
  (forall x, In x l -> enc x <> []) ->
  forall s,
  (forall bound rest, (length (flat_map enc l) <= length bound)%nat ->
     rd_loop body bound (Z.of_nat (length l)) s (flat_map enc l ++ rest) = Ok (fold_left f l s, rest)) /\
  (forall bound b, cut b (flat_map enc l) -> rd_loop body bound (Z.of_nat (length l)) s b = UB).
Proof.
  induction l as [|x l IH]; intros Hd Hn s.
  - split.
    + intros [|c bound] rest _; reflexivity.
    + intros bound b H. now apply cut_nil in H.
  - assert (N : (Z.of_nat (length (x :: l)) <=? 0) = false) by (cbn [length]; destruct (Z.leb_spec (Z.of_nat (S (length l))) 0); auto; lia).
    assert (P : Z.of_nat (length (x :: l)) - 1 = Z.of_nat (length l)) by (cbn [length]; lia).
    destruct (IH (fun y s' Hy => Hd y s' (or_intror Hy)) (fun y Hy => Hn y (or_intror Hy)) (f s x)) as [I1 I2].
    destruct (Hd x s (or_introl eq_refl)) as [D1 D2].
    split.
    + intros bound rest Hb.
      assert (Hx : (0 < length (enc x))%nat).
      { specialize (Hn x (or_introl eq_refl)). destruct (enc x); [congruence|cbn; lia]. }
      cbn [flat_map] in Hb. rewrite app_length in Hb.
      destruct bound as [|c bound]; [cbn in Hb; lia|]. cbn [rd_loop]. rewrite N, P.
      unfold pbind. cbn [flat_map]. rewrite <- app_assoc, D1. cbn [rbind fst snd fold_left].
      apply I1. cbn in Hb. lia.
    + intros bound b Hb. destruct bound as [|c bound]; cbn [rd_loop]; rewrite N; [reflexivity|].
      unfold pbind. cbn [flat_map] in Hb. destruct (cut_app _ _ _ Hb) as [H|(b' & -> & H)].
      * now rewrite (D2 _ H).
      * rewrite D1. cbn [rbind fst snd]. rewrite P. now apply I2.
Qed.

Lemma list_decodes {St A} (body : St -> parser St) (enc : A -> bytes) (f : St -> A -> St) l s :
  short l ->
  (forall x s, In x l -> decodes (body s) (enc x) (f s x)) ->
  (forall x, In x l -> enc x <> []) ->
  decodes (rd_list body s) (enc_list enc l) (fold_left f l s).
Proof.
  intros Hl Hd Hn. unfold rd_list, enc_list.
  destruct (loop_decodes body enc f l Hd Hn s) as [L1 L2].
  eapply decodes_bind; [apply rd64_enc64; unfold short in Hl; split; lia|].
  split.
  - intros rest. apply L1. rewrite app_length. lia.
  - intros b H. now apply L2.
Qed.

Lemma fold_snoc {A} (l : list A) : forall s, fold_left (fun d m => d ++ [m]) l s = s ++ l.
Proof. induction l; intros s; cbn; [now rewrite app_nil_r|]. rewrite IHl, <- app_assoc. reflexivity. Qed.

Lemma enc64_ne z : enc64 z <> [].
Proof. discriminate. Qed.

Lemma enc64_app_ne z l : enc64 z ++ l <> [].
Proof. discriminate. Qed.

Lemma enc_str_ne s : enc_str s <> [].
Proof. unfold enc_str. discriminate. Qed.

Section CodecP.
Context {NO : NumOps} {NC : NumCodec NO}.

Lemma rdV_enc v : decodes rdV (encV v) v.
Proof.
  replace v with (vofbits (vbits v)) at 2 by apply vofbits_vbits.
  apply (decodes_map rd64 vofbits). apply rd64_enc64. apply vbits_range.
Qed.

Lemma rd_msg_enc m : fits_msg m -> decodes rd_msg (enc_msg m) m.
Proof.
  intros H. destruct m as [t v]. unfold rd_msg, enc_msg.
  eapply decodes_bind; [apply rd64_enc64; exact H|].
  apply (decodes_map rdV (mkMsg t)). apply rdV_enc.
Qed.

Lemma enc_msg_ne m : enc_msg m <> [].
Proof. unfold enc_msg. discriminate. Qed.

Lemma rd_port_enc p : fits_port p -> decodes rd_port (enc_port p) p.
Proof.
  intros (H1 & H2 & H3 & H4). destruct p as [id max sum data]. cbn [ip_id ip_max ip_data] in *.
  unfold rd_port, enc_port. cbn [ip_id ip_max ip_sum ip_data].
  eapply decodes_bind; [now apply rd_str_enc|].
  eapply decodes_bind; [now apply rd64_enc64|].
  eapply decodes_bind; [apply rdV_enc|].
  apply (decodes_map _ (mkPort id max sum)).
  rewrite <- (app_nil_l data) at 2. rewrite <- fold_snoc. apply list_decodes; auto.
  - intros m d Hm. apply (decodes_map rd_msg (fun m => d ++ [m])). apply rd_msg_enc.
    rewrite Forall_forall in H4. auto.
  - intros m _. apply enc_msg_ne.
Qed.

(** ** Maps of ports: every port of the snapshot replaces the one of the same id *)

Definition names_ok (m : smap inport) : Prop := Forall (fun x => ip_id (snd x) = fst x) m.

Lemma fold_sset_find {A} (l : smap A) : forall (m : smap A) k, NoDup (skeys l) ->
  sfind k (fold_left (fun m x => sset (fst x) (snd x) m) l m)
  = match sfind k l with Some v => Some v | None => sfind k m end.
Proof.
  induction l as [|[k0 v0] l IH]; intros m k Hn; cbn; [reflexivity|].
  inversion Hn as [|? ? H1 H2]; subst. rewrite IH by assumption. rewrite sfind_sset.
  destruct (String.eqb_spec k k0) as [->|E].
  - now rewrite (proj2 (sfind_None k0 l) H1).
  - reflexivity.
Qed.

Lemma fold_sset_wf {A} (l : smap A) : forall m : smap A, swf m -> swf (fold_left (fun m x => sset (fst x) (snd x) m) l m).
Proof. induction l as [|[k v] l IH]; intros m H; cbn; auto. apply IH. now apply swf_sset. Qed.

(** replacing every entry *)
Lemma fold_sset_all {A} (l m : smap A) : swf l -> swf m -> (forall k, In k (skeys m) -> In k (skeys l)) ->
  fold_left (fun m x => sset (fst x) (snd x) m) l m = l.
Proof.
  intros Hl Hm Hk. apply swf_ext; [now apply fold_sset_wf|auto|].
  intros k. rewrite fold_sset_find by now apply swf_NoDup.
  destruct (sfind k l) eqn:E; auto. apply sfind_None. intros H. apply Hk in H.
  now apply sfind_None in E.
Qed.

Lemma fold_left_ext_in {A B} (f g : A -> B -> A) l :
  (forall a b, In b l -> f a b = g a b) -> forall a, fold_left f l a = fold_left g l a.
Proof.
  induction l as [|b l IH]; intros H a; cbn; auto. rewrite H by now left. apply IH.
  intros; apply H; now right.
Qed.

Lemma rd_ports_enc m0 m : fits_ports m -> names_ok m -> swf m -> swf m0 ->
  (forall k, In k (skeys m0) -> In k (skeys m)) -> decodes (rd_ports m0) (enc_ports m) m.
Proof.
  intros [H1 H2] Hn Hw H0 Hk. unfold rd_ports, enc_ports.
  rewrite <- (fold_sset_all m m0) at 2 by assumption.
  rewrite (fold_left_ext_in _ (fun (m : smap inport) (x : string * inport) => sset (ip_id (snd x)) (snd x) m)).
  2:{ intros a [k p] Hi. unfold names_ok in Hn. rewrite Forall_forall in Hn. specialize (Hn _ Hi). cbn in *. now rewrite Hn. }
  rewrite Forall_forall in H2. apply list_decodes; auto.
  - intros [k p] s Hx. destruct (H2 _ Hx) as [Hs Hp]. cbn in Hs, Hp. unfold enc_named_port. cbn [fst snd].
    eapply decodes_bind; [now apply rd_str_enc|].
    apply (decodes_map rd_port (fun p => sset (ip_id p) p s)). now apply rd_port_enc.
  - intros [k p] _. unfold enc_named_port, enc_str. discriminate.
Qed.

(** ** Sets of names *)

Lemma fold_add_in l : forall s x, In x (fold_left (fun t k => sset_add k t) l s) <-> In x l \/ In x s.
Proof.
  induction l as [|k l IH]; intros s x; cbn; [tauto|]. rewrite IH, sset_add_In.
  intuition congruence.
Qed.

Lemma fold_add_sorted l : forall s, ssorted s -> ssorted (fold_left (fun t k => sset_add k t) l s).
Proof. induction l; intros; cbn; auto. apply IHl. now apply ssorted_add. Qed.

Lemma fold_add_all l : ssorted l -> fold_left (fun t k => sset_add k t) l [] = l.
Proof.
  intros H. apply ssorted_ext; [apply fold_add_sorted; constructor|auto|].
  intros x. rewrite fold_add_in. cbn. tauto.
Qed.

Lemma names_enc l : short l -> Forall short_str l -> ssorted l ->
  decodes (rd_list (fun t => pbind rd_str (fun s => pret (sset_add s t))) []) (enc_list enc_str l) l.
Proof.
  intros H1 H2 H3. rewrite <- (fold_add_all l H3) at 2. rewrite Forall_forall in H2. apply list_decodes; auto.
  - intros s t Hs. apply (decodes_map rd_str (fun s => sset_add s t)). apply rd_str_enc. auto.
  - intros s _. apply enc_str_ne.
Qed.

(** ** Operators *)

(** maps and sets are sorted, ports are stored under their own id *)
Definition tidy_base (b : base) : Prop :=
  swf (o_data b) /\ swf (o_ctrl b) /\ names_ok (o_data b) /\ names_ok (o_ctrl b) /\ ssorted (o_toproc b).

Definition tidy (o : op) : Prop :=
  tidy_base (op_base o) /\ match op_kind o with KInput _ ls => swf ls | _ => True end.

Lemma restore_base_enc b0 b : erase_base b0 = erase_base b -> o_toproc b0 = [] -> tidy_base b -> fits_base b ->
  decodes (restore_base b0) (collect_base b) b.
Proof.
  intros E T (W1 & W2 & N1 & N2 & S1) (F1 & F2 & F3 & F4).
  unfold erase_base in E. injection E as E1 E2 E3 E4 E5.
  unfold restore_base, collect_base.
  eapply decodes_bind.
  { apply rd_ports_enc; auto; [|intros k; now rewrite (smapv_keys _ _ _ E2)].
    apply (swf_keys (o_data b)); [symmetry; exact (smapv_keys _ _ _ E2)|auto]. }
  eapply decodes_bind.
  { apply rd_ports_enc; auto; [|intros k; now rewrite (smapv_keys _ _ _ E3)].
    apply (swf_keys (o_ctrl b)); [symmetry; exact (smapv_keys _ _ _ E3)|auto]. }
  rewrite T.
  apply (decodes_ext _ (pbind (rd_list (fun t => pbind rd_str (fun s => pret (sset_add s t))) [])
     (fun t => pret (mkBase (o_id b) (o_data b) (o_ctrl b) (o_outs b) (o_conns b) t)))).
  { intros bs. now rewrite E1, E4, E5. }
  destruct b as [i d c ou co tp]. cbn in *. apply (decodes_map _ (mkBase i d c ou co)).
  now apply names_enc.
Qed.

Lemma erase_parts b0 k0 b k : erase (Op b0 k0) = erase (Op b k) ->
  erase_base b0 = erase_base b /\ erase_kind k0 = erase_kind k.
Proof. rewrite !erase_op. intros E. split; [exact (f_equal op_base E)|exact (f_equal op_kind E)]. Qed.

Lemma sent_enc ls : short ls -> Forall (fun x => short_str (fst x) /\ fits_msg (snd x)) ls -> swf ls ->
  decodes (rd_list (fun ls => pbind rd_str (fun port => pbind rd_msg (fun m => pret (sset port m ls)))) [])
    (enc_list enc_sent ls) ls.
Proof.
  intros H1 H2 H3. rewrite <- (fold_sset_all ls []) at 2; auto using swf_nil; [|intros k []].
  rewrite Forall_forall in H2. apply list_decodes; auto.
  - intros [k m] s Hx. destruct (H2 _ Hx) as [Hs Hm]. cbn in Hs, Hm. unfold enc_sent. cbn [fst snd].
    eapply decodes_bind; [now apply rd_str_enc|].
    apply (decodes_map rd_msg (fun m => sset k m s)). now apply rd_msg_enc.
  - intros [k m] _. unfold enc_sent, enc_str. discriminate.
Qed.

Lemma points_enc pts : short pts ->
  decodes (rd_list (fun l => pbind rdV (fun x => pbind rdV (fun y => pret (l ++ [(x, y)])))) [])
    (enc_list enc_point pts) pts.
Proof.
  intros H. rewrite <- (app_nil_l pts) at 2. rewrite <- fold_snoc. apply list_decodes; auto.
  - intros [x y] l _. unfold enc_point. cbn [fst snd]. eapply decodes_bind; [apply rdV_enc|].
    apply (decodes_map rdV (fun y => l ++ [(x, y)])). apply rdV_enc.
  - intros [x y] _. unfold enc_point, encV. discriminate.
Qed.

(** every operator: what is read back is [restored] *)
Lemma restore_decodes o0 o : fresh_op o0 -> erase o0 = erase o -> tidy o -> fits o ->
  decodes (restore o0) (collect o) (restored o0 o).
Proof.
  destruct o0 as [b0 k0], o as [b k]. intros [F1 F2] E [T1 T2] [G1 G2]. cbn [op_base op_kind] in *.
  destruct (erase_parts _ _ _ _ E) as [Eb Ek]. clear E.
  pose proof (restore_base_enc b0 b Eb F1 T1 G1) as HB.
  unfold erase_kind in Ek.
  destruct k; destruct k0; cbn [erase op_kind] in Ek; try discriminate Ek;
    unfold restored; cbn [op_kind op_base collect restore];
    try (injection Ek; intros; subst; clear Ek);
    try (apply (decodes_map _ (fun b' => Op b' _)); exact HB).
  - eapply decodes_bind; [exact HB|]. cbn in G2.
    apply (decodes_map _ (fun ls' => Op b (KInput portsMap ls'))). now apply sent_enc.
  - eapply decodes_bind; [exact HB|]. cbn in G2.
    apply (decodes_map _ (fun c => Op b (KCount c))). now apply rd64_enc64.
  - apply (decodes_map _ (fun c => Op b0 (KCumSum c))). apply rdV_enc.
  - eapply decodes_bind; [exact HB|]. destruct G2.
    eapply decodes_bind; [now apply rd64_enc64|].
    eapply decodes_bind; [now apply rd64_enc64|].
    eapply decodes_bind; [apply rd_bool_enc|].
    apply (decodes_map _ (fun c => Op b (KConstResampler _ _ _ c))). apply rdV_enc.
  - eapply decodes_bind; [exact HB|]. cbn in G2.
    apply (decodes_map _ (fun c => Op b (KCosineResampler _ c))). now apply rd64_enc64.
  - eapply decodes_bind; [exact HB|]. destruct G2.
    eapply decodes_bind; [now apply rd64_enc64|].
    destruct before as [m|].
    + eapply decodes_bind; [apply rd_bool_enc|].
      apply (decodes_map _ (fun m => Op b (KHermiteResampler _ _ (Some m)))). now apply rd_msg_enc.
    + rewrite <- (app_nil_r (enc_bool false)). eapply decodes_bind; [apply rd_bool_enc|].
      apply decodes_ret.
  - eapply decodes_bind; [exact HB|]. cbn in G2. eapply decodes_bind; [now apply points_enc|].
    rewrite <- (app_nil_r (le 4 _)).
    eapply decodes_bind; [apply take_decodes_n; apply le_length|].
    destruct type; apply decodes_ret.
  - eapply decodes_bind; [exact HB|]. eapply decodes_bind; [apply rdV_enc|].
    apply (decodes_map _ (fun i => Op b (KVariable _ i))). apply rd_bool_enc.
Qed.

End CodecP.
