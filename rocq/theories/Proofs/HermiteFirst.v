(** * HermiteResampler: the point made up before the first message, and when it cannot be *)

From Coq Require Import String ZArith Bool List Lia Sorted Field.
From Verif Require Import Base.StrMap Base.Num Base.NumTrunc Model.Core Model.Ops Model.Make Model.Run.
From Verif Require Import Spec.Streams Spec.Resample Spec.Fit.
From Verif Require Import Proofs.Lists Proofs.FieldFacts Proofs.Window Proofs.Basic Proofs.Iter Proofs.Resample Proofs.HermiteP.
Import ListNotations.
Open Scope string_scope.
Open Scope list_scope.
Open Scope Z_scope.
Open Scope rtbot_scope.

Local Strategy 1000 [iter_pos grid_loop].

Section First.
Context {NO : NumOps} {NF : NumField NO} {NT : NumTrunc NO}.

Add Field vfield : v_field_theory.

Lemma vtoT_ofZ z : 0 <= z < two64 -> vtoT (vofZ z) = Some z.
Proof.
  intros H. apply vtoT_trunc; auto; [apply v_le_refl|].
  rewrite v_ofZ_add, v_ofZ_1. apply v_lt_sub_0. replace (vsub (vadd (vofZ z) v1) (vofZ z)) with v1 by ring.
  rewrite <- v_ofZ_1. now apply v_ofZ_pos.
Qed.

Lemma toT_int x z : 0 <= z < two64 -> x = vofZ z -> toT x = Ok z.
Proof. intros H ->. unfold toT. now rewrite vtoT_ofZ. Qed.

Lemma toT_third k : 0 <= k < two64 -> toT (vdiv (vofZ k) (vofZ 3)) = Ok (k / 3).
Proof.
  intros H. unfold toT. rewrite (vtoT_trunc _ (k / 3)); auto.
  - split; [apply Z.div_pos; lia|]. apply Z.div_lt_upper_bound; lia.
  - apply v_le_sub_0.
    assert (N3 : vofZ 3 <> v0) by (apply v_ofZ_neq0; lia).
    replace (vsub (vdiv (vofZ k) (vofZ 3)) (vofZ (k / 3))) with (vdiv (vofZ (k mod 3)) (vofZ 3)).
    + apply v_div_nonneg; [rewrite <- v_ofZ_0; apply v_ofZ_le; apply Z.mod_pos_bound; lia|now apply v_ofZ_pos].
    + pose proof (Z.div_mod k 3 ltac:(lia)) as D. rewrite D at 2. rewrite v_ofZ_add, v_ofZ_mul. field. exact N3.
  - apply v_lt_sub_0.
    assert (N3 : vofZ 3 <> v0) by (apply v_ofZ_neq0; lia).
    replace (vsub (vofZ (k / 3 + 1)) (vdiv (vofZ k) (vofZ 3))) with (vdiv (vofZ (3 - k mod 3)) (vofZ 3)).
    + apply v_div_pos; [|now apply v_ofZ_pos]. apply v_ofZ_pos. pose proof (Z.mod_pos_bound k 3). lia.
    + pose proof (Z.div_mod k 3 ltac:(lia)) as D. rewrite D at 3.
      rewrite v_ofZ_sub, !v_ofZ_add, v_ofZ_mul, v_ofZ_1. field. exact N3.
Qed.

(** ** the line *)

Lemma ls_sums4 a b c e :
  0 <= mtime a < 2 ^ 30 -> 0 <= mtime b < 2 ^ 30 -> 0 <= mtime c < 2 ^ 30 -> 0 <= mtime e < 2 ^ 30 ->
  exists sy sxy, ls_sums [a; b; c; e] 0 v0 v0 0 =
    Ok (mtime a + mtime b + mtime c + mtime e, sy, sxy,
        mtime a * mtime a + mtime b * mtime b + mtime c * mtime c + mtime e * mtime e) /\
    sy = vadd (vadd (vadd (mval a) (mval b)) (mval c)) (mval e) /\
    sxy = vadd (vadd (vadd (vmul (vofZ (mtime a)) (mval a)) (vmul (vofZ (mtime b)) (mval b)))
                     (vmul (vofZ (mtime c)) (mval c))) (vmul (vofZ (mtime e)) (mval e)).
Proof.
  intros Ha Hb Hc He. assert (T : two64 = 2 ^ 34 * 2 ^ 30) by reflexivity.
  assert (Sq : forall x, 0 <= x < 2 ^ 30 -> 0 <= x * x < 2 ^ 60) by (intros x Hx; change (2 ^ 60) with (2 ^ 30 * 2 ^ 30); nia).
  pose proof (Sq _ Ha). pose proof (Sq _ Hb). pose proof (Sq _ Hc). pose proof (Sq _ He). clear Sq.
  assert (two64 = 16 * 2 ^ 60) by reflexivity.
  eexists _, _. split.
  - unfold ls_sums.
    rewrite (toT_int _ (mtime a * mtime a)) by (try lia; rewrite v_pow_2, v_ofZ_0, v_ofZ_mul; ring). cbn [rbind].
    rewrite (toT_int _ (mtime a * mtime a + mtime b * mtime b)) by (try lia; rewrite v_pow_2, !v_ofZ_add, !v_ofZ_mul; ring). cbn [rbind].
    rewrite (toT_int _ (mtime a * mtime a + mtime b * mtime b + mtime c * mtime c)) by (try lia; rewrite v_pow_2, !v_ofZ_add, !v_ofZ_mul; ring). cbn [rbind].
    rewrite (toT_int _ (mtime a * mtime a + mtime b * mtime b + mtime c * mtime c + mtime e * mtime e)) by (try lia; rewrite v_pow_2, !v_ofZ_add, !v_ofZ_mul; ring). cbn [rbind].
    rewrite Z.add_0_l. rewrite (wrap_id (mtime a)) by lia. rewrite (wrap_id (mtime a + mtime b)) by lia.
    rewrite (wrap_id (mtime a + mtime b + mtime c)) by lia. rewrite (wrap_id (mtime a + mtime b + mtime c + mtime e)) by lia.
    reflexivity.
  - split; ring.
Qed.

Definition fit4 (a b c e : msg) (m n : V) : Prop :=
  let r y := vsub (vadd (vmul m (vofZ (mtime y))) n) (mval y) in
  vadd (vadd (vadd (r a) (r b)) (r c)) (r e) = v0 /\
  vadd (vadd (vadd (vmul (vofZ (mtime a)) (r a)) (vmul (vofZ (mtime b)) (r b)))
             (vmul (vofZ (mtime c)) (r c))) (vmul (vofZ (mtime e)) (r e)) = v0.

Lemma least_squares4 a b c e :
  0 <= mtime a -> mtime a < mtime b -> mtime b < mtime c -> mtime c < mtime e -> mtime e < 2 ^ 30 ->
  exists m n, least_squares [a; b; c; e] = Ok (n, m) /\ fit4 a b c e m n.
Proof.
  intros Ha Hb Hc He Hm.
  destruct (ls_sums4 a b c e) as (sy & sxy & E & Ey & Exy); try lia.
  unfold least_squares. rewrite E. cbn [rbind length].
  set (ta := mtime a) in *. set (tb := mtime b) in *. set (tc := mtime c) in *. set (te := mtime e) in *.
  set (sx := ta + tb + tc + te) in *. set (sx2 := ta * ta + tb * tb + tc * tc + te * te) in *.
  change (Z.of_nat 4) with 4.
  set (den := 4 * sx2 - sx * sx).
  assert (D : 0 < den).
  { assert (den = (tb - ta) * (tb - ta) + (tc - ta) * (tc - ta) + (te - ta) * (te - ta) + (tc - tb) * (tc - tb) + (te - tb) * (te - tb) + (te - tc) * (te - tc))
      by (unfold den, sx2, sx; ring). nia. }
  assert (B2 : 0 <= 4 * sx2 < two64).
  { assert (Sq : forall x, 0 <= x < 2 ^ 30 -> 0 <= x * x < 2 ^ 60) by (intros x Hx; change (2 ^ 60) with (2 ^ 30 * 2 ^ 30); nia).
    pose proof (Sq ta ltac:(lia)). pose proof (Sq tb ltac:(lia)). pose proof (Sq tc ltac:(lia)). pose proof (Sq te ltac:(lia)).
    assert (two64 = 16 * 2 ^ 60) by reflexivity. unfold sx2. lia. }
  assert (0 <= sx * sx) by nia.
  rewrite (wrap_id (4 * sx2)) by lia.
  rewrite (toT_int _ den) by (try (unfold den; lia); rewrite v_pow_2; unfold den; rewrite v_ofZ_sub, !v_ofZ_mul; reflexivity).
  cbn [rbind]. destruct (Z.eqb_spec den 0); [lia|].
  eexists _, _. split; [reflexivity|].
  assert (N : vofZ den <> v0) by (apply v_ofZ_neq0; lia).
  assert (Nd : vofZ den = vsub (vmul (vofZ 4) (vofZ sx2)) (vmul (vofZ sx) (vofZ sx))) by (unfold den; now rewrite v_ofZ_sub, !v_ofZ_mul).
  assert (X1 : vofZ sx = vadd (vadd (vadd (vofZ ta) (vofZ tb)) (vofZ tc)) (vofZ te)) by (unfold sx; now rewrite !v_ofZ_add).
  assert (X2 : vofZ sx2 = vadd (vadd (vadd (vmul (vofZ ta) (vofZ ta)) (vmul (vofZ tb) (vofZ tb))) (vmul (vofZ tc) (vofZ tc))) (vmul (vofZ te) (vofZ te)))
    by (unfold sx2; now rewrite !v_ofZ_add, !v_ofZ_mul).
  assert (F : vofZ 4 = vadd (vadd v1 v1) (vadd v1 v1)) by (rewrite <- v_ofZ_1, <- !v_ofZ_add; reflexivity).
  unfold fit4. cbv zeta. fold ta tb tc te.
  set (M := vdiv (vsub (vmul (vofZ 4) sxy) (vmul (vofZ sx) sy)) (vofZ den)).
  set (Nn := vdiv (vsub (vmul (vofZ sx2) sy) (vmul sxy (vofZ sx))) (vofZ den)).
  assert (EM : vmul M (vofZ den) = vsub (vmul (vofZ 4) sxy) (vmul (vofZ sx) sy)) by (unfold M; field; exact N).
  assert (EN : vmul Nn (vofZ den) = vsub (vmul (vofZ sx2) sy) (vmul sxy (vofZ sx))) by (unfold Nn; field; exact N).
  assert (Cancel : forall z, vmul z (vofZ den) = v0 -> z = v0).
  { intros z Hz. replace z with (vdiv (vmul z (vofZ den)) (vofZ den)) by (field; exact N). rewrite Hz. field. exact N. }
  split; apply Cancel.
  - transitivity (vsub (vadd (vmul (vmul M (vofZ den)) (vofZ sx)) (vmul (vofZ 4) (vmul Nn (vofZ den)))) (vmul sy (vofZ den))).
    + rewrite X1, F, Ey. ring.
    + rewrite EM, EN, Nd. ring.
  - transitivity (vsub (vadd (vmul (vmul M (vofZ den)) (vofZ sx2)) (vmul (vmul Nn (vofZ den)) (vofZ sx))) (vmul sxy (vofZ den))).
    + rewrite X1, X2, Exy. ring.
    + rewrite EM, EN, Nd. ring.
Qed.

Lemma fit4_best a b c e m n : fit4 a b c e m n -> best_line m n [a; b; c; e].
Proof.
  unfold fit4. cbv zeta. intros [F1 F2] m' n'. unfold distance, vsum. cbn [map fold_left].
  set (ra := vsub (vadd (vmul m (vofZ (mtime a))) n) (mval a)) in *. set (rb := vsub (vadd (vmul m (vofZ (mtime b))) n) (mval b)) in *.
  set (rc := vsub (vadd (vmul m (vofZ (mtime c))) n) (mval c)) in *. set (re := vsub (vadd (vmul m (vofZ (mtime e))) n) (mval e)) in *.
  set (dm := vsub m' m). set (dn := vsub n' n).
  set (g := fun x => vadd (vmul dm x) dn).
  assert (R : forall y, vsub (vadd (vmul m' (vofZ (mtime y))) n') (mval y) =
    vadd (vsub (vadd (vmul m (vofZ (mtime y))) n) (mval y)) (g (vofZ (mtime y)))) by (intros y; unfold g, dm, dn; ring).
  rewrite !R. fold ra rb rc re.
  apply v_le_sub_0.
  match goal with |- vle v0 ?x = true => replace x with
    (vadd (vadd (vadd (vmul (g (vofZ (mtime a))) (g (vofZ (mtime a)))) (vmul (g (vofZ (mtime b))) (g (vofZ (mtime b)))))
                (vmul (g (vofZ (mtime c))) (g (vofZ (mtime c))))) (vmul (g (vofZ (mtime e))) (g (vofZ (mtime e))))) end.
  - assert (Z0 : v0 = vadd v0 v0) by ring.
    rewrite Z0. apply v_le_add2; [|apply v_square_nonneg]. rewrite Z0. apply v_le_add2; [|apply v_square_nonneg].
    rewrite Z0. apply v_le_add2; apply v_square_nonneg.
  - assert (G : vadd (vadd (vadd (vmul ra (g (vofZ (mtime a)))) (vmul rb (g (vofZ (mtime b))))) (vmul rc (g (vofZ (mtime c))))) (vmul re (g (vofZ (mtime e)))) = v0).
    { transitivity (vadd (vmul dn (vadd (vadd (vadd ra rb) rc) re))
        (vmul dm (vadd (vadd (vadd (vmul (vofZ (mtime a)) ra) (vmul (vofZ (mtime b)) rb)) (vmul (vofZ (mtime c)) rc)) (vmul (vofZ (mtime e)) re)))).
      - unfold g. ring.
      - rewrite F1, F2. ring. }
    clearbody g ra rb rc re.
    set (ga := g (vofZ (mtime a))) in *. set (gb := g (vofZ (mtime b))) in *. set (gc := g (vofZ (mtime c))) in *. set (ge := g (vofZ (mtime e))) in *.
    clearbody ga gb gc ge.
    transitivity (vadd (vadd (vadd (vadd (vmul ga ga) (vmul gb gb)) (vmul gc gc)) (vmul ge ge))
      (vmul (vadd v1 v1) (vadd (vadd (vadd (vmul ra ga) (vmul rb gb)) (vmul rc gc)) (vmul re ge)))); [rewrite G|]; ring.
Qed.

(** the point before the first message, wrapped around if it would be before time 0 *)
Lemma hermite_before4 a b c e :
  0 <= mtime a -> mtime a < mtime b -> mtime b < mtime c -> mtime c < mtime e -> mtime e < 2 ^ 30 ->
  exists m n, fit4 a b c e m n /\
    let t := wrap (mtime a - (mtime e - mtime a) / 3) in
    hermite_before [a; b; c; e] = Ok (mkMsg t (vadd (vmul m (vofZ t)) n)).
Proof.
  intros Ha Hb Hc He Hm. destruct (least_squares4 a b c e) as (m & n & E & F); auto.
  exists m, n. split; [exact F|]. unfold hermite_before. rewrite E. cbn [rbind length gap_sum].
  assert (T : two64 = 2 ^ 34 * 2 ^ 30) by reflexivity.
  change (wrap (Z.of_nat 4 - 1)) with 3. rewrite !wrap_id by lia.
  replace (vadd (vadd (vadd v0 (vofZ (mtime b - mtime a))) (vofZ (mtime c - mtime b))) (vofZ (mtime e - mtime c))) with (vofZ (mtime e - mtime a))
    by (rewrite !v_ofZ_sub; ring).
  assert (W : wrap (mtime a + wrap (wrap (-1) * ((mtime e - mtime a) / 3))) = wrap (mtime a - (mtime e - mtime a) / 3)).
  { unfold wrap. rewrite Zplus_mod_idemp_r, <- Zplus_mod_idemp_r, Zmult_mod_idemp_l, Zplus_mod_idemp_r. reflexivity. }
  rewrite toT_third by lia. cbn [rbind]. change (q_at [a; b; c; e] 0) with (Ok a). cbn [rbind fst snd]. rewrite W. reflexivity.
Qed.

(** ** the run *)

Definition curve (y0 y1 y2 y3 : msg) (offs : list Z) : list msg :=
  map (fun off => mkMsg (mtime y1 + off)
    (hermite_interpolate4 (mval y0) (mval y1) (mval y2) (mval y3) (vdiv (vofZ off) (vofZ (mtime y2 - mtime y1))))) offs.

Lemma fold_body_const {A B} (f : Z -> A) (b : B) (l : list Z) acc :
  fold_body (fun off (st : list A * B) => let '(ac, b0) := st in Ok (f off :: ac, b0)) l (acc, b) = Ok (rev (map f l) ++ acc, b).
Proof. revert acc. induction l as [|x l IH]; intros acc; cbn; auto. rewrite IH, <- app_assoc. reflexivity. Qed.

Lemma look_at_1 a b c e d carry bf :
  0 <= mtime b -> mtime b <= mtime c -> mtime c < two64 -> mtime c - mtime b + d < two64 -> 0 <= carry < d ->
  mtime c - mtime b < d * (2 ^ 31 - 3) ->
  look_at [a; b; c; e] 1 d carry bf =
    Ok (curve a b c e (offsets d carry 1 (Z.to_nat ((mtime c - mtime b + carry) / d))), (mtime c - mtime b + carry) mod d, bf).
Proof.
  intros H0 H1 H2 H3 H4 H5. unfold look_at. change (q_at [a; b; c; e] 1) with (Ok b). change (q_at [a; b; c; e] (1 + 1)) with (Ok c).
  cbn [rbind]. rewrite grid_loop_spec by lia.
  change (1 - 1) with 0. change (q_at [a; b; c; e] (1 + 2)) with (Ok e).
  change (hermite_get [a; b; c; e]) with (fun bf i => hermite_get [a; b; c; e] bf i). cbv beta.
  assert (W : wrap (mtime c - mtime b) = mtime c - mtime b) by (apply wrap_id; lia). rewrite W.
  unfold hermite_get. cbn [Z.leb Z.compare]. change (q_at [a; b; c; e] 0) with (Ok a). cbn [rbind].
  rewrite (fold_body_const (fun off => mkMsg (mtime b + off)
    (hermite_interpolate4 (mval a) (mval b) (mval c) (mval e) (vdiv (vofZ off) (vofZ (mtime c - mtime b)))))).
  cbn [rbind]. rewrite carry_after_spec by lia. rewrite app_nil_r, rev_involutive. reflexivity.
Qed.

Lemma look_at_0 a b c e d carry y :
  hermite_before [a; b; c; e] = Ok y ->
  0 <= mtime a -> mtime a <= mtime b -> mtime b < two64 -> mtime b - mtime a + d < two64 -> 0 <= carry < d ->
  mtime b - mtime a < d * (2 ^ 31 - 3) ->
  let n := Z.to_nat ((mtime b - mtime a + carry) / d) in
  look_at [a; b; c; e] 0 d carry None =
    Ok (curve y a b c (offsets d carry 1 n), (mtime b - mtime a + carry) mod d, match n with O => None | _ => Some y end).
Proof.
  intros Hy H0 H1 H2 H3 H4 H5 n. unfold look_at. change (q_at [a; b; c; e] 0) with (Ok a). change (q_at [a; b; c; e] (0 + 1)) with (Ok b).
  cbn [rbind]. rewrite grid_loop_spec by lia. fold n.
  change (q_at [a; b; c; e] (0 + 2)) with (Ok c).
  assert (W : wrap (mtime b - mtime a) = mtime b - mtime a) by (apply wrap_id; lia). rewrite W.
  unfold hermite_get. change (0 <=? 0 - 1) with false. cbv iota. rewrite Hy.
  set (g := fun off => mkMsg (mtime a + off)
    (hermite_interpolate4 (mval y) (mval a) (mval b) (mval c) (vdiv (vofZ off) (vofZ (mtime b - mtime a))))).
  match goal with |- context [fold_body ?f _ _] => set (F := f) end.
  assert (FS : forall l acc, fold_body F l (acc, Some y) = Ok (rev (map g l) ++ acc, Some y)).
  { induction l as [|x l IH]; intros acc; cbn [fold_body]; auto. unfold F at 1. cbn [rbind]. rewrite IH. cbn [map rev]. rewrite <- app_assoc. reflexivity. }
  assert (FN : fold_body F (offsets d carry 1 n) ([], None) = Ok (rev (map g (offsets d carry 1 n)), match n with O => None | _ => Some y end)).
  { destruct n as [|n']; [reflexivity|]. rewrite offsets_S. cbn [fold_body]. unfold F at 1. cbn [rbind]. rewrite FS.
    cbn [map rev]. reflexivity. }
  rewrite FN. cbn [rbind]. rewrite carry_after_spec by lia. rewrite rev_involutive. reflexivity.
Qed.

Lemma curve_between y0 y1 y2 y3 d carry :
  0 <= carry < d -> mtime y1 <= mtime y2 ->
  Forall (between y0 y1 y2 y3) (curve y0 y1 y2 y3 (offsets d carry 1 (Z.to_nat ((mtime y2 - mtime y1 + carry) / d)))).
Proof.
  intros Hc Ht. apply Forall_forall. intros m Hm. unfold curve in Hm. apply in_map_iff in Hm as (off & <- & Hin).
  unfold between. cbn [mtime mval].
  unfold offsets in Hin. apply in_map_iff in Hin as (i & Ei & Hi). apply in_seq in Hi.
  assert (D : d * ((mtime y2 - mtime y1 + carry) / d) <= mtime y2 - mtime y1 + carry) by (apply Z.mul_div_le; lia).
  assert (1 + Z.of_nat i <= (mtime y2 - mtime y1 + carry) / d) by lia.
  split; [nia|]. unfold relative. do 3 f_equal. lia.
Qed.

Definition on_curve_from (y : msg) (h : list msg) (m : msg) : Prop :=
  exists y0 y1 y2 y3, ((exists l1 l2, h = l1 ++ y0 :: y1 :: y2 :: y3 :: l2) \/ ((exists l2, h = y1 :: y2 :: y3 :: l2) /\ y0 = y)) /\
    between y0 y1 y2 y3 m.

Lemma on_curve_from_snoc y h x m : on_curve_from y h m -> on_curve_from y (h ++ [x]) m.
Proof.
  intros (y0 & y1 & y2 & y3 & [(l1 & l2 & ->)|((l2 & ->) & ->)] & B).
  - exists y0, y1, y2, y3. split; [|exact B]. left. exists l1, (l2 ++ [x]). now rewrite <- app_assoc.
  - exists y, y1, y2, y3. split; [|exact B]. right. split; [|reflexivity]. exists (l2 ++ [x]). reflexivity.
Qed.

Lemma run_hermite_first id outs conns d h y :
  0 < d -> increasing (times h) -> 0 <= first_time h -> newest_time h + d < two64 ->
  gaps_below (d * (2 ^ 31 - 3)) h ->
  d <= mtime (nth 1 h msg0) - first_time h ->
  ((4 <= length h)%nat -> hermite_before (firstn 4 h) = Ok y) ->
  exists os o',
  run (sop id outs conns (new_port "i1" 4) false (KHermiteResampler d 0 None)) (feed "i1" h) = (Ok os, o') /\
  if (length h <? 4)%nat then
    on_port "o1" os = [] /\ o' = sop id outs conns (port_after "i1" 4 h) false (KHermiteResampler d 0 None)
  else
    Forall (on_curve_from y h) (on_port "o1" os) /\
    o' = sop id outs conns (port_after "i1" 4 h) false
                      (KHermiteResampler d ((second_newest_time h - first_time h) mod d) (Some y)).
Proof.
  intros Hd. induction h as [|m h IH] using rev_ind; intros Hi H0 Hmax Hg Hfirst Hy.
  { cbn. eexists _, _. split; [reflexivity|]. auto. }
  pose proof Hi as Hi'. apply increasing_snoc in Hi' as [Hi1 Hm]. rewrite newest_time_snoc in Hmax.
  assert (IH' : exists os o',
  run (sop id outs conns (new_port "i1" 4) false (KHermiteResampler d 0 None)) (feed "i1" h) = (Ok os, o') /\
  if (length h <? 4)%nat then
    on_port "o1" os = [] /\ o' = sop id outs conns (port_after "i1" 4 h) false (KHermiteResampler d 0 None)
  else
    Forall (on_curve_from y h) (on_port "o1" os) /\
    o' = sop id outs conns (port_after "i1" 4 h) false
                      (KHermiteResampler d ((second_newest_time h - first_time h) mod d) (Some y))).
  { destruct h as [|a [|b h]].
    - cbn. eexists _, _. split; [reflexivity|]. auto.
    - clear. cbn [length]. change (Nat.ltb 1 4) with true. cbv iota.
      pose proof (feed_step id outs conns 4 [] a (KHermiteResampler d 0 None) ltac:(lia) eq_refl) as S.
      change (port_after "i1" 4 []) with (new_port "i1" 4) in S. rewrite S. cbn [app length].
      change (eff 4) with 4. change (Z.of_nat 1 <? 4) with true. eexists _, _. split; [reflexivity|]. auto.
    - apply IH; auto.
      + assert (newest_time (a :: b :: h) < mtime m) by (apply Hm, last_in; discriminate). lia.
      + eapply gaps_below_snoc; eauto.
      + intros L. rewrite <- Hy by (rewrite app_length; lia). f_equal.
        rewrite (firstn_app 4 (a :: b :: h) [m]). replace (4 - length (a :: b :: h))%nat with 0%nat by lia. now rewrite firstn_O, app_nil_r. }
  clear IH. destruct IH' as (os1 & o1 & R & IH').
  rewrite feed_app, run_app, R.
  destruct (Nat.ltb_spec (length (h ++ [m])) 4) as [L4|L4].
  - rewrite app_length in L4. cbn in L4.
    destruct (Nat.ltb_spec (length h) 4); [|lia]. destruct IH' as [O ->].
    rewrite feed_step by (lia || reflexivity). change (eff 4) with 4.
    assert (Z.of_nat (length (h ++ [m])) <? 4 = true) as X by (apply Z.ltb_lt; rewrite app_length; cbn; lia).
    rewrite X. eexists _, _. split; [reflexivity|]. split; [|reflexivity]. etransitivity; [apply on_port_silent|exact O].
  - specialize (Hy L4).
    destruct (list_split4 (h ++ [m]) L4) as (h0 & a & b & c & m' & Es).
    replace (h0 ++ [a; b; c; m']) with ((h0 ++ [a; b; c]) ++ [m']) in Es by (rewrite <- app_assoc; reflexivity).
    apply app_inj_tail in Es as [-> <-].
    set (h := h0 ++ [a; b; c]) in *.
    assert (Dat : ip_data (port_after "i1" 4 (h ++ [m])) = [a; b; c; m]).
    { rewrite port_after_data by lia. change (Z.to_nat (eff 4)) with 4%nat. unfold h. rewrite <- app_assoc. apply last4. }
    assert (Sn : second_newest_time (h ++ [m]) = mtime c).
    { unfold second_newest_time. rewrite removelast_last. unfold h.
      replace (h0 ++ [a; b; c]) with ((h0 ++ [a; b]) ++ [c]) by (rewrite <- app_assoc; reflexivity). apply newest_time_snoc. }
    assert (Hh : h <> []) by (unfold h; destruct h0; discriminate).
    assert (Tab : mtime a < mtime b /\ mtime b < mtime c /\ mtime c < mtime m).
    { split; [|split].
      - assert (I : increasing (times ((h0 ++ [a]) ++ [b]))).
        { assert (I : increasing (times (((h0 ++ [a]) ++ [b]) ++ [c]))) by (rewrite <- !app_assoc; exact Hi1).
          now apply increasing_snoc in I. }
        apply increasing_snoc in I as [_ I]. apply I, in_or_app. cbn; auto.
      - assert (I : increasing (times ((h0 ++ [a; b]) ++ [c]))) by (rewrite <- !app_assoc; exact Hi1).
        apply increasing_snoc in I as [_ I]. apply I, in_or_app. cbn; auto.
      - apply Hm. unfold h. apply in_or_app. cbn; auto. }
    assert (Gbc : mtime c - mtime b < d * (2 ^ 31 - 3)) by (apply (Hg (h0 ++ [a]) b c [m]); unfold h; rewrite <- !app_assoc; reflexivity).
    assert (Gab : mtime b - mtime a < d * (2 ^ 31 - 3)) by (apply (Hg h0 a b [c; m]); unfold h; rewrite <- !app_assoc; reflexivity).
    rewrite first_time_snoc in * by auto.
    assert (Ha : first_time h <= mtime a).
    { assert (I : increasing (times (h0 ++ [a]))).
      { assert (I : increasing (times (((h0 ++ [a]) ++ [b]) ++ [c]))) by (rewrite <- !app_assoc; exact Hi1).
        apply increasing_snoc in I as [I _]. now apply increasing_snoc in I as [I _]. }
      unfold h. destruct h0 as [|x h0]; cbn [app first_time]; [lia|].
      assert (mtime x < mtime a); [|lia]. apply increasing_snoc in I as [_ I]. apply I. cbn; auto. }
    assert (Nlt : Z.of_nat (length (h ++ [m])) <? 4 = false) by (apply Z.ltb_ge; lia).
    rewrite Sn.
    destruct (Nat.ltb_spec (length h) 4) as [L|L].
    + (* the first full window *)
      assert (h0 = []) by (unfold h in L; rewrite app_length in L; cbn in L; destruct h0; [auto|cbn in L; lia]). subst h0.
      cbn [app] in h. destruct IH' as [O ->]. cbn in Hy.
      rewrite feed_step by (lia || reflexivity). change (eff 4) with 4. rewrite Nlt.
      rewrite proc_hermite, Dat. unfold hermite_process.
      change (first_time h) with (mtime a) in *. cbn [h app nth] in Hfirst.
      rewrite (look_at_0 a b c m d 0 y Hy) by lia. rewrite Z.add_0_r. cbn [rbind].
      pose proof (Z.mod_pos_bound (mtime b - mtime a) d Hd) as M1.
      rewrite look_at_1 by lia. cbn [rbind].
      assert (1 <= (mtime b - mtime a) / d) by (apply Z.div_le_lower_bound; lia).
      destruct (Z.to_nat ((mtime b - mtime a) / d)) as [|k] eqn:K; [lia|]. rewrite <- K.
      eexists _, _. split; [reflexivity|]. split.
      * match goal with |- Forall _ ?x => assert (Ep : exists e1 e2, x = e1 ++ e2 /\
          e1 = curve y a b c (offsets d 0 1 (Z.to_nat ((mtime b - mtime a + 0) / d))) /\
          e2 = curve a b c m (offsets d ((mtime b - mtime a) mod d) 1 (Z.to_nat ((mtime c - mtime b + (mtime b - mtime a) mod d) / d)))) end.
        { eexists _, _. split; [|split; reflexivity]. etransitivity; [apply on_port_new|]. rewrite O, Z.add_0_r. reflexivity. }
        destruct Ep as (e1 & e2 & -> & -> & ->).
        apply Forall_app. split.
        -- eapply Forall_impl; [|apply curve_between; lia]. intros x B. exists y, a, b, c. split; [|exact B].
           right. split; [|reflexivity]. exists [m]. reflexivity.
        -- eapply Forall_impl; [|apply curve_between; lia]. intros x B. exists a, b, c, m. split; [|exact B].
           left. exists [], []. reflexivity.
      * unfold sop, set_toproc. cbn. do 2 f_equal. rewrite Z.add_mod_idemp_r by lia. f_equal. lia.
    + destruct IH' as [OC ->].
      rewrite feed_step by (lia || reflexivity). change (eff 4) with 4. rewrite Nlt.
      rewrite proc_hermite, Dat. unfold hermite_process.
      assert (Sb : second_newest_time h = mtime b).
      { unfold second_newest_time, h. replace (h0 ++ [a; b; c]) with ((h0 ++ [a; b]) ++ [c]) by (rewrite <- app_assoc; reflexivity).
        rewrite removelast_last. replace (h0 ++ [a; b]) with ((h0 ++ [a]) ++ [b]) by (rewrite <- app_assoc; reflexivity).
        apply newest_time_snoc. }
      rewrite Sb in *.
      pose proof (Z.mod_pos_bound (mtime b - first_time h) d Hd) as M1.
      rewrite look_at_1 by lia.
      eexists _, _. split; [reflexivity|]. split.
      * match goal with |- Forall _ ?x => assert (Ep : exists e2, x = on_port "o1" os1 ++ e2 /\
          e2 = curve a b c m (offsets d ((mtime b - first_time h) mod d) 1 (Z.to_nat ((mtime c - mtime b + (mtime b - first_time h) mod d) / d)))) end.
        { eexists. split; [|reflexivity]. apply on_port_new. }
        destruct Ep as (e2 & -> & ->).
        apply Forall_app. split; [eapply Forall_impl; [|exact OC]; intros x; apply on_curve_from_snoc|].
        eapply Forall_impl; [|apply curve_between; lia]. intros x B. exists a, b, c, m. split; [|exact B].
        left. exists h0, []. unfold h. rewrite <- app_assoc. reflexivity.
      * unfold sop, set_toproc. cbn. do 2 f_equal. rewrite Z.add_mod_idemp_r by lia. f_equal. lia.
Qed.

(** ** any history *)

Definition near (h : list msg) (m : msg) : Prop := exists y0 y1 y2 y3, neighbours3 h y1 y2 y3 /\ between y0 y1 y2 y3 m.

Lemma near_snoc h x m : near h m -> near (h ++ [x]) m.
Proof.
  intros (y0 & y1 & y2 & y3 & (l1 & l2 & ->) & B). exists y0, y1, y2, y3. split; [|exact B].
  exists l1, (l2 ++ [x]). now rewrite <- app_assoc.
Qed.

Lemma look_at_near l h a b c e from d carry bf es c' bf' :
  0 <= mtime a -> mtime a < mtime b -> mtime b < mtime c -> mtime c + d < two64 -> 0 <= carry < d ->
  mtime b - mtime a < d * (2 ^ 31 - 3) -> mtime c - mtime b < d * (2 ^ 31 - 3) ->
  h = l ++ [a; b; c; e] -> from = 0 \/ from = 1 ->
  look_at [a; b; c; e] from d carry bf = Ok (es, c', bf') -> Forall (near h) es /\ 0 <= c' < d.
Proof.
  intros Ha Hab Hbc Hc Hd G1 G2 -> [->| ->] E.
  - pose proof E as V. eapply look_at_values with (mf := a) (mt := b) in V; try reflexivity; try lia.
    eapply look_at_spec with (mf := a) (mt := b) in E as (_ & -> & _); try reflexivity; try lia.
    split; [|apply Z.mod_pos_bound; lia].
    eapply Forall_impl; [|exact V]. intros m (y0 & y3 & E3 & _ & B). injection E3 as <-. exists y0, a, b, c. split; [|exact B].
    exists l, [e]. reflexivity.
  - pose proof E as V. eapply look_at_values with (mf := b) (mt := c) in V; try reflexivity; try lia.
    eapply look_at_spec with (mf := b) (mt := c) in E as (_ & -> & _); try reflexivity; try lia.
    split; [|apply Z.mod_pos_bound; lia].
    eapply Forall_impl; [|exact V]. intros m (y0 & y3 & E3 & _ & B). injection E3 as <-. exists y0, b, c, e. split; [|exact B].
    exists (l ++ [a]), []. rewrite <- app_assoc. reflexivity.
Qed.

Lemma run_hermite_any id outs conns d h os o' :
  0 < d -> increasing (times h) -> 0 <= first_time h -> newest_time h + d < two64 ->
  gaps_below (d * (2 ^ 31 - 3)) h ->
  run (sop id outs conns (new_port "i1" 4) false (KHermiteResampler d 0 None)) (feed "i1" h) = (Ok os, o') ->
  Forall (near h) (on_port "o1" os) /\
  exists carry bf, 0 <= carry < d /\ o' = sop id outs conns (port_after "i1" 4 h) false (KHermiteResampler d carry bf).
Proof.
  intros Hd. revert os o'. induction h as [|m h IH] using rev_ind; intros os o' Hi H0 Hmax Hg E.
  { cbn in E. injection E as <- <-. split; [constructor|]. exists 0, None. split; [lia|reflexivity]. }
  pose proof Hi as Hi'. apply increasing_snoc in Hi' as [Hi1 Hm]. rewrite newest_time_snoc in Hmax.
  rewrite feed_app, run_app in E.
  destruct (run _ (feed "i1" h)) as [[os1| | | |] o1] eqn:R; try discriminate E.
  assert (IH' : Forall (near h) (on_port "o1" os1) /\
    exists carry bf, 0 <= carry < d /\ o1 = sop id outs conns (port_after "i1" 4 h) false (KHermiteResampler d carry bf)).
  { destruct h as [|a h].
    - cbn in R. injection R as <- <-. split; [constructor|]. exists 0, None. split; [lia|reflexivity].
    - apply IH; auto.
      + assert (newest_time (a :: h) < mtime m) by (apply Hm, last_in; discriminate). lia.
      + eapply gaps_below_snoc; eauto. }
  clear IH. destruct IH' as (N & carry & bf & Hc & ->).
  rewrite feed_step in E by (lia || reflexivity). change (eff 4) with 4 in E.
  destruct (Z.ltb_spec (Z.of_nat (length (h ++ [m]))) 4) as [L4|L4].
  - injection E as <- <-. split.
    + match goal with |- Forall _ ?x => replace x with (on_port "o1" os1) by (symmetry; apply on_port_silent) end.
      eapply Forall_impl; [|exact N]. intros x. apply near_snoc.
    + exists carry, bf. auto.
  - destruct (list_split4 (h ++ [m]) ltac:(lia)) as (h0 & a & b & c & m' & Es).
    replace (h0 ++ [a; b; c; m']) with ((h0 ++ [a; b; c]) ++ [m']) in Es by (rewrite <- app_assoc; reflexivity).
    apply app_inj_tail in Es as [-> <-].
    set (h := h0 ++ [a; b; c]) in *.
    assert (Dat : ip_data (port_after "i1" 4 (h ++ [m])) = [a; b; c; m]).
    { rewrite port_after_data by lia. change (Z.to_nat (eff 4)) with 4%nat. unfold h. rewrite <- app_assoc. apply last4. }
    assert (Tab : mtime a < mtime b /\ mtime b < mtime c /\ mtime c < mtime m).
    { split; [|split].
      - assert (I : increasing (times ((h0 ++ [a]) ++ [b]))).
        { assert (I : increasing (times (((h0 ++ [a]) ++ [b]) ++ [c]))) by (rewrite <- !app_assoc; exact Hi1).
          now apply increasing_snoc in I. }
        apply increasing_snoc in I as [_ I]. apply I, in_or_app. cbn; auto.
      - assert (I : increasing (times ((h0 ++ [a; b]) ++ [c]))) by (rewrite <- !app_assoc; exact Hi1).
        apply increasing_snoc in I as [_ I]. apply I, in_or_app. cbn; auto.
      - apply Hm. unfold h. apply in_or_app. cbn; auto. }
    assert (Gbc : mtime c - mtime b < d * (2 ^ 31 - 3)) by (apply (Hg (h0 ++ [a]) b c [m]); unfold h; rewrite <- !app_assoc; reflexivity).
    assert (Gab : mtime b - mtime a < d * (2 ^ 31 - 3)) by (apply (Hg h0 a b [c; m]); unfold h; rewrite <- !app_assoc; reflexivity).
    rewrite first_time_snoc in * by (unfold h; destruct h0; discriminate).
    assert (Ha : first_time h <= mtime a).
    { assert (I : increasing (times (h0 ++ [a]))).
      { assert (I : increasing (times (((h0 ++ [a]) ++ [b]) ++ [c]))) by (rewrite <- !app_assoc; exact Hi1).
        apply increasing_snoc in I as [I _]. now apply increasing_snoc in I as [I _]. }
      unfold h. destruct h0 as [|x h0]; cbn [app first_time]; [lia|].
      assert (mtime x < mtime a); [|lia]. apply increasing_snoc in I as [_ I]. apply I. cbn; auto. }
    rewrite proc_hermite, Dat in E.
    destruct (hermite_process d carry bf [a; b; c; m]) as [[[e c'] bf']| | | |] eqn:P; try discriminate E.
    injection E as <- <-.
    assert (Hh : h ++ [m] = h0 ++ [a; b; c; m]) by (unfold h; rewrite <- app_assoc; reflexivity).
    assert (Q : Forall (near (h ++ [m])) e /\ 0 <= c' < d).
    { unfold hermite_process in P. destruct bf as [bf|].
      - eapply look_at_near in P; eauto; lia.
      - destruct (look_at [a; b; c; m] 0 d carry None) as [[[e1 c1] b1]| | | |] eqn:P1; try discriminate P. cbn [rbind] in P.
        destruct (look_at [a; b; c; m] 1 d c1 b1) as [[[e2 c2] b2]| | | |] eqn:P2; try discriminate P. cbn [rbind] in P.
        injection P as <- <- <-.
        eapply look_at_near in P1 as [Q1 C1]; eauto; try lia. eapply look_at_near in P2 as [Q2 C2]; eauto; try lia.
        split; [apply Forall_app; auto|exact C2]. }
    destruct Q as [Q C]. split.
    + match goal with |- Forall _ ?x => replace x with (on_port "o1" os1 ++ e) by (symmetry; apply on_port_new) end.
      apply Forall_app. split; [|exact Q]. eapply Forall_impl; [|exact N]. intros x. apply near_snoc.
    + exists c', bf'. auto.
Qed.

(** ** times from 2^32 on *)

Lemma hermite_before_over a q : 2 ^ 32 <= mtime a -> hermite_before (a :: q) = UB.
Proof.
  intros H. unfold hermite_before, least_squares. cbn [ls_sums]. unfold toT.
  rewrite vtoT_over; [reflexivity|]. rewrite v_pow_2, v_ofZ_0, <- v_ofZ_mul.
  replace (vadd v0 (vofZ (mtime a * mtime a))) with (vofZ (mtime a * mtime a)) by ring.
  apply v_ofZ_le. change two64 with (2 ^ 32 * 2 ^ 32). nia.
Qed.

Lemma run_over id outs conns d a b c e l :
  0 < d -> 2 ^ 32 <= mtime a -> mtime a < mtime b -> mtime b < two64 -> mtime b - mtime a + d < two64 -> d <= mtime b - mtime a -> mtime b - mtime a < d * (2 ^ 31 - 3) ->
  fst (run (sop id outs conns (new_port "i1" 4) false (KHermiteResampler d 0 None)) (feed "i1" (a :: b :: c :: e :: l))) = UB.
Proof.
  intros Hd Ha Hab Hb Hs Hg Hl.
  change (a :: b :: c :: e :: l) with ([a; b; c] ++ [e] ++ l). rewrite feed_app, run_app.
  assert (R : exists os, run (sop id outs conns (new_port "i1" 4) false (KHermiteResampler d 0 None)) (feed "i1" [a; b; c]) =
    (Ok os, sop id outs conns (port_after "i1" 4 [a; b; c]) false (KHermiteResampler d 0 None))).
  { change [a; b; c] with ([a] ++ [b] ++ [c]) at 1. rewrite !feed_app, run_app.
    change (new_port "i1" 4) with (port_after "i1" 4 []). rewrite feed_step by (lia || reflexivity).
    cbn [app length]. change (Z.of_nat 1 <? eff 4) with true. cbv iota.
    rewrite run_app, feed_step by (lia || reflexivity). cbn [app length]. change (Z.of_nat 2 <? eff 4) with true. cbv iota.
    rewrite feed_step by (lia || reflexivity). cbn [app length]. change (Z.of_nat 3 <? eff 4) with true. cbv iota.
    eexists. reflexivity. }
  destruct R as (os & ->). rewrite feed_app, run_app, feed_step by (lia || reflexivity).
  cbn [app length]. change (Z.of_nat 4 <? eff 4) with false. cbv iota.
  rewrite proc_hermite. rewrite port_after_data by lia. change (lastn (Z.to_nat (eff 4)) [a; b; c; e]) with [a; b; c; e].
  unfold hermite_process. assert (L : look_at [a; b; c; e] 0 d 0 None = UB).
  { unfold look_at. change (q_at [a; b; c; e] 0) with (Ok a). change (q_at [a; b; c; e] (0 + 1)) with (Ok b). cbn [rbind].
    rewrite grid_loop_spec by lia. rewrite Z.add_0_r.
    assert (1 <= (mtime b - mtime a) / d) by (apply Z.div_le_lower_bound; lia).
    destruct (Z.to_nat ((mtime b - mtime a) / d)) as [|k] eqn:K; [lia|]. rewrite offsets_S. cbn [fold_body].
    unfold hermite_get. change (0 <=? 0 - 1) with false. cbv iota. rewrite hermite_before_over by lia. reflexivity. }
  rewrite L. reflexivity.
Qed.

(** ** straight lines *)

Lemma fit4_line a b c e m n m' n' :
  mtime a < mtime b -> mtime b < mtime c -> mtime c < mtime e ->
  (forall y, In y [a; b; c; e] -> mval y = vadd (vmul m (vofZ (mtime y))) n) ->
  fit4 a b c e m' n' -> m' = m /\ n' = n.
Proof.
  intros Hb Hc He L [F1 F2]. cbv zeta in F1, F2.
  rewrite (L a), (L b), (L c), (L e) in F1, F2 by (cbn; auto). clear L.
  set (ta := mtime a) in *. set (tb := mtime b) in *. set (tc := mtime c) in *. set (te := mtime e) in *.
  set (den := (tb - ta) * (tb - ta) + (tc - ta) * (tc - ta) + (te - ta) * (te - ta) + (tc - tb) * (tc - tb) + (te - tb) * (te - tb) + (te - tc) * (te - tc)).
  assert (D : 0 < den) by (unfold den; nia).
  assert (N : vofZ den <> v0) by (apply v_ofZ_neq0; lia).
  assert (F : vofZ 4 = vadd (vadd v1 v1) (vadd v1 v1)) by (rewrite <- v_ofZ_1, <- !v_ofZ_add; reflexivity).
  assert (N4 : vofZ 4 <> v0) by (apply v_ofZ_neq0; lia).
  set (u := vsub m' m). set (w := vsub n' n).
  assert (F1' : vadd (vmul u (vadd (vadd (vadd (vofZ ta) (vofZ tb)) (vofZ tc)) (vofZ te))) (vmul (vofZ 4) w) = v0)
    by (rewrite <- F1, F; unfold u, w; ring).
  assert (F2' : vadd (vmul u (vadd (vadd (vadd (vmul (vofZ ta) (vofZ ta)) (vmul (vofZ tb) (vofZ tb))) (vmul (vofZ tc) (vofZ tc))) (vmul (vofZ te) (vofZ te))))
      (vmul (vadd (vadd (vadd (vofZ ta) (vofZ tb)) (vofZ tc)) (vofZ te)) w) = v0)
    by (rewrite <- F2; unfold u, w; ring).
  assert (U : vmul u (vofZ den) = v0).
  { transitivity (vsub (vmul (vofZ 4) (vadd (vmul u (vadd (vadd (vadd (vmul (vofZ ta) (vofZ ta)) (vmul (vofZ tb) (vofZ tb))) (vmul (vofZ tc) (vofZ tc))) (vmul (vofZ te) (vofZ te))))
        (vmul (vadd (vadd (vadd (vofZ ta) (vofZ tb)) (vofZ tc)) (vofZ te)) w)))
      (vmul (vadd (vadd (vadd (vofZ ta) (vofZ tb)) (vofZ tc)) (vofZ te))
        (vadd (vmul u (vadd (vadd (vadd (vofZ ta) (vofZ tb)) (vofZ tc)) (vofZ te))) (vmul (vofZ 4) w)))).
    - unfold den. rewrite !v_ofZ_add, !v_ofZ_mul, !v_ofZ_sub, F. ring.
    - rewrite F1', F2'. ring. }
  assert (U0 : u = v0).
  { replace u with (vdiv (vmul u (vofZ den)) (vofZ den)) by (field; exact N). rewrite U. field. exact N. }
  assert (W0 : w = v0).
  { rewrite U0 in F1'. replace w with (vdiv (vadd (vmul v0 (vadd (vadd (vadd (vofZ ta) (vofZ tb)) (vofZ tc)) (vofZ te))) (vmul (vofZ 4) w)) (vofZ 4)) by (field; exact N4).
    rewrite F1'. field. exact N4. }
  split; [replace m' with (vadd u m) by (unfold u; ring); rewrite U0|replace n' with (vadd w n) by (unfold w; ring); rewrite W0]; ring.
Qed.

(** the effect of moving the first neighbour *)
Lemma hermite4_moved y0 z y1 y2 y3 mu :
  hermite_interpolate4 (vadd y0 (vmul (vofZ 2) z)) y1 y2 y3 mu =
  vsub (hermite_interpolate4 y0 y1 y2 y3 mu) (vmul z (vmul mu (vmul (vsub v1 mu) (vsub v1 mu)))).
Proof.
  assert (N2 : vofZ 2 <> v0) by (apply v_ofZ_neq0; lia).
  assert (E2 : vofZ 2 = vadd v1 v1) by (rewrite <- v_ofZ_1, <- v_ofZ_add; reflexivity).
  assert (E3 : vofZ 3 = vadd (vadd v1 v1) v1) by (rewrite <- v_ofZ_1, <- !v_ofZ_add; reflexivity).
  assert (E4 : vofZ (-2) = vneg (vadd v1 v1)) by (rewrite <- v_ofZ_1, <- !v_ofZ_add; exact (v_ofZ_opp 2)).
  unfold hermite_interpolate4. rewrite E4, E3, E2 in *. field. exact N2.
Qed.

(** the curve through equally distant points of a line is the line *)
Lemma hermite4_line y r mu :
  hermite_interpolate4 (vsub y r) y (vadd y r) (vadd y (vadd r r)) mu = vadd y (vmul r mu).
Proof.
  assert (N2 : vofZ 2 <> v0) by (apply v_ofZ_neq0; lia).
  assert (E2 : vofZ 2 = vadd v1 v1) by (rewrite <- v_ofZ_1, <- v_ofZ_add; reflexivity).
  assert (E3 : vofZ 3 = vadd (vadd v1 v1) v1) by (rewrite <- v_ofZ_1, <- !v_ofZ_add; reflexivity).
  assert (E4 : vofZ (-2) = vneg (vadd v1 v1)) by (rewrite <- v_ofZ_1, <- !v_ofZ_add; exact (v_ofZ_opp 2)).
  unfold hermite_interpolate4. rewrite E4, E3, E2 in *. field. exact N2.
Qed.

Lemma smooth_unique y0 y1 y2 y3 x v : smooth y0 y1 y2 y3 x v -> v = hermite_interpolate4 y0 y1 y2 y3 x.
Proof.
  assert (N2 : vofZ 2 <> v0) by (apply v_ofZ_neq0; lia).
  assert (E2 : vofZ 2 = vadd v1 v1) by (rewrite <- v_ofZ_1, <- v_ofZ_add; reflexivity).
  assert (E3 : vofZ 3 = vadd (vadd v1 v1) v1) by (rewrite <- v_ofZ_1, <- !v_ofZ_add; reflexivity).
  assert (E4 : vofZ (-2) = vneg (vadd v1 v1)) by (rewrite <- v_ofZ_1, <- !v_ofZ_add; exact (v_ofZ_opp 2)).
  intros (c0 & c1 & c2 & c3 & A & B & C & D & ->). unfold cubic, cubic_slope in *.
  assert (Y1 : y1 = c0) by (rewrite <- A; ring). assert (Y2 : y2 = vadd (vadd (vadd c0 c1) c2) c3) by (rewrite <- B; ring).
  assert (Y0 : y0 = vsub y2 (vmul (vofZ 2) c1)).
  { replace y0 with (vsub y2 (vsub y2 y0)) by ring. rewrite <- C. ring. }
  assert (Y3 : y3 = vadd y1 (vmul (vofZ 2) (vadd (vadd c1 (vmul (vofZ 2) c2)) (vmul (vofZ 3) c3)))).
  { replace y3 with (vadd y1 (vsub y3 y1)) by ring. rewrite <- D. ring. }
  rewrite Y0, Y3, Y2, Y1. unfold hermite_interpolate4. rewrite E4, E3, E2 in *. field. exact N2.
Qed.

End First.
