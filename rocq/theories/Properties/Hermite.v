(** * HermiteResampler: all of its curve, and where it goes wrong (C73, C82). *)

From Coq Require Import String ZArith QArith Qcanon Bool List Lia Sorted Field.
From Verif Require Import Base.StrMap Base.Num Base.NumQc Base.NumTrunc Model.Core Model.Ops Model.Make Model.Run.
From Verif Require Import Spec.Streams Spec.Operators Spec.Show Spec.Resample Spec.Fit.
From Verif Require Import Proofs.Lists Proofs.FieldFacts Proofs.Window Proofs.Basic Proofs.Resample Proofs.HermiteP Proofs.FunctionP Proofs.HermiteFirst.
Import ListNotations.
Open Scope string_scope.
Open Scope list_scope.
Open Scope Z_scope.

(** ** C73 *)

(** The first interval included: while the first four times are below 2^30, the first is not below
    the average gap, and the first interval holds a grid point, nothing fails, and every value lies
    on the cubic described in [C73_hermite_curve_partial], where the neighbour before the first
    message is the point one average gap earlier on the line nearest to the first four messages. *)
Theorem C73_first_interval_partial {NO : NumOps} {NF : NumField NO} {NT : NumTrunc NO} (id : string) (d : Z) (o : op) (h : list msg) :
  0 < d -> mk_hermite id d = Ok o ->
  increasing (times h) -> 0 <= first_time h -> newest_time h + d < two64 -> gaps_below (d * (2 ^ 31 - 3)) h ->
  (4 <= length h)%nat -> d <= mtime (nth 1 h msg0) - first_time h ->
  mtime (nth 3 h msg0) < 2 ^ 30 -> (mtime (nth 3 h msg0) - first_time h) / 3 <= first_time h ->
  exists outs o', run o (feed "i1" h) = (Ok outs, o') /\
    times (on_port "o1" outs) = grid (first_time h) d (newest_time (removelast h)) /\
    forall m, In m (on_port "o1" outs) ->
    exists y0 y1 y2 y3, neighbours_made_up h y0 y1 y2 y3 /\ mtime y1 < mtime m <= mtime y2 /\
      smooth (mval y0) (mval y1) (mval y2) (mval y3) (relative y1 y2 (mtime m)) (mval m).
Proof.
  intros Hd Ho Hi H0 Hm Hg L Hf H30 Hav. unfold mk_hermite in Ho. rewrite mk_simple_sop in Ho. injection Ho as <-.
  destruct h as [|a [|b [|c [|e l]]]]; try (cbn in L; lia). cbn [nth first_time] in *.
  assert (Tt : mtime a < mtime b /\ mtime b < mtime c /\ mtime c < mtime e).
  { unfold increasing, times in Hi. cbn [map] in Hi. inversion Hi as [|? ? I1 F1]; subst. inversion I1 as [|? ? I2 F2]; subst.
    inversion I2 as [|? ? I3 F3]; subst. inversion F1; inversion F2; inversion F3; subst. lia. }
  destruct (hermite_before4 a b c e) as (m & n & Fit & Hb); try lia. cbv zeta in Hb.
  assert (0 <= (mtime e - mtime a) / 3) by (apply Z.div_pos; lia).
  rewrite wrap_id in Hb by (assert (2 ^ 30 < two64) by reflexivity; lia).
  destruct (run_hermite_first id ["o1"] [] d (a :: b :: c :: e :: l) _ Hd Hi H0 Hm Hg Hf (fun _ => Hb)) as (outs & o' & R & P).
  exists outs, o'. split; [exact R|].
  pose proof (run_hermite id ["o1"] [] d _ outs o' Hd Hi H0 Hm Hg Hf R) as G. cbn [length Nat.ltb Nat.leb] in G, P.
  destruct G as [G _]. split; [exact G|]. destruct P as [P _]. intros x Hx. rewrite Forall_forall in P.
  destruct (P x Hx) as (y0 & y1 & y2 & y3 & N & B & E). exists y0, y1, y2, y3. split.
  - destruct N as [N|[N ->]]; [now left|]. right. split; [exact N|]. exists m, n. split; [now apply fit4_best|]. split; reflexivity.
  - split; [exact B|]. rewrite E. apply hermite4_smooth.
Qed.
Print Assumptions C73_first_interval_partial.

(** Whatever the first interval holds: every value lies on a cubic through the two messages around
    its time with the right slope at the second, *)
Theorem C73_any_history_partial {NO : NumOps} {NF : NumField NO} {NT : NumTrunc NO} (id : string) (d : Z) (o : op) (h : list msg)
    (outs : list opmsg) (o' : op) (m : msg) :
  0 < d -> mk_hermite id d = Ok o ->
  increasing (times h) -> 0 <= first_time h -> newest_time h + d < two64 -> gaps_below (d * (2 ^ 31 - 3)) h ->
  run o (feed "i1" h) = (Ok outs, o') -> In m (on_port "o1" outs) ->
  exists y0 y1 y2 y3, neighbours3 h y1 y2 y3 /\ mtime y1 < mtime m <= mtime y2 /\
    smooth y0 (mval y1) (mval y2) (mval y3) (relative y1 y2 (mtime m)) (mval m).
Proof.
  intros Hd Ho Hi H0 Hm Hg R Hin. unfold mk_hermite in Ho. rewrite mk_simple_sop in Ho. injection Ho as <-.
  destruct (run_hermite_any id ["o1"] [] d h outs o' Hd Hi H0 Hm Hg R) as [F _].
  rewrite Forall_forall in F. destruct (F m Hin) as (y0 & y1 & y2 & y3 & N & B & E).
  exists (mval y0), y1, y2, y3. split; [exact N|]. split; [exact B|]. rewrite E. apply hermite4_smooth.
Qed.
Print Assumptions C73_any_history_partial.

(** so the value at the time of a received message is that message's. *)
Theorem C73_through_messages {NO : NumOps} {NF : NumField NO} {NT : NumTrunc NO} (id : string) (d : Z) (o : op) (h : list msg)
    (outs : list opmsg) (o' : op) (m y : msg) :
  0 < d -> mk_hermite id d = Ok o ->
  increasing (times h) -> 0 <= first_time h -> newest_time h + d < two64 -> gaps_below (d * (2 ^ 31 - 3)) h ->
  run o (feed "i1" h) = (Ok outs, o') -> In m (on_port "o1" outs) -> In y h -> mtime y = mtime m ->
  mval m = mval y.
Proof.
  intros Hd Ho Hi H0 Hm Hg R Hin Hy Et.
  destruct (C73_any_history_partial id d o h outs o' m Hd Ho Hi H0 Hm Hg R Hin) as (y0 & y1 & y2 & y3 & (l1 & l2 & ->) & B & c0 & c1 & c2 & c3 & E0 & E1 & _ & _ & Ev).
  assert (Ey : y = y2).
  { unfold increasing, times in Hi. rewrite map_app in Hi. cbn [map] in Hi.
    apply in_app_or in Hy as [Hy|[<-|[<-|Hy]]]; auto; exfalso; try lia.
    - clear - Hi Hy Et B. induction l1 as [|x l1 IH]; [destruct Hy|]. cbn in Hi. inversion Hi as [|? ? H1 H2]; subst.
      destruct Hy as [<-|Hy]; auto. apply Forall_app in H2 as [_ H2]. inversion H2; subst. lia.
    - assert (H : StronglySorted Z.lt (mtime y2 :: map mtime (y3 :: l2))).
      { clear - Hi. induction l1 as [|x l1 IH]; cbn in Hi; inversion Hi; subst; auto. }
      inversion H as [|? ? _ H2]; subst. rewrite Forall_forall in H2. assert (mtime y2 < mtime y) by (apply H2; exact (in_map mtime (y3 :: l2) y Hy)). lia. }
  subst y2. rewrite Ev, <- E1. f_equal. unfold relative. rewrite Et.
  assert (D : vofZ (mtime m - mtime y1) <> v0) by (apply v_ofZ_neq0; lia). now apply v_div_self.
Qed.
Print Assumptions C73_through_messages.

(** The slope at the first of the two messages is another matter: when the first interval holds no
    grid point the operator goes over an interval a second time and puts a made up point where the
    previous message should be. *)
Theorem C73_slope_refuted :
  ~ (forall (id : string) (d : Z) (o : op) (h : list msg) (outs : list opmsg) (o' : op) (m : msg),
      0 < d -> mk_hermite id d = Ok o -> increasing (times h) -> 0 <= first_time h -> newest_time h + d < two64 ->
      gaps_below (d * (2 ^ 31 - 3)) h ->
      run o (feed "i1" h) = (Ok outs, o') -> In m (on_port "o1" outs) ->
      exists y0 y1 y2 y3, neighbours4 h y0 y1 y2 y3 /\ mtime y1 < mtime m <= mtime y2 /\
        smooth (mval y0) (mval y1) (mval y2) (mval y3) (relative y1 y2 (mtime m)) (mval m)).
Proof.
  intros H. set (h := [im 101 0; im 102 0; im 112 0; im 113 30; im 114 0]).
  destruct (mk_hermite "r" 3) as [o| | | |] eqn:Ho; try discriminate Ho.
  destruct (run o (feed "i1" h)) as [r o'] eqn:R.
  assert (E : show_port "o1" r = [(104, -12 # 25); (107, -15 # 8); (110, -48 # 25); (103, 27 # 10600); (106, -1584 # 1325); (109, -22239 # 10600); (112, 0%Q)]).
  { replace r with (fst (run o (feed "i1" h))) by (rewrite R; reflexivity).
    unfold mk_hermite in Ho. rewrite mk_simple_sop in Ho. injection Ho as <-. vm_compute. reflexivity. }
  destruct r as [outs| | | |]; try discriminate E. cbn [show_port] in E.
  assert (Hin : exists m, In m (on_port "o1" outs) /\ show_msg m = (103, 27 # 10600)).
  { destruct (on_port "o1" outs) as [|m1 [|m2 [|m3 [|m4 l]]]]; try discriminate E. exists m4. split; [cbn; auto|].
    cbn [map] in E. injection E as _ _ _ _ _ _ E1 E2 _. unfold show_msg. now rewrite E1, E2. }
  destruct Hin as (m & Hin & Em). unfold show_msg in Em. injection Em as Et Ev.
  destruct (H "r" 3 o h outs o' m) as (y0 & y1 & y2 & y3 & N & B & Sm); auto; try (cbn; lia).
  - unfold h, increasing. cbn. repeat constructor; lia.
  - intros l1 a b l2 Eh.
    assert (Ha : In a h) by (rewrite Eh; apply in_or_app; cbn; auto).
    assert (Hb : In b h) by (rewrite Eh; apply in_or_app; cbn; auto).
    clear - Ha Hb. cbn in Ha, Hb. destruct Ha as [<-|[<-|[<-|[<-|[<-|[]]]]]], Hb as [<-|[<-|[<-|[<-|[<-|[]]]]]]; cbn; lia.
  - rewrite Et in *. apply smooth_unique in Sm. clear - N B Sm Ev.
    destruct N as [(l1 & l2 & Eh)|(l2 & Eh)].
    + unfold h in Eh. destruct l1 as [|x [|x' l1]]; cbn [app] in Eh.
      * injection Eh as <- <- <- <- _. rewrite Sm in Ev. vm_compute in Ev. discriminate Ev.
      * injection Eh as _ <- <- <- <- _. cbn in B. lia.
      * exfalso. apply (f_equal (@length _)) in Eh. cbn in Eh. rewrite app_length in Eh. cbn in Eh. lia.
    + unfold h in Eh. injection Eh as <- <- <- _. cbn in B. lia.
Qed.
Print Assumptions C73_slope_refuted.

Example C73_first_interval_example :
  match mk_hermite "r" 3 with
  | Ok o => show_port "o1" (fst (run o (feed "i1" [im 11 10; im 14 20; im 15 30; im 23 40; im 26 2])))
  | _ => []
  end = [(14, 20%Q); (17, (269 # 8)%Q); (20, (2545 # 64)%Q); (23, 40%Q)].
Proof. vm_compute. reflexivity. Qed.

(** ** C82 *)

Section Straight.
Context {NO : NumOps} {NF : NumField NO} {NT : NumTrunc NO}.

Definition spot (t g : Z) (m n : V) (i : nat) : msg :=
  let x := t + Z.of_nat i * g in mkMsg x (vadd (vmul m (vofZ x)) n).

Lemma straight_snoc t g m n k : straight t g m n (S k) = straight t g m n k ++ [spot t g m n k].
Proof. unfold straight. rewrite seq_S, map_app. reflexivity. Qed.

Lemma straight_nth t g m n k i : (i < k)%nat -> nth i (straight t g m n k) msg0 = spot t g m n i.
Proof.
  intros H. change (straight t g m n k) with (map (spot t g m n) (seq 0 k)).
  rewrite (nth_indep _ msg0 (spot t g m n 0)) by (rewrite map_length, seq_length; exact H).
  rewrite map_nth, seq_nth by exact H. reflexivity.
Qed.

Lemma straight_in t g m n k y : In y (straight t g m n k) <-> exists i, (i < k)%nat /\ y = spot t g m n i.
Proof.
  unfold straight. rewrite in_map_iff. split.
  - intros (i & <- & H). apply in_seq in H. exists i. split; [lia|reflexivity].
  - intros (i & H & ->). exists i. split; [reflexivity|]. apply in_seq. lia.
Qed.

Lemma straight_increasing t g m n k : 0 < g -> increasing (times (straight t g m n k)).
Proof.
  intros Hg. induction k as [|k IH]; [constructor|]. rewrite straight_snoc. apply increasing_snoc. split; [exact IH|].
  intros x Hx. apply straight_in in Hx as (i & Hi & ->). cbn [spot mtime]. nia.
Qed.

Lemma straight_split t g m n k l1 a c l2 : straight t g m n k = l1 ++ a :: c :: l2 ->
  a = spot t g m n (length l1) /\ c = spot t g m n (S (length l1)) /\ (S (length l1) < k)%nat.
Proof.
  intros E. assert (L : length (straight t g m n k) = k) by (unfold straight; now rewrite map_length, seq_length).
  assert (K : (S (length l1) < k)%nat) by (rewrite <- L, E, app_length; cbn; lia).
  split; [|split; [|exact K]].
  - rewrite <- (straight_nth t g m n k) by lia. rewrite E, app_nth2, Nat.sub_diag by lia. reflexivity.
  - rewrite <- (straight_nth t g m n k) by lia. rewrite E, app_nth2 by lia. replace (S (length l1) - length l1)%nat with 1%nat by lia. reflexivity.
Qed.

Lemma straight_newest t g m n k : newest_time (straight t g m n (S k)) = t + Z.of_nat k * g.
Proof. rewrite straight_snoc, newest_time_snoc. reflexivity. Qed.

Lemma straight_4 t g m n k : straight t g m n (S (S (S (S k)))) =
  spot t g m n 0 :: spot t g m n 1 :: spot t g m n 2 :: spot t g m n 3 :: map (spot t g m n) (seq 4 k).
Proof. reflexivity. Qed.

(** the run over a straight line: what each value is, with the neighbour the first interval has *)
Lemma straight_run id d o t g m n k :
  0 < d <= g -> mk_hermite id d = Ok o -> 0 <= t -> t + 3 * g < 2 ^ 30 -> (4 <= k)%nat ->
  t + Z.of_nat k * g + d < two64 -> g < d * (2 ^ 31 - 3) ->
  let w := wrap (t - g) in
  exists outs o', run o (feed "i1" (straight t g m n k)) = (Ok outs, o') /\
    times (on_port "o1" outs) = grid t d (t + (Z.of_nat k - 2) * g) /\
    forall y, In y (on_port "o1" outs) -> exists i,
      t + Z.of_nat i * g < mtime y <= t + (Z.of_nat i + 1) * g /\
      let mu := vdiv (vofZ (mtime y - (t + Z.of_nat i * g))) (vofZ g) in
      let value x := vadd (vmul m (vofZ x)) n in
      mval y = hermite_interpolate4 (value (match i with O => w | S j => t + Z.of_nat j * g end)) (value (t + Z.of_nat i * g))
        (value (t + (Z.of_nat i + 1) * g)) (value (t + (Z.of_nat i + 2) * g)) mu.
Proof.
  intros Hd Ho Ht H30 Hk Hm Hg w. unfold mk_hermite in Ho. rewrite mk_simple_sop in Ho. injection Ho as <-.
  destruct k as [|[|[|[|k]]]]; try lia.
  set (h := straight t g m n (S (S (S (S k))))) in *.
  assert (Hi : increasing (times h)) by (apply straight_increasing; lia).
  assert (H0 : first_time h = t) by (unfold h; rewrite straight_4; cbn [nth first_time spot mtime]; lia).
  assert (H1 : mtime (nth 1 h msg0) = t + g) by (unfold h; rewrite straight_4; cbn [nth first_time spot mtime]; lia).
  assert (Hn : newest_time h + d < two64) by (unfold h; rewrite straight_newest; nia).
  assert (Hgap : gaps_below (d * (2 ^ 31 - 3)) h).
  { intros l1 a c l2 E. apply straight_split in E as (-> & -> & _). cbn [spot mtime]. nia. }
  destruct (hermite_before4 (spot t g m n 0) (spot t g m n 1) (spot t g m n 2) (spot t g m n 3)) as (m' & n' & Fit & Hb); try (cbn [spot mtime]; lia).
  apply (fit4_line _ _ _ _ m n) in Fit as [-> ->]; try (cbn [spot mtime]; lia).
  2:{ intros y [<-|[<-|[<-|[<-|[]]]]]; reflexivity. }
  cbv zeta in Hb. assert (W : wrap (mtime (spot t g m n 0) - (mtime (spot t g m n 3) - mtime (spot t g m n 0)) / 3) = w).
  { unfold w. f_equal. cbn [spot mtime]. replace (t + Z.of_nat 3 * g - (t + Z.of_nat 0 * g)) with (g * 3) by lia. rewrite Z.div_mul by lia. lia. }
  rewrite W in Hb.
  destruct (run_hermite_first id ["o1"] [] d h _ (proj1 Hd) Hi ltac:(lia) Hn Hgap ltac:(lia) (fun _ => Hb)) as (outs & o' & R & P).
  exists outs, o'. split; [exact R|].
  pose proof (run_hermite id ["o1"] [] d _ outs o' (proj1 Hd) Hi ltac:(lia) Hn Hgap ltac:(lia) R) as G. cbn [length Nat.ltb Nat.leb] in G, P.
  assert (Ls : (length h <? 4)%nat = false) by (unfold h; rewrite straight_4; reflexivity). rewrite ?Ls in G; rewrite ?Ls in P.
  destruct G as [G _]. destruct P as [P _]. split.
  - rewrite G, H0. f_equal. unfold second_newest_time, h. rewrite straight_snoc, removelast_last, straight_newest. lia.
  - intros y Hy. rewrite Forall_forall in P. destruct (P y Hy) as (y0 & y1 & y2 & y3 & N & B & E).
    destruct N as [(l1 & l2 & Eh)|[(l2 & Eh) ->]].
    + pose proof Eh as Eh1. apply straight_split in Eh1 as (E0 & E1 & _).
      replace (l1 ++ y0 :: y1 :: y2 :: y3 :: l2) with ((l1 ++ [y0]) ++ y1 :: y2 :: y3 :: l2) in Eh by (rewrite <- app_assoc; reflexivity).
      pose proof Eh as Eh2. apply straight_split in Eh2 as (_ & E2 & _).
      replace ((l1 ++ [y0]) ++ y1 :: y2 :: y3 :: l2) with ((l1 ++ [y0; y1]) ++ y2 :: y3 :: l2) in Eh by (rewrite <- !app_assoc; reflexivity).
      apply straight_split in Eh as (_ & E3 & _). rewrite app_length in E2, E3. cbn [length] in E2, E3.
      exists (S (length l1)). subst y0 y1 y2 y3. unfold spot in B, E. cbn [mtime mval] in B, E. split; [nia|]. cbv zeta.
      rewrite E. unfold relative. cbn [mtime].
      replace (t + Z.of_nat (S (length l1 + 1)) * g) with (t + (Z.of_nat (S (length l1)) + 1) * g) by nia.
      replace (t + Z.of_nat (S (length l1 + 2)) * g) with (t + (Z.of_nat (S (length l1)) + 2) * g) by nia.
      replace (t + (Z.of_nat (S (length l1)) + 1) * g - (t + Z.of_nat (S (length l1)) * g)) with g by lia. reflexivity.
    + unfold h in Eh. rewrite straight_4 in Eh. injection Eh as <- <- <- _.
      exists 0%nat. unfold spot in B, E. cbn [mtime mval] in B, E. split; [nia|]. cbv zeta.
      rewrite E. unfold relative. cbn [mtime].
      replace (t + Z.of_nat 1 * g - (t + Z.of_nat 0 * g)) with g by lia. reflexivity.
Qed.

End Straight.

Section Line.
Context {NO : NumOps} {NF : NumField NO} {NT : NumTrunc NO}.

Add Field vfield : v_field_theory.

(** Messages at regular times on a straight line, with a grid point in the first interval, the first
    four times below 2^30 and the first time not below the gap: every value emitted is on that line. *)
Theorem C82_straight_partial (id : string) (d : Z) (o : op) (t g : Z) (m n : V) (k : nat) :
  0 < d <= g -> mk_hermite id d = Ok o -> g <= t -> t + 3 * g < 2 ^ 30 -> (4 <= k)%nat ->
  t + Z.of_nat k * g + d < two64 -> g < d * (2 ^ 31 - 3) ->
  exists outs o', run o (feed "i1" (straight t g m n k)) = (Ok outs, o') /\
    on_port "o1" outs = map (fun x => mkMsg x (vadd (vmul m (vofZ x)) n)) (grid t d (t + (Z.of_nat k - 2) * g)).
Proof.
  intros Hd Ho Ht H30 Hk Hm Hg.
  destruct (straight_run id d o t g m n k Hd Ho ltac:(lia) H30 Hk Hm Hg) as (outs & o' & R & G & P).
  exists outs, o'. split; [exact R|]. rewrite <- G. unfold times. rewrite map_map.
  rewrite <- (map_id (on_port "o1" outs)) at 1. apply map_ext_in. intros y Hy.
  destruct (P y Hy) as (i & B & E). cbv zeta in E.
  rewrite (wrap_id (t - g)) in E by (assert (2 ^ 30 < two64) by reflexivity; lia).
  destruct y as [ty vy]. cbn [mtime mval] in *. f_equal. rewrite E. clear E.
  assert (Ng : vofZ g <> v0) by (apply v_ofZ_neq0; lia).
  set (x := t + Z.of_nat i * g) in *.
  assert (X0 : match i with O => t - g | S j => t + Z.of_nat j * g end = x - g) by (unfold x; destruct i; nia).
  rewrite X0. replace (t + (Z.of_nat i + 1) * g) with (x + g) by (unfold x; lia).
  replace (t + (Z.of_nat i + 2) * g) with (x + g + g) by (unfold x; lia).
  replace (vadd (vmul m (vofZ (x - g))) n) with (vsub (vadd (vmul m (vofZ x)) n) (vmul m (vofZ g))) by (rewrite v_ofZ_sub; ring).
  replace (vadd (vmul m (vofZ (x + g))) n) with (vadd (vadd (vmul m (vofZ x)) n) (vmul m (vofZ g))) by (rewrite v_ofZ_add; ring).
  replace (vadd (vmul m (vofZ (x + g + g))) n) with (vadd (vadd (vmul m (vofZ x)) n) (vadd (vmul m (vofZ g)) (vmul m (vofZ g)))) by (rewrite !v_ofZ_add; ring).
  rewrite hermite4_line, v_ofZ_sub. field. exact Ng.
Qed.

(** If the first time is below the gap (data that start at 0, say), the time before it wraps around,
    and the first value emitted is off by the slope times 2^63 mu (1 - mu)^2, mu = d / g its
    relative position. *)
Theorem C82_from_zero_refuted (id : string) (d : Z) (o : op) (t g : Z) (m n : V) (k : nat) :
  0 < d < g -> mk_hermite id d = Ok o -> 0 <= t < g -> t + 3 * g < 2 ^ 30 -> (4 <= k)%nat ->
  t + Z.of_nat k * g + d < two64 -> g < d * (2 ^ 31 - 3) -> m <> v0 ->
  exists outs o' y, run o (feed "i1" (straight t g m n k)) = (Ok outs, o') /\ In y (on_port "o1" outs) /\
    mtime y = t + d /\ mval y <> vadd (vmul m (vofZ (mtime y))) n /\
    let mu := vdiv (vofZ d) (vofZ g) in
    mval y = vsub (vadd (vmul m (vofZ (mtime y))) n) (vmul (vmul m (vofZ (2 ^ 63))) (vmul mu (vmul (vsub v1 mu) (vsub v1 mu)))).
Proof.
  intros Hd Ho Ht H30 Hk Hm Hg Nm.
  destruct (straight_run id d o t g m n k ltac:(lia) Ho ltac:(lia) H30 Hk Hm Hg) as (outs & o' & R & G & P).
  assert (Hin : In (t + d) (times (on_port "o1" outs))).
  { rewrite G. unfold grid. apply in_map_iff. exists 1%nat. split; [lia|]. apply in_seq.
    assert (1 <= (t + (Z.of_nat k - 2) * g - t) / d) by (apply Z.div_le_lower_bound; nia). lia. }
  unfold times in Hin. apply in_map_iff in Hin as (y & Ey & Hy).
  exists outs, o', y. split; [exact R|]. split; [exact Hy|]. split; [exact Ey|].
  assert (Ng : vofZ g <> v0) by (apply v_ofZ_neq0; lia).
  assert (E : mval y = vsub (vadd (vmul m (vofZ (mtime y))) n)
    (vmul (vmul m (vofZ (2 ^ 63))) (vmul (vdiv (vofZ d) (vofZ g)) (vmul (vsub v1 (vdiv (vofZ d) (vofZ g))) (vsub v1 (vdiv (vofZ d) (vofZ g)))))) ).
  { destruct (P y Hy) as (i & B & E). cbv zeta in E. rewrite Ey in *.
    assert (i = 0%nat) by nia. subst i.
    assert (W : wrap (t - g) = t - g + 2 * 2 ^ 63).
    { unfold wrap. symmetry. apply (Z.mod_unique _ _ (-1)); [left|]; change two64 with (2 * 2 ^ 63); lia. }
    rewrite W in E. rewrite E. clear E.
    replace (t + Z.of_nat 0 * g) with t by lia. replace (t + (Z.of_nat 0 + 1) * g) with (t + g) by lia.
    replace (t + (Z.of_nat 0 + 2) * g) with (t + g + g) by lia. replace (t + d - t) with d by lia.
    replace (vadd (vmul m (vofZ (t - g + 2 * 2 ^ 63))) n) with
      (vadd (vsub (vadd (vmul m (vofZ t)) n) (vmul m (vofZ g))) (vmul (vofZ 2) (vmul m (vofZ (2 ^ 63)))))
      by (rewrite v_ofZ_add, v_ofZ_sub, v_ofZ_mul; ring).
    replace (vadd (vmul m (vofZ (t + g))) n) with (vadd (vadd (vmul m (vofZ t)) n) (vmul m (vofZ g))) by (rewrite v_ofZ_add; ring).
    replace (vadd (vmul m (vofZ (t + g + g))) n) with (vadd (vadd (vmul m (vofZ t)) n) (vadd (vmul m (vofZ g)) (vmul m (vofZ g)))) by (rewrite !v_ofZ_add; ring).
    rewrite hermite4_moved, hermite4_line, v_ofZ_add. f_equal. field. exact Ng. }
  split; [|exact E]. rewrite E. intros X.
  assert (Z0 : vmul (vmul m (vofZ (2 ^ 63))) (vmul (vdiv (vofZ d) (vofZ g)) (vmul (vsub v1 (vdiv (vofZ d) (vofZ g))) (vsub v1 (vdiv (vofZ d) (vofZ g))))) = v0).
  { match goal with |- ?z = v0 => set (z0 := z) in * end. set (l := vadd (vmul m (vofZ (mtime y))) n) in *.
    replace z0 with (vsub l (vsub l z0)) by ring. rewrite X. ring. }
  assert (Nd : vofZ d <> v0) by (apply v_ofZ_neq0; lia).
  assert (Ngd : vofZ (g - d) <> v0) by (apply v_ofZ_neq0; lia).
  assert (N63 : vofZ (2 ^ 63) <> v0) by (apply v_ofZ_neq0; lia).
  assert (NZ : forall x z, x <> v0 -> z <> v0 -> vmul x z <> v0).
  { intros x z Hx Hz E0. apply Hz. replace z with (vdiv (vmul x z) x) by (field; exact Hx). rewrite E0. field. exact Hx. }
  revert Z0. replace (vsub v1 (vdiv (vofZ d) (vofZ g))) with (vdiv (vofZ (g - d)) (vofZ g)) by (rewrite v_ofZ_sub; field; exact Ng).
  assert (ND : forall x z, x <> v0 -> z <> v0 -> vdiv x z <> v0).
  { intros x z Hx Hz E0. apply Hx. replace x with (vmul (vdiv x z) z) by (field; exact Hz). rewrite E0. ring. }
  apply NZ; [apply NZ; assumption|]. apply NZ; [|apply NZ]; apply ND; assumption.
Qed.

End Line.
Print Assumptions C82_straight_partial.
Print Assumptions C82_from_zero_refuted.

(** If the first time is 2^32 or later (milliseconds since 1970 are), the run ends in undefined
    behaviour at the fourth message: the square of a time does not fit in 64 bits. *)
Theorem C82_clock_refuted {NO : NumOps} {NF : NumField NO} {NT : NumTrunc NO} (id : string) (d : Z) (o : op) (a b c e : msg) (l : list msg) :
  0 < d -> mk_hermite id d = Ok o -> 2 ^ 32 <= mtime a -> mtime a + d <= mtime b -> mtime b + d < two64 -> mtime b - mtime a < d * (2 ^ 31 - 3) ->
  fst (run o (feed "i1" (a :: b :: c :: e :: l))) = UB.
Proof.
  intros Hd Ho Ha Hb Hm Hg. unfold mk_hermite in Ho. rewrite mk_simple_sop in Ho. injection Ho as <-. apply run_over; lia.
Qed.
Print Assumptions C82_clock_refuted.

Example C82_straight_example :
  match mk_hermite "r" 2 with
  | Ok o => show_port "o1" (fst (run o (feed "i1" (straight (NO := QcOps) 5 3 (qc_ofZ 10) (qc_ofZ 1) 5))))
  | _ => []
  end = [(7, 71%Q); (9, 91%Q); (11, 111%Q); (13, 131%Q)].
Proof. vm_compute. reflexivity. Qed.

(** the data of the first unit test (0, 100, 200, ..., interval 99) but on a line *)
Example C82_from_zero_example :
  match mk_hermite "r" 50 with
  | Ok o => map (fun x => (fst x, Qle_bool (snd x) (-1000000000000000000))) (show_port "o1" (fst (run o (feed "i1" (straight (NO := QcOps) 0 100 (qc_ofZ 1) (qc_ofZ 0) 5)))))
  | _ => []
  end = [(50, true); (100, false); (150, false); (200, false); (250, false); (300, false)].
Proof. vm_compute. reflexivity. Qed.
