(** * Properties of the resamplers and of Function (C14 - C18). *)

From Coq Require Import String ZArith QArith Qcanon Bool List Lia Sorted Permutation.
From Verif Require Import Base.StrMap Base.Num Base.NumQc Model.Core Model.Ops Model.Make Model.Run.
From Verif Require Import Spec.Streams Spec.Operators Spec.Show Spec.Resample Spec.Interp.
From Verif Require Import Proofs.Lists Proofs.FieldFacts Proofs.Window Proofs.Basic Proofs.Resample Proofs.HermiteP Proofs.FunctionP.
Import ListNotations.
Open Scope string_scope.
Open Scope list_scope.
Open Scope Z_scope.

(** ** C14 *)

(** Over any strictly increasing history the output is one message per grid time
    [t0 + k*d] not after the newest time, in order, with the value of the latest message
    not after the grid time.  [garbage_next] and [garbage_last] are the contents of the
    two members the constructor leaves uninitialised. *)
Theorem C14_constant_resampler {NO : NumOps} (id : string) (d gn : Z) (gl : V) (o : op) (h : list msg) :
  0 < d -> mk_constres id d gn gl = Ok o ->
  increasing (times h) -> 0 <= first_time h -> newest_time h + d < two64 ->
  exists outs o', run o (feed "i1" h) = (Ok outs, o') /\
    on_port "o1" outs = map (fun g => mkMsg g (mval (held h g))) (grid (first_time h) d (newest_time h)).
Proof.
  intros Hd Ho Hi H0 Hm. unfold mk_constres in Ho. destruct (Z.leb_spec d 0); [lia|].
  rewrite mk_simple_sop in Ho. injection Ho as <-.
  destruct (run_constres id ["o1"] [] d gn gl h Hd Hi H0 Hm) as (os & R & E). eauto.
Qed.
Print Assumptions C14_constant_resampler.

(** what [grid] means *)
Theorem C14_grid_is_the_grid (t0 d t g : Z) :
  0 < d -> t0 <= t ->
  (In g (grid t0 d t) <-> exists k, 1 <= k /\ g = t0 + k * d /\ g <= t) /\ increasing (grid t0 d t).
Proof. intros Hd Ht. split; [now apply grid_spec|now apply grid_increasing]. Qed.
Print Assumptions C14_grid_is_the_grid.

Example C14_example :
  match mk_constres "r" 3 77 (qc_ofZ 99) with
  | Ok o => show_port "o1" (fst (run o (feed "i1" [im 1 10; im 4 20; im 5 30; im 14 40])))
  | _ => []
  end = [(4, 20%Q); (7, 30%Q); (10, 30%Q); (13, 30%Q)].
Proof. vm_compute. reflexivity. Qed.

(** ** C15 *)

Theorem C15_cosine_resampler {NO : NumOps} (id : string) (d : Z) (o : op) (h : list msg) :
  0 < d -> mk_cosine id d = Ok o ->
  increasing (times h) -> 0 <= first_time h -> newest_time h + d < two64 -> gaps_below (d * (2 ^ 31 - 3)) h ->
  exists outs o', run o (feed "i1" h) = (Ok outs, o') /\
    on_port "o1" outs = map (fun g => mkMsg g (cosine_at h g)) (grid (first_time h) d (newest_time h)).
Proof.
  intros Hd Ho Hi H0 Hm Hg. unfold mk_cosine in Ho. rewrite mk_simple_sop in Ho. injection Ho as <-.
  destruct (run_cosine id ["o1"] [] d h Hd Hi H0 Hm Hg) as (os & R & E). eauto.
Qed.
Print Assumptions C15_cosine_resampler.

(** the rational instance replaces [cos] by the identity: only the times are telling *)
Example C15_example :
  match mk_cosine "r" 3 with
  | Ok o => map fst (show_port "o1" (fst (run o (feed "i1" [im 1 10; im 4 20; im 5 30; im 14 40]))))
  | _ => []
  end = [4; 7; 10; 13].
Proof. vm_compute. reflexivity. Qed.

Example C15_gaps_example : gaps_below (3 * (2 ^ 31 - 3)) [im 1 10; im 4 20; im 5 30; im 14 40].
Proof.
  intros l1 a b l2 E.
  assert (Ha : In a [im 1 10; im 4 20; im 5 30; im 14 40]) by (rewrite E; apply in_or_app; cbn; auto).
  assert (Hb : In b [im 1 10; im 4 20; im 5 30; im 14 40]) by (rewrite E; apply in_or_app; cbn; auto).
  clear E. cbn in Ha, Hb. destruct Ha as [<-|[<-|[<-|[<-|[]]]]], Hb as [<-|[<-|[<-|[<-|[]]]]]; cbn; lia.
Qed.

(** ** C16 *)

(** When the first interval contains a grid point, the emitted times are exactly the grid
    up to the last but one message: regular, increasing, nothing skipped or repeated.
    [run] is assumed to succeed because the conversion of the sum of squared times may
    overflow (undefined) in the first window. *)
Theorem C16_hermite_grid_partial {NO : NumOps} (id : string) (d : Z) (o : op) (h : list msg) (outs : list opmsg) (o' : op) :
  0 < d -> mk_hermite id d = Ok o ->
  increasing (times h) -> 0 <= first_time h -> newest_time h + d < two64 -> gaps_below (d * (2 ^ 31 - 3)) h ->
  d <= mtime (nth 1 h msg0) - first_time h ->
  run o (feed "i1" h) = (Ok outs, o') ->
  times (on_port "o1" outs) =
    (if (length h <? 4)%nat then [] else grid (first_time h) d (newest_time (removelast h))) /\
  increasing (times (on_port "o1" outs)).
Proof.
  intros Hd Ho Hi H0 Hm Hg Hf R. unfold mk_hermite in Ho. rewrite mk_simple_sop in Ho. injection Ho as <-.
  pose proof (run_hermite id ["o1"] [] d h outs o' Hd Hi H0 Hm Hg Hf R) as P.
  destruct (length h <? 4)%nat.
  - destruct P as [-> _]. split; [reflexivity|constructor].
  - destruct P as (-> & _). split; [reflexivity|now apply grid_increasing].
Qed.
Print Assumptions C16_hermite_grid_partial.

Example C16_example :
  match mk_hermite "r" 3 with
  | Ok o => map fst (show_port "o1" (fst (run o (feed "i1" [im 1 10; im 4 20; im 5 30; im 14 40; im 16 2]))))
  | _ => []
  end = [4; 7; 10; 13].
Proof. vm_compute. reflexivity. Qed.

(** In general the emitted times are not even on the grid: interval 2, messages at
    1, 2, ..., 6 give 3, 4, 5. *)
Theorem C16_hermite_grid_refuted :
  ~ (forall (id : string) (d : Z) (o : op) (h : list msg) (outs : list opmsg) (o' : op),
      0 < d -> mk_hermite id d = Ok o -> increasing (times h) -> 0 <= first_time h -> newest_time h + d < two64 ->
      run o (feed "i1" h) = (Ok outs, o') ->
      forall t, In t (times (on_port "o1" outs)) -> exists k, t = first_time h + k * d).
Proof.
  intros H. set (h := [im 1 10; im 2 10; im 3 10; im 4 10; im 5 10; im 6 10]).
  destruct (mk_hermite "r" 2) as [o| | | |] eqn:Ho; try discriminate Ho.
  destruct (run o (feed "i1" h)) as [r o'] eqn:R.
  assert (E : map fst (show_port "o1" r) = [3; 4; 5]).
  { replace r with (fst (run o (feed "i1" h))) by (rewrite R; reflexivity).
    unfold mk_hermite in Ho. rewrite mk_simple_sop in Ho. injection Ho as <-. vm_compute. reflexivity. }
  destruct r as [outs| | | |]; try discriminate E.
  assert (In 4 (times (on_port "o1" outs))).
  { cbn [show_port] in E. rewrite map_map in E. change (times (on_port "o1" outs) = [3; 4; 5]) in E. rewrite E. cbn; auto. }
  destruct (H "r" 2 o h outs o' ltac:(lia) Ho) with (t := 4) as (k & Hk); auto.
  - unfold h, increasing. cbn. repeat constructor; lia.
  - cbn. lia.
  - cbn. lia.
  - change (first_time h) with 1 in Hk. lia.
Qed.
Print Assumptions C16_hermite_grid_refuted.

(** And they are not increasing: interval 2, messages at 1, 2, 3, 5, 6, 7 give 3, 4, 4, 6. *)
Theorem C16_hermite_increasing_refuted :
  ~ (forall (id : string) (d : Z) (o : op) (h : list msg) (outs : list opmsg) (o' : op),
      0 < d -> mk_hermite id d = Ok o -> increasing (times h) -> 0 <= first_time h -> newest_time h + d < two64 ->
      run o (feed "i1" h) = (Ok outs, o') -> increasing (times (on_port "o1" outs))).
Proof.
  intros H. set (h := [im 1 10; im 2 10; im 3 10; im 5 10; im 6 10; im 7 10]).
  destruct (mk_hermite "r" 2) as [o| | | |] eqn:Ho; try discriminate Ho.
  destruct (run o (feed "i1" h)) as [r o'] eqn:R.
  assert (E : map fst (show_port "o1" r) = [3; 4; 4; 6]).
  { replace r with (fst (run o (feed "i1" h))) by (rewrite R; reflexivity).
    unfold mk_hermite in Ho. rewrite mk_simple_sop in Ho. injection Ho as <-. vm_compute. reflexivity. }
  destruct r as [outs| | | |]; try discriminate E.
  cbn [show_port] in E. rewrite map_map in E. change (times (on_port "o1" outs) = [3; 4; 4; 6]) in E.
  specialize (H "r" 2 o h outs o' ltac:(lia) Ho). rewrite E in H.
  assert (X : increasing [3; 4; 4; 6]).
  { apply H; auto; try (cbn; lia). unfold h, increasing. cbn. repeat constructor; lia. }
  inversion X as [|? ? X1 _]; subst. inversion X1 as [|? ? _ X2]; subst. inversion X2; subst. lia.
Qed.
Print Assumptions C16_hermite_increasing_refuted.

(** ** C73 *)

(** Under the hypotheses of [C16_hermite_grid_partial]: every value emitted lies, at its relative
    position between the two messages around its time, on the cubic through both whose slopes at the ends
    are half the difference between the neighbours of that end.  (Before the first message there is no
    neighbour: the operator makes one up from a least-squares line, so the first interval's [y0] is
    unspecified here.) *)
Theorem C73_hermite_curve_partial {NO : NumOps} {NF : NumField NO} (id : string) (d : Z) (o : op) (h : list msg) (outs : list opmsg) (o' : op) (m : msg) :
  0 < d -> mk_hermite id d = Ok o ->
  increasing (times h) -> 0 <= first_time h -> newest_time h + d < two64 -> gaps_below (d * (2 ^ 31 - 3)) h ->
  d <= mtime (nth 1 h msg0) - first_time h ->
  run o (feed "i1" h) = (Ok outs, o') -> In m (on_port "o1" outs) ->
  exists y0 y1 y2 y3, neighbours4 h y0 y1 y2 y3 /\ mtime y1 < mtime m <= mtime y2 /\
    smooth (mval y0) (mval y1) (mval y2) (mval y3) (relative y1 y2 (mtime m)) (mval m).
Proof.
  intros Hd Ho Hi H0 Hm Hg Hf R Hin. unfold mk_hermite in Ho. rewrite mk_simple_sop in Ho. injection Ho as <-.
  pose proof (run_hermite id ["o1"] [] d h outs o' Hd Hi H0 Hm Hg Hf R) as P.
  destruct (length h <? 4)%nat.
  - destruct P as [E _]. rewrite E in Hin. destruct Hin.
  - destruct P as (_ & F & _). rewrite Forall_forall in F. destruct (F _ Hin) as (y0 & y1 & y2 & y3 & N & B & E).
    exists y0, y1, y2, y3. split; [exact N|]. split; [exact B|]. rewrite E. apply hermite4_smooth.
Qed.

(** So at the time of a received message the value emitted is that message's. *)
Theorem C73_hermite_through_messages_partial {NO : NumOps} {NF : NumField NO} (id : string) (d : Z) (o : op) (h : list msg) (outs : list opmsg) (o' : op) (m y : msg) :
  0 < d -> mk_hermite id d = Ok o ->
  increasing (times h) -> 0 <= first_time h -> newest_time h + d < two64 -> gaps_below (d * (2 ^ 31 - 3)) h ->
  d <= mtime (nth 1 h msg0) - first_time h ->
  run o (feed "i1" h) = (Ok outs, o') -> In m (on_port "o1" outs) -> In y h -> mtime y = mtime m ->
  mval m = mval y.
Proof.
  intros Hd Ho Hi H0 Hm Hg Hf R Hin Hy Et.
  destruct (C73_hermite_curve_partial id d o h outs o' m Hd Ho Hi H0 Hm Hg Hf R Hin) as (y0 & y1 & y2 & y3 & N & B & c0 & c1 & c2 & c3 & E0 & E1 & _ & _ & Ev).
  assert (Sp : exists l1 l2, h = l1 ++ y1 :: y2 :: l2).
  { destruct N as [(l1 & l2 & ->)|(l2 & ->)]; [exists (l1 ++ [y0]), (y3 :: l2); now rewrite <- app_assoc|exists [], (y3 :: l2); reflexivity]. }
  destruct Sp as (l1 & l2 & ->).
  assert (Ey : y = y2).
  { unfold increasing, times in Hi. rewrite map_app in Hi. cbn [map] in Hi.
    apply in_app_or in Hy as [Hy|[<-|[<-|Hy]]]; auto; exfalso; try lia.
    - clear - Hi Hy Et B. induction l1 as [|x l1 IH]; [destruct Hy|]. cbn in Hi. inversion Hi as [|? ? H1 H2]; subst.
      destruct Hy as [<-|Hy]; auto. apply Forall_app in H2 as [_ H2]. inversion H2; subst. lia.
    - assert (H : StronglySorted Z.lt (mtime y2 :: map mtime l2)).
      { clear - Hi. induction l1 as [|x l1 IH]; cbn in Hi; inversion Hi; subst; auto. }
      inversion H as [|? ? _ H2]; subst. rewrite Forall_forall in H2. assert (mtime y2 < mtime y) by (apply H2, in_map; exact Hy). lia. }
  subst y2. rewrite Ev, <- E1. f_equal. unfold relative. rewrite Et.
  assert (D : vofZ (mtime m - mtime y1) <> v0) by (apply v_ofZ_neq0; lia). now apply v_div_self.
Qed.
Print Assumptions C73_hermite_curve_partial.
Print Assumptions C73_hermite_through_messages_partial.

Example C73_example :
  match mk_hermite "r" 3 with
  | Ok o => show_port "o1" (fst (run o (feed "i1" [im 1 10; im 4 20; im 5 30; im 13 40; im 16 2])))
  | _ => []
  end = [(4, 20%Q); (7, (269 # 8)%Q); (10, (2545 # 64)%Q); (13, 40%Q)].
Proof. vm_compute. reflexivity. Qed.

(** ** C17 *)

(** A linear Function applies one function [f] to every value; [f x] is the value at [x]
    of the line through any pair of neighbouring points that brackets [x], and such a pair
    always exists. *)
Theorem C17_function_linear {NO : NumOps} {NF : NumField NO} (id : string) (points : list (V * V)) (o : op) :
  (2 <= length points)%nat -> NoDup (map fst points) -> mk_function id points "linear" = Ok o ->
  exists f : V -> V,
    (forall evs, one_input evs -> exists o', run o evs = (Ok (answers (mapping (apply_value f)) evs), o')) /\
    (forall x, exists p q, bracket points x p q) /\
    (forall x p q, bracket points x p q -> f x = line p q x).
Proof.
  intros L N Ho. unfold mk_function in Ho. destruct (Nat.ltb_spec (length points) 2); [lia|].
  cbn [String.eqb Ascii.eqb Bool.eqb] in Ho. rewrite mk_simple_sop in Ho. injection Ho as <-.
  pose proof (sort_perm points) as P. pose proof (sort_sorted points N) as So. set (pts := sort_points points) in *.
  assert (L' : (2 <= length pts)%nat) by (rewrite (Permutation_length P); auto).
  assert (N' : NoDup (map fst pts)).
  { eapply Permutation_NoDup; [|exact N]. apply Permutation_map, Permutation_sym, P. }
  exists (fun x => line (nth (seg pts x) pts (v0, v0)) (nth (S (seg pts x)) pts (v0, v0)) x). split; [|split].
  - intros evs Hone. eexists. apply run_function; auto. intros x. rewrite linear_is_seg by auto.
    destruct (seg_bracket pts x L' So) as [S1 _]. now apply linear_is_line.
  - intros x. destruct (seg_bracket pts x L' So) as [_ B]. eexists _, _. eapply bracket_perm; eauto.
  - intros x p q B. destruct (seg_bracket pts x L' So) as [_ B'].
    eapply bracket_unique; [exact N'|exact B'|]. eapply bracket_perm; [apply Permutation_sym, P|exact B].
Qed.
Print Assumptions C17_function_linear.

(** it passes through every given point *)
Theorem C17_through_the_points {NO : NumOps} {NF : NumField NO} (id : string) (points : list (V * V)) (o : op)
    (p : V * V) (t : Z) :
  (2 <= length points)%nat -> NoDup (map fst points) -> mk_function id points "linear" = Ok o -> In p points ->
  exists o', run o (feed "i1" [mkMsg t (fst p)]) = (Ok [emits_nothing; emits (mkMsg t (snd p))], o').
Proof.
  intros L N Ho Hp. destruct (C17_function_linear id points o L N Ho) as (f & R & E & F).
  destruct (R (feed "i1" [mkMsg t (fst p)])) as (o' & Ro); [repeat constructor|].
  exists o'. rewrite Ro. cbn. unfold answer. cbn. unfold mapping, when_full, apply_value. cbn. change (Pos.to_nat 1) with 1%nat. cbn.
  enough (X : f (fst p) = snd p) by now rewrite X. destruct (E (fst p)) as (a & b & B). rewrite (F _ _ _ B).
  destruct B as [(Ha & Hb & Lab & A) B].
  assert (C : p = a \/ p = b).
  { destruct B as [[B1 B2]|[[B1 B2]|[B1 B2]]].
    - destruct (A p Hp) as [X|X]; [left|right]; eapply same_point; eauto; now apply v_le_antisym.
    - left. eapply same_point; eauto. apply v_le_antisym; auto.
    - right. eapply same_point; eauto. apply v_le_antisym; auto. }
  destruct C as [<-|<-]; [now apply line_left|now apply line_right].
Qed.
Print Assumptions C17_through_the_points.

(** the order in which the points are given does not matter *)
Theorem C17_order_of_points {NO : NumOps} {NF : NumField NO} (id id' : string) (points points' : list (V * V)) (o o' : op) evs :
  (2 <= length points)%nat -> NoDup (map fst points) -> Permutation points points' ->
  mk_function id points "linear" = Ok o -> mk_function id' points' "linear" = Ok o' -> one_input evs ->
  exists outs, fst (run o evs) = Ok outs /\ fst (run o' evs) = Ok outs.
Proof.
  intros L N P Ho Ho' Hone.
  destruct (C17_function_linear id points o L N Ho) as (f & R & E & F).
  destruct (C17_function_linear id' points' o') as (f' & R' & E' & F'); auto.
  { now rewrite <- (Permutation_length P). }
  { eapply Permutation_NoDup; [|exact N]. now apply Permutation_map. }
  destruct (R evs Hone) as (o1 & ->). destruct (R' evs Hone) as (o2 & ->). cbn. eexists. split; [reflexivity|].
  assert (X : forall x, f' x = f x).
  { intros x. destruct (E x) as (p & q & B). rewrite (F _ _ _ B). apply F'. eapply bracket_perm; eauto. }
  f_equal. unfold answers. apply map_ext. intros h. unfold answer. destruct (rev h) as [|[]]; auto.
  destruct (pending _); auto. unfold mapping, when_full, apply_value. now rewrite X.
Qed.
Print Assumptions C17_order_of_points.

Definition ip (x y : Z) : Qc * Qc := (qc_ofZ x, qc_ofZ y).
Definition show_function (points : list (Qc * Qc)) (ty : string) (ms : list (@msg QcOps)) : list (Z * Q) :=
  match @mk_function QcOps "f" points ty with
  | Ok o => show_port "o1" (fst (run o (feed "i1" ms)))
  | _ => []
  end.

Example C17_example :
  show_function [ip 4 0; ip 0 0; ip 2 10] "linear" [im 1 1; im 2 2; im 3 3; im 4 (-1); im 5 6]
  = [(1, 5%Q); (2, 10%Q); (3, 5%Q); (4, (-5)%Q); (5, (-10)%Q)].
Proof. vm_compute. reflexivity. Qed.

(** ** C18 *)

(** A hermite Function applies one function [f] to every value; [f] passes through every
    given point; when the points lie on the line [m x + c], [f x] differs from the line by
    [m (1 - w) (2 mu^3 - 3 mu^2 + mu)], [w] the width of the segment and [mu] the position
    in it. *)
Theorem C18_function_hermite_partial {NO : NumOps} {NF : NumField NO} (id : string) (points : list (V * V)) (o : op) :
  (2 <= length points)%nat -> NoDup (map fst points) -> mk_function id points "hermite" = Ok o ->
  exists f : V -> V,
    (forall evs, one_input evs -> exists o', run o evs = (Ok (answers (mapping (apply_value f)) evs), o')) /\
    (forall p, In p points -> f (fst p) = snd p) /\
    (forall m c x, on_line m c points -> exists p q, bracket points x p q /\
       let w := vsub (fst q) (fst p) in
       let mu := vdiv (vsub x (fst p)) w in
       f x = vadd (vadd (vmul m x) c)
               (vmul (vmul m (vsub v1 w))
                     (vadd (vsub (vmul (vofZ 2) (vmul (vmul mu mu) mu)) (vmul (vofZ 3) (vmul mu mu))) mu))).
Proof.
  intros L N Ho. unfold mk_function in Ho. destruct (Nat.ltb_spec (length points) 2); [lia|].
  cbn [String.eqb Ascii.eqb Bool.eqb] in Ho. rewrite mk_simple_sop in Ho. injection Ho as <-.
  pose proof (sort_perm points) as P. pose proof (sort_sorted points N) as So. set (pts := sort_points points) in *.
  assert (L' : (2 <= length pts)%nat) by (rewrite (Permutation_length P); auto).
  pose proof (Permutation_sym P) as P'.
  exists (herm pts). split; [|split].
  - intros evs Hone. eexists. apply run_function; auto. intros x. now apply herm_value.
  - intros p Hp. apply herm_through; auto. eapply Permutation_in; eauto.
  - intros m c x O. destruct (herm_line pts m c x L' So) as (p & q & B & E).
    { intros r Hr. apply O. eapply Permutation_in; eauto. }
    exists p, q. split; [eapply bracket_perm; eauto|exact E].
Qed.
Print Assumptions C18_function_hermite_partial.

(** with unit spacing straight lines are reproduced *)
Theorem C18_unit_spacing_partial {NO : NumOps} {NF : NumField NO} (id : string) (points : list (V * V)) (o : op) (m c : V) :
  (2 <= length points)%nat -> NoDup (map fst points) -> mk_function id points "hermite" = Ok o ->
  on_line m c points -> (forall p q, neighbours points p q -> vsub (fst q) (fst p) = v1) ->
  forall evs, one_input evs ->
  exists o', run o evs = (Ok (answers (mapping (apply_value (fun x => vadd (vmul m x) c))) evs), o').
Proof.
  intros L N Ho O U evs Hone. destruct (C18_function_hermite_partial id points o L N Ho) as (f & R & _ & E).
  destruct (R evs Hone) as (o' & Ro). exists o'. rewrite Ro. do 2 f_equal.
  unfold answers. apply map_ext. intros h. unfold answer. destruct (rev h) as [|[]]; auto.
  destruct (pending _); auto. unfold mapping, when_full, apply_value.
  destruct (_ <? 1); auto. do 3 f_equal.
  set (x := mval _). destruct (E m c x O) as (p & q & [B _] & Ex). cbn zeta in Ex. rewrite Ex. rewrite (U _ _ B).
  apply no_bump.
Qed.
Print Assumptions C18_unit_spacing_partial.

Example C18_example :
  show_function [ip 2 4; ip 0 0; ip 1 2] "hermite" [im 1 1; im 2 2; im 3 3; @mkMsg QcOps 4 (Q2Qc (1 # 2))]
  = [(1, 2%Q); (2, 4%Q); (3, 6%Q); (4, 1%Q)].
Proof. vm_compute. reflexivity. Qed.

(** Straight lines are not reproduced in general: points (0,0), (2,2), (4,4) and 1/2 give 13/32. *)
Theorem C18_function_hermite_refuted :
  ~ (forall (id : string) (points : list (V * V)) (o : op) (m c x : V) (t : Z),
      (2 <= length points)%nat -> NoDup (map fst points) -> mk_function id points "hermite" = Ok o ->
      on_line m c points ->
      exists o', run o (feed "i1" [mkMsg t x]) =
        (Ok [emits_nothing; emits (mkMsg t (vadd (vmul m x) c))], o')).
Proof.
  intros H. set (points := [ip 0 0; ip 2 2; ip 4 4] : list (@V QcOps * @V QcOps)).
  destruct (mk_function "f" points "hermite") as [o| | | |] eqn:Ho; try discriminate Ho.
  assert (N : NoDup (map fst points)).
  { assert (X : forall a b, this (qc_ofZ a) <> this (qc_ofZ b) -> qc_ofZ a <> qc_ofZ b) by congruence.
    cbn. repeat constructor; cbn; intros Y; repeat destruct Y as [Y|Y]; auto;
    apply (f_equal (fun q : Qc => this q)) in Y; vm_compute in Y; discriminate Y. }
  assert (O : on_line (qc_ofZ 1 : @V QcOps) (qc_ofZ 0) points).
  { intros p Hp. cbn in Hp. destruct Hp as [<-|[<-|[<-|[]]]]; apply Qc_is_canon; vm_compute; reflexivity. }
  destruct (H "f" points o (qc_ofZ 1) (qc_ofZ 0) (Q2Qc (1 # 2)) 1 ltac:(cbn; lia) N Ho O) as (o' & R).
  assert (E : show_function points "hermite" [@mkMsg QcOps 1 (Q2Qc (1 # 2))] = [(1, (13 # 32)%Q)]) by (vm_compute; reflexivity).
  unfold show_function in E. rewrite Ho, R in E. vm_compute in E. discriminate E.
Qed.
Print Assumptions C18_function_hermite_refuted.
