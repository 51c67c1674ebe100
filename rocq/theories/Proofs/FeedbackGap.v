(** * The generated program with feedback after a gap in the times (C91) *)

From Coq Require Import String ZArith Bool List Lia.
From Verif Require Import Base.StrMap Base.Num Base.NumCount Model.Core Model.Ops Model.Make Model.Graph Model.Run.
From Verif Require Import Spec.Streams Spec.Multi Proofs.InputP Proofs.Merge Spec.Log Spec.Feedback Spec.Gap Proofs.Symbolic Proofs.FeedbackP Proofs.FeedbackRun Proofs.FeedbackAsk Proofs.FeedbackLate Proofs.FeedbackHist.
Import ListNotations.
Open Scope string_scope.
Open Scope list_scope.
Open Scope Z_scope.
Open Scope rtbot_scope.

(** ** An average that missed a difference *)

Section Joins.
Context {NO : NumOps}.

(** nothing for the time [t] is on the first input, and nothing will come *)
Definition stale (t : Z) (d1 d2 : list msg) : Prop := d1 = [] \/ (exists u x, d1 = [mkMsg u x] /\ u < t) /\ d2 = [].
Definition left_over (s : V) (d : list msg) : V := match d with [] => s | m :: _ => vsub s (mval m) end.

Lemma j_receive_more n id s1 d1 s2 d2 cs k t v : joins k = true ->
  recv_data n (jop id s1 d1 s2 d2 cs k) (mkMsg t v) "i2" = (Ok tt, jop id s1 d1 (vadd s2 v) (d2 ++ [mkMsg t v]) cs k).
Proof. intros H. destruct k; try discriminate H; destruct n; reflexivity. Qed.
Lemma exec_stale rec id s1 d1 s2 d2 t y cs a b : stale t d1 d2 ->
  exec_local rec false (jop id s1 d1 s2 (d2 ++ [mkMsg t y]) cs (KLinear [a; b])) = (Ok [], jop id (left_over s1 d1) [] s2 (d2 ++ [mkMsg t y]) cs (KLinear [a; b])).
Proof.
  intros [->|[(u & x & -> & Hu) ->]]; [apply j_waits1; reflexivity|]. unfold jop. cbn [exec_local op_kind exec_data_local app left_over]. unfold join_exec.
  cbn [o_data ip_data join_latest mtime]. rewrite Z.ltb_irrefl, (proj2 (Z.ltb_lt u t) Hu). unfold join_trim, port_trim, set_data.
  cbn [map o_data ip_data ip_sum ip_id ip_max drop_older mtime mval String.eqb Ascii.eqb Bool.eqb]. rewrite (proj2 (Z.ltb_lt u t) Hu). reflexivity.
Qed.
End Joins.

Local Ltac receives ::= first
  [ apply sop_receive; [shut | reflexivity]
  | eapply dif_receive; eassumption
  | apply dm_receive
  | apply j_receive_more; reflexivity ].
Local Ltac executes ::= first
  [ apply exec_constant | apply exec_count | apply exec_passes; assumption | apply exec_stops; assumption
  | apply exec_sum | apply exec_scale | apply exec_add | apply exec_power | apply exec_shift; assumption | apply exec_output
  | apply exec_accepts; assumption | apply exec_refuses; assumption
  | apply dif_waits | apply dif_exec; assumption
  | apply dm_waits | apply dm_first | apply dm_second | apply dm_both | apply dm_one; shut | apply dm_two; shut
  | apply exec_stale; assumption ].

Section Gap.
Context {NO : NumOps} {NC : NumCount NO} {NT : NumTime NO}.
Variables a b : V.

Definition lost (t : Z) (h : heap) (id : string) (cs : list (string * string)) : Prop :=
  exists s1 d1 s2 d2, sfind id h = Some (jop id s1 d1 s2 d2 cs (KLinear [a; b])) /\ stale t d1 d2.
Definition emptied (h : heap) (id : string) (cs : list (string * string)) : Prop :=
  exists s1 s2 d2, sfind id h = Some (jop id s1 [] s2 d2 cs (KLinear [a; b])).
(** both averages missed a difference; [k] messages were accepted, the last is [p] *)
Definition silent (k : Z) (ls : smap msg) (p : msg) (h : heap) : Prop :=
  statics b h /\ three h /\ counted k ls h /\ demux h [] /\ difference h "887" c887 p /\
  emptied h "130" c876 /\ emptied h "746" c946 /\ quotient h [] [].

Lemma emptied_lost t h id cs : emptied h id cs -> lost t h id cs.
Proof. intros (s1 & s2 & d2 & F). exists s1, [], s2, d2. split; [exact F|now left]. Qed.
Lemma average_lost_l u l t h : loss_average a b h [mkMsg u l] -> u < t -> lost t h "130" c876.
Proof. intros (s1 & s2 & F) H. exists s1, [mkMsg u l], s2, []. split; [exact F|right; eauto]. Qed.
Lemma average_lost_g u g t h : gain_average a b h [mkMsg u g] -> u < t -> lost t h "746" c946.
Proof. intros (s1 & s2 & F) H. exists s1, [mkMsg u g], s2, []. split; [exact F|right; eauto]. Qed.

Lemma rest_silent n k ls h q t v : midway b (wrap (k + 1)) (k + 1) ls t v h -> difference h "887" c887 q ->
  lost t h "130" c876 -> lost t h "746" c946 -> quotient h [] [] ->
  comparable (vsub v (mval q)) -> 15 <= k -> k + 1 < 2 ^ 53 -> soon t -> (16 < n)%nat ->
  exists h', runs_all "467" n others h h' [] /\ silent (k + 1) ls (mkMsg t v) h'.
Proof.
  intros (P1 & P2 & P3 & P4) P5 (s1 & d1 & s2 & d2 & P6 & St1) (s3 & d3 & s4 & d4 & P7 & St2) P8 C K1 K2 Ht Hn. destruct q as [pt pv]. cbn [mval] in C. set (k1 := k + 1) in *.
  assert (Tests : count_tests k (k + 1 =? 16) false true false).
  { destruct (count_tests_all k) as (T1 & T2 & T3 & T4); [lia|lia|]. rewrite (proj2 (Z.eqb_neq _ _)) in T2 by lia. rewrite (proj2 (Z.ltb_lt _ _)) in T3 by lia.
    rewrite (proj2 (Z.ltb_ge _ _)) in T4 by lia. repeat split; assumption. }
  destruct Tests as (_ & T2 & T3 & T4). fold k1 in T2, T3, T4. unpack. do 17 (destruct n as [|n]; [lia|]). unfold others.
  assert (D : exists e1 e2 e3, sign (vsub v pv) e1 e2 e3 /\ (e1, e2, e3) = (true, false, false) \/
    sign (vsub v pv) e1 e2 e3 /\ (e1, e2, e3) = (false, true, false) \/ sign (vsub v pv) e1 e2 e3 /\ (e1, e2, e3) = (false, false, true)).
  { destruct C as [C|[C|C]]; eexists _, _, _; [left|right; left|right; right]; (split; [exact C|reflexivity]). }
  destruct D as (e1 & e2 & e3 & [((D1 & D2 & D3) & E)|[((D1 & D2 & D3) & E)|((D1 & D2 & D3) & E)]]); injection E as -> -> ->.
  all: eexists; (split; [eapply runs_all_from; [run_all run_one|reflexivity]|]); conceal; unfold silent, emptied; cbn [mtime]; pack; first [filed|eexists _, _, _; known].
Qed.

(** ** The messages up to the first gap *)

Lemma until_steady x : steady x -> until_gap x = x.
Proof.
  induction x as [|p x IH]; [reflexivity|]. destruct x as [|m x]; [reflexivity|]. intros [E H]. cbn [until_gap]. rewrite (proj2 (Z.eqb_eq _ _) E). f_equal. exact (IH H).
Qed.
Lemma until_gap_here x p m : steady (x ++ [p]) -> mtime m <> mtime p + 1 -> until_gap ((x ++ [p]) ++ [m]) = x ++ [p].
Proof.
  intros H G. induction x as [|y x IH]; cbn [app until_gap] in *.
  - now rewrite (proj2 (Z.eqb_neq _ _) G).
  - destruct x as [|z x]; cbn [app] in *; destruct H as [E H]; rewrite (proj2 (Z.eqb_eq _ _) E); f_equal; exact (IH H).
Qed.
Lemma until_gap_more x m : x <> [] -> ~ steady x -> until_gap (x ++ [m]) = until_gap x.
Proof.
  intros Ne H. induction x as [|p x IH]; [easy|]. destruct x as [|z x]; [exfalso; apply H; exact I|]. cbn [app until_gap] in *.
  destruct (Z.eqb_spec (mtime z) (mtime p + 1)) as [E|E]; [|reflexivity]. f_equal. apply IH; [discriminate|]. intros St. apply H. split; assumption.
Qed.
Lemma steady_dec x : steady x \/ ~ steady x.
Proof.
  induction x as [|p x IH]; [left; exact I|]. destruct x as [|z x]; [left; exact I|]. cbn [steady]. destruct IH as [IH|IH]; [|right; tauto].
  destruct (Z.eq_dec (mtime z) (mtime p + 1)) as [E|E]; [left; now split|right; tauto].
Qed.
Lemma steady_snoc_iff x p m : steady ((x ++ [p]) ++ [m]) <-> steady (x ++ [p]) /\ mtime m = mtime p + 1.
Proof.
  split; [intros H; split; [exact (steady_app _ _ H)|exact (steady_snoc _ _ _ H)]|]. intros [H E]. induction x as [|y x IH]; [now split|].
  destruct x as [|z x]; cbn [app steady] in *; tauto.
Qed.

Lemma long_parts (x : list msg) : (15 <= length x)%nat -> exists y p r, x = (y ++ [p]) ++ r /\ length y = 14%nat.
Proof.
  intros H. pose proof (skipn_length 14 x) as E. destruct (skipn 14 x) as [|p r] eqn:S1; [cbn [length] in E; lia|].
  exists (firstn 14 x), p, r. split; [|rewrite firstn_length; lia]. rewrite <- app_assoc. cbn [app]. rewrite <- S1. now rewrite firstn_skipn.
Qed.
Lemma skip_parts y (r : list msg) : length y = 14%nat -> skipn 14 (y ++ r) = r.
Proof. intros H. rewrite skipn_app, skipn_all2, H by lia. reflexivity. Qed.
Lemma first_parts y (r : list msg) : length y = 14%nat -> firstn 14 (y ++ r) = y.
Proof. intros H. rewrite firstn_app, firstn_all2, H by lia. cbn [Nat.sub firstn]. apply app_nil_r. Qed.

Lemma shown_steady x : steady (skipn 14 x) -> shown_until_gap a b x = shown a b x.
Proof.
  intros H. unfold shown_until_gap. pose proof (skipn_length 14 x) as E. destruct (skipn 14 x) as [|p [|m r]] eqn:S1; try reflexivity.
  rewrite <- S1 in *. rewrite until_steady, firstn_skipn by exact H. symmetry. apply shown_long. rewrite S1 in E. cbn [length] in E. lia.
Qed.
(** the first gap *)
Lemma shown_gap y q m r p : length y = 14%nat -> (p :: r) = removelast (p :: r) ++ [q] -> steady (p :: r) -> mtime m <> mtime q + 1 ->
  shown_until_gap a b ((y ++ p :: r) ++ [m]) = strengths a b (y ++ p :: r).
Proof.
  intros K E St G. unfold shown_until_gap. rewrite <- app_assoc, skip_parts, first_parts by exact K. cbn [app].
  destruct (r ++ [m]) as [|z w] eqn:Er; [destruct r; discriminate|]. rewrite <- Er. change (p :: r ++ [m]) with ((p :: r) ++ [m]). rewrite E, until_gap_here; [now rewrite <- E| |exact G].
  now rewrite <- E.
Qed.
(** after a gap *)
Lemma shown_after_gap x m : ~ steady (skipn 14 x) -> shown_until_gap a b (x ++ [m]) = shown_until_gap a b x.
Proof.
  intros H. pose proof (skipn_length 14 x) as E. unfold shown_until_gap. rewrite skipn_app, firstn_app.
  destruct (skipn 14 x) as [|p [|z r]] eqn:S1; [exfalso; apply H; exact I|exfalso; apply H; exact I|]. cbn [length] in E.
  replace (14 - length x)%nat with 0%nat by lia. cbn [skipn firstn app]. rewrite app_nil_r. change (p :: z :: r ++ [m]) with ((p :: z :: r) ++ [m]).
  rewrite until_gap_more by (discriminate || exact H). reflexivity.
Qed.

(** ** Every history *)

Inductive state' (ls : smap msg) (h : heap) (x : list msg) : Prop :=
| Whole : state a b ls h x -> steady (skipn 14 x) -> state' ls h x
| Silent y q : x = y ++ [q] -> silent (Z.of_nat (length x)) ls q h -> ~ steady (skipn 14 x) -> state' ls h x.

Definition covers' (x : list msg) : Prop := Forall (fun m => soon (mtime m)) x /\ Forall comparable (diffs x) /\ Z.of_nat (length x) < 2 ^ 53.
Lemma covers'_app x y : covers' (x ++ y) -> covers' x.
Proof.
  intros (T & D & L). repeat split.
  - now apply Forall_app in T.
  - destruct (diffs_app x y) as [r E]. rewrite E in D. now apply Forall_app in D.
  - rewrite app_length in L. lia.
Qed.
Lemma covers'_last x p m : covers' ((x ++ [p]) ++ [m]) -> soon (mtime p) /\ soon (mtime m) /\ comparable (vsub (mval m) (mval p)).
Proof.
  intros (T & D & L). apply Forall_app in T as [T1 T2]. apply Forall_app in T1 as [_ T1]. inversion T1; inversion T2; subst. rewrite diffs_snoc in D. apply Forall_app in D as [_ D]. inversion D; subst.
  auto.
Qed.

Lemma state'_same ls h h' x : (forall id, id <> "754" -> sfind id h' = sfind id h) -> slot h' "754" c754 (KInput [("i1", "o1")] ls) ->
  state' ls h x -> state' ls h' x.
Proof.
  intros Same E [S0 St|y q Ex F St]; [exact (Whole _ _ _ (state_same a b ls h h' x Same E S0) St)|].
  apply (Silent _ _ _ y q); [exact Ex| |exact St]. destruct F as (P1 & P2 & (P3 & _) & P4 & P5 & P6 & P7 & P8).
  split; [unfold statics, slot in *; rewrite !Same by discriminate; exact P1|]. split; [unfold three, slot in *; rewrite !Same by discriminate; exact P2|].
  split; [split; [unfold slot in *; rewrite Same by discriminate; exact P3|exact E]|]. split; [unfold demux in *; rewrite Same by discriminate; exact P4|].
  split; [unfold difference in *; rewrite Same by discriminate; exact P5|]. split; [unfold emptied in *; rewrite Same by discriminate; exact P6|].
  split; [unfold emptied in *; rewrite Same by discriminate; exact P7|]. unfold quotient in *. rewrite Same by discriminate. exact P8.
Qed.

(** a gap *)
Lemma gap_step n ls h x m : state a b ls h x -> steady (skipn 14 x) -> ~ steady (skipn 14 (x ++ [m])) ->
  accepted ls (mtime m) = true -> sfind "i1" ls = last_opt x -> covers' (x ++ [m]) -> (20 < n)%nat ->
  exists h' r, sends n m h h' r /\ silent (Z.of_nat (length (x ++ [m]))) (latest m ls) m h' /\ shown_until_gap a b (x ++ [m]) = shown_until_gap a b x ++ r.
Proof.
  intros S0 St Gp A Ls C Hn. rewrite (shown_steady x St). destruct m as [t v]. cbn [mtime] in A. pose proof A as Later. unfold accepted in Later. rewrite Ls in Later.
  assert (Short : (length x < 15)%nat -> False).
  { intros H. apply Gp. rewrite skipn_app. pose proof (skipn_length 14 x) as E.
    pose proof (skipn_length (14 - length x) [mkMsg t v]) as E'. cbn [length] in E'.
    destruct (skipn 14 x) as [|p r]; cbn [app length] in *; [destruct (skipn (14 - length x) [mkMsg t v]) as [|z [|]]; cbn [length] in E'; [exact I|exact I|lia]|lia]. }
  destruct S0 as [F|x p K F|x p K F Sh|x p K F Sh|x p rest g l q K R F Sh].
  - exfalso. apply Short. cbn; lia.
  - exfalso. apply Short. rewrite app_length. cbn [length]. lia.
  - rewrite last_opt_snoc in Later. apply Z.ltb_lt in Later. destruct (covers'_last _ _ _ C) as (Sp & Sm & Cd). cbn [mtime mval] in Sm, Cd.
    assert (Et : t <> mtime p + 1).
    { intros E. apply Gp. rewrite <- !app_assoc, skip_parts by exact K. cbn. auto. }
    assert (Hlt : mtime p + 1 < t) by lia.
    do 2 (destruct n as [|n]; [lia|]).
    destruct (enter_gains a b n ls h t v p _ _ F A Sp Later ltac:(lia)) as (h1 & Go & M & A2 & Q & Same). pose proof F as (P1 & P2 & P3 & P4 & P5 & P6 & P7 & P8 & P9 & P10).
    assert (D1 : difference h1 "887" c887 p) by (unfold difference in *; rewrite Same by (cbn; tauto); exact P5).
    assert (A1 : loss_average a b h1 [mkMsg (mtime p + 1) (start b (L (x ++ [p])))]) by (unfold loss_average in *; rewrite Same by (cbn; tauto); exact P8).
    destruct (rest_silent n 15 _ h1 p t v M D1 (average_lost_l _ _ _ _ A1 Hlt) (average_lost_g _ _ _ _ A2 Hlt) Q Cd ltac:(lia) ltac:(lia) Sm ltac:(lia)) as (h2 & R2 & W).
    exists h2. eexists. split; [exact (Go _ _ R2)|]. rewrite app_length, app_length, K. split; [exact W|].
    rewrite Sh, app_nil_r. erewrite (shown_gap x p _ [] p); [|exact K|reflexivity|exact I|exact Et].
    rewrite <- (app_nil_r (x ++ [p])) at 1. rewrite strengths_at by exact K. cbn [follow]. now rewrite app_nil_r.
  - rewrite last_opt_snoc in Later. apply Z.ltb_lt in Later. destruct (covers'_last _ _ _ C) as (Sp & Sm & Cd). cbn [mtime mval] in Sm, Cd.
    assert (Et : t <> mtime p + 1).
    { intros E. apply Gp. rewrite <- !app_assoc, skip_parts by exact K. cbn. auto. }
    assert (Hlt : mtime p + 1 < t) by lia.
    do 2 (destruct n as [|n]; [lia|]).
    destruct (enter_losses a b n ls h t v p _ _ F A Sp Later ltac:(lia)) as (h1 & Go & M & A1 & Q & Same). pose proof F as (P1 & P2 & P3 & P4 & P5 & P6 & P7 & P8 & P9 & P10).
    assert (D1 : difference h1 "887" c887 p) by (unfold difference in *; rewrite Same by (cbn; tauto); exact P5).
    assert (A2 : gain_average a b h1 [mkMsg (mtime p + 1) (start b (G (x ++ [p])))]) by (unfold gain_average in *; rewrite Same by (cbn; tauto); exact P9).
    destruct (rest_silent n 15 _ h1 p t v M D1 (average_lost_l _ _ _ _ A1 Hlt) (average_lost_g _ _ _ _ A2 Hlt) Q Cd ltac:(lia) ltac:(lia) Sm ltac:(lia)) as (h2 & R2 & W).
    exists h2. eexists. split; [exact (Go _ _ R2)|]. rewrite app_length, app_length, K. split; [exact W|].
    rewrite Sh, app_nil_r. erewrite (shown_gap x p _ [] p); [|exact K|reflexivity|exact I|exact Et].
    rewrite <- (app_nil_r (x ++ [p])) at 1. rewrite strengths_at by exact K. cbn [follow]. now rewrite app_nil_r.
  - assert (Hq : p :: rest = removelast (p :: rest) ++ [q]).
    { pose proof (reached_last a b rest (start b (G (x ++ [p]))) (start b (L (x ++ [p]))) p) as E. rewrite R in E. cbn [snd] in E.
      rewrite E. now rewrite <- app_removelast_last by discriminate. }
    assert (Ey : (x ++ [p]) ++ rest = (x ++ removelast (p :: rest)) ++ [q]) by (rewrite <- !app_assoc; cbn [app]; now rewrite <- Hq).
    pose proof C as (_ & _ & Cl). rewrite app_length, app_length in Cl. cbn [length] in Cl. rewrite app_length in Cl. cbn [length] in Cl.
    assert (Sr : steady (p :: rest)) by (rewrite <- app_assoc, skip_parts in St by exact K; exact St).
    assert (Et : t <> mtime q + 1).
    { intros E. apply Gp. rewrite <- !app_assoc, skip_parts by exact K. cbn [app]. change (p :: rest ++ [mkMsg t v]) with ((p :: rest) ++ [mkMsg t v]). rewrite Hq.
      apply steady_snoc_iff. rewrite <- Hq. now split. }
    rewrite Ey in Later, C. rewrite last_opt_snoc in Later. apply Z.ltb_lt in Later. destruct (covers'_last _ _ _ C) as (Sp & Sm & Cd). cbn [mtime mval] in Sm, Cd.
    assert (Hlt : mtime q + 1 < t) by lia. do 2 (destruct n as [|n]; [lia|]).
    pose proof F as (P1 & P2 & P3 & P4 & P5 & P6 & P7 & P8).
    assert (En : exists h1, (forall h2 r, runs_all "467" n others h1 h2 r -> sends (S (S n)) (mkMsg t v) h h2 r) /\
      midway b (wrap (Z.of_nat (15 + length rest) + 1)) (Z.of_nat (15 + length rest) + 1) (latest (mkMsg t v) ls) t v h1 /\
      (forall id, In id ["887"; "130"; "746"; "287"] -> sfind id h1 = sfind id h)).
    { destruct rest as [|r0 rest].
      - destruct (Sh eq_refl) as (Z1 & Z2 & _). exact (enter_settled b n ls h t v P1 P2 P3 P4 Z1 Z2 A ltac:(lia)).
      - apply (enter_later b n _ ls h t v P1 P2 P3 P4 A); cbn [length] in *; lia. }
    destruct En as (h1 & Go & M & Same).
    assert (D1 : difference h1 "887" c887 q) by (unfold difference in *; rewrite Same by (cbn; tauto); exact P5).
    assert (A1 : loss_average a b h1 [mkMsg (mtime q + 1) l]) by (unfold loss_average in *; rewrite Same by (cbn; tauto); exact P6).
    assert (A2 : gain_average a b h1 [mkMsg (mtime q + 1) g]) by (unfold gain_average in *; rewrite Same by (cbn; tauto); exact P7).
    assert (Q : quotient h1 [] []) by (unfold quotient in *; rewrite Same by (cbn; tauto); exact P8).
    destruct (rest_silent n _ _ h1 q t v M D1 (average_lost_l _ _ _ _ A1 Hlt) (average_lost_g _ _ _ _ A2 Hlt) Q Cd ltac:(lia) ltac:(lia) Sm ltac:(lia)) as (h2 & R2 & W).
    exists h2, []. split; [exact (Go _ _ R2)|]. split.
    + replace (Z.of_nat (length (((x ++ [p]) ++ rest) ++ [mkMsg t v]))) with (Z.of_nat (15 + length rest) + 1) by (rewrite !app_length; cbn [length]; lia). exact W.
    + rewrite app_nil_r, <- (app_assoc x [p]). cbn [app]. rewrite (shown_gap x q (mkMsg t v) rest p K Hq Sr Et). destruct rest as [|r0 rest].
      * symmetry. apply Sh. reflexivity.
      * symmetry. apply shown_long. rewrite !app_length. cbn [length]. lia.
Qed.

(** after a gap *)
Lemma silent_step n ls h x q m : silent (Z.of_nat (length (x ++ [q]))) ls q h -> (16 <= length (x ++ [q]))%nat -> accepted ls (mtime m) = true ->
  covers' ((x ++ [q]) ++ [m]) -> (20 < n)%nat ->
  exists h', sends n m h h' [] /\ silent (Z.of_nat (length ((x ++ [q]) ++ [m]))) (latest m ls) m h'.
Proof.
  intros F K A C Hn. destruct m as [t v]. cbn [mtime] in A. destruct (covers'_last _ _ _ C) as (Sp & Sm & Cd). cbn [mtime mval] in Sm, Cd.
  destruct C as (_ & _ & Cl). rewrite !app_length in Cl. rewrite app_length in F, K. rewrite !app_length. cbn [length] in *. do 2 (destruct n as [|n]; [lia|]). destruct F as (P1 & P2 & P3 & P4 & P5 & P6 & P7 & P8).
  destruct (enter_later b n _ ls h t v P1 P2 P3 P4 A) as (h1 & Go & M & Same); [lia|lia|lia|].
  assert (D1 : difference h1 "887" c887 q) by (unfold difference in *; rewrite Same by (cbn; tauto); exact P5).
  assert (A1 : emptied h1 "130" c876) by (unfold emptied in *; rewrite Same by (cbn; tauto); exact P6).
  assert (A2 : emptied h1 "746" c946) by (unfold emptied in *; rewrite Same by (cbn; tauto); exact P7).
  assert (Q : quotient h1 [] []) by (unfold quotient in *; rewrite Same by (cbn; tauto); exact P8).
  destruct (rest_silent n _ _ h1 q t v M D1 (emptied_lost _ _ _ _ A1) (emptied_lost _ _ _ _ A2) Q Cd ltac:(lia) ltac:(lia) Sm ltac:(lia)) as (h2 & R2 & W).
  exists h2. split; [exact (Go _ _ R2)|]. replace (Z.of_nat (length x + 1 + 1)) with (Z.of_nat (length x + 1) + 1) by lia. exact W.
Qed.

Lemma gap_long x : ~ steady (skipn 14 x) -> (16 <= length x)%nat.
Proof.
  intros H. pose proof (skipn_length 14 x) as E. destruct (skipn 14 x) as [|p [|z r]]; [exfalso; apply H; exact I|exfalso; apply H; exact I|]. cbn [length] in E. lia.
Qed.
Lemma not_steady_more x m : ~ steady (skipn 14 x) -> ~ steady (skipn 14 (x ++ [m])).
Proof. intros H St. apply H. rewrite skipn_app in St. exact (steady_app _ _ St). Qed.

Definition after' (ms : list msg) (h : heap) : Prop := exists ls, state' ls h (records ms) /\ sfind "i1" ls = last_opt (records ms).
Definition covered' (ms : list msg) : Prop := covers' (records ms).
Definition view' (ms : list msg) : list msg := shown_until_gap a b (records ms).

Lemma covered'_before ms more : covered' (ms ++ more) -> covered' ms.
Proof. unfold covered'. destruct (records_app ms more) as [r ->]. apply covers'_app. Qed.
Lemma after_start h : after a b [] h -> after' [] h.
Proof. intros (ls & S0 & Ls). exists ls. split; [|exact Ls]. apply Whole; [exact S0|exact I]. Qed.

Lemma state'_basics ls h x : state' ls h x -> exists k, statics b h /\ three h /\ counted k ls h.
Proof.
  intros [S0 _|y q _ F _]; [|unfold silent in F; decompose [and] F; eauto].
  destruct S0 as [F|x p K F|x p K F Sh|x p K F Sh|x p rest g l q K R F Sh]; unfold fresh, learning, waiting_gains, waiting_losses, following in F; decompose [and] F; eauto.
Qed.
Lemma has_entry' ms h : after' ms h -> shas "754" h = true.
Proof. intros (ls & S0 & _). destruct (state'_basics _ _ _ S0) as (k & _ & _ & _ & s & d & F & _). unfold shas. now rewrite F. Qed.

Lemma after_one' n ms h m : (20 < n)%nat -> after' ms h -> covered' (ms ++ [m]) ->
  exists h' r out, send1 n "754" "i1" m h = (Ok out, h') /\ wf_pm out /\ result_at out "467" "o1" = r /\ after' (ms ++ [m]) h' /\ view' (ms ++ [m]) = view' ms ++ r.
Proof.
  intros Hn (ls & S0 & Ls) C. unfold covered' in C. unfold after', view'. rewrite records_snoc in *. unfold later_than in *.
  destruct (accepted ls (mtime m)) eqn:A; pose proof A as A'; unfold accepted in A'; rewrite Ls in A'.
  - rewrite A' in *. set (x := records ms) in *.
    assert (X : exists h' r, sends n m h h' r /\ state' (latest m ls) h' (x ++ [m]) /\ shown_until_gap a b (x ++ [m]) = shown_until_gap a b x ++ r).
    { destruct S0 as [S0 St|y q Ex F St].
      - destruct (steady_dec (skipn 14 (x ++ [m]))) as [Sn|Sn].
        + destruct C as (C1 & C2 & C3). destruct (step a b n ls h x m S0 A Ls (conj C1 (conj C2 (conj Sn C3))) Hn) as (h' & r & E & S1 & V1).
          exists h', r. split; [exact E|]. split; [now apply Whole|]. now rewrite !shown_steady by assumption.
        + destruct (gap_step n ls h x m S0 St Sn A Ls C Hn) as (h' & r & E & S1 & V1). exists h', r. split; [exact E|]. split; [|exact V1]. now apply (Silent _ _ _ x m).
      - pose proof (gap_long x St) as K. pose proof (not_steady_more x m St) as Sn. rewrite (shown_after_gap x m St). rewrite Ex in *.
        destruct (silent_step n ls h y q m F K A C Hn) as (h' & E & S1). exists h', []. split; [exact E|]. split; [now apply (Silent _ _ _ (y ++ [q]) m)|now rewrite app_nil_r]. }
    destruct X as (h' & r & (out & E & W & Rs) & S1 & V1).
    exists h', r, out. repeat split; auto; try apply W. exists (latest m ls). split; [exact S1|]. rewrite last_opt_snoc. unfold latest. apply sfind_sset_same.
  - rewrite A' in *. rewrite app_nil_r in *. destruct m as [t v].
    destruct (state'_basics _ _ _ S0) as (k & X1 & X2 & X3). destruct (round_stale b n k ls h t v X1 X2 X3 A ltac:(lia)) as (h' & (out & E & W & Rs) & Same & E754).
    exists h', [], out. rewrite app_nil_r. repeat split; auto; try apply W. exists ls. split; [exact (state'_same ls h h' _ Same E754 S0)|exact Ls].
Qed.
End Gap.
