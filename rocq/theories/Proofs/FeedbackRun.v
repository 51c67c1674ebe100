(** * The states of the generated program with feedback, and one message (C91) *)

From Coq Require Import String ZArith Bool List Lia.
From Verif Require Import Base.StrMap Base.Num Base.NumCount Model.Core Model.Ops Model.Make Model.Graph.
From Verif Require Import Proofs.Merge Spec.Log Spec.Feedback Proofs.Symbolic Proofs.FeedbackP.
Import ListNotations.
Open Scope string_scope.
Open Scope list_scope.
Open Scope Z_scope.
Open Scope rtbot_scope.

Section Rounds.
Context {NO : NumOps} {NC : NumCount NO} {NT : NumTime NO}.
Variables a b : V.

(** ** States *)

Definition slot (h : heap) (id : string) (cs : list (string * string)) (k : kind) : Prop :=
  exists s d, sfind id h = Some (sop id s d cs k []) /\ narrow d.
Definition loaded (h : heap) (id : string) (cs : list (string * string)) (k : kind) (t : Z) (v : V) : Prop :=
  exists s, sfind id h = Some (sop id s [mkMsg t v] cs k ["i1"]).

(** operators without state *)
Definition statics (h : heap) : Prop :=
  slot h "136" [("746", "i2")] (KConstant v0) /\
  slot h "177" [("130", "i2"); ("746", "i2")] (KConstant v0) /\
  slot h "180" [("416", "i1")] (KFilter FLess v0) /\
  slot h "216" [("911", "i1")] (KScale (vofZ (-100))) /\
  slot h "232" [("216", "i1")] (KPower (vofZ (-1))) /\
  slot h "28" [("138", "i1"); ("58", "i1")] (KFilter FEqual v0) /\
  slot h "283" [("144", "c1")] (KConstant (vofZ 1)) /\
  slot h "342" [("855", "i1"); ("136", "i1")] (KFilter FLess v0) /\
  slot h "37" [("144", "c1")] (KConstant v0) /\
  slot h "416" [("138", "i1")] (KScale (vofZ (-1))) /\
  slot h "420" [("232", "i1")] (KAdd (vofZ 1)) /\
  slot h "434" [("144", "c2")] (KConstant v0) /\
  slot h "467" [] (KOutput [("i1", "o1")]) /\
  slot h "495" [("98", "i1")] (KConstant (vofZ 1)) /\
  slot h "572" [("130", "i2")] (KConstant v0) /\
  slot h "649" [("876", "i1")] (KScale b) /\
  slot h "654" [("946", "i1")] (KScale b) /\
  slot h "717" [("746", "i1")] (KTimeShift 1 1) /\
  slot h "764" [("177", "i1")] (KFilter FEqual v0) /\
  slot h "794" [("746", "i2"); ("572", "i1")] (KFilter FGreater v0) /\
  slot h "806" [("58", "i1")] (KFilter FGreater v0) /\
  slot h "837" [("130", "i1")] (KTimeShift 1 1) /\
  slot h "855" [("130", "i2")] (KScale (vofZ (-1))) /\
  slot h "861" [("876", "i1"); ("946", "i1")] (KFilter FEqual (vofZ 16)) /\
  slot h "911" [("467", "i1")] (KAdd (vofZ 100)) /\
  slot h "98" [("144", "c2")] (KConstant (vofZ 1)).

Definition c865 : list (string * string) := [("37", "i1"); ("495", "i1")].
Definition c996 : list (string * string) := [("876", "c1"); ("946", "c1"); ("98", "i1"); ("283", "i1")].
Definition c510 : list (string * string) := [("434", "i1"); ("283", "i1")].
Definition c262 : list (string * string) := [("861", "i1"); ("996", "i1"); ("865", "i1"); ("510", "i1")].
Definition c754 : list (string * string) := [("144", "i1"); ("262", "i1")].

Definition three (h : heap) : Prop :=
  slot h "996" c996 (KFilter FEqual (vofZ 15)) /\ slot h "865" c865 (KFilter FGreater (vofZ 15)) /\ slot h "510" c510 (KFilter FLess (vofZ 15)).
Definition three_loaded (h : heap) (t : Z) (v : V) : Prop :=
  loaded h "996" c996 (KFilter FEqual (vofZ 15)) t v /\ loaded h "865" c865 (KFilter FGreater (vofZ 15)) t v /\
  loaded h "510" c510 (KFilter FLess (vofZ 15)) t v.

(** the entry and the count; [k] messages were accepted *)
Definition counted (k : Z) (ls : smap msg) (h : heap) : Prop :=
  slot h "262" c262 (KCount k) /\ slot h "754" c754 (KInput [("i1", "o1")] ls).
Definition demux (h : heap) (d : list msg) : Prop := exists s s1 s2, sfind "144" h = Some (dmop s d s1 [] s2 []).

Definition loss_average (h : heap) (d : list msg) : Prop :=
  exists s1 s2, sfind "130" h = Some (jop "130" s1 d s2 [] [("287", "i2"); ("837", "i1")] (KLinear [a; b])).
Definition gain_average (h : heap) (d : list msg) : Prop :=
  exists s1 s2, sfind "746" h = Some (jop "746" s1 d s2 [] [("287", "i1"); ("717", "i1")] (KLinear [a; b])).
Definition quotient (h : heap) (d1 d2 : list msg) : Prop :=
  exists s1 s2, sfind "287" h = Some (jop "287" s1 d1 s2 d2 [("420", "i1")] (KBinary BDiv)).

Definition c34 : list (string * string) := [("180", "i1"); ("28", "i1"); ("806", "i1")].
Definition c887 : list (string * string) := [("342", "i1"); ("764", "i1"); ("794", "i1")].
Definition no_difference (h : heap) (id : string) (cs : list (string * string)) : Prop := exists s, sfind id h = Some (dif id s [] cs []).
Definition difference (h : heap) (id : string) (cs : list (string * string)) (p : msg) : Prop :=
  exists s d, sfind id h = Some (dif id s d cs []) /\ ends p d.

Definition sum (l : list V) : V := fold_left vadd l v0.
Definition c876 : list (string * string) := [("287", "i2"); ("837", "i1")].
Definition c946 : list (string * string) := [("287", "i1"); ("717", "i1")].
(** a variable that was not asked, all its messages are before [q] *)
Definition recorded (h : heap) (id : string) (cs : list (string * string)) (k q : Z) (l : list V) : Prop :=
  exists s d s1 tp, sfind id h = Some (var id s d s1 [] cs false tp) /\ toproc tp /\ before q d /\ held d = start b l /\ Z.of_nat (length d) <= k.
(** a variable asked at time [q] *)
Definition asked (h : heap) (id : string) (cs : list (string * string)) (q : Z) (l : list V) : Prop :=
  exists s d s1 v tp, sfind id h = Some (var id s (trim d) s1 [mkMsg q v] cs (used d) tp) /\ toproc tp /\ before q d /\ held d = start b l.
Definition settled (h : heap) (id : string) (cs : list (string * string)) : Prop :=
  exists s d s1 i tp, sfind id h = Some (var id s d s1 [] cs i tp) /\ toproc tp /\ (length d < 1000)%nat.

(** ** Execution *)

Lemma store_upd id o l h : sset id o (upd l h) = upd ((id, o) :: l) h.
Proof. reflexivity. Qed.
Lemma trim_short d : (length (trim d) < 1000)%nat.
Proof. destruct d; cbn; lia. Qed.
Lemma toproc_i1 : toproc ["i1"].
Proof. now right. Qed.

End Rounds.

Ltac store := apply store_upd.
Ltac find := first [ apply found_new; reflexivity
  | apply found_old; [reflexivity | match goal with F : sfind ?i ?h = Some _ |- sfind ?i ?h = Some _ => exact F end] ].
Ltac shut := first [assumption | reflexivity | apply trim_short | apply toproc_i1 | (cbv [bit]; auto; fail) | (cbv [narrow length]; lia) | lia].
Ltac receives := first
  [ apply sop_receive; [shut | reflexivity]
  | apply dif_receive0
  | eapply dif_receive; eassumption
  | apply dm_receive
  | apply j_receive1; reflexivity
  | apply j_receive2; reflexivity
  | apply var_receive; shut ].
Ltac controls := first [apply dm_c1 | apply dm_c2 | apply var_asked].
Ltac deliveries := first
  [ apply deliver_nil
  | eapply deliver_data; [find | reflexivity | receives | store | deliveries]
  | eapply deliver_ctrl; [find | reflexivity | reflexivity | controls | store | deliveries] ].
Ltac executes := first
  [ apply exec_constant | apply exec_count | apply exec_passes; assumption | apply exec_stops; assumption
  | apply exec_sum | apply exec_scale | apply exec_add | apply exec_power | apply exec_shift; assumption | apply exec_output
  | apply exec_accepts; assumption | apply exec_refuses; assumption
  | apply dif_waits | apply dif_exec; assumption
  | apply dm_waits | apply dm_first | apply dm_second | apply dm_both | apply dm_one; shut | apply dm_two; shut
  | apply j_waits1; reflexivity | apply j_waits2; reflexivity | apply exec_average
  | apply exec_divides; assumption | apply exec_drops; assumption
  | apply var_idle | apply var_waits; assumption | apply var_hit; assumption | apply var_late; assumption ].
Ltac run_all one := first
  [ apply runs_nil
  | match goal with K : runs_all _ ?n ?cs _ _ _ |- runs_all _ ?n ?cs _ _ _ => exact K end
  | eapply (runs_cons _ _ _ _ _ false); [find | reflexivity | reflexivity | one | run_all one]
  | eapply (runs_cons _ _ _ _ _ true); [find | reflexivity | reflexivity | one | run_all one] ].
Ltac run_one :=
  eapply runs_step; [find | executes | store | run_emits]
with run_emits := first
  [ apply emits_nil
  | eapply emits_cons; [reflexivity | reflexivity | reflexivity | deliveries | run_all run_one | run_emits] ].

(** open the description of a state *)
Ltac unpack := unfold statics, three, three_loaded, counted, demux, loss_average, gain_average, quotient, no_difference, difference, recorded, asked, settled, slot, loaded in * |-;
  repeat match goal with
  | H : _ /\ _ |- _ => destruct H
  | H : exists _, _ |- _ => destruct H
  end.
Ltac pack := unfold statics, three, three_loaded, counted, demux, loss_average, gain_average, quotient, no_difference, difference, slot, loaded;
  repeat match goal with |- _ /\ _ => split end.

Ltac conceal := match goal with |- context [upd ?l ?h0] =>
  let FU := fresh "FU" in pose proof (find_upd l h0) as FU; revert FU; generalize (upd l h0); intros ? FU end.
Ltac known := match goal with FU : forall id, sfind id ?h' = _ |- sfind _ ?h' = Some _ =>
  etransitivity; [apply FU | first [reflexivity | match goal with F : sfind ?i ?h = Some _ |- context [sfind ?i ?h] => exact F end]] end.

Section Rounds.
Context {NO : NumOps} {NC : NumCount NO} {NT : NumTime NO}.
Variables a b : V.

Definition sends (n : nat) (m : msg) (h h' : heap) (r : list msg) : Prop :=
  exists out, send1 n "754" "i1" m h = (Ok out, h') /\ wf_pm out /\ result_at out "467" "o1" = r.

Lemma tests k : 0 <= k < 2 ^ 53 ->
  (forall c, 0 <= c < 2 ^ 53 -> filter_test FLess (vofZ c) (vofZ (wrap k)) = (k <? c)) /\
  (forall c, 0 <= c < 2 ^ 53 -> filter_test FGreater (vofZ c) (vofZ (wrap k)) = (c <? k)) /\
  (forall c, 0 <= c < 2 ^ 53 -> filter_test FEqual (vofZ c) (vofZ (wrap k)) = (k =? c)).
Proof. intros H. rewrite wrap_id by (unfold two64; lia). cbn [filter_test]. repeat split; intros c Hc; rewrite ?vofZ_lt, ?vofZ_eq by lia; reflexivity. Qed.

(** the four tests of the count *)
Definition count_tests (k : Z) (e16 e15 g15 l15 : bool) : Prop :=
  filter_test FEqual (vofZ 16) (vofZ (wrap (k + 1))) = e16 /\ filter_test FEqual (vofZ 15) (vofZ (wrap (k + 1))) = e15 /\
  filter_test FGreater (vofZ 15) (vofZ (wrap (k + 1))) = g15 /\ filter_test FLess (vofZ 15) (vofZ (wrap (k + 1))) = l15.
Lemma count_tests_all k : 0 <= k -> k + 1 < 2 ^ 53 ->
  count_tests k (k + 1 =? 16) (k + 1 =? 15) (15 <? k + 1) (k + 1 <? 15).
Proof. intros H1 H2. destruct (tests (k + 1)) as (T1 & T2 & T3); [lia|]. unfold count_tests. rewrite T1, T2, !T3 by lia. auto. Qed.

Lemma send_runs' n k h h2 t v r r' s d : sfind "754" h = Some (sop "754" s d c754 k []) -> plain_kind k = true -> narrow d ->
  runs "467" n false "754" (upd [("754", sop "754" (sum_after s d v) [mkMsg t v] c754 k ["i1"])] h) h2 r -> r = r' -> sends n (mkMsg t v) h h2 r'.
Proof. intros F K Hd R <-. unfold sends, send1. rewrite F, sop_receive by assumption. exact R. Qed.

(** ** Messages 2 to 14 *)

Definition learning (k : Z) (ls : smap msg) (p : msg) (L G : list V) (h : heap) : Prop :=
  statics b h /\ three h /\ counted k ls h /\ demux h [] /\ difference h "34" c34 p /\
  slot h "138" [("649", "i1")] (KCumSum (sum L)) /\ slot h "58" [("654", "i1")] (KCumSum (sum G)) /\
  recorded b h "876" c876 k (mtime p + 1) L /\ recorded b h "946" c946 k (mtime p + 1) G /\
  loss_average a b h [] /\ gain_average a b h [] /\ quotient h [] [] /\ no_difference h "887" c887.

Lemma sum_snoc l x : sum (l ++ [x]) = vadd (sum l) x.
Proof. unfold sum. now rewrite fold_left_app. Qed.
Lemma start_snoc l x : start b (l ++ [x]) = vmul (vadd (sum l) x) b.
Proof. rewrite <- sum_snoc. unfold start. destruct (l ++ [x]) eqn:E; [destruct l; discriminate|]. reflexivity. Qed.
Lemma held_snoc d m : held (d ++ [m]) = mval m.
Proof. unfold held. destruct (d ++ [m]) eqn:E; [destruct d; discriminate|]. now rewrite <- E, last_last. Qed.
Lemma before_more q q' d : before q d -> q <= q' -> before q' d.
Proof. intros H Hq. eapply Forall_impl; [|exact H]. cbn. intros m Hm. lia. Qed.
Lemma before_snoc q d t v : before q d -> q <= t + 1 -> before (t + 1) (d ++ [mkMsg t v]).
Proof. intros H Hq. apply Forall_app. split; [exact (before_more _ _ _ H Hq)|]. constructor; [cbn; lia|constructor]. Qed.

(** the variable kept its messages, or received one *)
Lemma recorded_keep h id cs k k' q q' l s d s1 tp : sfind id h = Some (var id s d s1 [] cs false tp) -> toproc tp -> before q d -> held d = start b l ->
  Z.of_nat (length d) <= k -> k <= k' -> q <= q' -> recorded b h id cs k' q' l.
Proof. intros F T B E K Hk Hq. exists s, d, s1, tp. repeat split; auto; [exact (before_more _ _ _ B Hq)|lia]. Qed.
Lemma recorded_add h id cs k k' q t l x s d s1 : sfind id h = Some (var id s (d ++ [mkMsg t (vmul (vadd (sum l) x) b)]) s1 [] cs false ["i1"]) ->
  before q d -> Z.of_nat (length d) <= k -> k < k' -> q <= t + 1 -> recorded b h id cs k' (t + 1) (l ++ [x]).
Proof.
  intros F B K Hk Hq. exists s, (d ++ [mkMsg t (vmul (vadd (sum l) x) b)]), s1, ["i1"]. rewrite held_snoc, start_snoc, app_length. cbn [length mval].
  repeat split; auto; [now right|exact (before_snoc _ _ _ _ B Hq)|lia].
Qed.

(** ** After the fifteenth message *)

(** a loss: the gains are not known yet *)
Definition waiting_gains (ls : smap msg) (p : msg) (l : V) (G : list V) (h : heap) : Prop :=
  statics b h /\ three h /\ counted 15 ls h /\ demux h [] /\ difference h "887" c887 p /\
  settled h "876" c876 /\ asked b h "946" c946 (mtime p) G /\
  loss_average a b h [mkMsg (mtime p + 1) l] /\ gain_average a b h [] /\ quotient h [] [mkMsg (mtime p) l].
(** a gain: the losses are not known yet *)
Definition waiting_losses (ls : smap msg) (p : msg) (g : V) (L : list V) (h : heap) : Prop :=
  statics b h /\ three h /\ counted 15 ls h /\ demux h [] /\ difference h "887" c887 p /\
  asked b h "876" c876 (mtime p) L /\ settled h "946" c946 /\
  loss_average a b h [] /\ gain_average a b h [mkMsg (mtime p + 1) g] /\ quotient h [mkMsg (mtime p) g] [].
(** both averages are known *)
Definition following (k : Z) (ls : smap msg) (p : msg) (g l : V) (h : heap) : Prop :=
  statics b h /\ three h /\ counted k ls h /\ demux h [] /\ difference h "887" c887 p /\
  loss_average a b h [mkMsg (mtime p + 1) l] /\ gain_average a b h [mkMsg (mtime p + 1) g] /\ quotient h [] [].

Definition sign (d : V) (l e g : bool) : Prop := filter_test FLess v0 d = l /\ filter_test FEqual v0 d = e /\ filter_test FGreater v0 d = g.

End Rounds.

Ltac enter := eapply send_runs'; [eassumption | reflexivity | assumption | run_one | cbn [app]; rewrite ?app_nil_r; reflexivity].
Ltac counts k := destruct (count_tests_all k) as (T1 & T2 & T3 & T4); [lia|lia|];
  repeat match goal with
  | T : _ = (?x =? ?y) |- _ => first [rewrite (proj2 (Z.eqb_neq x y)) in T by lia | rewrite (proj2 (Z.eqb_eq x y)) in T by lia]
  | T : _ = (?x <? ?y) |- _ => first [rewrite (proj2 (Z.ltb_lt x y)) in T by lia | rewrite (proj2 (Z.ltb_ge x y)) in T by lia]
  end.
Ltac filed := match goal with
  | |- exists s, sfind _ _ = Some (sop _ s _ _ _ _) => eexists; known
  | |- exists s d, sfind _ _ = Some (sop _ s d _ _ _) /\ _ => eexists _, _; split; [known|shut]
  | |- exists s d, sfind _ _ = Some (dif _ s d _ _) /\ _ => eexists _, _; split; [known|first [left; reflexivity|right; eexists; reflexivity]]
  | |- exists s, sfind _ _ = Some (dif _ s _ _ _) => eexists; known
  | |- exists s s1 s2, sfind _ _ = Some (dmop _ _ _ _ _ _) => eexists _, _, _; known
  | |- exists s1 s2, sfind _ _ = Some (jop _ _ _ _ _ _ _) => eexists _, _; known
  | |- recorded _ _ _ _ _ _ (_ ++ _) => eapply recorded_add; [known|eassumption|eassumption|lia|cbn [mtime]; lia]
  | |- recorded _ _ _ _ _ _ _ => eapply recorded_keep; [known|shut|eassumption|assumption|eassumption|lia|cbn [mtime]; lia]
  | |- settled _ _ _ => eexists _, _, _, _, _; split; [known|split; [shut|cbn [length app]; first [lia|rewrite app_length; cbn [length]; lia]]]
  | |- asked _ _ _ _ _ _ => eexists _, _, _, _, _; split; [known|split; [shut|split; [eassumption|assumption]]]
  end.

Section Rounds2.
Context {NO : NumOps} {NC : NumCount NO} {NT : NumTime NO}.
Variables a b : V.

(** ** The first messages *)

Lemma round_stale n k ls h t v : statics b h -> three h -> counted k ls h -> accepted ls t = false -> (2 < n)%nat ->
  exists h', sends n (mkMsg t v) h h' [] /\ (forall id, id <> "754" -> sfind id h' = sfind id h) /\ slot h' "754" c754 (KInput [("i1", "o1")] ls).
Proof.
  intros _ _ C A Hn. unpack. do 2 (destruct n as [|n]; [lia|]). eexists. split; [enter|]. split.
  - intros id Hid. rewrite find_upd. cbn [sfind]. destruct (String.eqb_spec id "754"); [congruence|]. reflexivity.
  - pack. eexists _, _. split; [find|shut].
Qed.

(** the first message *)
Lemma round_first n ls h t v : statics b h -> three h -> counted 0 ls h -> demux h [] -> no_difference h "34" c34 ->
  accepted ls t = true -> (18 < n)%nat ->
  exists h', sends n (mkMsg t v) h h' [] /\ statics b h' /\ three h' /\ counted 1 (latest (mkMsg t v) ls) h' /\ demux h' [] /\
    difference h' "34" c34 (mkMsg t v) /\
    (forall id, In id ["887"; "138"; "58"; "876"; "946"; "130"; "746"; "287"] -> sfind id h' = sfind id h).
Proof.
  intros S3 S4 C D F A Hn. destruct (count_tests_all 0) as (T1 & T2 & T3 & T4); [lia|lia|].
  change (0 + 1 =? 16) with false in T1. change (0 + 1 =? 15) with false in T2. change (15 <? 0 + 1) with false in T3. change (0 + 1 <? 15) with true in T4.
  unpack. do 19 (destruct n as [|n]; [lia|]). clear Hn. eexists. split; [enter|].
  conceal. pack. all: try (eexists _, _; split; [known|shut]).
  all: try (eexists _, _, _; known).
  - eexists _, _. split; [known|now left].
  - intros id Hid. rewrite FU. cbn [In] in Hid. repeat (destruct Hid as [<-|Hid]; [reflexivity|]). destruct Hid.
Qed.

Lemma round_loss n k ls pt pv L G h t v : learning a b k ls (mkMsg pt pv) L G h -> accepted ls t = true -> 1 <= k -> k + 1 < 15 -> soon t -> pt < t ->
  sign (vsub v pv) true false false -> (18 < n)%nat ->
  exists h', sends n (mkMsg t v) h h' [] /\ learning a b (k + 1) (latest (mkMsg t v) ls) (mkMsg t v) (L ++ [vmul (vsub v pv) (vofZ (-1))]) G h'.
Proof.
  intros (P1 & P2 & P3 & P4 & P5 & P6 & P7 & P8 & P9 & P10 & P11 & P12 & P13) A K1 K2 Ht Hp (D1 & D2 & D3) Hn. counts k.
  unpack. do 19 (destruct n as [|n]; [lia|]). clear Hn. eexists. split; [enter|].
  conceal. unfold learning. rewrite sum_snoc. rewrite wrap_id in FU by (unfold two64; lia). pack. all: filed.
Qed.

Lemma round_gain n k ls pt pv L G h t v : learning a b k ls (mkMsg pt pv) L G h -> accepted ls t = true -> 1 <= k -> k + 1 < 15 -> soon t -> pt < t ->
  sign (vsub v pv) false false true -> (18 < n)%nat ->
  exists h', sends n (mkMsg t v) h h' [] /\ learning a b (k + 1) (latest (mkMsg t v) ls) (mkMsg t v) L (G ++ [vsub v pv]) h'.
Proof.
  intros (P1 & P2 & P3 & P4 & P5 & P6 & P7 & P8 & P9 & P10 & P11 & P12 & P13) A K1 K2 Ht Hp (D1 & D2 & D3) Hn. counts k.
  unpack. do 19 (destruct n as [|n]; [lia|]). clear Hn. eexists. split; [enter|].
  conceal. unfold learning. rewrite !sum_snoc. rewrite wrap_id in FU by (unfold two64; lia). pack. all: filed.
Qed.

Lemma round_same n k ls pt pv L G h t v : learning a b k ls (mkMsg pt pv) L G h -> accepted ls t = true -> 1 <= k -> k + 1 < 15 -> soon t -> pt < t ->
  sign (vsub v pv) false true false -> (18 < n)%nat ->
  exists h', sends n (mkMsg t v) h h' [] /\ learning a b (k + 1) (latest (mkMsg t v) ls) (mkMsg t v) (L ++ [vsub v pv]) (G ++ [vsub v pv]) h'.
Proof.
  intros (P1 & P2 & P3 & P4 & P5 & P6 & P7 & P8 & P9 & P10 & P11 & P12 & P13) A K1 K2 Ht Hp (D1 & D2 & D3) Hn. counts k.
  unpack. do 19 (destruct n as [|n]; [lia|]). clear Hn. eexists. split; [enter|].
  conceal. unfold learning. rewrite !sum_snoc. rewrite wrap_id in FU by (unfold two64; lia). pack. all: filed.
Qed.
End Rounds2.
