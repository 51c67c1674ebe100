(** * The operators and states of the program of the Fibonacci notebook, and one message (C93) *)

From Coq Require Import String ZArith Bool List Lia.
From Verif Require Import Base.StrMap Base.Num Base.NumCount Model.Core Model.Ops Model.Make Model.Graph.
From Verif Require Import Proofs.Merge Spec.Log Proofs.Symbolic Proofs.FeedbackP Proofs.FeedbackRun.
Import ListNotations.
Open Scope string_scope.
Open Scope list_scope.
Open Scope Z_scope.
Open Scope rtbot_scope.

Section Operators.
Context {NO : NumOps} {NC : NumCount NO}.

Lemma exec_shift2 rec id s t v cs : soon t -> exec_local rec false (sop id s [mkMsg t v] cs (KTimeShift 1 2) ["i1"]) =
  (Ok (out1 (mkMsg (t + 2) v)), sop id s [mkMsg t v] cs (KTimeShift 1 2) []).
Proof.
  intros H. assert (E : shift_time 1 2 t = t + 2).
  { unfold shift_time. change (wrap (1 * wrap 2)) with 2. change (2 >? 0) with true. rewrite orb_true_r. apply wrap_id. unfold soon, two64 in *. lia. }
  rewrite <- E. reflexivity.
Qed.

(** ** The demultiplexer *)

Definition dm (s : V) (d : list msg) (s1 : V) (d1 : list msg) (s2 : V) (d2 : list msg) : op :=
  Op (mkBase "demul1" [("i1", mkPort "i1" big s d)] [("c1", mkPort "c1" big s1 d1); ("c2", mkPort "c2" big s2 d2)] ["o1"; "o2"]
        [("o1", [("dt2", "i1")]); ("o2", [("dt1", "i1")])] [])
     (KDemux [("c1", "o1"); ("c2", "o2")]).

Lemma dm_takes n s d s1 d1 s2 d2 t v :
  recv_data n (dm s d s1 d1 s2 d2) (mkMsg t v) "i1" = (Ok tt, dm (vadd s v) (d ++ [mkMsg t v]) s1 d1 s2 d2).
Proof. destruct n; reflexivity. Qed.
Lemma dm_ask1 s d s1 s2 d2 t v : recv_ctrl_local (dm s d s1 [] s2 d2) (mkMsg t v) "c1" = (Ok tt, dm s d (vadd s1 v) [mkMsg t v] s2 d2).
Proof. reflexivity. Qed.
Lemma dm_ask2 s d s1 d1 s2 t v : recv_ctrl_local (dm s d s1 d1 s2 []) (mkMsg t v) "c2" = (Ok tt, dm s d s1 d1 (vadd s2 v) [mkMsg t v]).
Proof. reflexivity. Qed.
Lemma dm_idle rec s s1 s2 : exec_local rec false (dm s [] s1 [] s2 []) = (Ok [], dm s [] s1 [] s2 []).
Proof. reflexivity. Qed.
Lemma dm_keeps rec s d m s1 s2 : exec_local rec false (dm s (d ++ [m]) s1 [] s2 []) = (Ok [], dm s (d ++ [m]) s1 [] s2 []).
Proof. unfold dm. destruct d; reflexivity. Qed.
Lemma dm_half rec s t v s1 a s2 : bit a -> exec_local rec true (dm s [mkMsg t v] s1 [mkMsg t a] s2 []) =
  (Ok [], dm s [mkMsg t v] s1 [mkMsg t a] s2 []).
Proof.
  intros B. unfold dm. cbn [exec_local exec_ctrl_local]. unfold demux_join. cbn [o_data ip_data mtime o_ctrl demux_scan]. unfold port_trim.
  cbn [ip_sum ip_data ip_id ip_max drop_older mtime mval]. rewrite Z.ltb_irrefl. cbn [ip_data mtime mval]. rewrite Z.eqb_refl, bit_test by assumption. reflexivity.
Qed.
Lemma dm_passes rec s t v s1 a s2 b : bit a -> bit b -> exec_local rec true (dm s [mkMsg t v] s1 [mkMsg t a] s2 [mkMsg t b]) =
  (Ok (let out := if veq a v1 then [("o1", [mkMsg t v])] else [] in if veq b v1 then semplace "o2" [mkMsg t v] out else out),
   dm (vsub s v) [] (vsub s1 a) [] (vsub s2 b) []).
Proof.
  intros A B. unfold dm. cbn [exec_local exec_ctrl_local]. unfold demux_join. cbn [o_data ip_data mtime o_ctrl demux_scan]. unfold port_trim.
  cbn [ip_sum ip_data ip_id ip_max drop_older mtime mval]. rewrite Z.ltb_irrefl. cbn [ip_data mtime mval]. rewrite Z.eqb_refl, !bit_test by assumption.
  cbn [andb rbind]. cbn [length Z.of_nat]. change (0 + 1 + 1 =? Z.of_nat 2) with true. cbv iota.
  cbn [demux_out ip_data mval sfind String.eqb Ascii.eqb Bool.eqb]. destruct (veq a v1), (veq b v1); reflexivity.
Qed.
Lemma dm_to_first rec s t v s1 s2 : exec_local rec true (dm s [mkMsg t v] s1 [mkMsg t (vofZ 1)] s2 [mkMsg t v0]) =
  (Ok [("o1", [mkMsg t v])], dm (vsub s v) [] (vsub s1 (vofZ 1)) [] (vsub s2 v0) []).
Proof. rewrite dm_passes by (cbv [bit]; auto). destruct one_zero as [-> ->]. reflexivity. Qed.
Lemma dm_to_both rec s t v s1 s2 : exec_local rec true (dm s [mkMsg t v] s1 [mkMsg t (vofZ 1)] s2 [mkMsg t (vofZ 1)]) =
  (Ok [("o1", [mkMsg t v]); ("o2", [mkMsg t v])], dm (vsub s v) [] (vsub s1 (vofZ 1)) [] (vsub s2 (vofZ 1)) []).
Proof. rewrite dm_passes by (cbv [bit]; auto). destruct one_zero as [-> _]. reflexivity. Qed.

(** ** The sum *)

Lemma exec_plus rec id s1 t x s2 y cs : exec_local rec false (jop id s1 [mkMsg t x] s2 [mkMsg t y] cs (KBinary BPlus)) =
  (Ok (out1 (mkMsg t (vadd x y))), jop id (vsub s1 x) [] (vsub s2 y) [] cs (KBinary BPlus)).
Proof. unfold jop. cbn [exec_local op_kind exec_data_local]. erewrite j_ready; [|reflexivity|reflexivity|reflexivity]. reflexivity. Qed.

(** ** The variables *)

(** the data of the variables while the times are one apart: the last message came at [t] *)
Definition data1 (t : Z) (b : V) (d : list msg) : Prop := d = [mkMsg (t + 1) b] \/ exists w, d = [mkMsg t w; mkMsg (t + 1) b].
Definition data2 (t u : Z) (a b : V) (d : list msg) : Prop :=
  d = [mkMsg u a; mkMsg (t + 2) b] \/ exists m, mtime m < u /\ d = [m; mkMsg u a; mkMsg (t + 2) b].

Lemma var_newer rec id s t b d s1 v cs i tp : data1 t b d ->
  exec_local rec true (var id s d s1 [mkMsg (t + 1) v] cs i tp) = (Ok (out1 (mkMsg (t + 1) b)), var id s [mkMsg (t + 1) b] s1 [] cs true tp).
Proof.
  intros [->|[w ->]]; unfold var; cbn [exec_local exec_ctrl_local]; unfold var_query; cbn [o_data o_ctrl ip_data mtime mval].
  - rewrite Z.ltb_irrefl, Z.leb_refl, Z.eqb_refl. reflexivity.
  - destruct (Z.ltb_spec (t + 1) t); [lia|]. cbn [andb]. destruct (Z.leb_spec t (t + 1)); [|lia]. destruct (Z.eqb_spec (t + 1) t); [lia|].
    cbn [var_loop mtime mval]. rewrite Z.ltb_irrefl, andb_false_r, Z.eqb_refl. reflexivity.
Qed.
Lemma var_older rec id s t u a b d s1 v cs i tp : data2 t u a b d -> u <= t + 1 ->
  exec_local rec true (var id s d s1 [mkMsg (t + 1) v] cs i tp) =
  (Ok (out1 (mkMsg (t + 1) a)), var id s [mkMsg u a; mkMsg (t + 2) b] s1 [] cs true tp).
Proof.
  intros [->|[m [Hm ->]]] Hu; unfold var; cbn [exec_local exec_ctrl_local]; unfold var_query; cbn [o_data o_ctrl ip_data mtime mval].
  - destruct (Z.ltb_spec (t + 1) u); [lia|]. cbn [andb]. destruct (Z.leb_spec u (t + 1)); [|lia]. destruct (Z.eqb_spec (t + 1) u); [reflexivity|].
    cbn [var_loop mtime mval]. destruct (Z.ltb_spec u (t + 1)); [|lia]. destruct (Z.ltb_spec (t + 1) (t + 2)); [|lia]. reflexivity.
  - destruct (Z.ltb_spec (t + 1) (mtime m)); [lia|]. cbn [andb]. destruct (Z.leb_spec (mtime m) (t + 1)); [|lia]. destruct (Z.eqb_spec (t + 1) (mtime m)); [lia|].
    cbn [var_loop mtime mval]. destruct (Z.ltb_spec (t + 1) u); [lia|]. rewrite andb_false_r. destruct (Z.eqb_spec (t + 1) u); [reflexivity|].
    destruct (Z.ltb_spec u (t + 1)); [|lia]. destruct (Z.ltb_spec (t + 1) (t + 2)); [|lia]. reflexivity.
Qed.

(** a question that replaces an unanswered one *)
Definition question (q : list msg) : Prop := (length q <= 1)%nat.
Definition asked_sum (s : V) (q : list msg) (v : V) : V := match q with [] => vadd s v | x :: _ => vadd (vsub s (mval x)) v end.
Lemma var_ask id s d s1 q cs i tp t v : question q ->
  recv_ctrl_local (var id s d s1 q cs i tp) (mkMsg t v) "c1" = (Ok tt, var id s d (asked_sum s1 q v) [mkMsg t v] cs i tp).
Proof. unfold question. destruct q as [|x [|y q]]; cbn [length]; intros H; [reflexivity|reflexivity|lia]. Qed.

(** a question later than all data *)
Lemma var_no rec id s d s1 q v cs i tp : before q d -> d <> [] ->
  exec_local rec true (var id s d s1 [mkMsg q v] cs i tp) = (Ok [], var id s (trim d) s1 [mkMsg q v] cs true tp).
Proof.
  intros H Hd. unfold var. cbn [exec_local exec_ctrl_local]. unfold var_query. cbn [o_data o_ctrl ip_data]. destruct d as [|m d]; [congruence|].
  inversion H as [|x y Hm Hr]; subst. cbn [mtime]. destruct (Z.ltb_spec q (mtime m)); [lia|]. cbn [andb].
  destruct (Z.leb_spec (mtime m) q); [|lia]. destruct (Z.eqb_spec q (mtime m)); [lia|]. rewrite var_loop_old by exact H. reflexivity.
Qed.
(** a question for the time of the last value *)
Lemma var_last rec id s t u a b d s1 v cs i tp : data2 t u a b d -> u <= t + 1 ->
  exec_local rec true (var id s d s1 [mkMsg (t + 2) v] cs i tp) = (Ok (out1 (mkMsg (t + 2) b)), var id s [mkMsg (t + 2) b] s1 [] cs true tp).
Proof.
  intros [->|[m [Hm ->]]] Hu; unfold var; cbn [exec_local exec_ctrl_local]; unfold var_query; cbn [o_data o_ctrl ip_data mtime mval].
  - destruct (Z.ltb_spec (t + 2) u); [lia|]. cbn [andb]. destruct (Z.leb_spec u (t + 2)); [|lia]. destruct (Z.eqb_spec (t + 2) u); [lia|].
    cbn [var_loop mtime mval]. rewrite Z.ltb_irrefl, andb_false_r, Z.eqb_refl. reflexivity.
  - destruct (Z.ltb_spec (t + 2) (mtime m)); [lia|]. cbn [andb]. destruct (Z.leb_spec (mtime m) (t + 2)); [|lia]. destruct (Z.eqb_spec (t + 2) (mtime m)); [lia|].
    cbn [var_loop mtime mval]. destruct (Z.ltb_spec (t + 2) u); [lia|]. rewrite andb_false_r. destruct (Z.eqb_spec (t + 2) u); [lia|].
    rewrite Z.ltb_irrefl, andb_false_r, Z.eqb_refl. reflexivity.
Qed.

(** ** States *)

Definition c_in : list (string * string) := [("count1", "i1"); ("demul1", "i1")].
Definition c_count : list (string * string) := [("eq1", "i1"); ("eq2", "i1"); ("gt1", "i1")].
Definition c_n1 : list (string * string) := [("plus1", "i2")].
Definition c_n2 : list (string * string) := [("plus1", "i1")].

Definition statics (h : heap) : Prop :=
  slot h "eq1" [("constc1eq1", "i1"); ("constc2eq1", "i1")] (KFilter FEqual (vofZ 1)) /\
  slot h "eq2" [("constc1eq2", "i1"); ("constc2eq2", "i1")] (KFilter FEqual (vofZ 2)) /\
  slot h "gt1" [("varn_1", "c1"); ("varn_2", "c1")] (KFilter FGreater (vofZ 2)) /\
  slot h "constc1eq1" [("demul1", "c1")] (KConstant (vofZ 1)) /\
  slot h "constc2eq1" [("demul1", "c2")] (KConstant v0) /\
  slot h "constc1eq2" [("demul1", "c1")] (KConstant (vofZ 1)) /\
  slot h "constc2eq2" [("demul1", "c2")] (KConstant (vofZ 1)) /\
  slot h "dt1" [("constdt1", "i1")] (KTimeShift 1 1) /\
  slot h "dt2" [("constdt2", "i1")] (KTimeShift 1 2) /\
  slot h "dt3" [("varn_1", "i1")] (KTimeShift 1 1) /\
  slot h "dt4" [("varn_2", "i1")] (KTimeShift 1 2) /\
  slot h "constdt1" [("varn_1", "i1")] (KConstant (vofZ 1)) /\
  slot h "constdt2" [("varn_2", "i1")] (KConstant (vofZ 1)).

(** the entry and the count; [k] messages were accepted *)
Definition counted (k : Z) (ls : smap msg) (h : heap) : Prop :=
  slot h "count1" c_count (KCount k) /\ slot h "in1" c_in (KInput [("i1", "o1")] ls).
Definition demux (h : heap) (d : list msg) : Prop := exists s s1 s2, sfind "demul1" h = Some (dm s d s1 [] s2 []).
Definition holds (h : heap) (id : string) (cs : list (string * string)) (d : list msg) : Prop :=
  exists s s1 i tp, sfind id h = Some (var id s d s1 [] cs i tp) /\ toproc tp.
Definition total (h : heap) : Prop :=
  exists s1 s2, sfind "plus1" h = Some (jop "plus1" s1 [] s2 [] [("dt3", "i1"); ("dt4", "i1")] (KBinary BPlus)).

(** no message yet; one message, at [t] *)
Definition none (ls : smap msg) (h : heap) : Prop :=
  statics h /\ counted 0 ls h /\ demux h [] /\ holds h "varn_1" c_n1 [] /\ holds h "varn_2" c_n2 [] /\ total h.
Definition one (t : Z) (ls : smap msg) (h : heap) : Prop :=
  statics h /\ counted 1 ls h /\ demux h [] /\ holds h "varn_1" c_n1 [] /\ holds h "varn_2" c_n2 [mkMsg (t + 2) (vofZ 1)] /\ total h.
(** the last message came at [t]; [a] and [b] are the last two numbers *)
Definition going (k t : Z) (a b : V) (kept : list msg) (ls : smap msg) (h : heap) : Prop :=
  statics h /\ counted k ls h /\ demux h kept /\
  (exists d, data1 t b d /\ holds h "varn_1" c_n1 d) /\
  (exists u d, u <= t + 1 /\ data2 t u a b d /\ holds h "varn_2" c_n2 d) /\ total h.
(** there was a gap: the last message came at [t], all numbers are for earlier times or for [t] *)
Definition silent (h : heap) (id : string) (cs : list (string * string)) (t : Z) : Prop :=
  exists s s1 d q i tp, sfind id h = Some (var id s d s1 q cs i tp) /\ toproc tp /\ before (t + 1) d /\ d <> [] /\ question q.
Definition partly (h : heap) : Prop :=
  exists s1 d1 s2, sfind "plus1" h = Some (jop "plus1" s1 d1 s2 [] [("dt3", "i1"); ("dt4", "i1")] (KBinary BPlus)).
Definition stuck (k t : Z) (kept : list msg) (ls : smap msg) (h : heap) : Prop :=
  statics h /\ counted k ls h /\ demux h kept /\ silent h "varn_1" c_n1 t /\ silent h "varn_2" c_n2 t /\ partly h.

Definition sends (n : nat) (m : msg) (h h' : heap) (r : list msg) : Prop :=
  exists out, send1 n "in1" "i1" m h = (Ok out, h') /\ wf_pm out /\ result_at out "plus1" "o1" = r.

Lemma send_runs' n k h h2 t v r r' s d : sfind "in1" h = Some (sop "in1" s d c_in k []) -> plain_kind k = true -> narrow d ->
  runs "plus1" n false "in1" (upd [("in1", sop "in1" (sum_after s d v) [mkMsg t v] c_in k ["i1"])] h) h2 r -> r = r' -> sends n (mkMsg t v) h h2 r'.
Proof. intros F K Hd R <-. unfold sends, send1. rewrite F, sop_receive by assumption. exact R. Qed.

Definition count_tests (k : Z) (e1 e2 g2 : bool) : Prop :=
  filter_test FEqual (vofZ 1) (vofZ (wrap (k + 1))) = e1 /\ filter_test FEqual (vofZ 2) (vofZ (wrap (k + 1))) = e2 /\
  filter_test FGreater (vofZ 2) (vofZ (wrap (k + 1))) = g2.
Lemma count_tests_all k : 0 <= k -> k + 1 < 2 ^ 53 -> count_tests k (k + 1 =? 1) (k + 1 =? 2) (2 <? k + 1).
Proof. intros H1 H2. destruct (tests (k + 1)) as (T1 & T2 & T3); [lia|]. unfold count_tests. rewrite T2, !T3 by lia. auto. Qed.
End Operators.

Ltac receives ::= first
  [ apply sop_receive; [shut | reflexivity]
  | apply dm_takes
  | apply j_receive1; reflexivity
  | apply j_receive2; reflexivity
  | apply var_receive; shut ].
Ltac controls ::= first [apply dm_ask1 | apply dm_ask2 | apply var_asked | apply var_ask; assumption].
Ltac executes ::= first
  [ apply exec_constant | apply exec_count | apply exec_passes; assumption | apply exec_stops; assumption
  | apply exec_shift; assumption | apply exec_shift2; assumption
  | apply exec_accepts; assumption | apply exec_refuses; assumption
  | apply dm_idle | apply dm_keeps | apply dm_to_first | apply dm_to_both | apply dm_half; shut
  | apply j_waits1; reflexivity | apply j_waits2; reflexivity | apply exec_plus
  | apply var_idle | apply var_newer; eassumption | eapply var_older; eassumption | apply var_no; assumption | eapply var_last; eassumption ].
Ltac unpack ::= unfold none, one, going, stuck, statics, counted, demux, holds, total, silent, partly, slot in * |-;
  repeat match goal with
  | H : _ /\ _ |- _ => destruct H
  | H : exists _, _ |- _ => destruct H
  end.
Ltac pack ::= unfold statics, counted, demux, total, partly, slot;
  repeat match goal with |- _ /\ _ => split end.
Ltac enter ::= eapply send_runs'; [eassumption | reflexivity | assumption | run_one | cbn [app]; rewrite ?app_nil_r; reflexivity].
Ltac counts k ::= destruct (count_tests_all k) as (T1 & T2 & T3); [lia|lia|];
  repeat match goal with
  | T : _ = (?x =? ?y) |- _ => first [rewrite (proj2 (Z.eqb_neq x y)) in T by lia | rewrite (proj2 (Z.eqb_eq x y)) in T by lia]
  | T : _ = (?x <? ?y) |- _ => first [rewrite (proj2 (Z.ltb_lt x y)) in T by lia | rewrite (proj2 (Z.ltb_ge x y)) in T by lia]
  end.
Ltac filed ::= match goal with
  | |- exists s d, sfind _ _ = Some (sop _ s d _ _ _) /\ _ => eexists _, _; split; [known|shut]
  | |- exists s s1 s2, sfind _ _ = Some (dm _ _ _ _ _ _) => eexists _, _, _; known
  | |- exists s1 s2, sfind _ _ = Some (jop _ _ _ _ _ _ _) => eexists _, _; known
  | |- exists s1 d1 s2, sfind _ _ = Some (jop _ _ _ _ _ _ _) => eexists _, _, _; known
  | |- holds _ _ _ _ => eexists _, _, _, _; split; [known|shut]
  end.

Section Rounds.
Context {NO : NumOps} {NC : NumCount NO}.

(** a message that is not later than those before *)
Lemma round_stale n k ls h t v : counted k ls h -> accepted ls t = false -> (2 < n)%nat ->
  exists h', sends n (mkMsg t v) h h' [] /\ (forall id, id <> "in1" -> sfind id h' = sfind id h) /\ slot h' "in1" c_in (KInput [("i1", "o1")] ls).
Proof.
  intros C A Hn. unpack. do 2 (destruct n as [|n]; [lia|]). eexists. split; [enter|]. split.
  - intros id Hid. rewrite find_upd. cbn [sfind]. destruct (String.eqb_spec id "in1"); [congruence|]. reflexivity.
  - pack. eexists _, _. split; [find|shut].
Qed.

Lemma round_first n ls h t v : none ls h -> accepted ls t = true -> soon t -> (18 < n)%nat ->
  exists h', sends n (mkMsg t v) h h' [] /\ one t (latest (mkMsg t v) ls) h'.
Proof.
  intros P A Ht Hn. counts 0. unpack. do 19 (destruct n as [|n]; [lia|]). clear Hn. eexists. split; [enter|].
  conceal. unfold one. change (wrap (0 + 1)) with 1 in FU. pack. all: filed.
Qed.

Lemma round_second n ls h t0 t v : one t0 ls h -> accepted ls t = true -> t0 < t -> soon t -> (18 < n)%nat ->
  exists h', sends n (mkMsg t v) h h' [] /\ going 2 t (vofZ 1) (vofZ 1) [] (latest (mkMsg t v) ls) h'.
Proof.
  intros P A H0 Ht Hn. counts 1. unpack. do 19 (destruct n as [|n]; [lia|]). clear Hn. eexists. split; [enter|].
  conceal. unfold going. change (wrap (1 + 1)) with 2 in FU. pack. all: try filed.
  - exists [mkMsg (t + 1) (vofZ 1)]. split; [now left|filed].
  - exists (t0 + 2), [mkMsg (t0 + 2) (vofZ 1); mkMsg (t + 2) (vofZ 1)]. split; [lia|]. split; [now left|filed].
Qed.

(** the next message comes one unit later *)
Lemma round_next n k t a b kept ls h v : going k t a b kept ls h -> accepted ls (t + 1) = true -> 2 <= k -> k + 1 < 2 ^ 53 -> soon (t + 1) -> (18 < n)%nat ->
  exists h', sends n (mkMsg (t + 1) v) h h' [mkMsg (t + 1) (vadd a b)] /\
    going (k + 1) (t + 1) b (vadd a b) (kept ++ [mkMsg (t + 1) v]) (latest (mkMsg (t + 1) v) ls) h'.
Proof.
  intros P A K1 K2 Ht Hn. counts k. unpack. do 19 (destruct n as [|n]; [lia|]). clear Hn. eexists. split; [enter|].
  conceal. unfold going. rewrite wrap_id in FU by (unfold two64; lia). pack. all: try filed.
  - exists [mkMsg (t + 1) b; mkMsg (t + 1 + 1) (vadd a b)]. split; [right; eexists; reflexivity|filed].
  - match goal with H : data2 _ ?u _ _ _, Hu : ?u <= _ |- _ => exists (t + 2), [mkMsg u a; mkMsg (t + 2) b; mkMsg (t + 1 + 2) (vadd a b)]; split; [lia|];
      split; [right; eexists; split; [|reflexivity]; cbn [mtime]; lia|filed] end.
Qed.

Lemma data1_before t b d q : data1 t b d -> t + 1 < q -> before q d /\ d <> [].
Proof. intros [->|[w ->]] H; (split; [|discriminate]); repeat constructor; cbn [mtime]; lia. Qed.
Lemma data2_before t u a b d q : data2 t u a b d -> u <= t + 1 -> t + 2 < q -> before q d /\ d <> [].
Proof. intros [->|(m & Hm & ->)] Hu H; (split; [|discriminate]); repeat constructor; cbn [mtime]; lia. Qed.
Lemma trim_before q d : before q d -> d <> [] -> before (q + 1) (trim d) /\ trim d <> [].
Proof.
  intros H Hd. pose proof (before_last _ _ H Hd) as L. unfold trim. destruct d as [|m d]; [congruence|]. split; [|discriminate]. constructor; [lia|constructor].
Qed.
Lemma one_question m : question [m].
Proof. unfold question. cbn. lia. Qed.
Lemma no_question : question [].
Proof. unfold question. cbn. lia. Qed.

(** one unit too late: the older number is found, the newer is not *)
Lemma round_late n k t a b kept ls h v : going k t a b kept ls h -> accepted ls (t + 2) = true -> 2 <= k -> k + 1 < 2 ^ 53 -> soon (t + 2) -> (18 < n)%nat ->
  exists h', sends n (mkMsg (t + 2) v) h h' [] /\ stuck (k + 1) (t + 2) (kept ++ [mkMsg (t + 2) v]) (latest (mkMsg (t + 2) v) ls) h'.
Proof.
  intros P A K1 K2 Ht Hn. counts k. unpack.
  match goal with H : data1 _ _ _ |- _ => destruct (data1_before _ _ _ (t + 2) H ltac:(lia)) as (B1 & B2) end.
  destruct (trim_before _ _ B1 B2) as (B3 & B4).
  do 19 (destruct n as [|n]; [lia|]). clear Hn. eexists. split; [enter|].
  conceal. unfold stuck. rewrite wrap_id in FU by (unfold two64; lia). pack. all: try filed.
  - eexists _, _, _, _, _, _. split; [known|]. split; [shut|]. split; [eassumption|]. split; [assumption|]. apply one_question.
  - eexists _, _, _, _, _, _. split; [known|]. split; [shut|]. split; [constructor; [cbn [mtime]; lia|constructor]|]. split; [discriminate|]. apply no_question.
Qed.

(** later than that *)
Lemma round_very_late n k t a b kept ls h t' v : going k t a b kept ls h -> accepted ls t' = true -> 2 <= k -> k + 1 < 2 ^ 53 -> t + 2 < t' -> soon t' -> (18 < n)%nat ->
  exists h', sends n (mkMsg t' v) h h' [] /\ stuck (k + 1) t' (kept ++ [mkMsg t' v]) (latest (mkMsg t' v) ls) h'.
Proof.
  intros P A K1 K2 Hl Ht Hn. counts k. unpack.
  match goal with H : data1 _ _ _ |- _ => destruct (data1_before _ _ _ t' H ltac:(lia)) as (B1 & B2) end.
  match goal with H : data2 _ _ _ _ _ |- _ => destruct (data2_before _ _ _ _ _ t' H ltac:(lia) ltac:(lia)) as (B5 & B6) end.
  destruct (trim_before _ _ B1 B2) as (B3 & B4). destruct (trim_before _ _ B5 B6) as (B7 & B8).
  do 19 (destruct n as [|n]; [lia|]). clear Hn. eexists. split; [enter|].
  conceal. unfold stuck. rewrite wrap_id in FU by (unfold two64; lia). pack. all: try filed.
  all: eexists _, _, _, _, _, _; split; [known|]; split; [shut|]; split; [eassumption|]; split; [assumption|]; apply one_question.
Qed.

(** after a gap nothing is found any more *)
Lemma round_stuck n k t kept ls h t' v : stuck k t kept ls h -> accepted ls t' = true -> 2 <= k -> k + 1 < 2 ^ 53 -> t < t' -> soon t' -> (18 < n)%nat ->
  exists h', sends n (mkMsg t' v) h h' [] /\ stuck (k + 1) t' (kept ++ [mkMsg t' v]) (latest (mkMsg t' v) ls) h'.
Proof.
  intros P A K1 K2 Hl Ht Hn. counts k. unpack.
  repeat match goal with B : before (t + 1) ?d, B' : ?d <> [] |- _ =>
    let X := fresh "X" in let Y := fresh "Y" in assert (X : before t' d) by (eapply before_more; [exact B|lia]); destruct (trim_before _ _ X B') as (? & ?); clear B end.
  do 19 (destruct n as [|n]; [lia|]). clear Hn. eexists. split; [enter|].
  conceal. unfold stuck. rewrite wrap_id in FU by (unfold two64; lia). pack. all: try filed.
  all: eexists _, _, _, _, _, _; split; [known|]; split; [shut|]; split; [eassumption|]; split; [assumption|]; apply one_question.
Qed.
End Rounds.
