(** * The operators of the generated program with feedback (C91) *)

From Coq Require Import String ZArith Bool List Lia.
From Verif Require Import Base.StrMap Base.Num Base.NumCount Model.Core Model.Ops Model.Make Model.Graph.
From Verif Require Import Spec.Feedback Proofs.Symbolic.
Import ListNotations.
Open Scope string_scope.
Open Scope list_scope.
Open Scope Z_scope.
Open Scope rtbot_scope.

Section Operators.
Context {NO : NumOps} {NC : NumCount NO} {NT : NumTime NO}.

Definition big : Z := 18446744073709551615.

(** ** Operators with one input that keeps one message *)

Definition narrow (d : list msg) : Prop := (length d <= 1)%nat.
Definition wires (cs : list (string * string)) : smap (list (string * string)) := match cs with [] => [] | _ => [("o1", cs)] end.
Definition sop (id : string) (s : V) (d : list msg) (cs : list (string * string)) (k : kind) (tp : list string) : op :=
  Op (mkBase id [("i1", mkPort "i1" 1 s d)] [] ["o1"] (wires cs) tp) k.

Definition sum_after (s : V) (d : list msg) (v : V) : V :=
  match d with [] => vadd s v | x :: _ => vadd (vsub s (mval x)) v end.
Lemma slot_receive name s d t v : narrow d -> port_receive (mkPort name 1 s d) (mkMsg t v) = Ok (mkPort name 1 (sum_after s d v) [mkMsg t v]).
Proof.
  unfold narrow. destruct d as [|x [|y d]]; cbn [length]; intros H; [reflexivity|reflexivity|lia].
Qed.

Definition plain_kind (k : kind) : bool :=
  match k with
  | KConstant _ | KFilter _ _ | KCount _ | KInput _ _ | KCumSum _ | KScale _ | KAdd _ | KPower _ | KTimeShift _ _ | KOutput _ => true
  | _ => false
  end.
Lemma sop_receive n id s d cs k t v : narrow d -> plain_kind k = true ->
  recv_data n (sop id s d cs k []) (mkMsg t v) "i1" = (Ok tt, sop id (sum_after s d v) [mkMsg t v] cs k ["i1"]).
Proof.
  intros H K. unfold sop. destruct k; try discriminate K; destruct n; cbn [recv_data op_kind recv_data_local]; unfold recv_data_base;
    cbn [o_data resolve String.eqb sfind Ascii.eqb Bool.eqb]; rewrite slot_receive by assumption; reflexivity.
Qed.

Lemma exec_constant rec id s t v cs x : exec_local rec false (sop id s [mkMsg t v] cs (KConstant x) ["i1"]) =
  (Ok (out1 (mkMsg t x)), sop id s [mkMsg t v] cs (KConstant x) []).
Proof. reflexivity. Qed.
Lemma exec_count rec id s t v cs k : exec_local rec false (sop id s [mkMsg t v] cs (KCount k) ["i1"]) =
  (Ok (out1 (mkMsg t (vofZ (wrap (k + 1))))), sop id s [mkMsg t v] cs (KCount (wrap (k + 1))) []).
Proof. reflexivity. Qed.
Lemma exec_filter rec id s t v cs f x : exec_local rec false (sop id s [mkMsg t v] cs (KFilter f x) ["i1"]) =
  (Ok (if filter_test f x v then out1 (mkMsg t v) else []), sop id s [mkMsg t v] cs (KFilter f x) []).
Proof. reflexivity. Qed.
Lemma exec_passes rec id s t v cs f x : filter_test f x v = true ->
  exec_local rec false (sop id s [mkMsg t v] cs (KFilter f x) ["i1"]) = (Ok (out1 (mkMsg t v)), sop id s [mkMsg t v] cs (KFilter f x) []).
Proof. intros T. rewrite exec_filter, T. reflexivity. Qed.
Lemma exec_stops rec id s t v cs f x : filter_test f x v = false ->
  exec_local rec false (sop id s [mkMsg t v] cs (KFilter f x) ["i1"]) = (Ok [], sop id s [mkMsg t v] cs (KFilter f x) []).
Proof. intros T. rewrite exec_filter, T. reflexivity. Qed.
Lemma exec_sum rec id s t v cs x : exec_local rec false (sop id s [mkMsg t v] cs (KCumSum x) ["i1"]) =
  (Ok (out1 (mkMsg t (vadd x v))), sop id s [mkMsg t v] cs (KCumSum (vadd x v)) []).
Proof. reflexivity. Qed.
Lemma exec_scale rec id s t v cs x : exec_local rec false (sop id s [mkMsg t v] cs (KScale x) ["i1"]) =
  (Ok (out1 (mkMsg t (vmul v x))), sop id s [mkMsg t v] cs (KScale x) []).
Proof. reflexivity. Qed.
Lemma exec_add rec id s t v cs x : exec_local rec false (sop id s [mkMsg t v] cs (KAdd x) ["i1"]) =
  (Ok (out1 (mkMsg t (vadd v x))), sop id s [mkMsg t v] cs (KAdd x) []).
Proof. reflexivity. Qed.
Lemma exec_power rec id s t v cs x : exec_local rec false (sop id s [mkMsg t v] cs (KPower x) ["i1"]) =
  (Ok (out1 (mkMsg t (vpow v x))), sop id s [mkMsg t v] cs (KPower x) []).
Proof. reflexivity. Qed.
Definition soon (t : Z) : Prop := 0 <= t < 2 ^ 53.
Lemma exec_shift rec id s t v cs : soon t -> exec_local rec false (sop id s [mkMsg t v] cs (KTimeShift 1 1) ["i1"]) =
  (Ok (out1 (mkMsg (t + 1) v)), sop id s [mkMsg t v] cs (KTimeShift 1 1) []).
Proof.
  intros H. assert (E : shift_time 1 1 t = t + 1).
  { unfold shift_time. change (wrap (1 * wrap 1)) with 1. change (1 >? 0) with true. rewrite orb_true_r. apply wrap_id. unfold soon, two64 in *. lia. }
  rewrite <- E. reflexivity.
Qed.
Lemma exec_output rec id s t v : exec_local rec false (sop id s [mkMsg t v] [] (KOutput [("i1", "o1")]) ["i1"]) =
  (Ok (out1 (mkMsg t v)), sop id s [mkMsg t v] [] (KOutput [("i1", "o1")]) []).
Proof. reflexivity. Qed.

Definition latest (m : msg) (ls : smap msg) : smap msg := sset "i1" m ls.
Definition accepted (ls : smap msg) (t : Z) : bool := match sfind "i1" ls with Some l => mtime l <? t | None => true end.
Lemma exec_entry rec id s t v cs ls : exec_local rec false (sop id s [mkMsg t v] cs (KInput [("i1", "o1")] ls) ["i1"]) =
  if accepted ls t
  then (Ok (out1 (mkMsg t v)), sop id s [mkMsg t v] cs (KInput [("i1", "o1")] (latest (mkMsg t v) ls)) [])
  else (Ok [], sop id s [mkMsg t v] cs (KInput [("i1", "o1")] ls) []).
Proof.
  unfold accepted, latest. cbn -[Z.ltb]. change (1 <? 1) with false. cbn -[Z.ltb]. destruct (sfind "i1" ls) as [l|]; [|reflexivity].
  cbn -[Z.ltb]. change (0 <? 0) with false. change (0 <? 1) with true. cbv iota. change (mtime (mkMsg t v)) with t. destruct (mtime l <? t); reflexivity.
Qed.
Lemma exec_accepts rec id s t v cs ls : accepted ls t = true ->
  exec_local rec false (sop id s [mkMsg t v] cs (KInput [("i1", "o1")] ls) ["i1"]) =
  (Ok (out1 (mkMsg t v)), sop id s [mkMsg t v] cs (KInput [("i1", "o1")] (latest (mkMsg t v) ls)) []).
Proof. intros A. rewrite exec_entry, A. reflexivity. Qed.
Lemma exec_refuses rec id s t v cs ls : accepted ls t = false ->
  exec_local rec false (sop id s [mkMsg t v] cs (KInput [("i1", "o1")] ls) ["i1"]) =
  (Ok [], sop id s [mkMsg t v] cs (KInput [("i1", "o1")] ls) []).
Proof. intros A. rewrite exec_entry, A. reflexivity. Qed.

(** ** The differences *)

Definition dif (id : string) (s : V) (d : list msg) (cs : list (string * string)) (tp : list string) : op :=
  Op (mkBase id [("i1", mkPort "i1" 2 s d)] [] ["o1"] [("o1", cs)] tp) (KDifference true).
(** the last message kept is [p] *)
Definition ends (p : msg) (d : list msg) : Prop := d = [p] \/ exists o, d = [o; p].
Definition dif_sum (s : V) (d : list msg) (v : V) : V := match d with [x; _] => vadd (vsub s (mval x)) v | _ => vadd s v end.
Lemma dif_receive0 n id s cs t v : recv_data n (dif id s [] cs []) (mkMsg t v) "i1" = (Ok tt, dif id (vadd s v) [mkMsg t v] cs ["i1"]).
Proof. destruct n; reflexivity. Qed.
Lemma dif_receive n id s d cs p t v : ends p d ->
  recv_data n (dif id s d cs []) (mkMsg t v) "i1" = (Ok tt, dif id (dif_sum s d v) [p; mkMsg t v] cs ["i1"]).
Proof. intros [->|[o ->]]; destruct n; reflexivity. Qed.
Lemma dif_waits rec id s m cs : exec_local rec false (dif id s [m] cs ["i1"]) = (Ok [], dif id s [m] cs []).
Proof. reflexivity. Qed.
Lemma dif_exec rec id s pt pv t v cs : soon t -> exec_local rec false (dif id s [mkMsg pt pv; mkMsg t v] cs ["i1"]) =
  (Ok (out1 (mkMsg t (vsub v pv))), dif id s [mkMsg pt pv; mkMsg t v] cs []).
Proof.
  intros H. assert (E : toT (vofZ t) = Ok t) by (unfold toT; rewrite vtoT_vofZ by (unfold soon in H; lia); reflexivity).
  unfold exec_local. cbn -[toT Z.ltb]. change (2 <? 2) with false. cbv iota. cbn -[toT]. change (Pos.to_nat 1) with 1%nat. cbn -[toT]. change (mtime (mkMsg t v)) with t.
  rewrite E. reflexivity.
Qed.

(** ** The demultiplexer *)

Definition dmop (s : V) (d : list msg) (s1 : V) (d1 : list msg) (s2 : V) (d2 : list msg) : op :=
  Op (mkBase "144" [("i1", mkPort "i1" big s d)] [("c1", mkPort "c1" big s1 d1); ("c2", mkPort "c2" big s2 d2)] ["o1"; "o2"]
        [("o1", [("34", "i1")]); ("o2", [("887", "i1")])] [])
     (KDemux [("c1", "o1"); ("c2", "o2")]).

Lemma dm_receive n s s1 s2 t v : recv_data n (dmop s [] s1 [] s2 []) (mkMsg t v) "i1" = (Ok tt, dmop (vadd s v) [mkMsg t v] s1 [] s2 []).
Proof. destruct n; reflexivity. Qed.
Lemma dm_c1 s d s1 s2 d2 t v : recv_ctrl_local (dmop s d s1 [] s2 d2) (mkMsg t v) "c1" = (Ok tt, dmop s d (vadd s1 v) [mkMsg t v] s2 d2).
Proof. reflexivity. Qed.
Lemma dm_c2 s d s1 d1 s2 t v : recv_ctrl_local (dmop s d s1 d1 s2 []) (mkMsg t v) "c2" = (Ok tt, dmop s d s1 d1 (vadd s2 v) [mkMsg t v]).
Proof. reflexivity. Qed.
Lemma dm_waits rec s m s1 s2 : exec_local rec false (dmop s [m] s1 [] s2 []) = (Ok [], dmop s [m] s1 [] s2 []).
Proof. reflexivity. Qed.
Definition bit (v : V) : Prop := v = v0 \/ v = vofZ 1.
Lemma bit_test v : bit v -> veq v v1 || veq v v0 = true.
Proof.
  intros [->| ->].
  - rewrite <- vofZ_0, (vofZ_eq 0 0) by lia. apply orb_true_r.
  - rewrite <- vofZ_1, (vofZ_eq 1 1) by lia. reflexivity.
Qed.
Lemma dm_one rec s t v s1 a s2 : bit a -> exec_local rec true (dmop s [mkMsg t v] s1 [mkMsg t a] s2 []) =
  (Ok [], dmop s [mkMsg t v] s1 [mkMsg t a] s2 []).
Proof.
  intros B. unfold dmop. cbn [exec_local exec_ctrl_local]. unfold demux_join. cbn [o_data ip_data mtime o_ctrl demux_scan]. unfold port_trim.
  cbn [ip_sum ip_data ip_id ip_max drop_older mtime mval]. rewrite Z.ltb_irrefl. cbn [ip_data mtime mval]. rewrite Z.eqb_refl, bit_test by assumption. reflexivity.
Qed.
Lemma dm_two rec s t v s1 s2 a : bit a -> exec_local rec true (dmop s [mkMsg t v] s1 [] s2 [mkMsg t a]) =
  (Ok [], dmop s [mkMsg t v] s1 [] s2 [mkMsg t a]).
Proof.
  intros B. unfold dmop. cbn [exec_local exec_ctrl_local]. unfold demux_join. cbn [o_data ip_data mtime o_ctrl demux_scan]. unfold port_trim.
  cbn [ip_sum ip_data ip_id ip_max drop_older mtime mval]. rewrite Z.ltb_irrefl. cbn [ip_data mtime mval]. rewrite Z.eqb_refl, bit_test by assumption. reflexivity.
Qed.
Lemma one_zero : veq (vofZ 1) v1 = true /\ veq v0 v1 = false.
Proof. rewrite <- vofZ_1, <- vofZ_0, (vofZ_eq 1 1), (vofZ_eq 0 1) by lia. auto. Qed.
Lemma dm_routes rec s t v s1 a s2 b : bit a -> bit b -> exec_local rec true (dmop s [mkMsg t v] s1 [mkMsg t a] s2 [mkMsg t b]) =
  (Ok (let out := if veq a v1 then [("o1", [mkMsg t v])] else [] in if veq b v1 then semplace "o2" [mkMsg t v] out else out),
   dmop (vsub s v) [] (vsub s1 a) [] (vsub s2 b) []).
Proof.
  intros A B. unfold dmop. cbn [exec_local exec_ctrl_local]. unfold demux_join. cbn [o_data ip_data mtime o_ctrl demux_scan]. unfold port_trim.
  cbn [ip_sum ip_data ip_id ip_max drop_older mtime mval]. rewrite Z.ltb_irrefl. cbn [ip_data mtime mval]. rewrite Z.eqb_refl, !bit_test by assumption.
  cbn [andb rbind]. cbn [length Z.of_nat]. change (0 + 1 + 1 =? Z.of_nat 2) with true. cbv iota.
  cbn [demux_out ip_data mval sfind String.eqb Ascii.eqb Bool.eqb]. destruct (veq a v1), (veq b v1); reflexivity.
Qed.
Lemma dm_first rec s t v s1 s2 : exec_local rec true (dmop s [mkMsg t v] s1 [mkMsg t (vofZ 1)] s2 [mkMsg t v0]) =
  (Ok [("o1", [mkMsg t v])], dmop (vsub s v) [] (vsub s1 (vofZ 1)) [] (vsub s2 v0) []).
Proof. rewrite dm_routes by (cbv [bit]; auto). destruct one_zero as [-> ->]. reflexivity. Qed.
Lemma dm_second rec s t v s1 s2 : exec_local rec true (dmop s [mkMsg t v] s1 [mkMsg t v0] s2 [mkMsg t (vofZ 1)]) =
  (Ok [("o2", [mkMsg t v])], dmop (vsub s v) [] (vsub s1 v0) [] (vsub s2 (vofZ 1)) []).
Proof. rewrite dm_routes by (cbv [bit]; auto). destruct one_zero as [-> ->]. reflexivity. Qed.
Lemma dm_both rec s t v s1 s2 : exec_local rec true (dmop s [mkMsg t v] s1 [mkMsg t (vofZ 1)] s2 [mkMsg t (vofZ 1)]) =
  (Ok [("o1", [mkMsg t v]); ("o2", [mkMsg t v])], dmop (vsub s v) [] (vsub s1 (vofZ 1)) [] (vsub s2 (vofZ 1)) []).
Proof. rewrite dm_routes by (cbv [bit]; auto). destruct one_zero as [-> _]. reflexivity. Qed.

(** ** Two inputs joined: the averages and the division *)

Definition jop (id : string) (s1 : V) (d1 : list msg) (s2 : V) (d2 : list msg) (cs : list (string * string)) (k : kind) : op :=
  Op (mkBase id [("i1", mkPort "i1" big s1 d1); ("i2", mkPort "i2" big s2 d2)] [] ["o1"] [("o1", cs)] []) k.
Definition joins (k : kind) : bool := match k with KBinary _ | KLinear _ => true | _ => false end.
Lemma j_receive1 n id s1 s2 d2 cs k t v : joins k = true ->
  recv_data n (jop id s1 [] s2 d2 cs k) (mkMsg t v) "i1" = (Ok tt, jop id (vadd s1 v) [mkMsg t v] s2 d2 cs k).
Proof. intros H. destruct k; try discriminate H; destruct n; reflexivity. Qed.
Lemma j_receive2 n id s1 d1 s2 cs k t v : joins k = true ->
  recv_data n (jop id s1 d1 s2 [] cs k) (mkMsg t v) "i2" = (Ok tt, jop id s1 d1 (vadd s2 v) [mkMsg t v] cs k).
Proof. intros H. destruct k; try discriminate H; destruct n; reflexivity. Qed.
Lemma j_waits1 rec id s1 s2 d2 cs k : joins k = true ->
  exec_local rec false (jop id s1 [] s2 d2 cs k) = (Ok [], jop id s1 [] s2 d2 cs k).
Proof. intros H. destruct k; try discriminate H; reflexivity. Qed.
Lemma j_waits2 rec id s1 m s2 cs k : joins k = true ->
  exec_local rec false (jop id s1 [m] s2 [] cs k) = (Ok [], jop id s1 [m] s2 [] cs k).
Proof.
  intros H. destruct k; try discriminate H; unfold jop; cbn [exec_local op_kind exec_data_local]; unfold join_exec;
    cbn [o_data ip_data join_latest]; rewrite Z.ltb_irrefl; reflexivity.
Qed.
Lemma j_ready b k (id := o_id b) s1 t v1 s2 v2 r : joins k = true ->
  o_data b = [("i1", mkPort "i1" big s1 [mkMsg t v1]); ("i2", mkPort "i2" big s2 [mkMsg t v2])] ->
  join_process b k = Ok r ->
  join_exec b k = (Ok r, (set_data b [("i1", mkPort "i1" big (vsub s1 v1) []); ("i2", mkPort "i2" big (vsub s2 v2) [])], k)).
Proof.
  intros H D P. unfold join_exec. rewrite D. cbn [ip_data join_latest mtime]. rewrite !Z.ltb_irrefl.
  assert (T : set_data b (join_trim "i1" t [("i1", mkPort "i1" big s1 [mkMsg t v1]); ("i2", mkPort "i2" big s2 [mkMsg t v2])]) = b).
  { destruct b as [i da ct os cn tp]. cbn [o_data] in D. subst da. unfold join_trim, set_data. cbn [map String.eqb Ascii.eqb Bool.eqb]. unfold port_trim. cbn [ip_data drop_older mtime ip_sum ip_id ip_max o_id o_ctrl o_outs o_conns o_toproc].
    rewrite Z.ltb_irrefl. reflexivity. }
  rewrite T, D. unfold join_ready. cbn [forallb ip_data mtime]. rewrite Z.ltb_irrefl. cbn [negb andb]. rewrite P. reflexivity.
Qed.
Lemma exec_average rec id s1 t x s2 y cs a b : exec_local rec false (jop id s1 [mkMsg t x] s2 [mkMsg t y] cs (KLinear [a; b])) =
  (Ok (out1 (mkMsg t (smooth a b x y))), jop id (vsub s1 x) [] (vsub s2 y) [] cs (KLinear [a; b])).
Proof.
  unfold jop. cbn [exec_local op_kind exec_data_local]. erewrite j_ready; [|reflexivity|reflexivity|reflexivity]. reflexivity.
Qed.
Lemma exec_divides rec id s1 t x s2 y cs : veq y v0 = false -> exec_local rec false (jop id s1 [mkMsg t x] s2 [mkMsg t y] cs (KBinary BDiv)) =
  (Ok (out1 (mkMsg t (vdiv x y))), jop id (vsub s1 x) [] (vsub s2 y) [] cs (KBinary BDiv)).
Proof.
  intros E. unfold jop. cbn [exec_local op_kind exec_data_local]. erewrite j_ready; [|reflexivity|reflexivity|].
  2: { cbn [join_process]. unfold d_msg. cbn [o_data sfind String.eqb Ascii.eqb Bool.eqb ip_data].
       change (q_at [mkMsg t y] 0) with (@Ok msg (mkMsg t y)). change (q_at [mkMsg t x] 0) with (@Ok msg (mkMsg t x)). cbn [rbind bin_apply mval mtime]. rewrite E. reflexivity. }
  reflexivity.
Qed.
Lemma exec_drops rec id s1 t x s2 y cs : veq y v0 = true -> exec_local rec false (jop id s1 [mkMsg t x] s2 [mkMsg t y] cs (KBinary BDiv)) =
  (Ok [], jop id (vsub s1 x) [] (vsub s2 y) [] cs (KBinary BDiv)).
Proof.
  intros E. unfold jop. cbn [exec_local op_kind exec_data_local]. erewrite j_ready; [|reflexivity|reflexivity|].
  2: { cbn [join_process]. unfold d_msg. cbn [o_data sfind String.eqb Ascii.eqb Bool.eqb ip_data].
       change (q_at [mkMsg t y] 0) with (@Ok msg (mkMsg t y)). change (q_at [mkMsg t x] 0) with (@Ok msg (mkMsg t x)). cbn [rbind bin_apply mval mtime]. rewrite E. reflexivity. }
  reflexivity.
Qed.

(** ** The variables *)

Definition var (id : string) (s : V) (d : list msg) (s1 : V) (q : list msg) (cs : list (string * string)) (i : bool) (tp : list string) : op :=
  Op (mkBase id [("i1", mkPort "i1" big s d)] [("c1", mkPort "c1" 1 s1 q)] ["o1"] [("o1", cs)] tp) (KVariable v0 i).
Definition toproc (tp : list string) : Prop := tp = [] \/ tp = ["i1"].
Lemma var_receive n id s d s1 q cs i tp t v : toproc tp -> (length d < 1000)%nat ->
  recv_data n (var id s d s1 q cs i tp) (mkMsg t v) "i1" = (Ok tt, var id (vadd s v) (d ++ [mkMsg t v]) s1 q cs i ["i1"]).
Proof.
  intros Ht Hl. assert (E : port_receive (mkPort "i1" big s d) (mkMsg t v) = Ok (mkPort "i1" big (vadd s v) (d ++ [mkMsg t v]))).
  { unfold port_receive, ip_size. cbn [ip_max ip_data]. unfold big. destruct (Z.eqb_spec 18446744073709551615 (Z.of_nat (length d))); [lia|].
    destruct (Z.ltb_spec 18446744073709551615 (Z.of_nat (length d))); [lia|]. reflexivity. }
  unfold var. destruct n; cbn [recv_data op_kind recv_data_local]; unfold recv_data_base;
    cbn [o_data resolve String.eqb sfind Ascii.eqb Bool.eqb]; rewrite E; destruct Ht as [->| ->]; reflexivity.
Qed.
Lemma var_asked id s d s1 cs i tp t v :
  recv_ctrl_local (var id s d s1 [] cs i tp) (mkMsg t v) "c1" = (Ok tt, var id s d (vadd s1 v) [mkMsg t v] cs i tp).
Proof. reflexivity. Qed.
(** without a question *)
Lemma var_idle rec id s d s1 cs i tp : exec_local rec false (var id s d s1 [] cs i tp) = (Ok [], var id s d s1 [] cs i tp).
Proof. unfold var. cbn [exec_local op_kind exec_data_local]. unfold var_query. cbn [o_data o_ctrl ip_data]. destruct d; reflexivity. Qed.

Definition before (q : Z) (d : list msg) : Prop := Forall (fun m => mtime m < q) d.
Definition trim (d : list msg) : list msg := match d with [] => [] | _ => [last d msg0] end.
Definition used (d : list msg) : bool := match d with [] => false | _ => true end.
Definition held (d : list msg) : V := match d with [] => v0 | _ => mval (last d msg0) end.

Lemma var_loop_old q d : before q d -> var_loop q d = (None, trim d).
Proof.
  intros H. induction H as [|a d Ha H IH]; [reflexivity|]. destruct d as [|c d]; [reflexivity|]. cbn [var_loop].
  inversion H as [|x y Hc Hd]; subst. destruct (Z.ltb_spec q (mtime c)); [lia|]. rewrite andb_false_r. destruct (Z.eqb_spec q (mtime c)); [lia|].
  exact IH.
Qed.

(** the question comes after everything known *)
Lemma var_waits rec id s d s1 q v cs tp : before q d ->
  exec_local rec true (var id s d s1 [mkMsg q v] cs false tp) = (Ok [], var id s (trim d) s1 [mkMsg q v] cs (used d) tp).
Proof.
  intros H. unfold var. cbn [exec_local exec_ctrl_local]. unfold var_query. cbn [o_data o_ctrl ip_data]. destruct d as [|m d]; [reflexivity|].
  inversion H as [|x y Hm Hd]; subst. cbn [mtime]. destruct (Z.ltb_spec q (mtime m)); [lia|]. cbn [andb].
  destruct (Z.leb_spec (mtime m) q); [|lia]. destruct (Z.eqb_spec q (mtime m)); [lia|]. rewrite var_loop_old by exact H. reflexivity.
Qed.
Lemma before_last q d : before q d -> d <> [] -> mtime (last d msg0) < q.
Proof.
  intros H Hd. unfold before in H. rewrite Forall_forall in H. apply H. destruct d as [|m d] using rev_ind; [congruence|]. rewrite last_last. apply in_or_app. right. now left.
Qed.
(** ... then a value for the time asked arrives *)
Lemma var_hit rec id s d s1 q v w cs : before q d ->
  exec_local rec false (var id s (trim d ++ [mkMsg q w]) s1 [mkMsg q v] cs (used d) ["i1"]) =
  (Ok (out1 (mkMsg q w)), var id s [mkMsg q w] s1 [] cs true ["i1"]).
Proof.
  intros H. unfold var. cbn [exec_local op_kind exec_data_local]. unfold var_query. cbn [o_data o_ctrl ip_data]. destruct d as [|m d].
  - cbn [trim app mtime used]. rewrite Z.ltb_irrefl, Z.leb_refl, Z.eqb_refl. reflexivity.
  - pose proof (before_last q _ H ltac:(discriminate)) as L. cbn [trim app used]. set (x := last (m :: d) msg0) in *. cbn [mtime]. destruct (Z.ltb_spec q (mtime x)); [lia|]. cbn [andb].
    destruct (Z.leb_spec (mtime x) q); [|lia]. destruct (Z.eqb_spec q (mtime x)); [lia|]. cbn [var_loop mtime]. rewrite Z.ltb_irrefl, andb_false_r, Z.eqb_refl. reflexivity.
Qed.
(** ... or one for a later time *)
Lemma var_late rec id s d s1 q v t w cs : before q d -> q < t ->
  exec_local rec false (var id s (trim d ++ [mkMsg t w]) s1 [mkMsg q v] cs (used d) ["i1"]) =
  (Ok (out1 (mkMsg q (held d))), var id s (trim d ++ [mkMsg t w]) s1 [] cs (used d) ["i1"]).
Proof.
  intros H Ht. unfold var. cbn [exec_local op_kind exec_data_local]. unfold var_query. cbn [o_data o_ctrl ip_data]. destruct d as [|m d].
  - cbn [trim app mtime used held]. destruct (Z.ltb_spec q t); [|lia]. reflexivity.
  - pose proof (before_last q _ H ltac:(discriminate)) as L. cbn [trim app used held]. set (x := last (m :: d) msg0) in *. cbn [mtime]. destruct (Z.ltb_spec q (mtime x)); [lia|]. cbn [andb].
    destruct (Z.leb_spec (mtime x) q); [|lia]. destruct (Z.eqb_spec q (mtime x)); [lia|]. cbn [var_loop mtime].
    destruct (Z.ltb_spec (mtime x) q); [|lia]. destruct (Z.ltb_spec q t); [|lia]. reflexivity.
Qed.

End Operators.
