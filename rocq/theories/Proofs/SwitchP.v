(** * The states of the example program with the demultiplexer (C90) *)

From Coq Require Import String ZArith Bool List Lia.
From Verif Require Import Base.StrMap Base.Num Base.NumCount Model.Core Model.Ops Model.Make Model.Graph Model.Run.
From Verif Require Import Spec.Streams Spec.Multi Spec.Snapshot Spec.Windows Spec.Synchronous Proofs.InputP Proofs.Merge Proofs.LogP.
From Verif Require Import Spec.Log.
Import ListNotations.
Open Scope string_scope.
Open Scope list_scope.
Open Scope Z_scope.
Open Scope rtbot_scope.

Section Switch.
Context {NO : NumOps} {NC : NumCount NO}.

(** ** Executions, and what they answer at the demultiplexer *)

Definition shows (out : progmsg) (a b : list msg) : Prop :=
  wf_pm out /\ result_at out "dm" "o1" = a /\ result_at out "dm" "o2" = b.
Definition runs (n : nat) (ctl : bool) (id : string) (h h' : heap) (a b : list msg) : Prop :=
  exists out, exec n ctl id h = (Ok out, h') /\ shows out a b.
Definition runs_all (n : nat) (cs : list (string * string)) (h h' : heap) (a b : list msg) : Prop :=
  forall out, wf_pm out -> exists out', execute_all (exec n) cs out h = (Ok out', h') /\
    wf_pm out' /\ result_at out' "dm" "o1" = result_at out "dm" "o1" ++ a /\ result_at out' "dm" "o2" = result_at out "dm" "o2" ++ b.

Lemma runs_nil n h : runs_all n [] h h [] [].
Proof. intros out W. exists out. cbn. rewrite !app_nil_r. auto. Qed.

Lemma runs_cons n id port cs ctl o h h1 h2 a b a2 b2 :
  sfind id h = Some o -> is_data_input o port = negb ctl -> is_control_input o port = ctl ->
  runs n ctl id h h1 a b -> runs_all n cs h1 h2 a2 b2 -> runs_all n ((id, port) :: cs) h h2 (a ++ a2) (b ++ b2).
Proof.
  intros F D C (x & E & Wx & Ra & Rb) A out W. cbn [execute_all]. unfold execute1. rewrite F, D, C.
  assert (X : exec n ctl id h = (Ok x, h1)) by exact E.
  destruct (A (merge_pm out x)) as (out' & E' & W' & R1 & R2); [now apply merge_pm_wf|]. exists out'.
  rewrite R1, R2, !result_merge, Ra, Rb, !app_assoc by assumption. split; [|auto].
  destruct ctl; cbn [negb]; cbv iota; rewrite X; exact E'.
Qed.

(** an operator with nothing to emit *)
Lemma runs_silent n ctl id o o' h : sfind id h = Some o -> exec_local (exec n) ctl o = (Ok [], o') ->
  runs (S n) ctl id h (sset id o' h) [] [].
Proof.
  intros F E. exists []. cbn [exec]. rewrite F, E. cbn [emit_op]. split; [reflexivity|]. split; [apply wf_pm_nil|]. auto.
Qed.

(** an operator that emits one message and is not the demultiplexer *)
Lemma runs_emit n ctl id o o' cs m h h1 h2 a b : sfind id h = Some o -> exec_local (exec n) ctl o = (Ok (out1 m), o') ->
  o_outs (op_base o') = ["o1"] -> o_conns (op_base o') = [("o1", cs)] -> o_id (op_base o') = id -> id <> "dm" ->
  deliver n m cs (sset id o' h) = (Ok tt, h1) -> runs_all n cs h1 h2 a b ->
  runs (S n) ctl id h h2 a b.
Proof.
  intros F E Eo Ec Ei Nd D A. unfold runs. cbn [exec]. rewrite F, E. unfold out1. cbn [emit_op]. rewrite Eo. change (sset_mem "o1" ["o1"]) with true. cbv iota.
  cbn [emit_port]. unfold emit_msg. rewrite Ec, Ei. cbn [sfind String.eqb Ascii.eqb Bool.eqb]. rewrite D. cbn [bind sbind]. unfold sbind.
  destruct (A [(id, [("o1", [m])])] (wf_pm_one _ _ _)) as (out' & E' & W' & R1 & R2). rewrite E'.
  eexists. split; [reflexivity|]. assert (N : result_at [(id, [("o1", [m])])] "dm" "o1" = [] /\ result_at [(id, [("o1", [m])])] "dm" "o2" = []).
  { unfold result_at. rewrite sfind_cons. destruct (String.eqb_spec "dm" id) as [e|]; [congruence|]. auto. }
  destruct N as [N1 N2]. rewrite N1 in R1. rewrite N2 in R2. rewrite !(merge_pm_nil_l out') by auto. split; auto.
Qed.

(** the demultiplexer emits one message *)
Lemma runs_route n o o' p m h : sfind "dm" h = Some o -> exec_local (exec n) true o = (Ok [(p, [m])], o') ->
  (p = "o1" \/ p = "o2") -> o_outs (op_base o') = ["o1"; "o2"] -> o_conns (op_base o') = [] -> o_id (op_base o') = "dm" ->
  runs (S n) true "dm" h (sset "dm" o' h) (if String.eqb p "o1" then [m] else []) (if String.eqb p "o2" then [m] else []).
Proof.
  intros F E P Eo Ec Ei. unfold runs. cbn [exec]. rewrite F, E. cbn [emit_op]. rewrite Eo.
  replace (sset_mem p ["o1"; "o2"]) with true by (destruct P; now subst). cbv iota. cbn [emit_port]. unfold emit_msg. rewrite Ec, Ei. cbn [sfind bind sbind]. unfold sbind.
  eexists. split; [reflexivity|]. destruct P; subst p; split; [|now split| |now split]; (apply merge_pm_wf, wf_pm_nil).
Qed.

(** ** The operators of the program *)

Definition narrow (d : list msg) : Prop := (length d <= 1)%nat.
Definition sop (id : string) (s : V) (d : list msg) (cs : list (string * string)) (k : kind) (tp : list string) : op :=
  Op (mkBase id [("i1", mkPort "i1" 1 s d)] [] ["o1"] [("o1", cs)] tp) k.
Definition dmop (s : V) (d : list msg) (s1 : V) (d1 : list msg) (s2 : V) (d2 : list msg) : op :=
  let w := 18446744073709551615 in
  Op (mkBase "dm" [("i1", mkPort "i1" w s d)] [("c1", mkPort "c1" w s1 d1); ("c2", mkPort "c2" w s2 d2)] ["o1"; "o2"] [] [])
     (KDemux [("c1", "o1"); ("c2", "o2")]).

Definition sum_after (s : V) (d : list msg) (m : msg) : V :=
  match d with [] => vadd s (mval m) | x :: _ => vadd (vsub s (mval x)) (mval m) end.
Lemma slot_receive name s d m : narrow d -> port_receive (mkPort name 1 s d) m = Ok (mkPort name 1 (sum_after s d m) [m]).
Proof.
  unfold narrow. destruct d as [|x [|y d]]; cbn [length]; intros H; [reflexivity|reflexivity|lia].
Qed.

Definition plain_kind (k : kind) : bool :=
  match k with KConstant _ | KFilter _ _ | KCount _ | KInput _ _ => true | _ => false end.
Lemma sop_receive n id s d cs k m : narrow d -> plain_kind k = true ->
  recv_data n (sop id s d cs k []) m "i1" = (Ok tt, sop id (sum_after s d m) [m] cs k ["i1"]).
Proof.
  intros H K. unfold sop. destruct k; try discriminate K; destruct n; cbn [recv_data op_kind recv_data_local]; unfold recv_data_base;
    cbn [o_data resolve String.eqb sfind Ascii.eqb Bool.eqb]; rewrite slot_receive by assumption; reflexivity.
Qed.

Lemma exec_constant rec id s m cs v : exec_local rec false (sop id s [m] cs (KConstant v) ["i1"]) =
  (Ok (out1 (mkMsg (mtime m) v)), sop id s [m] cs (KConstant v) []).
Proof. reflexivity. Qed.
Lemma exec_count rec id s m cs k : exec_local rec false (sop id s [m] cs (KCount k) ["i1"]) =
  (Ok (out1 (mkMsg (mtime m) (vofZ (wrap (k + 1))))), sop id s [m] cs (KCount (wrap (k + 1))) []).
Proof. reflexivity. Qed.
Lemma exec_filter rec id s m cs f v : exec_local rec false (sop id s [m] cs (KFilter f v) ["i1"]) =
  (Ok (if filter_test f v (mval m) then out1 m else []), sop id s [m] cs (KFilter f v) []).
Proof. reflexivity. Qed.
Lemma exec_entry rec id s m cs ls : exec_local rec false (sop id s [m] cs (KInput [("i1", "o1")] ls) ["i1"]) =
  if match sfind "i1" ls with Some l => mtime l <? mtime m | None => true end
  then (Ok (out1 m), sop id s [m] cs (KInput [("i1", "o1")] (sset "i1" m ls)) [])
  else (Ok [], sop id s [m] cs (KInput [("i1", "o1")] ls) []).
Proof.
  cbn -[Z.ltb]. change (1 <? 1) with false. cbn -[Z.ltb]. destruct (sfind "i1" ls) as [l|]; [|reflexivity].
  cbn -[Z.ltb]. change (0 <? 0) with false. change (0 <? 1) with true. cbv iota. destruct (mtime l <? mtime m); reflexivity.
Qed.

Lemma dm_receive n s s1 s2 m : recv_data n (dmop s [] s1 [] s2 []) m "i1" = (Ok tt, dmop (vadd s (mval m)) [m] s1 [] s2 []).
Proof. destruct n; reflexivity. Qed.
Lemma dm_c1 s d s1 s2 d2 m : recv_ctrl_local (dmop s d s1 [] s2 d2) m "c1" = (Ok tt, dmop s d (vadd s1 (mval m)) [m] s2 d2).
Proof. reflexivity. Qed.
Lemma dm_c2 s d s1 d1 s2 m : recv_ctrl_local (dmop s d s1 d1 s2 []) m "c2" = (Ok tt, dmop s d s1 d1 (vadd s2 (mval m)) [m]).
Proof. reflexivity. Qed.
Lemma dm_waits rec s m s1 s2 : exec_local rec false (dmop s [m] s1 [] s2 []) = (Ok [], dmop s [m] s1 [] s2 []).
Proof. reflexivity. Qed.
Definition bit (v : V) : Prop := v = vofZ 0 \/ v = vofZ 1.
Lemma bit_test v : bit v -> veq v v1 || veq v v0 = true.
Proof.
  intros [->| ->].
  - rewrite <- vofZ_0, (vofZ_eq 0 0) by lia. apply orb_true_r.
  - rewrite <- vofZ_1, (vofZ_eq 1 1) by lia. reflexivity.
Qed.
Lemma dm_one rec s t v s1 a s2 : bit a -> exec_local rec true (dmop s [mkMsg t v] s1 [mkMsg t a] s2 []) =
  (Ok [], dmop s [mkMsg t v] s1 [mkMsg t a] s2 []).
Proof.
  intros B. unfold dmop. cbn [exec_local exec_ctrl_local]. unfold demux_join. cbn [o_data ip_data mtime o_ctrl demux_scan]. unfold port_trim.
  cbn [ip_sum ip_data ip_id ip_max drop_older mtime mval]. rewrite Z.ltb_irrefl. cbn [ip_data mtime mval]. rewrite Z.eqb_refl, bit_test by assumption. reflexivity.
Qed.
Lemma dm_two rec s t v s1 s2 a : bit a -> exec_local rec true (dmop s [mkMsg t v] s1 [] s2 [mkMsg t a]) =
  (Ok [], dmop s [mkMsg t v] s1 [] s2 [mkMsg t a]).
Proof.
  intros B. unfold dmop. cbn [exec_local exec_ctrl_local]. unfold demux_join. cbn [o_data ip_data mtime o_ctrl demux_scan]. unfold port_trim.
  cbn [ip_sum ip_data ip_id ip_max drop_older mtime mval]. rewrite Z.ltb_irrefl. cbn [ip_data mtime mval]. rewrite Z.eqb_refl, bit_test by assumption. reflexivity.
Qed.
Lemma one_zero : veq (vofZ 1) v1 = true /\ veq (vofZ 0) v1 = false.
Proof. rewrite <- vofZ_1, (vofZ_eq 1 1), (vofZ_eq 0 1) by lia. auto. Qed.
Lemma dm_both rec s t v s1 a s2 b : bit a -> bit b -> exec_local rec true (dmop s [mkMsg t v] s1 [mkMsg t a] s2 [mkMsg t b]) =
  (Ok (let out := if veq a v1 then [("o1", [mkMsg t v])] else [] in if veq b v1 then semplace "o2" [mkMsg t v] out else out),
   dmop (vsub s v) [] (vsub s1 a) [] (vsub s2 b) []).
Proof.
  intros A B. unfold dmop. cbn [exec_local exec_ctrl_local]. unfold demux_join. cbn [o_data ip_data mtime o_ctrl demux_scan]. unfold port_trim.
  cbn [ip_sum ip_data ip_id ip_max drop_older mtime mval]. rewrite Z.ltb_irrefl. cbn [ip_data mtime mval]. rewrite Z.eqb_refl, !bit_test by assumption.
  cbn [andb rbind]. cbn [length Z.of_nat]. change (0 + 1 + 1 =? Z.of_nat 2) with true. cbv iota.
  cbn [demux_out ip_data mval sfind String.eqb Ascii.eqb Bool.eqb]. destruct (veq a v1), (veq b v1); reflexivity.
Qed.

(** ** The program between two messages: [k] messages were counted, [ls] is the last one accepted *)

Inductive between (k : Z) (ls : smap msg) : heap -> Prop :=
| Between s1 d1 s2 d2 s3 d3 s4 d4 s5 d5 s6 d6 s7 d7 s8 s8a s8b s9 d9 s10 d10 s11 d11 s12 d12 out :
    narrow d1 -> narrow d2 -> narrow d3 -> narrow d4 -> narrow d5 -> narrow d6 -> narrow d7 -> narrow d9 -> narrow d10 -> narrow d11 -> narrow d12 ->
    between k ls [
      ("cet20o", sop "cet20o" s1 d1 [("dm", "c2")] (KConstant (vofZ 1)) []);
      ("cet20z", sop "cet20z" s2 d2 [("dm", "c1")] (KConstant (vofZ 0)) []);
      ("cgt20o", sop "cgt20o" s3 d3 [("dm", "c2")] (KConstant (vofZ 1)) []);
      ("cgt20z", sop "cgt20z" s4 d4 [("dm", "c1")] (KConstant (vofZ 0)) []);
      ("clt20o", sop "clt20o" s5 d5 [("dm", "c1")] (KConstant (vofZ 1)) []);
      ("clt20z", sop "clt20z" s6 d6 [("dm", "c2")] (KConstant (vofZ 0)) []);
      ("count", sop "count" s7 d7 [("lt", "i1"); ("gt", "i1"); ("et", "i1")] (KCount k) []);
      ("dm", dmop s8 [] s8a [] s8b []);
      ("et", sop "et" s9 d9 [("cet20z", "i1"); ("cet20o", "i1")] (KFilter FEqual (vofZ 20)) []);
      ("gt", sop "gt" s10 d10 [("cgt20o", "i1"); ("cgt20z", "i1")] (KFilter FGreater (vofZ 20)) []);
      ("in", sop "in" s11 d11 [("dm", "i1"); ("count", "i1")] (KInput [("i1", "o1")] ls) []);
      ("lt", sop "lt" s12 d12 [("clt20o", "i1"); ("clt20z", "i1")] (KFilter FLess (vofZ 20)) []);
      ("out", out)].

Lemma deliver_data n m id port cs o o' h h1 h2 : sfind id h = Some o -> is_data_input o port = true -> recv_data n o m port = (Ok tt, o') ->
  sset id o' h = h1 -> deliver n m cs h1 = (Ok tt, h2) -> deliver n m ((id, port) :: cs) h = (Ok tt, h2).
Proof. intros F D R <- E. cbn [deliver]. unfold deliver1. rewrite F, D, R. cbn [bind sbind]. exact E. Qed.
Lemma deliver_ctrl n m id port cs o o' h h1 h2 : sfind id h = Some o -> is_data_input o port = false -> is_control_input o port = true ->
  recv_ctrl_local o m port = (Ok tt, o') -> sset id o' h = h1 -> deliver n m cs h1 = (Ok tt, h2) -> deliver n m ((id, port) :: cs) h = (Ok tt, h2).
Proof. intros F D C R <- E. cbn [deliver]. unfold deliver1. rewrite F, D, C, R. cbn [bind sbind]. exact E. Qed.
Lemma deliver_nil n m h : deliver n m [] h = (Ok tt, h).
Proof. reflexivity. Qed.

Lemma exec_passes rec id s m cs f v : filter_test f v (mval m) = true ->
  exec_local rec false (sop id s [m] cs (KFilter f v) ["i1"]) = (Ok (out1 m), sop id s [m] cs (KFilter f v) []).
Proof. intros T. rewrite exec_filter, T. reflexivity. Qed.
Lemma exec_stops rec id s m cs f v : filter_test f v (mval m) = false ->
  exec_local rec false (sop id s [m] cs (KFilter f v) ["i1"]) = (Ok [], sop id s [m] cs (KFilter f v) []).
Proof. intros T. rewrite exec_filter, T. reflexivity. Qed.
Lemma dm_first rec s t v s1 s2 : exec_local rec true (dmop s [mkMsg t v] s1 [mkMsg t (vofZ 1)] s2 [mkMsg t (vofZ 0)]) =
  (Ok [("o1", [mkMsg t v])], dmop (vsub s v) [] (vsub s1 (vofZ 1)) [] (vsub s2 (vofZ 0)) []).
Proof. rewrite dm_both by (cbv [bit]; auto). destruct one_zero as [-> ->]. reflexivity. Qed.
Lemma dm_second rec s t v s1 s2 : exec_local rec true (dmop s [mkMsg t v] s1 [mkMsg t (vofZ 0)] s2 [mkMsg t (vofZ 1)]) =
  (Ok [("o2", [mkMsg t v])], dmop (vsub s v) [] (vsub s1 (vofZ 0)) [] (vsub s2 (vofZ 1)) []).
Proof. rewrite dm_both by (cbv [bit]; auto). destruct one_zero as [-> ->]. reflexivity. Qed.

Lemma runs_silent' n ctl id o o' h h' : sfind id h = Some o -> exec_local (exec n) ctl o = (Ok [], o') -> sset id o' h = h' ->
  runs (S n) ctl id h h' [] [].
Proof. intros F E <-. eapply runs_silent; eauto. Qed.
Lemma runs_emit' n id s d cs k tp s' d' k' m h h0 h1 h2 a b : sfind id h = Some (sop id s d cs k tp) ->
  exec_local (exec n) false (sop id s d cs k tp) = (Ok (out1 m), sop id s' d' cs k' []) -> id <> "dm" ->
  sset id (sop id s' d' cs k' []) h = h0 -> deliver n m cs h0 = (Ok tt, h1) -> runs_all n cs h1 h2 a b ->
  runs (S n) false id h h2 a b.
Proof. intros F E Nd <- D A. exact (runs_emit n false id _ _ cs m h h1 h2 a b F E eq_refl eq_refl eq_refl Nd D A). Qed.
Lemma runs_first n s d s1 d1 s2 d2 o' m h h' : sfind "dm" h = Some (dmop s d s1 d1 s2 d2) ->
  exec_local (exec n) true (dmop s d s1 d1 s2 d2) = (Ok [("o1", [m])], o') -> o_outs (op_base o') = ["o1"; "o2"] -> o_conns (op_base o') = [] -> o_id (op_base o') = "dm" ->
  sset "dm" o' h = h' -> runs (S n) true "dm" h h' [m] [].
Proof. intros F E A B C <-. exact (runs_route n _ o' "o1" m h F E (or_introl eq_refl) A B C). Qed.
Lemma runs_second n s d s1 d1 s2 d2 o' m h h' : sfind "dm" h = Some (dmop s d s1 d1 s2 d2) ->
  exec_local (exec n) true (dmop s d s1 d1 s2 d2) = (Ok [("o2", [m])], o') -> o_outs (op_base o') = ["o1"; "o2"] -> o_conns (op_base o') = [] -> o_id (op_base o') = "dm" ->
  sset "dm" o' h = h' -> runs (S n) true "dm" h h' [] [m].
Proof. intros F E A B C <-. exact (runs_route n _ o' "o2" m h F E (or_intror eq_refl) A B C). Qed.

Lemma send1_runs n s d cs k s' h h1 h2 m a b a' b' : sfind "in" h = Some (sop "in" s d cs k []) -> plain_kind k = true -> narrow d -> s' = sum_after s d m ->
  sset "in" (sop "in" s' [m] cs k ["i1"]) h = h1 -> runs n false "in" h1 h2 a' b' -> a' = a -> b' = b ->
  exists out, send1 n "in" "i1" m h = (Ok out, h2) /\ shows out a b.
Proof. intros F K Nd -> <- R <- <-. unfold send1. rewrite F, sop_receive by assumption. exact R. Qed.

Definition latest (m : msg) (ls : smap msg) : smap msg := sset "i1" m ls.
Ltac store := cbv -[latest sop dmop vadd vsub vofZ sum_after wrap Z.add]; reflexivity.
Ltac find := reflexivity.
Ltac shut := first [assumption | reflexivity | discriminate | (cbv [bit narrow length]; auto; fail) | (cbv [narrow length]; lia)].
Ltac deliveries :=
  first [ apply deliver_nil
        | eapply deliver_data; [find | reflexivity | first [apply dm_receive | apply sop_receive; shut] | store | deliveries]
        | eapply deliver_ctrl; [find | reflexivity | reflexivity | first [apply dm_c1 | apply dm_c2] | store | deliveries] ].
Ltac all_runs one :=
  first [ apply runs_nil
        | eapply (runs_cons _ _ _ _ false); [find | reflexivity | reflexivity | one | all_runs one]
        | eapply (runs_cons _ _ _ _ true); [find | reflexivity | reflexivity | one | all_runs one] ].
Ltac one_run :=
  first [ eapply runs_silent'; [find | first [apply dm_waits | apply dm_one; shut | apply dm_two; shut | apply exec_stops; assumption] | store]
        | eapply runs_first; [find | apply dm_first | reflexivity | reflexivity | reflexivity | store]
        | eapply runs_second; [find | apply dm_second | reflexivity | reflexivity | reflexivity | store]
        | eapply runs_emit'; [find | first [apply exec_constant | apply exec_count | apply exec_passes; assumption] | discriminate | store | deliveries | all_runs one_run] ].

Lemma wrap_small k : 0 <= k < 2 ^ 53 -> wrap k = k.
Proof. intros H. apply wrap_id. unfold two64. lia. Qed.
Lemma tests k : 0 <= k < 2 ^ 53 -> filter_test FLess (vofZ 20) (vofZ k) = (k <? 20) /\ filter_test FGreater (vofZ 20) (vofZ k) = (20 <? k) /\
  filter_test FEqual (vofZ 20) (vofZ k) = (k =? 20).
Proof. intros H. cbn [filter_test]. rewrite !vofZ_lt, vofZ_eq by lia. auto. Qed.

Definition accepted (ls : smap msg) (t : Z) : bool := match sfind "i1" ls with Some l => mtime l <? t | None => true end.

Lemma exec_accepts rec id s m cs ls : accepted ls (mtime m) = true ->
  exec_local rec false (sop id s [m] cs (KInput [("i1", "o1")] ls) ["i1"]) = (Ok (out1 m), sop id s [m] cs (KInput [("i1", "o1")] (latest m ls)) []).
Proof. unfold accepted. intros A. rewrite exec_entry, A. reflexivity. Qed.
Lemma exec_refuses rec id s m cs ls : accepted ls (mtime m) = false ->
  exec_local rec false (sop id s [m] cs (KInput [("i1", "o1")] ls) ["i1"]) = (Ok [], sop id s [m] cs (KInput [("i1", "o1")] ls) []).
Proof. unfold accepted. intros A. rewrite exec_entry, A. reflexivity. Qed.

Lemma round_stale n k ls h t v : between k ls h -> accepted ls t = false -> (4 < n)%nat ->
  exists h', between k ls h' /\ exists out, send1 n "in" "i1" (mkMsg t v) h = (Ok out, h') /\ shows out [] [].
Proof.
  intros B A Hn. destruct B. do 5 (destruct n as [|n]; [lia|]). clear Hn.
  eexists. split.
  2: { eapply send1_runs; [find|reflexivity|assumption|reflexivity|store| |reflexivity|reflexivity].
       eapply runs_silent'; [find|apply exec_refuses; exact A|store]. }
  constructor; shut.
Qed.

Lemma round_less n k ls h t v : between k ls h -> accepted ls t = true -> 0 <= k -> k + 1 < 20 -> (4 < n)%nat ->
  exists h', between (k + 1) (latest (mkMsg t v) ls) h' /\ exists out, send1 n "in" "i1" (mkMsg t v) h = (Ok out, h') /\ shows out [mkMsg t v] [].
Proof.
  intros B A K0 K1 Hn. destruct (tests (k + 1)) as (T1 & T2 & T3); [lia|].
  rewrite (proj2 (Z.ltb_lt _ _)) in T1 by lia. rewrite (proj2 (Z.ltb_ge _ _)) in T2 by lia. rewrite (proj2 (Z.eqb_neq _ _)) in T3 by lia.
  rewrite <- (wrap_small (k + 1)) in T1, T2, T3 |- * by lia. destruct B. do 5 (destruct n as [|n]; [lia|]). clear Hn.
  eexists. split.
  2: { eapply send1_runs; [find|reflexivity|assumption|reflexivity|store| | |];
       [eapply runs_emit'; [find|apply exec_accepts; exact A|discriminate|store|deliveries|all_runs one_run] |reflexivity|reflexivity]. }
  constructor; shut.
Qed.

Lemma round_equal n k ls h t v : between k ls h -> accepted ls t = true -> k + 1 = 20 -> (4 < n)%nat ->
  exists h', between (k + 1) (latest (mkMsg t v) ls) h' /\ exists out, send1 n "in" "i1" (mkMsg t v) h = (Ok out, h') /\ shows out [] [mkMsg t v].
Proof.
  intros B A K0 Hn. destruct (tests (k + 1)) as (T1 & T2 & T3); [lia|].
  rewrite (proj2 (Z.ltb_ge _ _)) in T1 by lia. rewrite (proj2 (Z.ltb_ge _ _)) in T2 by lia. rewrite (proj2 (Z.eqb_eq _ _)) in T3 by lia.
  rewrite <- (wrap_small (k + 1)) in T1, T2, T3 |- * by lia. destruct B. do 5 (destruct n as [|n]; [lia|]). clear Hn.
  eexists. split.
  2: { eapply send1_runs; [find|reflexivity|assumption|reflexivity|store| | |];
       [eapply runs_emit'; [find|apply exec_accepts; exact A|discriminate|store|deliveries|all_runs one_run] |reflexivity|reflexivity]. }
  constructor; shut.
Qed.

Lemma round_greater n k ls h t v : between k ls h -> accepted ls t = true -> 20 < k + 1 -> k + 1 < 2 ^ 53 -> (4 < n)%nat ->
  exists h', between (k + 1) (latest (mkMsg t v) ls) h' /\ exists out, send1 n "in" "i1" (mkMsg t v) h = (Ok out, h') /\ shows out [] [mkMsg t v].
Proof.
  intros B A K0 K1 Hn. destruct (tests (k + 1)) as (T1 & T2 & T3); [lia|].
  rewrite (proj2 (Z.ltb_ge _ _)) in T1 by lia. rewrite (proj2 (Z.ltb_lt _ _)) in T2 by lia. rewrite (proj2 (Z.eqb_neq _ _)) in T3 by lia.
  rewrite <- (wrap_small (k + 1)) in T1, T2, T3 |- * by lia. destruct B. do 5 (destruct n as [|n]; [lia|]). clear Hn.
  eexists. split.
  2: { eapply send1_runs; [find|reflexivity|assumption|reflexivity|store| | |];
       [eapply runs_emit'; [find|apply exec_accepts; exact A|discriminate|store|deliveries|all_runs one_run] |reflexivity|reflexivity]. }
  constructor; shut.
Qed.

(** ** Histories *)

(** the state after the messages [ms] *)
Definition after (ms : list msg) (h : heap) : Prop :=
  exists ls, between (Z.of_nat (length (records ms))) ls h /\ sfind "i1" ls = last_opt (records ms).

Lemma records_length ms : (length (records ms) <= length ms)%nat.
Proof.
  induction ms as [|m ms IH] using rev_ind; [reflexivity|]. rewrite records_snoc, !app_length. cbn [length]. destruct (later_than _ m); cbn [length]; lia.
Qed.

(** what the outputs show after the messages [ms], and after [more] as well *)
Definition adds (ms more : list msg) (a b : list msg) : Prop :=
  firstn 19 (records (ms ++ more)) = firstn 19 (records ms) ++ a /\ skipn 19 (records (ms ++ more)) = skipn 19 (records ms) ++ b.

Lemma after_one n ms h m : after ms h -> Z.of_nat (length ms) + 1 < 2 ^ 53 -> (4 < n)%nat ->
  exists h' a b out, send1 n "in" "i1" m h = (Ok out, h') /\ after (ms ++ [m]) h' /\ adds ms [m] a b /\ shows out a b.
Proof.
  intros (ls & B & L) K Hn. destruct m as [t v]. pose proof (records_length ms) as Hl. unfold adds. rewrite records_snoc. unfold later_than.
  destruct (accepted ls t) eqn:A; unfold accepted in A; rewrite L in A; cbn [mtime].
  2: { destruct (round_stale n _ ls h t v B) as (h' & B' & out & E & Sh); [unfold accepted; now rewrite L|exact Hn|].
       exists h', [], [], out. rewrite !app_nil_r, A, app_nil_r. repeat split; try exact E; try exact Sh; auto; try apply Sh. exists ls.
       rewrite records_snoc. unfold later_than. cbn [mtime]. rewrite A, app_nil_r. auto. }
  rewrite A. assert (Ac : accepted ls t = true) by (unfold accepted; now rewrite L).
  assert (Af : forall h', between (Z.of_nat (length (records ms)) + 1) (latest (mkMsg t v) ls) h' -> after (ms ++ [mkMsg t v]) h').
  { intros h' B'. exists (latest (mkMsg t v) ls). rewrite records_snoc. unfold later_than. cbn [mtime]. rewrite A, last_opt_snoc, app_length. cbn [length].
    replace (Z.of_nat (length (records ms) + 1)) with (Z.of_nat (length (records ms)) + 1) by lia. split; [exact B'|]. unfold latest. apply sfind_sset_same. }
  rewrite firstn_app, skipn_app. destruct (Z.lt_trichotomy (Z.of_nat (length (records ms)) + 1) 20) as [C|[C|C]].
  - destruct (round_less n _ ls h t v B Ac) as (h' & B' & out & E & Sh); [lia|lia|lia|].
    exists h', [mkMsg t v], [], out. repeat split; try exact E; try apply Sh; auto.
    + replace (19 - length (records ms))%nat with (S (18 - length (records ms))) by lia. cbn [firstn]. now rewrite firstn_nil.
    + replace (19 - length (records ms))%nat with (S (18 - length (records ms))) by lia. cbn [skipn]. now rewrite skipn_nil.
  - destruct (round_equal n _ ls h t v B Ac) as (h' & B' & out & E & Sh); [lia|lia|].
    exists h', [], [mkMsg t v], out. replace (19 - length (records ms))%nat with 0%nat by lia. cbn [firstn skipn]. repeat split; try exact E; try apply Sh; auto.
  - destruct (round_greater n _ ls h t v B Ac) as (h' & B' & out & E & Sh); [lia|lia|lia|].
    exists h', [], [mkMsg t v], out. replace (19 - length (records ms))%nat with 0%nat by lia. cbn [firstn skipn]. repeat split; try exact E; try apply Sh; auto.
Qed.

(** a run that appends what it answers *)
Definition extends (out out' : progmsg) (a b : list msg) : Prop :=
  wf_pm out' /\ result_at out' "dm" "o1" = result_at out "dm" "o1" ++ a /\ result_at out' "dm" "o2" = result_at out "dm" "o2" ++ b.
Lemma extends_trans out out1 out2 a1 b1 a2 b2 : extends out out1 a1 b1 -> extends out1 out2 a2 b2 -> extends out out2 (a1 ++ a2) (b1 ++ b2).
Proof. intros (_ & A1 & B1) (W & A2 & B2). split; [exact W|]. rewrite A2, B2, A1, B1, !app_assoc. auto. Qed.
Lemma adds_trans ms x y a1 b1 a2 b2 : adds ms x a1 b1 -> adds (ms ++ x) y a2 b2 -> adds ms (x ++ y) (a1 ++ a2) (b1 ++ b2).
Proof. intros [A1 B1] [A2 B2]. unfold adds. rewrite app_assoc, A2, B2, A1, B1, !app_assoc. auto. Qed.
Lemma adds_nil ms : adds ms [] [] [].
Proof. unfold adds. rewrite !app_nil_r. auto. Qed.
Lemma extends_refl out : wf_pm out -> extends out out [] [].
Proof. unfold extends. rewrite !app_nil_r. auto. Qed.

Lemma after_port n more : (4 < n)%nat -> forall ms h out, after ms h -> Z.of_nat (length ms + length more) < 2 ^ 53 -> wf_pm out ->
  exists h' a b out', send_port n "in" "i1" more out h = (Ok out', h') /\ after (ms ++ more) h' /\ adds ms more a b /\ extends out out' a b.
Proof.
  intros Hn. induction more as [|m more IH]; intros ms h out A K W.
  - exists h, [], [], out. rewrite app_nil_r. split; [reflexivity|]. auto using adds_nil, extends_refl.
  - cbn [length] in K. destruct (after_one n ms h m A) as (h1 & a1 & b1 & x & E & A1 & D1 & (Wx & X1 & X2)); [lia|lia|].
    destruct (IH (ms ++ [m]) h1 (merge_pm out x) A1) as (h' & a2 & b2 & out' & E' & A' & D' & X'); [rewrite app_length; cbn [length]; lia|now apply merge_pm_wf|].
    exists h', (a1 ++ a2), (b1 ++ b2), out'. cbn [send_port]. rewrite E. cbn [bind sbind]. split; [exact E'|]. split; [now rewrite <- app_assoc in A'|].
    split; [exact (adds_trans ms [m] more _ _ _ _ D1 D')|]. refine (extends_trans _ _ _ _ _ _ _ _ X'). split; [now apply merge_pm_wf|].
    rewrite !result_merge, X1, X2 by assumption. auto.
Qed.

Lemma after_batch n batch : (4 < n)%nat -> Forall (fun pm => fst pm = "i1") batch -> forall ms h out, after ms h ->
  Z.of_nat (length ms + length (batch_messages batch)) < 2 ^ 53 -> wf_pm out ->
  exists h' a b out', send_batch n "in" batch out h = (Ok out', h') /\ after (ms ++ map snd (batch_messages batch)) h' /\
    adds ms (map snd (batch_messages batch)) a b /\ extends out out' a b.
Proof.
  intros Hn F. induction F as [|[port more] batch P F IH]; intros ms h out A K W.
  - exists h, [], [], out. cbn. rewrite app_nil_r. split; [reflexivity|]. auto using adds_nil, extends_refl.
  - cbn [fst] in P. subst port. unfold batch_messages in *. cbn [flat_map fst snd] in *. rewrite map_app, map_map, map_id. rewrite app_length, map_length in K.
    destruct (after_port n more Hn ms h out A) as (h1 & a1 & b1 & out1 & E & A1 & D1 & X1); [lia|exact W|].
    destruct (IH (ms ++ more) h1 out1 A1) as (h' & a2 & b2 & out' & E' & A' & D' & X'); [rewrite app_length; lia|apply X1|].
    exists h', (a1 ++ a2), (b1 ++ b2), out'. cbn [send_batch]. rewrite E. cbn [bind sbind]. split; [exact E'|]. split; [now rewrite <- app_assoc in A'|].
    split; [exact (adds_trans ms more _ _ _ _ _ D1 D')|]. exact (extends_trans _ _ _ _ _ _ _ X1 X').
Qed.

Lemma sent_to_only history : Forall (Forall (fun pm : string * portmsg => fst pm = "i1")) history -> sent_to "i1" history = map snd (all_messages history).
Proof.
  intros F. unfold sent_to. f_equal. unfold all_messages, batch_messages. induction F as [|b bs Hb F IH]; [reflexivity|]. cbn [flat_map]. rewrite filter_app, IH. f_equal.
  induction Hb as [|[port ms] b P Hb IHb]; [reflexivity|]. cbn [flat_map fst snd] in *. subst port. rewrite filter_app, IHb. f_equal.
  induction ms as [|m ms IHm]; [reflexivity|]. cbn. now rewrite IHm.
Qed.

Lemma after_history n history : (4 < n)%nat -> Forall (Forall (fun pm => fst pm = "i1")) history -> forall ms p, p_entry p = "in" -> p_filter p = [] ->
  after ms (p_ops p) -> Z.of_nat (length ms + length (all_messages history)) < 2 ^ 53 ->
  Forall (fun r => exists out, r = Ok out) (fst (session n p history)) /\
  exists a b, adds ms (map snd (all_messages history)) a b /\
    answered (fst (session n p history)) "dm" "o1" = a /\ answered (fst (session n p history)) "dm" "o2" = b.
Proof.
  intros Hn F. induction F as [|batch history Hb F IH]; intros ms p Ee Ef A K.
  - split; [constructor|]. exists [], []. split; [apply adds_nil|]. auto.
  - unfold all_messages in *. cbn [flat_map] in *. rewrite app_length in K.
    destruct (after_batch n batch Hn Hb ms (p_ops p) [] A) as (h1 & a1 & b1 & out & E & A1 & D1 & (_ & X1 & X2)); [lia|apply wf_pm_nil|].
    cbn [session]. unfold receive, receive_debug. rewrite Ee, Ef, E.
    assert (Hs : shas "in" (p_ops p) = true) by (destruct A as (ls & B & _); destruct B; reflexivity). rewrite Hs.
    destruct (IH (ms ++ map snd (batch_messages batch)) (set_ops p h1)) as (Ok1 & a2 & b2 & D2 & Y1 & Y2);
      [exact Ee|exact Ef|exact A1|rewrite app_length, map_length; lia|].
    destruct (session n (set_ops p h1) history) as [rs p2]. cbn [fst] in *. split; [constructor; [now exists out|exact Ok1]|].
    exists (a1 ++ a2), (b1 ++ b2). rewrite map_app. split; [exact (adds_trans _ _ _ _ _ _ _ D1 D2)|].
    unfold answered in *. cbn [flat_map]. rewrite Y1, Y2, X1, X2. auto.
Qed.
End Switch.
