(** * C52: a failed message leaves the program usable *)

From Coq Require Import String Ascii ZArith QArith Qcanon Bool List Lia Sorted.
From Verif Require Import Base.StrMap Base.Num Base.NumQc Model.Core Model.Ops Model.Make Model.Graph Model.Json.
From Verif Require Import Spec.Shape Spec.Show Spec.Snapshot Spec.Definition Spec.Bounds.
From Verif Require Import Proofs.Refuse.
From Verif Require Import Proofs.Ports Proofs.ShapeP Proofs.Restored Proofs.JsonP Properties.Definition.
From Verif Require Proofs.Deep.
Import ListNotations.
Open Scope string_scope.
Open Scope list_scope.
Open Scope Z_scope.
Open Scope rtbot_scope.

Section C52.
Context {NO : NumOps} {JT : JsonText}.

(** ** C52 refuted: a Demultiplexer whose control message does not match its data message throws,
    and throws again for every later message *)

(** {"entryOperator": "in", "operators": [{"type": "Input", "id": "in", "numPorts": 2},
     {"type": "Demultiplexer", "id": "d", "numPorts": 1}],
     "connections": [{"from": "in", "to": "d", "fromPort": "o1", "toPort": "i1"},
                     {"from": "in", "to": "d", "fromPort": "o2", "toPort": "c1"}]} *)
Definition route (from to fromPort toPort : string) : json :=
  jobj [("from", JStr from); ("to", JStr to); ("fromPort", JStr fromPort); ("toPort", JStr toPort)].
Definition demux_definition : json := jobj [
  ("entryOperator", JStr "in");
  ("operators", JArr [definition "Input" "in" [("numPorts", JInt 2)]; definition "Demultiplexer" "d" [("numPorts", JInt 1)]]);
  ("connections", JArr [route "in" "d" "o1" "i1"; route "in" "d" "o2" "c1"])].

(** a call with one message on a port of the Input *)
Definition one (x : string * msg) : opmsg := [(fst x, [snd x])].

(** times newer, on each port, than those before *)
Definition upd (last : string -> Z) (port : string) (m : msg) : string -> Z :=
  fun q => if String.eqb q port then mtime m else last q.
Fixpoint newer (last : string -> Z) (l : list (string * msg)) : Prop :=
  match l with
  | [] => True
  | (port, m) :: l' => last port < mtime m /\ newer (upd last port m) l'
  end.

Lemma newer_weaken l : forall t t', (forall q, t' q <= t q) -> newer t l -> newer t' l.
Proof.
  induction l as [|[port m] l IH]; intros t t' H; cbn [newer]; [auto|]. intros [L N]. specialize (H port) as Hp. split; [lia|].
  revert N. apply IH. intros q. unfold upd. destruct (String.eqb q port); [lia|auto].
Qed.

(** the Demultiplexer waits for a control message of time [td] but has one of time [tc];
    the Input has forwarded nothing newer than [t port] from a port *)
Definition stuck (td tc : Z) (t : string -> Z) (p : program) : Prop :=
  exists a1 a2 ls dp cp md qd mc qc,
    p_entry p = "in" /\
    p_ops p = [("d", Op (mkBase "d" [("i1", dp)] [("c1", cp)] ["o1"] [] []) (KDemux [("c1", "o1")]));
               ("in", Op (mkBase "in" [("i1", a1); ("i2", a2)] [] ["o1"; "o2"] [("o1", [("d", "i1")]); ("o2", [("d", "c1")])] [])
                         (KInput [("i1", "o1"); ("i2", "o2")] ls))] /\
    ip_max a1 = 1 /\ ip_max a2 = 1 /\ (length (ip_data a1) <= 1)%nat /\ (length (ip_data a2) <= 1)%nat /\
    (forall port l, sfind port ls = Some l -> mtime l <= t port) /\
    ip_data dp = md :: qd /\ mtime md = td /\ ip_data cp = mc :: qc /\ mtime mc = tc.

Lemma receive_one p m : ip_max p = 1 -> (length (ip_data p) <= 1)%nat ->
  exists p', port_receive p m = Ok p' /\ ip_max p' = 1 /\ ip_data p' = [m].
Proof.
  intros M L. unfold port_receive, ip_size, ip_pop. rewrite M. destruct (ip_data p) as [|x [|y q]] eqn:D; cbn in L; [| |lia].
  - cbn. eexists. split; [reflexivity|]. cbn. now rewrite D.
  - cbn. eexists. split; [reflexivity|]. cbn. auto.
Qed.

Lemma trim_front t p m q : ip_data p = m :: q -> t <= mtime m -> ip_data (port_trim t p) = m :: q.
Proof.
  intros D L. unfold port_trim. rewrite D. cbn [drop_older]. destruct (Z.ltb_spec (mtime m) t); [lia|]. reflexivity.
Qed.

Lemma demux_stuck b k cm dport dp cport cp md qd mc qc :
  o_data b = [(dport, dp)] -> o_ctrl b = [(cport, cp)] -> ip_data dp = md :: qd -> ip_data cp = mc :: qc -> mtime md < mtime mc ->
  exists x cp', demux_join b k cm = (Throw x, (set_ctrl b [(cport, cp')], k)) /\ ip_data cp' = mc :: qc.
Proof.
  intros D C Qd Qc L. unfold demux_join. rewrite D, C, Qd. cbn [demux_scan].
  rewrite (trim_front (mtime md) cp mc qc Qc) by lia. destruct (Z.eqb_spec (mtime mc) (mtime md)); [lia|]. cbn.
  eexists _, _. split; [reflexivity|]. now apply trim_front; [|lia].
Qed.

Definition in_op (a1 a2 : inport) (tp : list string) (ls : smap msg) : op :=
  Op (mkBase "in" [("i1", a1); ("i2", a2)] [] ["o1"; "o2"] [("o1", [("d", "i1")]); ("o2", [("d", "c1")])] tp)
     (KInput [("i1", "o1"); ("i2", "o2")] ls).
Definition d_op (dp cp : inport) : op :=
  Op (mkBase "d" [("i1", dp)] [("c1", cp)] ["o1"] [] []) (KDemux [("c1", "o1")]).

Lemma in_exec1 rec a1 a2 ls m : ip_max a1 = 1 -> ip_data a1 = [m] -> match sfind "i1" ls with Some l => mtime l <? mtime m | None => true end = true ->
  exec_local rec false (in_op a1 a2 ["i1"] ls) = (Ok [("o1", [m])], in_op a1 a2 [] (sset "i1" m ls)).
Proof.
  intros M D F. destruct a1 as [i1 x1 s1 d1]. cbn in M, D. subst. unfold exec_local, in_op. cbn [op_kind exec_data_local].
  unfold exec_base. cbn. rewrite F. reflexivity.
Qed.
Lemma in_exec2 rec a1 a2 ls m : ip_max a2 = 1 -> ip_data a2 = [m] -> match sfind "i2" ls with Some l => mtime l <? mtime m | None => true end = true ->
  exec_local rec false (in_op a1 a2 ["i2"] ls) = (Ok [("o2", [m])], in_op a1 a2 [] (sset "i2" m ls)).
Proof.
  intros M D F. destruct a2 as [i2 x2 s2 d2]. cbn in M, D. subst. unfold exec_local, in_op. cbn [op_kind exec_data_local].
  unfold exec_base. cbn. rewrite F. reflexivity.
Qed.

Lemma d_exec n ctl dp cp x md qd mc qc : ip_data dp = md :: qd -> ip_data cp = mc :: qc -> mtime md < mtime mc ->
  exists e cp', exec (S n) ctl "d" [("d", d_op dp cp); ("in", x)] = (Throw e, [("d", d_op dp cp'); ("in", x)]) /\ ip_data cp' = mc :: qc.
Proof.
  intros Qd Qc L. destruct (demux_stuck (op_base (d_op dp cp)) (KDemux [("c1", "o1")]) [("c1", "o1")] "i1" dp "c1" cp md qd mc qc) as (e & cp' & D & Q); auto.
  exists e, cp'. split; [|exact Q]. cbn [exec sfind String.eqb Ascii.eqb Bool.eqb].
  assert (X : exec_local (exec n) ctl (d_op dp cp) = (Throw e, d_op dp cp')).
  { cbn [op_base d_op] in D. destruct ctl; cbn [exec_local d_op op_kind exec_data_local exec_ctrl_local]; rewrite D; reflexivity. }
  rewrite X. reflexivity.
Qed.

(** a message for the Input, up to the execution of the Demultiplexer *)
Definition emitted (port : string) (m : msg) (r : res progmsg) : res progmsg :=
  rbind r (fun x => Ok (merge_pm [] (merge_pm [] (merge_pm [("in", [(port, [m])])] x)))).

Lemma in_send1 n a1 a2 ls dp cp m : ip_max a1 = 1 -> (length (ip_data a1) <= 1)%nat ->
  match sfind "i1" ls with Some l => mtime l <? mtime m | None => true end = true ->
  exists a1', ip_max a1' = 1 /\ (length (ip_data a1') <= 1)%nat /\
    forall r h, exec (S n) false "d" [("d", d_op (ip_push dp m) cp); ("in", in_op a1' a2 [] (sset "i1" m ls))] = (r, h) ->
      send1 (S (S n)) "in" "i1" m [("d", d_op dp cp); ("in", in_op a1 a2 [] ls)] = (emitted "o1" m r, h).
Proof.
  intros M1 L1 F. destruct (receive_one a1 m M1 L1) as (a1' & R & M1' & D1).
  exists a1'. split; [exact M1'|]. split; [now rewrite D1|]. intros r h Y.
  assert (X : recv_data (S (S n)) (in_op a1 a2 [] ls) m "i1" = (Ok tt, in_op a1' a2 ["i1"] ls)).
  { cbn [recv_data op_kind in_op]. unfold recv_data_local, recv_data_base, resolve. cbn -[port_receive]. rewrite R. reflexivity. }
  unfold send1. change (sfind "in" [("d", d_op dp cp); ("in", in_op a1 a2 [] ls)]) with (Some (in_op a1 a2 [] ls)). cbv beta iota. rewrite X. cbv beta iota.
  change (sset "in" (in_op a1' a2 ["i1"] ls) [("d", d_op dp cp); ("in", in_op a1 a2 [] ls)]) with [("d", d_op dp cp); ("in", in_op a1' a2 ["i1"] ls)].
  remember (S n) as n1. cbn [exec]. change (sfind "in" [("d", d_op dp cp); ("in", in_op a1' a2 ["i1"] ls)]) with (Some (in_op a1' a2 ["i1"] ls)). cbv beta iota.
  rewrite (in_exec1 _ a1' a2 ls m M1' D1 F). cbv beta iota.
  change (sset "in" (in_op a1' a2 [] (sset "i1" m ls)) [("d", d_op dp cp); ("in", in_op a1' a2 ["i1"] ls)]) with [("d", d_op dp cp); ("in", in_op a1' a2 [] (sset "i1" m ls))].
  cbn [emit_op]. change (sset_mem "o1" (o_outs (op_base (in_op a1' a2 [] (sset "i1" m ls))))) with true. cbv beta iota. cbn [emit_port].
  unfold emit_msg. change (sfind "o1" (o_conns (op_base (in_op a1' a2 [] (sset "i1" m ls))))) with (Some [("d", "i1")]). cbv iota.
  assert (Z : deliver n1 m [("d", "i1")] [("d", d_op dp cp); ("in", in_op a1' a2 [] (sset "i1" m ls))] =
    (Ok tt, [("d", d_op (ip_push dp m) cp); ("in", in_op a1' a2 [] (sset "i1" m ls))])) by (destruct n1; reflexivity).
  rewrite Z. cbn [bind sbind execute_all]. unfold execute1.
  change (sfind "d" [("d", d_op (ip_push dp m) cp); ("in", in_op a1' a2 [] (sset "i1" m ls))]) with (Some (d_op (ip_push dp m) cp)).
  change (is_data_input (d_op (ip_push dp m) cp) "i1") with true. cbv iota. rewrite Y. destruct r; reflexivity.
Qed.
Lemma in_send2 n a1 a2 ls dp cp m : ip_max a2 = 1 -> (length (ip_data a2) <= 1)%nat ->
  match sfind "i2" ls with Some l => mtime l <? mtime m | None => true end = true ->
  exists a2', ip_max a2' = 1 /\ (length (ip_data a2') <= 1)%nat /\
    forall r h, exec (S n) true "d" [("d", d_op dp (ip_push cp m)); ("in", in_op a1 a2' [] (sset "i2" m ls))] = (r, h) ->
      send1 (S (S n)) "in" "i2" m [("d", d_op dp cp); ("in", in_op a1 a2 [] ls)] = (emitted "o2" m r, h).
Proof.
  intros M2 L2 F. destruct (receive_one a2 m M2 L2) as (a2' & R & M2' & D2).
  exists a2'. split; [exact M2'|]. split; [now rewrite D2|]. intros r h Y.
  assert (X : recv_data (S (S n)) (in_op a1 a2 [] ls) m "i2" = (Ok tt, in_op a1 a2' ["i2"] ls)).
  { cbn [recv_data op_kind in_op]. unfold recv_data_local, recv_data_base, resolve. cbn -[port_receive]. rewrite R. reflexivity. }
  unfold send1. change (sfind "in" [("d", d_op dp cp); ("in", in_op a1 a2 [] ls)]) with (Some (in_op a1 a2 [] ls)). cbv beta iota. rewrite X. cbv beta iota.
  change (sset "in" (in_op a1 a2' ["i2"] ls) [("d", d_op dp cp); ("in", in_op a1 a2 [] ls)]) with [("d", d_op dp cp); ("in", in_op a1 a2' ["i2"] ls)].
  remember (S n) as n1. cbn [exec]. change (sfind "in" [("d", d_op dp cp); ("in", in_op a1 a2' ["i2"] ls)]) with (Some (in_op a1 a2' ["i2"] ls)). cbv beta iota.
  rewrite (in_exec2 _ a1 a2' ls m M2' D2 F). cbv beta iota.
  change (sset "in" (in_op a1 a2' [] (sset "i2" m ls)) [("d", d_op dp cp); ("in", in_op a1 a2' ["i2"] ls)]) with [("d", d_op dp cp); ("in", in_op a1 a2' [] (sset "i2" m ls))].
  cbn [emit_op]. change (sset_mem "o2" (o_outs (op_base (in_op a1 a2' [] (sset "i2" m ls))))) with true. cbv beta iota. cbn [emit_port].
  unfold emit_msg. change (sfind "o2" (o_conns (op_base (in_op a1 a2' [] (sset "i2" m ls))))) with (Some [("d", "c1")]). cbv iota.
  assert (Z : deliver n1 m [("d", "c1")] [("d", d_op dp cp); ("in", in_op a1 a2' [] (sset "i2" m ls))] =
    (Ok tt, [("d", d_op dp (ip_push cp m)); ("in", in_op a1 a2' [] (sset "i2" m ls))])) by (destruct n1; reflexivity).
  rewrite Z. cbn [bind sbind execute_all]. unfold execute1.
  change (sfind "d" [("d", d_op dp (ip_push cp m)); ("in", in_op a1 a2' [] (sset "i2" m ls))]) with (Some (d_op dp (ip_push cp m))).
  change (is_data_input (d_op dp (ip_push cp m)) "c1") with false. change (is_control_input (d_op dp (ip_push cp m)) "c1") with true.
  cbv iota. rewrite Y. destruct r; reflexivity.
Qed.

Lemma in_step n a1 a2 ls dp cp md qd mc qc port m : port = "i1" \/ port = "i2" ->
  ip_max a1 = 1 -> ip_max a2 = 1 -> (length (ip_data a1) <= 1)%nat -> (length (ip_data a2) <= 1)%nat ->
  match sfind port ls with Some l => mtime l <? mtime m | None => true end = true ->
  ip_data dp ++ (if String.eqb port "i1" then [m] else []) = md :: qd -> ip_data cp ++ (if String.eqb port "i2" then [m] else []) = mc :: qc -> mtime md < mtime mc ->
  exists e dp' cp' a1' a2',
    send1 (S (S n)) "in" port m [("d", d_op dp cp); ("in", in_op a1 a2 [] ls)] =
      (Throw e, [("d", d_op dp' cp'); ("in", in_op a1' a2' [] (sset port m ls))]) /\
    ip_data dp' = md :: qd /\ ip_data cp' = mc :: qc /\
    ip_max a1' = 1 /\ ip_max a2' = 1 /\ (length (ip_data a1') <= 1)%nat /\ (length (ip_data a2') <= 1)%nat.
Proof.
  intros P M1 M2 L1 L2 F Qd Qc L. destruct P as [-> | ->].
  - cbn in Qc. rewrite app_nil_r in Qc. destruct (in_send1 n a1 a2 ls dp cp m M1 L1 F) as (a1' & N1 & K1 & G).
    destruct (d_exec n false (ip_push dp m) cp (in_op a1' a2 [] (sset "i1" m ls)) md qd mc qc) as (e & cp' & Y & Q); [exact Qd|auto..].
    exists e, (ip_push dp m), cp', a1', a2. rewrite (G _ _ Y). repeat split; auto.
  - cbn in Qd. rewrite app_nil_r in Qd. destruct (in_send2 n a1 a2 ls dp cp m M2 L2 F) as (a2' & N2 & K2 & G).
    destruct (d_exec n true dp (ip_push cp m) (in_op a1 a2' [] (sset "i2" m ls)) md qd mc qc) as (e & cp' & Y & Q); [auto|exact Qc|auto|].
    exists e, dp, cp', a1, a2'. rewrite (G _ _ Y). repeat split; auto.
Qed.

(** the Demultiplexer drops an older control message; and it answers when both match *)
Lemma d_waits n dp cp x md mc : ip_data dp = [md] -> ip_data cp = [mc] -> mtime mc < mtime md ->
  exists cp', exec (S n) false "d" [("d", d_op dp cp); ("in", x)] = (Ok [], [("d", d_op dp cp'); ("in", x)]) /\ ip_data cp' = [].
Proof.
  intros Qd Qc L. exists (port_trim (mtime md) cp).
  assert (Q : ip_data (port_trim (mtime md) cp) = []).
  { unfold port_trim. rewrite Qc. cbn [drop_older]. destruct (Z.ltb_spec (mtime mc) (mtime md)); [reflexivity|lia]. }
  split; [|exact Q]. cbn [exec sfind String.eqb Ascii.eqb Bool.eqb].
  assert (X : exec_local (exec n) false (d_op dp cp) = (Ok [], d_op dp (port_trim (mtime md) cp))).
  { cbn [exec_local d_op op_kind exec_data_local]. unfold demux_join. cbn [o_data o_ctrl]. rewrite Qd. cbn [demux_scan]. rewrite Q. reflexivity. }
  rewrite X. reflexivity.
Qed.
Lemma d_answers n dp cp x md mc : ip_data dp = [md] -> ip_data cp = [mc] -> mtime mc = mtime md -> veq (mval mc) v1 = true ->
  exists h, exec (S n) true "d" [("d", d_op dp cp); ("in", x)] = (Ok [("d", [("o1", [md])])], h).
Proof.
  intros Qd Qc E V. cbn [exec sfind String.eqb Ascii.eqb Bool.eqb].
  assert (Q : ip_data (port_trim (mtime md) cp) = [mc]) by (apply trim_front; [exact Qc|lia]).
  assert (X : exists d', exec_local (exec n) true (d_op dp cp) = (Ok [("o1", [md])], d') /\ o_outs (op_base d') = ["o1"] /\ o_conns (op_base d') = [] /\ o_id (op_base d') = "d").
  { cbn [exec_local d_op op_kind exec_ctrl_local]. unfold demux_join. cbn [o_data o_ctrl]. rewrite Qd. cbn [demux_scan]. rewrite Q, E, Z.eqb_refl, V.
    cbn. rewrite Q, V. cbn. eexists. split; [reflexivity|]. split; [reflexivity|]. split; reflexivity. }
  destruct X as (d' & X & O1 & O2 & O3). rewrite X. cbn [emit_op]. rewrite O1. cbn. unfold emit_msg. rewrite O2, O3. cbn. eexists. reflexivity.
Qed.

Lemma stuck_next n td tc t p port m a1 a2 ls dp cp md qd mc qc : td < tc -> port = "i1" \/ port = "i2" -> t port < mtime m ->
  p_entry p = "in" -> p_ops p = [("d", d_op dp cp); ("in", in_op a1 a2 [] ls)] ->
  ip_max a1 = 1 -> ip_max a2 = 1 -> (length (ip_data a1) <= 1)%nat -> (length (ip_data a2) <= 1)%nat ->
  (forall port l, sfind port ls = Some l -> mtime l <= t port) ->
  ip_data dp ++ (if String.eqb port "i1" then [m] else []) = md :: qd -> mtime md = td -> ip_data cp ++ (if String.eqb port "i2" then [m] else []) = mc :: qc -> mtime mc = tc ->
  (exists x, fst (receive (S (S n)) p (one (port, m))) = Throw x) /\ stuck td tc (upd t port m) (snd (receive (S (S n)) p (one (port, m)))).
Proof.
  intros Ltc P Lt E O M1 M2 L1 L2 Hls Qd Td Qc Tc.
  destruct (in_step n a1 a2 ls dp cp md qd mc qc port m) as (e & dp' & cp' & a1' & a2' & X & Hd & Hc & N1 & N2 & K1 & K2); auto; [|lia|].
  { destruct (sfind port ls) as [l|] eqn:X; [|reflexivity]. apply Hls in X. apply Z.ltb_lt. lia. }
  unfold receive, receive_debug, one. cbn [fst snd]. rewrite E.
  replace (shas "in" (p_ops p)) with true by (rewrite O; reflexivity). cbn [send_batch send_port].
  rewrite O, X. cbn [bind sbind fst snd]. split; [eauto|].
  exists a1', a2', (sset port m ls), dp', cp', md, qd, mc, qc. cbn [set_ops p_entry p_ops].
  repeat (split; [first [assumption|reflexivity]|]). split; [|auto].
  intros r l Y. rewrite sfind_sset in Y. unfold upd. destruct (String.eqb r port); [injection Y as <-; lia|]. now apply Hls in Y.
Qed.

Lemma stuck_step n td tc t p port m : td < tc -> port = "i1" \/ port = "i2" -> t port < mtime m -> stuck td tc t p ->
  (exists x, fst (receive (S (S n)) p (one (port, m))) = Throw x) /\ stuck td tc (upd t port m) (snd (receive (S (S n)) p (one (port, m)))).
Proof.
  intros Ltc P Lt (a1 & a2 & ls & dp & cp & md & qd & mc & qc & E & O & M1 & M2 & L1 & L2 & Hls & Qd & Td & Qc & Tc).
  apply (stuck_next n td tc t p port m a1 a2 ls dp cp md (qd ++ (if String.eqb port "i1" then [m] else [])) mc (qc ++ (if String.eqb port "i2" then [m] else []))); auto.
  - now rewrite Qd.
  - now rewrite Qc.
Qed.

Lemma stuck_later n td tc later : td < tc -> Forall (fun x => fst x = "i1" \/ fst x = "i2") later ->
  forall t p, stuck td tc t p -> newer t later ->
  Forall (fun r => exists x, r = Throw x) (fst (session (S (S n)) p (map one later))).
Proof.
  intros Ltc F. induction F as [|[port m] later Fx F IH]; intros t p St So; [constructor|]. cbn [map session fst snd newer] in *.
  destruct So as [Lt So].
  destruct (stuck_step n td tc t p port m Ltc Fx Lt St) as [T St1].
  destruct (receive (S (S n)) p (one (port, m))) as [r p1]. cbn [fst snd] in *. specialize (IH _ _ St1 So).
  destruct (session (S (S n)) p1 (map one later)) as [rs p2]. constructor; auto.
Qed.

(** A control message is followed by an older data message: this one fails, and so do all later
    messages, on whatever input.  Had it not been sent, the next data message and its control
    message would have been processed. *)
Theorem C52_demultiplexer_refuted (g : string -> junk) (text : string) :
  parse text = Ok demux_definition ->
  exists p0, new_prog g text = Ok p0 /\
    forall (n : nat) (control failing : msg), mtime failing < mtime control ->
      (forall later, Forall (fun x => fst x = "i1" \/ fst x = "i2") later ->
        newer (fun port => if String.eqb port "i2" then mtime control else mtime failing) later ->
        exists r1 rs, fst (session (S (S n)) p0 (map one (("i2", control) :: ("i1", failing) :: later))) = Ok r1 :: rs /\
          Forall (fun r => exists x, r = Throw x) rs) /\
      (forall data control', mtime control < mtime data -> mtime control' = mtime data -> veq (mval control') v1 = true ->
        exists r1 r2, fst (session (S (S n)) p0 (map one [("i2", control); ("i1", data); ("i2", control')])) =
          [Ok r1; Ok r2; Ok [("d", [("o1", [data])]); ("in", [("o2", [control'])])]]).
Proof.
  intros P.
  exists (mkProgram text [("d", d_op (new_port "i1" 0) (new_port "c1" 0)); ("in", in_op (new_port "i1" 1) (new_port "i2" 1) [] [])] "in" []).
  split; [unfold new_prog; rewrite P; reflexivity|]. intros n control failing L.
  set (p0 := mkProgram _ _ _ _). cbn [map session].
  assert (X : receive (S (S n)) p0 (one ("i2", control)) = (Ok [("in", [("o2", [control])])],
    mkProgram text [("d", d_op (new_port "i1" 0) (ip_push (new_port "c1" 0) control)); ("in", in_op (new_port "i1" 1) (ip_push (new_port "i2" 1) control) [] [("i2", control)])] "in" [])).
  { reflexivity. }
  rewrite X. set (p1 := mkProgram _ _ _ _). split.
  - intros later F S. set (t := fun port => if String.eqb port "i2" then mtime control else mtime failing) in *.
    destruct (stuck_next n (mtime failing) (mtime control) (fun port => if String.eqb port "i2" then mtime control else mtime failing - 1) p1 "i1" failing
      (new_port "i1" 1) (ip_push (new_port "i2" 1) control) [("i2", control)]
      (new_port "i1" 0) (ip_push (new_port "c1" 0) control) failing [] control []) as [[e T] St]; auto; [cbn; lia| |].
    { intros port l. cbn [sfind]. destruct (String.eqb port "i2"); [intros [= <-]; lia|discriminate]. }
    destruct (receive (Datatypes.S (Datatypes.S n)) p1 (one ("i1", failing))) as [r2 p2]. cbn [fst snd] in T, St.
    assert (S' : newer (upd (fun port => if String.eqb port "i2" then mtime control else mtime failing - 1) "i1" failing) later).
    { revert S. apply newer_weaken. intros q. unfold upd, t. destruct (String.eqb_spec q "i1") as [->|]; [cbn; lia|]. destruct (String.eqb q "i2"); lia. }
    pose proof (stuck_later n _ _ later L F _ _ St S') as A. destruct (session (Datatypes.S (Datatypes.S n)) p2 (map one later)) as [rs p3].
    eexists _, _. split; [reflexivity|]. constructor; eauto.
  - intros data control' L1 E V.
    assert (G : forall p port o m r h, p_entry p = "in" -> p_filter p = [] -> shas "in" (p_ops p) = true ->
      send1 (S (S n)) "in" port m (p_ops p) = (emitted o m (Ok r), h) ->
      receive (S (S n)) p (one (port, m)) = (Ok (merge_pm [] (merge_pm [] (merge_pm [] (merge_pm [("in", [(o, [m])])] r)))), set_ops p h)).
    { intros p port o m r h E1 E2 E3 X1. unfold receive, receive_debug, one. cbn [fst snd]. rewrite E1, E2, E3. cbn [send_batch send_port]. rewrite X1.
      reflexivity. }
    destruct (in_send1 n (new_port "i1" 1) (ip_push (new_port "i2" 1) control) [("i2", control)] (new_port "i1" 0) (ip_push (new_port "c1" 0) control) data)
      as (a1' & N1 & K1 & S1); [reflexivity|cbn; lia|reflexivity|].
    destruct (d_waits n (ip_push (new_port "i1" 0) data) (ip_push (new_port "c1" 0) control)
      (in_op a1' (ip_push (new_port "i2" 1) control) [] (sset "i1" data [("i2", control)])) data control) as (cp' & Y & Q); [reflexivity|reflexivity|exact L1|].
    rewrite (G p1 "i1" "o1" data _ _ eq_refl eq_refl eq_refl (S1 _ _ Y)). set (p2 := set_ops p1 _).
    destruct (in_send2 n a1' (ip_push (new_port "i2" 1) control) (sset "i1" data [("i2", control)]) (ip_push (new_port "i1" 0) data) cp' control')
      as (a2' & N2 & K2 & S2); [reflexivity|cbn; lia|cbn; apply Z.ltb_lt; lia|].
    destruct (d_answers n (ip_push (new_port "i1" 0) data) (ip_push cp' control') (in_op a1' a2' [] (sset "i2" control' (sset "i1" data [("i2", control)]))) data control')
      as (h & Y2); [reflexivity|cbn [ip_push ip_data]; now rewrite Q|exact E|exact V|].
    rewrite (G p2 "i2" "o2" control' _ _ eq_refl eq_refl eq_refl (S2 _ _ Y2)). cbn [fst snd]. eexists _, _. reflexivity.
Qed.

(** ** C50 refuted for Demultiplexers: without control messages they keep every data message, and
    every call succeeds *)
Lemma d_keeps n dp cp x : ip_data cp = [] -> exists cp',
  exec (S n) false "d" [("d", d_op dp cp); ("in", x)] = (Ok [], [("d", d_op dp cp'); ("in", x)]) /\ ip_data cp' = [].
Proof.
  intros Qc. destruct (ip_data dp) as [|md qd] eqn:Qd.
  - exists cp. split; [|exact Qc]. cbn [exec sfind String.eqb Ascii.eqb Bool.eqb].
    assert (X : exec_local (exec n) false (d_op dp cp) = (Ok [], d_op dp cp)).
    { cbn [exec_local d_op op_kind exec_data_local]. unfold demux_join. cbn [o_data o_ctrl]. rewrite Qd. reflexivity. }
    rewrite X. reflexivity.
  - exists (port_trim (mtime md) cp).
    assert (Q : ip_data (port_trim (mtime md) cp) = []) by (unfold port_trim; now rewrite Qc).
    split; [|exact Q]. cbn [exec sfind String.eqb Ascii.eqb Bool.eqb].
    assert (X : exec_local (exec n) false (d_op dp cp) = (Ok [], d_op dp (port_trim (mtime md) cp))).
    { cbn [exec_local d_op op_kind exec_data_local]. unfold demux_join. cbn [o_data o_ctrl]. rewrite Qd. cbn [demux_scan]. rewrite Q. reflexivity. }
    rewrite X. reflexivity.
Qed.

Theorem C50_demultiplexer_refuted (g : string -> junk) (text : string) :
  parse text = Ok demux_definition ->
  exists p0, new_prog g text = Ok p0 /\
    forall (n : nat) (l : list msg), StronglySorted (fun a b => mtime a < mtime b) l ->
      Forall (fun r => exists x, r = Ok x) (fst (session (S (S n)) p0 (map (fun m => one ("i1", m)) l))) /\
      exists o q, lookup ["d"] (p_ops (snd (session (S (S n)) p0 (map (fun m => one ("i1", m)) l)))) = Some o /\
        buffer_of o "i1" q /\ ip_data q = l.
Proof.
  intros P.
  exists (mkProgram text [("d", d_op (new_port "i1" 0) (new_port "c1" 0)); ("in", in_op (new_port "i1" 1) (new_port "i2" 1) [] [])] "in" []).
  split; [unfold new_prog; rewrite P; reflexivity|]. intros n.
  enough (G : forall l a1 ls dp cp, StronglySorted (fun a b => mtime a < mtime b) l ->
    ip_max a1 = 1 -> (length (ip_data a1) <= 1)%nat -> ip_data cp = [] ->
    Forall (fun m => match sfind "i1" ls with Some x => mtime x <? mtime m | None => true end = true) l ->
    let s := session (S (S n)) (mkProgram text [("d", d_op dp cp); ("in", in_op a1 (new_port "i2" 1) [] ls)] "in" []) (map (fun m => one ("i1", m)) l) in
    Forall (fun r => exists x, r = Ok x) (fst s) /\
    exists o q, lookup ["d"] (p_ops (snd s)) = Some o /\ buffer_of o "i1" q /\ ip_data q = ip_data dp ++ l).
  { intros l S. apply (G l (new_port "i1" 1) [] (new_port "i1" 0) (new_port "c1" 0)); auto; try (cbn; lia).
    apply Forall_forall. reflexivity. }
  induction l as [|m l IH]; intros a1 ls dp cp S M L Qc F; cbn [map session].
  - cbn [fst snd p_ops lookup sfind String.eqb Ascii.eqb Bool.eqb]. split; [constructor|]. exists (d_op dp cp), dp. rewrite app_nil_r.
    split; [reflexivity|]. split; [now left|reflexivity].
  - inversion S as [|? ? S' A]; subst. inversion F as [|? ? Fm F']; subst.
    destruct (in_send1 n a1 (new_port "i2" 1) ls dp cp m M L Fm) as (a1' & M' & L' & X).
    destruct (d_keeps n (ip_push dp m) cp (in_op a1' (new_port "i2" 1) [] (sset "i1" m ls)) Qc) as (cp' & Y & Qc').
    specialize (X _ _ Y).
    assert (R : receive (Datatypes.S (Datatypes.S n)) (mkProgram text [("d", d_op dp cp); ("in", in_op a1 (new_port "i2" 1) [] ls)] "in" []) (one ("i1", m)) =
      (Ok [("in", [("o1", [m])])], mkProgram text [("d", d_op (ip_push dp m) cp'); ("in", in_op a1' (new_port "i2" 1) [] (sset "i1" m ls))] "in" [])).
    { unfold receive, receive_debug, one. cbn [fst snd p_entry p_ops p_filter]. cbn [shas sfind String.eqb Ascii.eqb Bool.eqb].
      cbn [send_batch send_port]. rewrite X. reflexivity. }
    rewrite R. specialize (IH a1' (sset "i1" m ls) (ip_push dp m) cp' S' M' L' Qc').
    cbv zeta in IH. destruct (session _ _ (map (fun m => one ("i1", m)) l)) as [rs p2]. cbn [fst snd] in *.
    destruct IH as (I1 & o & q & I2 & I3 & I4).
    { rewrite sfind_sset. cbn [String.eqb Ascii.eqb Bool.eqb]. revert A. apply Forall_impl. intros x. apply Z.ltb_lt. }
    split; [constructor; eauto|]. exists o, q. split; [exact I2|]. split; [exact I3|]. rewrite I4. cbn [ip_push ip_data]. now rewrite <- app_assoc.
Qed.

(** ** What holds: a message for an input that the entry operator does not have is refused, and
    everything continues as if it had not been sent *)
Theorem C52_unknown_port_partial (g : string -> junk) (text : string) (p0 : program)
    (n : nat) (history later : list opmsg) (entry : op) (port : string) (m : msg) (ms : list msg) :
  new_prog g text = Ok p0 -> sfind (p_entry p0) (p_ops p0) = Some entry ->
  port <> "" -> sfind port (o_data (op_base entry)) = None ->
  let p := snd (session (S n) p0 history) in
  exists x, session (S n) p ([(port, m :: ms)] :: later) = (Throw x :: fst (session (S n) p later), snd (session (S n) p later)).
Proof.
  intros H Fe Np Nf p. destruct (created_well_formed _ _ _ H) as [W0 N0].
  destruct (session_shape (S n) history p0 W0 N0) as (W & _ & E & Ee & _). fold p in W, E, Ee.
  destruct (erase_heap_find _ _ _ _ (eq_sym E) Fe) as (o & Fo & Eo).
  destruct (refuse n o m port) as [x R]; [eapply shuts_same; [exact Eo|eapply new_shuts; eauto]|exact Np|eapply data_none; [exact Eo|exact Nf]|].
  exists x. cbn [session].
  assert (X : receive (S n) p [(port, m :: ms)] = (Throw x, p)).
  { unfold receive, receive_debug. rewrite <- Ee in Fo. unfold shas. rewrite Fo. cbn [send_batch send_port]. unfold send1. rewrite Fo, R.
    cbn [bind sbind]. rewrite sset_id; [|exact Fo|exact (proj1 W)]. now destruct p. }
  rewrite X. destruct (session (S n) p later). reflexivity.
Qed.
End C52.

Print Assumptions C52_demultiplexer_refuted.
Print Assumptions C50_demultiplexer_refuted.
Print Assumptions C52_unknown_port_partial.

(** ** Without the message that fails the same later messages are processed *)
Definition show_results (l : list (res (@progmsg QcOps))) : list (option (list (string * list (string * list (Z * Q))))) :=
  map (fun r => match r with Ok x => Some (map (fun y => (fst y, show_om (snd y))) x) | _ => None end) l.
Definition run_demux (batches : list (string * @msg QcOps)) : list (option (list (string * list (string * list (Z * Q))))) :=
  match new_prog (JT := a_text demux_definition JNull) j0 "text" with
  | Ok p => show_results (fst (session 50 p (map one batches)))
  | _ => []
  end.

Example C52_example :
  run_demux [("i2", im 2 1); ("i1", im 1 10); ("i1", im 4 30); ("i2", im 4 1)] =
    [Some [("in", [("o2", [(2, 1%Q)])])]; None; None; None] /\
  run_demux [("i2", im 2 1); ("i1", im 4 30); ("i2", im 4 1)] =
    [Some [("in", [("o2", [(2, 1%Q)])])]; Some [("in", [("o1", [(4, 30%Q)])])]; Some [("d", [("o1", [(4, 30%Q)])]); ("in", [("o2", [(4, 1%Q)])])]].
Proof. vm_compute. split; reflexivity. Qed.

(** one of the hypotheses' cases: an Input with two ports gets a message for "i3" *)
Example C52_unknown_example :
  run_demux [("i3", im 1 10); ("i1", im 4 30)] = [None; Some [("in", [("o1", [(4, 30%Q)])])]].
Proof. vm_compute. reflexivity. Qed.
