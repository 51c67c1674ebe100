(** * The generated program with feedback from the sixteenth message on (C91) *)

From Coq Require Import String ZArith Bool List Lia.
From Verif Require Import Base.StrMap Base.Num Base.NumCount Model.Core Model.Ops Model.Make Model.Graph.
From Verif Require Import Proofs.Merge Spec.Log Spec.Feedback Proofs.Symbolic Proofs.FeedbackP Proofs.FeedbackRun.
Import ListNotations.
Open Scope string_scope.
Open Scope list_scope.
Open Scope Z_scope.
Open Scope rtbot_scope.

Section Late.
Context {NO : NumOps} {NC : NumCount NO} {NT : NumTime NO}.
Variables a b : V.

Definition others : list (string * string) := [("996", "i1"); ("865", "i1"); ("510", "i1")].
(** the count was delivered and [861] has dealt with it *)
Definition midway (c k : Z) (ls : smap msg) (t : Z) (v : V) (h : heap) : Prop :=
  statics b h /\ three_loaded h t (vofZ c) /\ counted k ls h /\ demux h [mkMsg t v].

(** ** Up to the test for the sixteenth message *)

Lemma enter_later n k ls h t v : statics b h -> three h -> counted k ls h -> demux h [] -> accepted ls t = true -> 16 <= k -> k + 1 < 2 ^ 53 -> (1 < n)%nat ->
  exists h1, (forall h2 r, runs_all "467" n others h1 h2 r -> sends (S (S n)) (mkMsg t v) h h2 r) /\
    midway (wrap (k + 1)) (k + 1) (latest (mkMsg t v) ls) t v h1 /\
    (forall id, In id ["887"; "130"; "746"; "287"] -> sfind id h1 = sfind id h).
Proof.
  intros P1 P2 P3 P4 A K1 K2 Hn. counts k. unpack. destruct n as [|n]; [lia|]. eexists. split; [intros h2 r Rest; unfold others in Rest; enter|].
  conceal. split.
  - unfold midway. rewrite <- (wrap_id (k + 1)) at 2 by (unfold two64; lia). pack. all: filed.
  - intros id Hid. rewrite FU. cbn [In] in Hid. repeat (destruct Hid as [<-|Hid]; [reflexivity|]). destruct Hid.
Qed.

Lemma enter_settled n ls h t v : statics b h -> three h -> counted 15 ls h -> demux h [] -> settled h "876" c876 -> settled h "946" c946 -> accepted ls t = true -> (5 < n)%nat ->
  exists h1, (forall h2 r, runs_all "467" n others h1 h2 r -> sends (S (S n)) (mkMsg t v) h h2 r) /\
    midway (wrap (15 + 1)) 16 (latest (mkMsg t v) ls) t v h1 /\
    (forall id, In id ["887"; "130"; "746"; "287"] -> sfind id h1 = sfind id h).
Proof.
  intros P1 P2 P3 P4 P5 P6 A Hn. counts 15. unpack. do 6 (destruct n as [|n]; [lia|]). eexists. split; [intros h2 r Rest; unfold others in Rest; enter|].
  conceal. split.
  - unfold midway. change (wrap (15 + 1)) with 16 in FU |- *. pack. all: filed.
  - intros id Hid. rewrite FU. cbn [In] in Hid. repeat (destruct Hid as [<-|Hid]; [reflexivity|]). destruct Hid.
Qed.

Lemma enter_gains n ls h t v p l G : waiting_gains a b ls p l G h -> accepted ls t = true -> soon (mtime p) -> mtime p < t -> (16 < n)%nat ->
  let g := start b G in
  exists h1, (forall h2 r, runs_all "467" n others h1 h2 r -> sends (S (S n)) (mkMsg t v) h h2 (answer (mtime p) g l ++ r)) /\
    midway (wrap (15 + 1)) 16 (latest (mkMsg t v) ls) t v h1 /\
    gain_average a b h1 [mkMsg (mtime p + 1) g] /\ quotient h1 [] [] /\
    (forall id, In id ["887"; "130"] -> sfind id h1 = sfind id h).
Proof.
  intros (P1 & P2 & P3 & P4 & P5 & P6 & P7 & P8 & P9 & P10) A Hs Hp Hn. destruct p as [t0 v00]. cbn [mtime] in *. counts 15. cbv zeta. unpack.
  match goal with E : held _ = start b G |- _ => rewrite <- E end. do 17 (destruct n as [|n]; [lia|]). unfold answer.
  destruct (veq l v0) eqn:E0.
  all: eexists; (split; [intros h2 r Rest; unfold others in Rest; enter|]); conceal; split;
    [unfold midway; change (wrap (15 + 1)) with 16 in FU |- *; pack; filed|].
  all: split; [pack; filed|split; [pack; filed|]].
  all: intros id Hid; rewrite FU; cbn [In] in Hid; repeat (destruct Hid as [<-|Hid]; [reflexivity|]); destruct Hid.
Qed.

Lemma enter_losses n ls h t v p g L : waiting_losses a b ls p g L h -> accepted ls t = true -> soon (mtime p) -> mtime p < t -> (16 < n)%nat ->
  let l := start b L in
  exists h1, (forall h2 r, runs_all "467" n others h1 h2 r -> sends (S (S n)) (mkMsg t v) h h2 (answer (mtime p) g l ++ r)) /\
    midway (wrap (15 + 1)) 16 (latest (mkMsg t v) ls) t v h1 /\
    loss_average a b h1 [mkMsg (mtime p + 1) l] /\ quotient h1 [] [] /\
    (forall id, In id ["887"; "746"] -> sfind id h1 = sfind id h).
Proof.
  intros (P1 & P2 & P3 & P4 & P5 & P6 & P7 & P8 & P9 & P10) A Hs Hp Hn. destruct p as [t0 v00]. cbn [mtime] in *. counts 15. cbv zeta. unpack.
  match goal with E : held _ = start b L |- _ => rewrite <- E; rename E into E1 end. do 17 (destruct n as [|n]; [lia|]). unfold answer.
  match goal with |- context [held ?d] => destruct (veq (held d) v0) eqn:E0 end.
  all: eexists; (split; [intros h2 r Rest; unfold others in Rest; enter|]); conceal; split;
    [unfold midway; change (wrap (15 + 1)) with 16 in FU |- *; pack; filed|].
  all: split; [pack; filed|split; [pack; filed|]].
  all: intros id Hid; rewrite FU; cbn [In] in Hid; repeat (destruct Hid as [<-|Hid]; [reflexivity|]); destruct Hid.
Qed.

(** ** The rest *)

Lemma runs_all_from w n cs h h' r r' : runs_all w n cs (upd [] h) h' r -> r = r' -> runs_all w n cs h h' r'.
Proof. now intros R <-. Qed.

Lemma rest_loss n k ls h pt pv t v g l : midway (wrap (k + 1)) (k + 1) ls t v h -> difference h "887" c887 (mkMsg pt pv) ->
  loss_average a b h [mkMsg t l] -> gain_average a b h [mkMsg t g] -> quotient h [] [] ->
  sign (vsub v pv) true false false -> 15 <= k -> k + 1 < 2 ^ 53 -> soon t -> (16 < n)%nat ->
  let g' := smooth a b g v0 in let l' := smooth a b l (vmul (vsub v pv) (vofZ (-1))) in
  exists h', runs_all "467" n others h h' (answer t g' l') /\ following a b (k + 1) ls (mkMsg t v) g' l' h'.
Proof.
  intros (P1 & P2 & P3 & P4) P5 P6 P7 P8 (D1 & D2 & D3) K1 K2 Ht Hn. cbv zeta. set (k1 := k + 1) in *.
  assert (Tests : count_tests k (k + 1 =? 16) false true false).
  { destruct (count_tests_all k) as (T1 & T2 & T3 & T4); [lia|lia|]. rewrite (proj2 (Z.eqb_neq _ _)) in T2 by lia. rewrite (proj2 (Z.ltb_lt _ _)) in T3 by lia.
    rewrite (proj2 (Z.ltb_ge _ _)) in T4 by lia. repeat split; assumption. }
  destruct Tests as (_ & T2 & T3 & T4). fold k1 in T2, T3, T4. unpack. do 17 (destruct n as [|n]; [lia|]). unfold answer, others.
  destruct (veq (smooth a b l (vmul (vsub v pv) (vofZ (-1)))) v0) eqn:E0.
  all: eexists; (split; [eapply runs_all_from; [run_all run_one|reflexivity]|]); conceal; unfold following; cbn [mtime]; pack; filed.
Qed.
Lemma rest_gain n k ls h pt pv t v g l : midway (wrap (k + 1)) (k + 1) ls t v h -> difference h "887" c887 (mkMsg pt pv) ->
  loss_average a b h [mkMsg t l] -> gain_average a b h [mkMsg t g] -> quotient h [] [] ->
  sign (vsub v pv) false false true -> 15 <= k -> k + 1 < 2 ^ 53 -> soon t -> (16 < n)%nat ->
  let g' := smooth a b g (vsub v pv) in let l' := smooth a b l v0 in
  exists h', runs_all "467" n others h h' (answer t g' l') /\ following a b (k + 1) ls (mkMsg t v) g' l' h'.
Proof.
  intros (P1 & P2 & P3 & P4) P5 P6 P7 P8 (D1 & D2 & D3) K1 K2 Ht Hn. cbv zeta. set (k1 := k + 1) in *.
  assert (Tests : count_tests k (k + 1 =? 16) false true false).
  { destruct (count_tests_all k) as (T1 & T2 & T3 & T4); [lia|lia|]. rewrite (proj2 (Z.eqb_neq _ _)) in T2 by lia. rewrite (proj2 (Z.ltb_lt _ _)) in T3 by lia.
    rewrite (proj2 (Z.ltb_ge _ _)) in T4 by lia. repeat split; assumption. }
  destruct Tests as (_ & T2 & T3 & T4). fold k1 in T2, T3, T4. unpack. do 17 (destruct n as [|n]; [lia|]). unfold answer, others.
  destruct (veq (smooth a b l v0) v0) eqn:E0.
  all: eexists; (split; [eapply runs_all_from; [run_all run_one|reflexivity]|]); conceal; unfold following; cbn [mtime]; pack; filed.
Qed.
Lemma rest_same n k ls h pt pv t v g l : midway (wrap (k + 1)) (k + 1) ls t v h -> difference h "887" c887 (mkMsg pt pv) ->
  loss_average a b h [mkMsg t l] -> gain_average a b h [mkMsg t g] -> quotient h [] [] ->
  sign (vsub v pv) false true false -> 15 <= k -> k + 1 < 2 ^ 53 -> soon t -> (16 < n)%nat ->
  let g' := smooth a b g v0 in let l' := smooth a b l v0 in
  exists h', runs_all "467" n others h h' (answer t g' l') /\ following a b (k + 1) ls (mkMsg t v) g' l' h'.
Proof.
  intros (P1 & P2 & P3 & P4) P5 P6 P7 P8 (D1 & D2 & D3) K1 K2 Ht Hn. cbv zeta. set (k1 := k + 1) in *.
  assert (Tests : count_tests k (k + 1 =? 16) false true false).
  { destruct (count_tests_all k) as (T1 & T2 & T3 & T4); [lia|lia|]. rewrite (proj2 (Z.eqb_neq _ _)) in T2 by lia. rewrite (proj2 (Z.ltb_lt _ _)) in T3 by lia.
    rewrite (proj2 (Z.ltb_ge _ _)) in T4 by lia. repeat split; assumption. }
  destruct Tests as (_ & T2 & T3 & T4). fold k1 in T2, T3, T4. unpack. do 17 (destruct n as [|n]; [lia|]). unfold answer, others.
  destruct (veq (smooth a b l v0) v0) eqn:E0.
  all: eexists; (split; [eapply runs_all_from; [run_all run_one|reflexivity]|]); conceal; unfold following; cbn [mtime]; pack; filed.
Qed.
End Late.
