(** * Every history of the generated program with feedback (C91) *)

From Coq Require Import String ZArith Bool List Lia.
From Verif Require Import Base.StrMap Base.Num Base.NumCount Model.Core Model.Ops Model.Make Model.Graph Model.Run.
From Verif Require Import Spec.Streams Spec.Multi Proofs.InputP Proofs.Merge Spec.Log Spec.Feedback Proofs.Symbolic Proofs.FeedbackP Proofs.FeedbackRun Proofs.FeedbackAsk Proofs.FeedbackLate.
Import ListNotations.
Open Scope string_scope.
Open Scope list_scope.
Open Scope Z_scope.
Open Scope rtbot_scope.

Section Lists.
Context {NO : NumOps}.
Variables a b : V.

Lemma diffs_snoc x p m : diffs ((x ++ [p]) ++ [m]) = diffs (x ++ [p]) ++ [vsub (mval m) (mval p)].
Proof.
  induction x as [|y x IH]; [reflexivity|]. destruct x as [|z x]; [reflexivity|].
  change (diffs (((y :: z :: x) ++ [p]) ++ [m])) with (vsub (mval z) (mval y) :: diffs (((z :: x) ++ [p]) ++ [m])). now rewrite IH.
Qed.
Lemma ups_snoc l d : ups (l ++ [d]) = ups l ++ ups [d].
Proof. unfold ups. now rewrite flat_map_app. Qed.
Lemma downs_snoc l d : downs (l ++ [d]) = downs l ++ downs [d].
Proof. unfold downs. now rewrite flat_map_app. Qed.

(** the averages and the last message after [x] *)
Fixpoint reached (g l : V) (p : msg) (x : list msg) : V * V * msg :=
  match x with
  | [] => (g, l, p)
  | m :: x' => let d := vsub (mval m) (mval p) in reached (smooth a b g (gain d)) (smooth a b l (loss d)) m x'
  end.
Lemma reached_snoc x m : forall g l p, reached g l p (x ++ [m]) =
  let '(g1, l1, p1) := reached g l p x in let d := vsub (mval m) (mval p1) in (smooth a b g1 (gain d), smooth a b l1 (loss d), m).
Proof. induction x as [|y x IH]; intros g l p; [reflexivity|]. cbn [app reached]. apply IH. Qed.
Lemma follow_snoc x m : forall g l p, follow a b g l p (x ++ [m]) = follow a b g l p x ++
  let '(g1, l1, p1) := reached g l p x in let d := vsub (mval m) (mval p1) in answer (mtime m) (smooth a b g1 (gain d)) (smooth a b l1 (loss d)).
Proof. induction x as [|y x IH]; intros g l p; [cbn; now rewrite app_nil_r|]. cbn [app follow reached]. rewrite IH, !app_assoc. reflexivity. Qed.
Lemma reached_last x : forall g l p, snd (reached g l p x) = last (p :: x) msg0.
Proof. induction x as [|y x IH]; intros g l p; [reflexivity|]. cbn [reached]. rewrite IH. reflexivity. Qed.

Lemma strengths_short x : (length x < 15)%nat -> strengths a b x = [].
Proof. intros H. unfold strengths. rewrite skipn_all2 by lia. reflexivity. Qed.
Lemma strengths_at y m rest : length y = 14%nat -> strengths a b ((y ++ [m]) ++ rest) =
  let ds := diffs (y ++ [m]) in answer (mtime m) (start b (ups ds)) (start b (downs ds)) ++ follow a b (start b (ups ds)) (start b (downs ds)) m rest.
Proof.
  intros H. unfold strengths. rewrite <- app_assoc, skipn_app, skipn_all2, H by lia. cbn [Nat.sub skipn app].
  rewrite firstn_app, H, firstn_all2 by lia. cbn [Nat.sub firstn]. reflexivity.
Qed.

Lemma shown_short x : (length x < 15)%nat -> shown a b x = [].
Proof.
  intros H. unfold shown. pose proof (skipn_length 13 x) as L. destruct (skipn 13 x) as [|p [|m [|q r]]]; cbn [length] in L; try (apply strengths_short; lia). lia.
Qed.
Lemma shown_fifteen y p m : length y = 13%nat ->
  shown a b ((y ++ [p]) ++ [m]) = if veq (vsub (mval m) (mval p)) v0 then strengths a b ((y ++ [p]) ++ [m]) else [].
Proof. intros H. unfold shown. rewrite <- app_assoc, skipn_app, skipn_all2, H by lia. reflexivity. Qed.
Lemma shown_long x : (15 < length x)%nat -> shown a b x = strengths a b x.
Proof.
  intros H. unfold shown. pose proof (skipn_length 13 x) as L. destruct (skipn 13 x) as [|p [|m [|q r]]]; cbn [length] in L; try reflexivity. lia.
Qed.

(** the messages covered *)
Definition covers (x : list msg) : Prop := Forall (fun m => soon (mtime m)) x /\ Forall comparable (diffs x) /\ steady (skipn 14 x) /\ Z.of_nat (length x) < 2 ^ 53.

Lemma diffs_app x y : exists r, diffs (x ++ y) = diffs x ++ r.
Proof.
  induction x as [|p x [r IH]]; [now exists (diffs y)|]. destruct x as [|m x].
  - destruct y as [|m y]; [now exists []|]. now exists (diffs ([p] ++ m :: y)).
  - exists r. cbn [app diffs] in *. now rewrite IH.
Qed.
Lemma steady_app x y : steady (x ++ y) -> steady x.
Proof. induction x as [|p x IH]; [constructor|]. destruct x as [|m x]; [constructor|]. intros [E H]. split; [exact E|apply IH; exact H]. Qed.
Lemma steady_snoc x p m : steady ((x ++ [p]) ++ [m]) -> mtime m = mtime p + 1.
Proof.
  induction x as [|y x IH]; [cbn; tauto|]. destruct x as [|z x]; cbn [app steady] in *; tauto.
Qed.
Lemma covers_app x y : covers (x ++ y) -> covers x.
Proof.
  intros (T & D & K & L). repeat split.
  - now apply Forall_app in T.
  - destruct (diffs_app x y) as [r E]. rewrite E in D. now apply Forall_app in D.
  - rewrite skipn_app in K. now apply steady_app in K.
  - rewrite app_length in L. lia.
Qed.
Lemma covers_last x p m : covers ((x ++ [p]) ++ [m]) -> soon (mtime p) /\ soon (mtime m) /\ comparable (vsub (mval m) (mval p)) /\
  (14 <= Z.of_nat (length x) -> mtime m = mtime p + 1).
Proof.
  intros (T & D & K & L). apply Forall_app in T as [T1 T2]. apply Forall_app in T1 as [_ T1]. inversion T1; inversion T2; subst. rewrite diffs_snoc in D. apply Forall_app in D as [_ D]. inversion D; subst.
  repeat split; auto; [apply H1|apply H1|apply H5|apply H5|]. intros Hl. rewrite <- app_assoc, skipn_app in K. replace (14 - length x)%nat with 0%nat in K by lia. cbn [skipn] in K. rewrite app_assoc in K. exact (steady_snoc _ _ _ K).
Qed.
End Lists.

Section History.
Context {NO : NumOps} {NC : NumCount NO} {NT : NumTime NO}.
Variables a b : V.

(** ** The states between two messages *)

Definition fresh (ls : smap msg) (h : heap) : Prop :=
  statics b h /\ three h /\ counted 0 ls h /\ demux h [] /\ no_difference h "34" c34 /\
  slot h "138" [("649", "i1")] (KCumSum v0) /\ slot h "58" [("654", "i1")] (KCumSum v0) /\
  recorded b h "876" c876 0 0 [] /\ recorded b h "946" c946 0 0 [] /\
  loss_average a b h [] /\ gain_average a b h [] /\ quotient h [] [] /\ no_difference h "887" c887.

Definition L (x : list msg) : list V := downs (diffs x).
Definition G (x : list msg) : list V := ups (diffs x).
Inductive state (ls : smap msg) (h : heap) : list msg -> Prop :=
| Fresh : fresh ls h -> state ls h []
| Learning x p : (length x < 14)%nat -> learning a b (Z.of_nat (S (length x))) ls p (L (x ++ [p])) (G (x ++ [p])) h -> state ls h (x ++ [p])
| Gains x p : length x = 14%nat -> waiting_gains a b ls p (start b (L (x ++ [p]))) (G (x ++ [p])) h -> shown a b (x ++ [p]) = [] -> state ls h (x ++ [p])
| Losses x p : length x = 14%nat -> waiting_losses a b ls p (start b (G (x ++ [p]))) (L (x ++ [p])) h -> shown a b (x ++ [p]) = [] -> state ls h (x ++ [p])
| Following x p rest g l q : length x = 14%nat -> reached a b (start b (G (x ++ [p]))) (start b (L (x ++ [p]))) p rest = (g, l, q) ->
    following a b (Z.of_nat (15 + length rest)) ls q g l h ->
    (rest = [] -> settled h "876" c876 /\ settled h "946" c946 /\ shown a b (x ++ [p]) = strengths a b (x ++ [p])) ->
    state ls h ((x ++ [p]) ++ rest).

(** ** A message that is not later than those before *)

Lemma state_same ls h h' x : (forall id, id <> "754" -> sfind id h' = sfind id h) -> slot h' "754" c754 (KInput [("i1", "o1")] ls) ->
  state ls h x -> state ls h' x.
Proof.
  intros Same E S0.
  assert (I1 : statics b h -> statics b h') by (unfold statics, slot; rewrite !Same by discriminate; auto).
  assert (I2 : three h -> three h') by (unfold three, slot; rewrite !Same by discriminate; auto).
  assert (I3 : forall k, counted k ls h -> counted k ls h').
  { intros k [C1 C2]. split; [|exact E]. unfold slot in *. rewrite !Same by discriminate. auto. }
  assert (I4 : forall d, demux h d -> demux h' d) by (intros d; unfold demux; rewrite !Same by discriminate; auto).
  assert (I5 : forall p, difference h "887" c887 p -> difference h' "887" c887 p) by (intros d; unfold difference; rewrite !Same by discriminate; auto).
  assert (I6 : forall p, difference h "34" c34 p -> difference h' "34" c34 p) by (intros d; unfold difference; rewrite !Same by discriminate; auto).
  assert (I7 : no_difference h "887" c887 -> no_difference h' "887" c887) by (unfold no_difference; rewrite !Same by discriminate; auto).
  assert (I8 : no_difference h "34" c34 -> no_difference h' "34" c34) by (unfold no_difference; rewrite !Same by discriminate; auto).
  assert (I9 : forall k, slot h "138" [("649", "i1")] k -> slot h' "138" [("649", "i1")] k) by (intros d; unfold slot; rewrite !Same by discriminate; auto).
  assert (I10 : forall k, slot h "58" [("654", "i1")] k -> slot h' "58" [("654", "i1")] k) by (intros d; unfold slot; rewrite !Same by discriminate; auto).
  assert (I11 : forall k q l, recorded b h "876" c876 k q l -> recorded b h' "876" c876 k q l) by (intros k q l; unfold recorded; rewrite !Same by discriminate; auto).
  assert (I12 : forall k q l, recorded b h "946" c946 k q l -> recorded b h' "946" c946 k q l) by (intros k q l; unfold recorded; rewrite !Same by discriminate; auto).
  assert (I13 : forall q l, asked b h "876" c876 q l -> asked b h' "876" c876 q l) by (intros q l; unfold asked; rewrite !Same by discriminate; auto).
  assert (I14 : forall q l, asked b h "946" c946 q l -> asked b h' "946" c946 q l) by (intros q l; unfold asked; rewrite !Same by discriminate; auto).
  assert (I15 : settled h "876" c876 -> settled h' "876" c876) by (unfold settled; rewrite !Same by discriminate; auto).
  assert (I16 : settled h "946" c946 -> settled h' "946" c946) by (unfold settled; rewrite !Same by discriminate; auto).
  assert (I17 : forall d, loss_average a b h d -> loss_average a b h' d) by (intros d; unfold loss_average; rewrite !Same by discriminate; auto).
  assert (I18 : forall d, gain_average a b h d -> gain_average a b h' d) by (intros d; unfold gain_average; rewrite !Same by discriminate; auto).
  assert (I19 : forall d e, quotient h d e -> quotient h' d e) by (intros d e; unfold quotient; rewrite !Same by discriminate; auto).
  destruct S0 as [F|x p K F|x p K F Sh|x p K F Sh|x p rest g l q K R F Sh].
  - apply Fresh. unfold fresh in *. intuition.
  - apply Learning; [exact K|]. unfold learning in *. intuition.
  - apply Gains; [exact K| |exact Sh]. unfold waiting_gains in *. intuition.
  - apply Losses; [exact K| |exact Sh]. unfold waiting_losses in *. intuition.
  - apply (Following _ _ _ _ _ g l q); [exact K|exact R| |]; [unfold following in *; intuition|intros Hr; destruct (Sh Hr) as (A1 & A2 & A3); auto].
Qed.

(** ** A later message *)

Lemma rest_any n k ls h q t v g l : midway b (wrap (k + 1)) (k + 1) ls t v h -> difference h "887" c887 q ->
  loss_average a b h [mkMsg t l] -> gain_average a b h [mkMsg t g] -> quotient h [] [] ->
  comparable (vsub v (mval q)) -> 15 <= k -> k + 1 < 2 ^ 53 -> soon t -> (16 < n)%nat ->
  let g' := smooth a b g (gain (vsub v (mval q))) in let l' := smooth a b l (loss (vsub v (mval q))) in
  exists h', runs_all "467" n others h h' (answer t g' l') /\ following a b (k + 1) ls (mkMsg t v) g' l' h'.
Proof.
  intros M D A1 A2 Q C K1 K2 Ht Hn. destruct q as [pt pv]. cbn [mval] in *. unfold gain, loss. destruct C as [(C1 & C2 & C3)|[(C1 & C2 & C3)|(C1 & C2 & C3)]]; rewrite C1, C3.
  - exact (rest_loss a b n k ls h pt pv t v g l M D A1 A2 Q (conj C1 (conj C2 C3)) K1 K2 Ht Hn).
  - exact (rest_same a b n k ls h pt pv t v g l M D A1 A2 Q (conj C1 (conj C2 C3)) K1 K2 Ht Hn).
  - exact (rest_gain a b n k ls h pt pv t v g l M D A1 A2 Q (conj C1 (conj C2 C3)) K1 K2 Ht Hn).
Qed.

Lemma L_snoc x p m : L ((x ++ [p]) ++ [m]) = L (x ++ [p]) ++ downs [vsub (mval m) (mval p)].
Proof. unfold L. now rewrite diffs_snoc, downs_snoc. Qed.
Lemma G_snoc x p m : G ((x ++ [p]) ++ [m]) = G (x ++ [p]) ++ ups [vsub (mval m) (mval p)].
Proof. unfold G. now rewrite diffs_snoc, ups_snoc. Qed.

(** from the fifteenth message on: what is shown *)
Lemma shown_more x p rest m g l q : length x = 14%nat -> reached a b (start b (G (x ++ [p]))) (start b (L (x ++ [p]))) p rest = (g, l, q) ->
  let d := vsub (mval m) (mval q) in
  shown a b (((x ++ [p]) ++ rest) ++ [m]) = strengths a b ((x ++ [p]) ++ rest) ++ answer (mtime m) (smooth a b g (gain d)) (smooth a b l (loss d)).
Proof.
  intros K R d. rewrite shown_long by (rewrite !app_length; cbn [length]; lia). rewrite <- app_assoc, !strengths_at by exact K. cbv zeta.
  unfold G, L in R. rewrite follow_snoc, R, app_assoc. reflexivity.
Qed.

Lemma step n ls h x m : state ls h x -> accepted ls (mtime m) = true -> sfind "i1" ls = last_opt x -> covers (x ++ [m]) -> (20 < n)%nat ->
  exists h' r, sends n m h h' r /\ state (latest m ls) h' (x ++ [m]) /\ shown a b (x ++ [m]) = shown a b x ++ r.
Proof.
  intros S0 A Ls C Hn. destruct m as [t v]. cbn [mtime] in A. pose proof A as Later. unfold accepted in Later. rewrite Ls in Later.
  destruct S0 as [F|x p K F|x p K F Sh|x p K F Sh|x p rest g l q K R F Sh].
  - destruct F as (P1 & P2 & P3 & P4 & P5 & P6 & P7 & P8 & P9 & P10 & P11 & P12 & P13).
    destruct (round_first b n ls h t v P1 P2 P3 P4 P5 A ltac:(lia)) as (h' & E & Q1 & Q2 & Q3 & Q4 & Q5 & Same).
    exists h', []. split; [exact E|]. split; [|rewrite !shown_short by (cbn [app length]; lia); reflexivity].
    apply (Learning _ _ []); [cbn; lia|]. cbn [length app]. change (Z.of_nat 1) with 1. change (L [mkMsg t v]) with (@nil V). change (G [mkMsg t v]) with (@nil V). cbn [mtime].
    assert (Ht : 0 <= t) by (destruct C as (T & _); inversion T; subst; unfold soon in *; cbn [mtime] in *; lia).
    unfold learning, slot, recorded, loss_average, gain_average, quotient, no_difference in *. rewrite !Same by (cbn; tauto).
    repeat (split; [solve [assumption] || idtac|]); try assumption.
    + destruct P8 as (s & d & s1 & tp & F1 & T & B & Hh & Hl). exists s, d, s1, tp. repeat split; auto; [apply (before_more _ _ _ B); cbn [mtime]; lia|lia].
    + destruct P9 as (s & d & s1 & tp & F1 & T & B & Hh & Hl). exists s, d, s1, tp. repeat split; auto; [apply (before_more _ _ _ B); cbn [mtime]; lia|lia].
  - rewrite last_opt_snoc in Later. apply Z.ltb_lt in Later. destruct (covers_last _ _ _ C) as (Sp & Sm & Cd & _). cbn [mtime mval] in Sm, Cd. destruct p as [pt pv]. cbn [mtime mval] in Later, Cd.
    rewrite (shown_short a b (x ++ [_])) by (rewrite app_length; cbn [length]; lia). cbn [app].
    destruct (Nat.eq_dec (length x) 13) as [K13|K13].
    + rewrite K13 in F. change (Z.of_nat 14) with 14 in F. rewrite shown_fifteen by exact K13. cbn [mval].
      assert (K14 : length (x ++ [mkMsg pt pv]) = 14%nat) by (rewrite app_length, K13; reflexivity).
      destruct Cd as [(C1 & C2 & C3)|[(C1 & C2 & C3)|(C1 & C2 & C3)]]; rewrite C2.
      * destruct (ask_loss a b n ls pt pv _ _ h t v F A Sm Later (conj C1 (conj C2 C3)) ltac:(lia)) as (h' & E & W).
        exists h', []. split; [exact E|]. split; [|reflexivity]. apply Gains; [exact K14| |rewrite shown_fifteen by exact K13; cbn [mval]; now rewrite C2].
        rewrite L_snoc, G_snoc. cbn [mval]. unfold downs, ups. cbn [flat_map]. rewrite C1, C2, C3. cbn [orb app]. rewrite ?app_nil_r. exact W.
      * destruct (ask_same a b n ls pt pv _ _ h t v F A Sm Later (conj C1 (conj C2 C3)) ltac:(lia)) as (h' & E & W & Z1 & Z2).
        exists h', (answer t (start b (G ((x ++ [mkMsg pt pv]) ++ [mkMsg t v]))) (start b (L ((x ++ [mkMsg pt pv]) ++ [mkMsg t v])))).
        assert (EL : L ((x ++ [mkMsg pt pv]) ++ [mkMsg t v]) = L (x ++ [mkMsg pt pv]) ++ [vsub v pv]).
        { rewrite L_snoc. cbn [mval]. unfold downs. cbn [flat_map]. rewrite C1, C2. reflexivity. }
        assert (EG : G ((x ++ [mkMsg pt pv]) ++ [mkMsg t v]) = G (x ++ [mkMsg pt pv]) ++ [vsub v pv]).
        { rewrite G_snoc. cbn [mval]. unfold ups. cbn [flat_map]. rewrite C2, C3. reflexivity. }
        split; [rewrite EL, EG; exact E|]. split.
        -- rewrite <- (app_nil_r ((x ++ [mkMsg pt pv]) ++ [mkMsg t v])). eapply (Following _ _ (x ++ [mkMsg pt pv])); [exact K14|reflexivity| |].
           ++ rewrite EL, EG. exact W.
           ++ intros _. split; [exact Z1|]. split; [exact Z2|]. rewrite shown_fifteen by exact K13. cbn [mval]. now rewrite C2.
        -- rewrite <- (app_nil_r ((x ++ [mkMsg pt pv]) ++ [mkMsg t v])) at 1. rewrite strengths_at by exact K14. cbn [follow mtime]. now rewrite app_nil_r.
      * destruct (ask_gain a b n ls pt pv _ _ h t v F A Sm Later (conj C1 (conj C2 C3)) ltac:(lia)) as (h' & E & W).
        exists h', []. split; [exact E|]. split; [|reflexivity]. apply Losses; [exact K14| |rewrite shown_fifteen by exact K13; cbn [mval]; now rewrite C2].
        rewrite L_snoc, G_snoc. cbn [mval]. unfold downs, ups. cbn [flat_map]. rewrite C1, C2, C3. cbn [orb app]. rewrite ?app_nil_r. exact W.
    + assert (K14 : (length (x ++ [mkMsg pt pv]) < 14)%nat) by (rewrite app_length; cbn [length]; lia).
      rewrite (shown_short a b (_ ++ [mkMsg t v])) by (rewrite app_length; cbn [length]; lia).
      assert (Ek : Z.of_nat (S (length x)) + 1 = Z.of_nat (S (length (x ++ [mkMsg pt pv])))) by (rewrite app_length; cbn [length]; lia).
      assert (B1 : 1 <= Z.of_nat (S (length x))) by lia. assert (B2 : Z.of_nat (S (length x)) + 1 < 15) by lia.
      destruct Cd as [(C1 & C2 & C3)|[(C1 & C2 & C3)|(C1 & C2 & C3)]].
      * destruct (round_loss a b n _ ls pt pv _ _ h t v F A B1 B2 Sm Later (conj C1 (conj C2 C3)) ltac:(lia)) as (h' & E & W).
        exists h', []. split; [exact E|]. split; [|reflexivity]. apply Learning; [exact K14|]. rewrite <- Ek, L_snoc, G_snoc. cbn [mval]. unfold downs, ups. cbn [flat_map].
        rewrite C1, C2, C3. cbn [orb app]. rewrite ?app_nil_r. exact W.
      * destruct (round_same a b n _ ls pt pv _ _ h t v F A B1 B2 Sm Later (conj C1 (conj C2 C3)) ltac:(lia)) as (h' & E & W).
        exists h', []. split; [exact E|]. split; [|reflexivity]. apply Learning; [exact K14|]. rewrite <- Ek, L_snoc, G_snoc. cbn [mval]. unfold downs, ups. cbn [flat_map].
        rewrite C1, C2, C3. cbn [orb app]. exact W.
      * destruct (round_gain a b n _ ls pt pv _ _ h t v F A B1 B2 Sm Later (conj C1 (conj C2 C3)) ltac:(lia)) as (h' & E & W).
        exists h', []. split; [exact E|]. split; [|reflexivity]. apply Learning; [exact K14|]. rewrite <- Ek, L_snoc, G_snoc. cbn [mval]. unfold downs, ups. cbn [flat_map].
        rewrite C1, C2, C3. cbn [orb app]. rewrite ?app_nil_r. exact W.
  - rewrite last_opt_snoc in Later. apply Z.ltb_lt in Later. destruct (covers_last _ _ _ C) as (Sp & Sm & Cd & St). cbn [mtime mval] in Sm, Cd, St.
    assert (Et : t = mtime p + 1) by (apply St; lia). clear St. do 2 (destruct n as [|n]; [lia|]).
    destruct (enter_gains a b n ls h t v p _ _ F A Sp Later ltac:(lia)) as (h1 & Go & M & A2 & Q & Same). pose proof F as (P1 & P2 & P3 & P4 & P5 & P6 & P7 & P8 & P9 & P10).
    assert (D1 : difference h1 "887" c887 p) by (unfold difference in *; rewrite Same by (cbn; tauto); exact P5).
    assert (A1 : loss_average a b h1 [mkMsg t (start b (L (x ++ [p])))]) by (unfold loss_average in *; rewrite Same by (cbn; tauto); rewrite Et; exact P8).
    rewrite <- Et in A2. destruct (rest_any n 15 _ h1 p t v _ _ M D1 A1 A2 Q Cd ltac:(lia) ltac:(lia) Sm ltac:(lia)) as (h2 & R2 & W).
    exists h2. eexists. split; [exact (Go _ _ R2)|]. split.
    + rewrite <- (app_nil_r (x ++ [p])). rewrite <- app_assoc. eapply (Following _ _ x p [mkMsg t v]); [exact K|reflexivity|exact W|discriminate].
    + rewrite Sh. rewrite <- (app_nil_r (x ++ [p])) at 1. erewrite shown_more; [|exact K|reflexivity]. rewrite strengths_at by exact K. cbn [follow app]. rewrite app_nil_r. reflexivity.
  - rewrite last_opt_snoc in Later. apply Z.ltb_lt in Later. destruct (covers_last _ _ _ C) as (Sp & Sm & Cd & St). cbn [mtime mval] in Sm, Cd, St.
    assert (Et : t = mtime p + 1) by (apply St; lia). clear St. do 2 (destruct n as [|n]; [lia|]).
    destruct (enter_losses a b n ls h t v p _ _ F A Sp Later ltac:(lia)) as (h1 & Go & M & A1 & Q & Same). pose proof F as (P1 & P2 & P3 & P4 & P5 & P6 & P7 & P8 & P9 & P10).
    assert (D1 : difference h1 "887" c887 p) by (unfold difference in *; rewrite Same by (cbn; tauto); exact P5).
    assert (A2 : gain_average a b h1 [mkMsg t (start b (G (x ++ [p])))]) by (unfold gain_average in *; rewrite Same by (cbn; tauto); rewrite Et; exact P9).
    rewrite <- Et in A1. destruct (rest_any n 15 _ h1 p t v _ _ M D1 A1 A2 Q Cd ltac:(lia) ltac:(lia) Sm ltac:(lia)) as (h2 & R2 & W).
    exists h2. eexists. split; [exact (Go _ _ R2)|]. split.
    + rewrite <- (app_nil_r (x ++ [p])). rewrite <- app_assoc. eapply (Following _ _ x p [mkMsg t v]); [exact K|reflexivity|exact W|discriminate].
    + rewrite Sh. rewrite <- (app_nil_r (x ++ [p])) at 1. erewrite shown_more; [|exact K|reflexivity]. rewrite strengths_at by exact K. cbn [follow app]. rewrite app_nil_r. reflexivity.
  - assert (Hq : exists y, (x ++ [p]) ++ rest = y ++ [q] /\ (14 <= length y)%nat).
    { pose proof (reached_last a b rest (start b (G (x ++ [p]))) (start b (L (x ++ [p]))) p) as E. rewrite R in E. cbn [snd] in E. rewrite <- app_assoc. cbn [app].
      exists (x ++ removelast (p :: rest)). rewrite <- app_assoc, E, <- app_removelast_last by discriminate. split; [reflexivity|]. rewrite app_length. lia. }
    destruct Hq as (y & Ey & Hy). pose proof C as (_ & _ & _ & Cl). rewrite app_length, app_length in Cl. cbn [length] in Cl. rewrite app_length in Cl. cbn [length] in Cl.
    rewrite Ey in Later, C. rewrite last_opt_snoc in Later. apply Z.ltb_lt in Later. destruct (covers_last _ _ _ C) as (Sp & Sm & Cd & St). cbn [mtime mval] in Sm, Cd, St.
    assert (Et : t = mtime q + 1) by (apply St; lia). clear St. do 2 (destruct n as [|n]; [lia|]).
    pose proof F as (P1 & P2 & P3 & P4 & P5 & P6 & P7 & P8).
    assert (En : exists h1, (forall h2 r, runs_all "467" n others h1 h2 r -> sends (S (S n)) (mkMsg t v) h h2 r) /\
      midway b (wrap (Z.of_nat (15 + length rest) + 1)) (Z.of_nat (15 + length rest) + 1) (latest (mkMsg t v) ls) t v h1 /\
      (forall id, In id ["887"; "130"; "746"; "287"] -> sfind id h1 = sfind id h)).
    { destruct rest as [|r0 rest].
      - destruct (Sh eq_refl) as (Z1 & Z2 & _). exact (enter_settled b n ls h t v P1 P2 P3 P4 Z1 Z2 A ltac:(lia)).
      - apply (enter_later b n _ ls h t v P1 P2 P3 P4 A); cbn [length] in *; lia. }
    destruct En as (h1 & Go & M & Same).
    assert (D1 : difference h1 "887" c887 q) by (unfold difference in *; rewrite Same by (cbn; tauto); exact P5).
    assert (A1 : loss_average a b h1 [mkMsg t l]) by (unfold loss_average in *; rewrite Same by (cbn; tauto); rewrite Et; exact P6).
    assert (A2 : gain_average a b h1 [mkMsg t g]) by (unfold gain_average in *; rewrite Same by (cbn; tauto); rewrite Et; exact P7).
    assert (Q : quotient h1 [] []) by (unfold quotient in *; rewrite Same by (cbn; tauto); exact P8).
    destruct (rest_any n _ _ h1 q t v _ _ M D1 A1 A2 Q Cd ltac:(lia) ltac:(lia) Sm ltac:(lia)) as (h2 & R2 & W).
    exists h2. eexists. split; [exact (Go _ _ R2)|]. split.
    + rewrite <- app_assoc. eapply (Following _ _ x p (rest ++ [mkMsg t v])); [exact K|rewrite reached_snoc, R; reflexivity| |intros Hr; destruct rest; discriminate].
      replace (Z.of_nat (15 + length (rest ++ [mkMsg t v]))) with (Z.of_nat (15 + length rest) + 1) by (rewrite app_length; cbn [length]; lia). exact W.
    + rewrite (shown_more x p rest (mkMsg t v) g l q K R). f_equal. destruct rest as [|r0 rest].
      * rewrite app_nil_r. symmetry. apply Sh. reflexivity.
      * symmetry. apply shown_long. rewrite !app_length. cbn [length]. lia.
Qed.

(** ** All messages *)

Definition after (ms : list msg) (h : heap) : Prop := exists ls, state ls h (records ms) /\ sfind "i1" ls = last_opt (records ms).
Definition covered (ms : list msg) : Prop := covers (records ms).
Definition view (ms : list msg) : list msg := shown a b (records ms).

Lemma records_app ms more : exists r, records (ms ++ more) = records ms ++ r.
Proof.
  induction more as [|m more [r IH]] using rev_ind; [exists []; now rewrite !app_nil_r|]. rewrite app_assoc, records_snoc, IH, <- app_assoc. eauto.
Qed.
Lemma covered_before ms more : covered (ms ++ more) -> covered ms.
Proof. unfold covered. destruct (records_app ms more) as [r ->]. apply covers_app. Qed.

Lemma has_entry ms h : after ms h -> shas "754" h = true.
Proof.
  intros (ls & S0 & _). assert (X : exists k, counted k ls h).
  { destruct S0 as [F|x p K F|x p K F Sh|x p K F Sh|x p rest g l q K R F Sh]; unfold fresh, learning, waiting_gains, waiting_losses, following in F; decompose [and] F; eauto. }
  destruct X as (k & _ & s & d & F & _). unfold shas. now rewrite F.
Qed.

Lemma after_one n ms h m : (20 < n)%nat -> after ms h -> covered (ms ++ [m]) ->
  exists h' r out, send1 n "754" "i1" m h = (Ok out, h') /\ wf_pm out /\ result_at out "467" "o1" = r /\ after (ms ++ [m]) h' /\ view (ms ++ [m]) = view ms ++ r.
Proof.
  intros Hn (ls & S0 & Ls) C. unfold covered in C. unfold after, view. rewrite records_snoc in *. unfold later_than in *.
  destruct (accepted ls (mtime m)) eqn:A; pose proof A as A'; unfold accepted in A'; rewrite Ls in A'.
  - rewrite A' in *. destruct (step n ls h _ m S0 A Ls C Hn) as (h' & r & (out & E & W & Rs) & S1 & V1).
    exists h', r, out. repeat split; auto; try apply W. exists (latest m ls). split; [exact S1|]. rewrite last_opt_snoc. unfold latest. apply sfind_sset_same.
  - rewrite A' in *. rewrite app_nil_r in *. destruct m as [t v].
    assert (X : exists k, statics b h /\ three h /\ counted k ls h).
    { destruct S0 as [F|x p K F|x p K F Sh|x p K F Sh|x p rest g l q K R F Sh]; unfold fresh, learning, waiting_gains, waiting_losses, following in F; decompose [and] F; eauto. }
    destruct X as (k & X1 & X2 & X3). destruct (round_stale b n k ls h t v X1 X2 X3 A ltac:(lia)) as (h' & (out & E & W & Rs) & Same & E754).
    exists h', [], out. rewrite app_nil_r. repeat split; auto; try apply W. exists ls. split; [exact (state_same ls h h' _ Same E754 S0)|exact Ls].
Qed.
End History.
