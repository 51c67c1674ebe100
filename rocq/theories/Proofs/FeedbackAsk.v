(** * The fifteenth message of the generated program with feedback (C91) *)

From Coq Require Import String ZArith Bool List Lia.
From Verif Require Import Base.StrMap Base.Num Base.NumCount Model.Core Model.Ops Model.Make Model.Graph.
From Verif Require Import Proofs.Merge Spec.Log Spec.Feedback Proofs.Symbolic Proofs.FeedbackP Proofs.FeedbackRun.
Import ListNotations.
Open Scope string_scope.
Open Scope list_scope.
Open Scope Z_scope.
Open Scope rtbot_scope.

Section Ask.
Context {NO : NumOps} {NC : NumCount NO} {NT : NumTime NO}.
Variables a b : V.

Lemma ask_loss n ls pt pv L G h t v : learning a b 14 ls (mkMsg pt pv) L G h -> accepted ls t = true -> soon t -> pt < t ->
  sign (vsub v pv) true false false -> (18 < n)%nat ->
  exists h', sends n (mkMsg t v) h h' [] /\
    waiting_gains a b (latest (mkMsg t v) ls) (mkMsg t v) (start b (L ++ [vmul (vsub v pv) (vofZ (-1))])) G h'.
Proof.
  intros (P1 & P2 & P3 & P4 & P5 & P6 & P7 & P8 & P9 & P10 & P11 & P12 & P13) A Ht Hp (D1 & D2 & D3) Hn. counts 14. rewrite start_snoc.
  unpack. repeat match goal with B : before (mtime (mkMsg pt pv) + 1) _ |- _ => apply (before_more _ t) in B; [|cbn [mtime]; lia] end.
  do 19 (destruct n as [|n]; [lia|]). clear Hn. eexists. split; [enter|].
  conceal. unfold waiting_gains. cbn [mtime]. change (wrap (14 + 1)) with 15 in FU. pack. all: filed.
Qed.

Lemma ask_gain n ls pt pv L G h t v : learning a b 14 ls (mkMsg pt pv) L G h -> accepted ls t = true -> soon t -> pt < t ->
  sign (vsub v pv) false false true -> (18 < n)%nat ->
  exists h', sends n (mkMsg t v) h h' [] /\
    waiting_losses a b (latest (mkMsg t v) ls) (mkMsg t v) (start b (G ++ [vsub v pv])) L h'.
Proof.
  intros (P1 & P2 & P3 & P4 & P5 & P6 & P7 & P8 & P9 & P10 & P11 & P12 & P13) A Ht Hp (D1 & D2 & D3) Hn. counts 14. rewrite start_snoc.
  unpack. repeat match goal with B : before (mtime (mkMsg pt pv) + 1) _ |- _ => apply (before_more _ t) in B; [|cbn [mtime]; lia] end.
  do 19 (destruct n as [|n]; [lia|]). clear Hn. eexists. split; [enter|].
  conceal. unfold waiting_losses. cbn [mtime]. change (wrap (14 + 1)) with 15 in FU. pack. all: filed.
Qed.

Lemma ask_same n ls pt pv L G h t v : learning a b 14 ls (mkMsg pt pv) L G h -> accepted ls t = true -> soon t -> pt < t ->
  sign (vsub v pv) false true false -> (18 < n)%nat ->
  let g := start b (G ++ [vsub v pv]) in let l := start b (L ++ [vsub v pv]) in
  exists h', sends n (mkMsg t v) h h' (answer t g l) /\
    following a b 15 (latest (mkMsg t v) ls) (mkMsg t v) g l h' /\ settled h' "876" c876 /\ settled h' "946" c946.
Proof.
  intros (P1 & P2 & P3 & P4 & P5 & P6 & P7 & P8 & P9 & P10 & P11 & P12 & P13) A Ht Hp (D1 & D2 & D3) Hn. counts 14. cbv zeta. rewrite !start_snoc.
  unpack. repeat match goal with B : before (mtime (mkMsg pt pv) + 1) _ |- _ => apply (before_more _ t) in B; [|cbn [mtime]; lia] end.
  do 19 (destruct n as [|n]; [lia|]). clear Hn. unfold answer. destruct (veq (vmul (vadd (sum L) (vsub v pv)) b) v0) eqn:E0.
  all: eexists; (split; [enter|]).
  all: conceal; unfold following; cbn [mtime]; change (wrap (14 + 1)) with 15 in FU; pack; filed.
Qed.
End Ask.
