(** * Increasing times through a whole program *)

From Coq Require Import String ZArith Bool List Lia Sorted.
From Verif Require Import Base.StrMap Base.Num Model.Core Model.Ops Model.Make Model.Run Model.Graph.
From Verif Require Import Spec.Shape Spec.Log Spec.Preserving Spec.Build Spec.Streams Spec.Multi Spec.Join Spec.Demux.
From Verif Require Import Proofs.Lists Proofs.Ports Proofs.Window Proofs.VariableP Proofs.JoinKinds Proofs.ShapeP Proofs.Merge Proofs.LogP Proofs.LogRun Proofs.LogProg Proofs.Conns Proofs.Monotone Proofs.Monotone2.
Import ListNotations.
Open Scope string_scope.
Open Scope list_scope.
Open Scope Z_scope.
Open Scope rtbot_scope.

Section Increasing.
Context {NO : NumOps}.

(** ** Every constructor *)

Lemma sop_monotone id n k : latest_kind k = true -> (forall x, out_of k x = Some "o1") ->
  monotone (sop id ["o1"] [] (new_port "i1" n) false k).
Proof.
  intros Hk Ho. apply latest_monotone; auto. intros x x' y Hx Hx' _ _. unfold shas in Hx, Hx'. cbn in Hx, Hx'.
  destruct (String.eqb_spec x "i1"), (String.eqb_spec x' "i1"); congruence.
Qed.

Lemma constructed_monotone o : constructed o -> monotone o.
Proof.
  intros [id n o' H|id n o' H|id n o' H|id f v o' H|id v o' H|id v o' H|id v o' H|id v o' H|id o' H|id o' H|id o' H|id l ty o' H
         |id n o' Hn H|id n o' Hn H|id n o' Hn H|id c o' Hc H|id n g1 g2 g3 g4 o' Hn H|id n o' H|id f o' H|id c o' H|id n o' H|id v o' H].
  - intros evs outs o1 _ R _ _. unfold mk_input in H. destruct (add_ports (seq 1 n) 1 true (base0 id)) as [b| | | |] eqn:A; try discriminate H.
    cbn in H. injection H as <-.
    destruct (add_ports_spec (seq 1 n) 1 true (base0 id)) as (b' & E & W & _ & _ & _ & T & _); auto using seq_NoDup; [constructor|].
    rewrite A in E. injection E as <-. eapply input_increasing; eauto.
    intros x x' y Hx Hx'. apply port_map_inv in Hx as (k & _ & -> & ->); auto using iport_inj.
    apply port_map_inv in Hx' as (k' & _ & -> & E'); auto using iport_inj. apply oport_inj in E'. now subst.
  - unfold mk_output in H. destruct (add_ports (seq 1 n) 1 true (base0 id)) as [b| | | |] eqn:A; try discriminate H.
    cbn in H. injection H as <-.
    destruct (add_ports_spec (seq 1 n) 1 true (base0 id)) as (b' & E & W & Sp & C & _ & T & _); auto using seq_NoDup; [constructor|].
    rewrite A in E. injection E as <-. apply latest_monotone; auto.
    + unfold shas. rewrite Sp. destruct (num_ports iport (seq 1 n) 1 "") as [p|] eqn:F; [|reflexivity].
      apply num_ports_In in F as ((k & _ & F) & _). symmetry in F. now apply iport_ne in F.
    + intros x x' y _ _ Hx Hx'. cbn in Hx, Hx'. apply port_map_inv in Hx as (k & _ & -> & ->); auto using iport_inj.
      apply port_map_inv in Hx' as (k' & _ & -> & E'); auto using iport_inj. apply oport_inj in E'. now subst.
  - cbn in H. injection H as <-. apply latest_monotone; auto. intros x x' y Hx Hx' _ _. unfold shas in Hx, Hx'. cbn in Hx, Hx'.
    destruct (String.eqb_spec x "i1"), (String.eqb_spec x' "i1"); congruence.
  - unfold mk_filter in H. rewrite mk_simple_sop in H. injection H as <-. now apply sop_monotone.
  - unfold mk_add in H. rewrite mk_simple_sop in H. injection H as <-. now apply sop_monotone.
  - unfold mk_scale in H. rewrite mk_simple_sop in H. injection H as <-. now apply sop_monotone.
  - unfold mk_power in H. rewrite mk_simple_sop in H. injection H as <-. now apply sop_monotone.
  - unfold mk_constant in H. rewrite mk_simple_sop in H. injection H as <-. now apply sop_monotone.
  - eapply identity_monotone; eauto.
  - unfold mk_count in H. rewrite mk_simple_sop in H. injection H as <-. now apply sop_monotone.
  - unfold mk_cumsum in H. rewrite mk_simple_sop in H. injection H as <-. now apply sop_monotone.
  - unfold mk_function in H. destruct (Nat.ltb _ _); [discriminate H|]. destruct (String.eqb ty "linear").
    { rewrite mk_simple_sop in H. injection H as <-. now apply sop_monotone. }
    destruct (String.eqb ty "hermite"); [|discriminate H]. rewrite mk_simple_sop in H. injection H as <-. now apply sop_monotone.
  - unfold mk_movavg in H. rewrite mk_simple_sop in H. injection H as <-. now apply sop_monotone.
  - unfold mk_stddev in H. rewrite mk_simple_sop in H. injection H as <-. now apply sop_monotone.
  - eapply peak_monotone; eauto.
  - unfold mk_fir in H. rewrite mk_simple_sop in H. injection H as <-. now apply sop_monotone.
  - unfold mk_rsi in H. rewrite mk_simple_sop in H. injection H as <-. now apply sop_monotone.
  - eapply mk_join_monotone; eauto.
  - eapply mk_binary_monotone; eauto.
  - eapply mk_linear_monotone; eauto.
  - eapply mk_demux_monotone; eauto.
  - eapply mk_variable_monotone; eauto.
Qed.

Lemma time_preserving_monotone o : time_preserving o -> monotone o.
Proof. intros (o0 & cs & H & ->). apply monotone_conns. now apply constructed_monotone. Qed.

Lemma constructed_simple o : constructed o -> is_pipeline o = false.
Proof.
  intros H.
  assert (S : forall id n k, mk_simple id n k = Ok o -> is_pipeline (Op (base0 id) k) = false -> is_pipeline o = false).
  { intros id n k E. rewrite mk_simple_sop in E. now injection E as <-. }
  destruct H as [id n o' H|id n o' H|id n o' H|id f v o' H|id v o' H|id v o' H|id v o' H|id v o' H|id o' H|id o' H|id o' H|id l ty o' H
         |id n o' Hn H|id n o' Hn H|id n o' Hn H|id c o' Hc H|id n g1 g2 g3 g4 o' Hn H|id n o' H|id f o' H|id c o' H|id n o' H|id v o' H];
    try (eapply S; [exact H|reflexivity]).
  - unfold mk_input in H. destruct (add_ports _ _ _ _); try discriminate H. now injection H as <-.
  - unfold mk_output in H. destruct (add_ports _ _ _ _); try discriminate H. now injection H as <-.
  - cbn in H. now injection H as <-.
  - unfold mk_function in H. destruct (Nat.ltb _ _); [discriminate H|]. destruct (String.eqb ty "linear"); [eapply S; eauto|].
    destruct (String.eqb ty "hermite"); [eapply S; eauto|discriminate H].
  - destruct (mk_join_fresh _ _ _ H) as (b & -> & _). reflexivity.
  - destruct (mk_binary_fresh _ _ _ H) as (b & -> & _). reflexivity.
  - destruct (mk_linear_fresh _ _ _ H) as (b & -> & _). reflexivity.
  - unfold mk_demux in H. destruct (Nat.ltb _ _); [discriminate H|]. destruct (add_ctrls _ _) as [b| | | |]; try discriminate H. cbn [rbind] in H.
    destruct (add_data _ _ _); try discriminate H. now injection H as <-.
  - cbn in H. now injection H as <-.
Qed.

Lemma time_preserving_simple o : time_preserving o -> is_pipeline o = false.
Proof. intros (o0 & cs & H & ->). apply constructed_simple in H. now destruct o0 as [b []]. Qed.

Lemma mk_input_always id n o cs : mk_input id n = Ok o -> always_increasing (with_conns cs o).
Proof.
  intros H. apply always_conns. unfold mk_input in H. destruct (add_ports (seq 1 n) 1 true (base0 id)) as [b| | | |] eqn:A; try discriminate H.
  cbn in H. injection H as <-.
  destruct (add_ports_spec (seq 1 n) 1 true (base0 id)) as (b' & E & W & _ & _ & _ & T & _); auto using seq_NoDup; [constructor|].
  rewrite A in E. injection E as <-. apply input_increasing; auto.
  intros x x' y Hx Hx'. apply port_map_inv in Hx as (k & _ & -> & ->); auto using iport_inj.
  apply port_map_inv in Hx' as (k' & _ & -> & E'); auto using iport_inj. apply oport_inj in E'. now subst.
Qed.

(** ** Calls go to existing ports *)

Definition proper (h : heap) (ep : string) (l : list entry) : Prop :=
  Forall (fun x => match x with
                   | LCall id e _ => exists o, sfind id h = Some o /\
                       (id = ep \/ match e with
                                   | EData p _ => is_data_input o p = true
                                   | ECtrl p _ => is_data_input o p = false /\ is_control_input o p = true
                                   | _ => True
                                   end)
                   | _ => True
                   end) l.

Lemma proper_same h h' ep l : erase_heap h' = erase_heap h -> proper h' ep l -> proper h ep l.
Proof.
  intros E. apply Forall_impl. intros [| id e out|]; auto. intros (o & Ho & H).
  destruct (erase_find h' h id o (eq_sym E) Ho) as (o1 & H1 & E1). exists o1. split; auto. destruct H as [H|H]; auto. right.
  destruct e; auto; rewrite <- erase_is_data, E1, erase_is_data; auto.
  rewrite <- (erase_is_ctrl o1), E1, erase_is_ctrl; auto.
Qed.

Lemma ldeliver_proper n m cs ep : forall h l h', wf_heap h -> ldeliver n m cs h = (Ok l, h') -> proper h ep l.
Proof.
  induction cs as [|c cs IH]; intros h l h' W E; cbn [ldeliver] in E; [injection E as <- <-; constructor|].
  apply bind_ok in E as (l1 & h1 & E1 & E). apply bind_ok in E as (l2 & h2 & E2 & E). injection E as <- <-.
  assert (K : erase_heap h1 = erase_heap h) by (eapply ldeliver1_keeps; eauto).
  apply Forall_app. split.
  - destruct c as [dst port]. unfold ldeliver1 in E1. destruct (sfind dst h) as [o|] eqn:Ho; [|discriminate E1].
    destruct (is_data_input o port) eqn:D.
    + destruct (recv_data n o m port) as [[u| | | |] o'] eqn:R; try discriminate E1. injection E1 as <- <-. constructor; [|constructor]. eauto.
    + destruct (is_control_input o port) eqn:C.
      * destruct (recv_ctrl_local o m port) as [[u| | | |] o'] eqn:R; try discriminate E1. injection E1 as <- <-. constructor; [|constructor]. eauto.
      * injection E1 as <- <-. constructor.
  - eapply proper_same; [exact K|]. eapply IH; [|exact E2]. eapply wf_heap_same; eauto.
Qed.

Lemma log_proper n ctl id h l h' ep : wf_heap h -> named h -> lexec n ctl id h = (Ok l, h') -> proper h ep l.
Proof.
  intros W N E.
  pose proof (log_principle (erase_heap h) (fun _ => True) (fun _ l _ => proper h ep l)) as X.
  eapply X; clear X; eauto.
  - constructor.
  - intros. apply Forall_app. auto.
  - intros k i port m h0 l0 h1 (HD & HW & HN) _ Ed. constructor; [exact I|]. eapply proper_same; [exact HD|]. eapply ldeliver_proper; eauto.
  - intros k c i o h0 out o' (HD & HW & HN) _ Ho _. constructor; [|constructor].
    destruct (erase_find h0 h i o (eq_sym HD) Ho) as (o1 & H1 & _). exists o1. split; auto. right. destruct c; auto.
  - repeat split; auto; apply W.
Qed.

Lemma lsend_all_proper n ep ms h l h' : wf_heap h -> named h -> lsend_all n ep ms h = (Ok l, h') -> proper h ep l.
Proof.
  intros W N E. revert ms h l h' W N E. apply (lsend_all_ind n ep (fun h _ l _ => proper h ep l)).
  - constructor.
  - intros h port m l1 h1 ms l2 h2 W N W1 N1 K E1 E2. apply Forall_app. split.
    + destruct (lsend1_ok _ _ _ _ _ _ _ W E1) as (o & u & o' & l' & Ho & R & E & -> & K').
      apply Forall_app. split; [constructor; [exact I|constructor; [|constructor]]; eauto|].
      eapply proper_same; [exact K'|]. eapply log_proper; [eapply wf_heap_same; eauto|eapply named_same; eauto|exact E].
    + eapply proper_same; eauto.
Qed.

(** ** What an input port receives *)

Definition into (id port : string) (l : list entry) : list msg :=
  map snd (filter (fun d => String.eqb id (fst (fst d)) && String.eqb port (snd (fst d))) (deliveries l)).

Lemma into_cons id port x l : into id port (x :: l) = into id port [x] ++ into id port l.
Proof. unfold into. change (x :: l) with ([x] ++ l). rewrite deliveries_app, filter_app, map_app. reflexivity. Qed.

Lemma hist_cons p e r : hist p (e :: r) = (match e with EData q m => if String.eqb q p then [m] else [] | _ => [] end) ++ hist p r.
Proof. unfold hist, project. destruct e as [q m|q m| |]; cbn; auto. destruct (String.eqb q p); reflexivity. Qed.
Lemma chist_cons p e r : chist p (e :: r) = (match e with ECtrl q m => if String.eqb q p then [m] else [] | _ => [] end) ++ chist p r.
Proof. destruct e as [q m|q m| |]; cbn; auto. destruct (String.eqb q p); reflexivity. Qed.
Lemma into_call id p e out : into id p [LCall id e out] =
  match e with EData q m | ECtrl q m => if String.eqb q p then [m] else [] | _ => [] end.
Proof. unfold into. destruct e; cbn; auto; rewrite String.eqb_refl, (String.eqb_sym p port); cbn; now destruct (String.eqb port p). Qed.

Lemma calls_cons id x l : calls id (x :: l) = calls id [x] ++ calls id l.
Proof. apply (calls_app id [x] l). Qed.

Lemma into_calls_eq h ep id l o : proper h ep l -> id <> ep -> sfind id h = Some o ->
  ports_exist o (calls id l) /\ forall p,
    hist p (calls id l) = (if is_data_input o p then into id p l else []) /\
    chist p (calls id l) = (if is_data_input o p then [] else into id p l).
Proof.
  intros H Ne Ho.
  induction H as [|x l Hx _ (IH1 & IH2)]; [split; [constructor|intros p; now destruct (is_data_input o p)]|].
  destruct x as [q m|i e out|i q m]; [split; auto| |split; auto].
  cbn [calls flat_map]. fold (calls id l). destruct (String.eqb_spec id i) as [<-|N'].
  - destruct Hx as (o1 & Ho1 & [|Hx]); [congruence|]. rewrite Ho in Ho1. injection Ho1 as <-. cbn [app]. split.
    + constructor; [|exact IH1]. destruct e; auto. apply Hx.
    + intros p. specialize (IH2 p). rewrite into_cons. destruct IH2 as (A & B).
      rewrite hist_cons, chist_cons, into_call, A, B.
      destruct e as [q m|q m| |]; try (now destruct (is_data_input o p)).
      * destruct (String.eqb_spec q p) as [<-|]; [rewrite Hx; auto|]. now destruct (is_data_input o p).
      * destruct (String.eqb_spec q p) as [<-|]; [destruct Hx as (-> & _); auto|]. now destruct (is_data_input o p).
  - split; [exact IH1|]. intros p. specialize (IH2 p). rewrite into_cons.
    replace (into id p [LCall i e out]) with (@nil msg); [exact IH2|].
    unfold into. destruct e; cbn; auto; destruct (String.eqb_spec id i); try congruence; reflexivity.
Qed.

Lemma into_calls h ep id l o : proper h ep l -> id <> ep -> sfind id h = Some o ->
  ports_exist o (calls id l) /\
  forall p, (hist p (calls id l) = into id p l \/ hist p (calls id l) = []) /\ (chist p (calls id l) = into id p l \/ chist p (calls id l) = []).
Proof.
  intros H Ne Ho. destruct (into_calls_eq h ep id l o H Ne Ho) as (A & B).
  split; auto. intros p. destruct (B p) as (-> & ->). destruct (is_data_input o p); auto.
Qed.

Definition comes (h : heap) (id p : string) (x : entry) : Prop :=
  match x with LEmit a q _ => In (id, p) (wires h a q) | _ => False end.

Lemma comes_dec h id p x : {comes h id p x} + {~ comes h id p x}.
Proof.
  destruct x as [q m|i e out|a q m]; cbn; auto. apply in_dec. intros [a1 b1] [a2 b2].
  destruct (string_dec a1 a2), (string_dec b1 b2); [left|right|right|right]; congruence.
Defined.

Definition pick (id p : string) (l : list (string * string * msg)) : list msg :=
  map snd (filter (fun d => String.eqb id (fst (fst d)) && String.eqb p (snd (fst d))) l).
Lemma pick_app id p l1 l2 : pick id p (l1 ++ l2) = pick id p l1 ++ pick id p l2.
Proof. unfold pick. now rewrite filter_app, map_app. Qed.

Lemma pick_none id p (m : msg) cs : ~ In (id, p) cs -> pick id p (map (fun c => (c, m)) cs) = [].
Proof.
  induction cs as [|[i q] cs IH]; intros H; [reflexivity|]. unfold pick in *. cbn.
  destruct (String.eqb_spec id i) as [->|]; cbn; [|apply IH; intros X; apply H; cbn; auto].
  destruct (String.eqb_spec p q) as [->|]; cbn; [exfalso; apply H; cbn; auto|apply IH; intros X; apply H; cbn; auto].
Qed.
Lemma pick_once id p (m : msg) cs : NoDup cs -> In (id, p) cs -> pick id p (map (fun c => (c, m)) cs) = [m].
Proof.
  induction 1 as [|[i q] cs Hn ND IH]; intros Hin; [destruct Hin|]. unfold pick in *. cbn.
  destruct (String.eqb_spec id i) as [->|N1]; cbn.
  - destruct (String.eqb_spec p q) as [->|N2]; cbn.
    + f_equal. apply (pick_none i q m cs Hn).
    + apply IH. destruct Hin as [[= <-]|]; congruence.
  - apply IH. destruct Hin as [[= <-]|]; congruence.
Qed.

Lemma filter_NoDup {A} (f : A -> bool) l : NoDup l -> NoDup (filter f l).
Proof. apply NoDup_filter. Qed.

Lemma into_fed h ep id p l a q :
  deliveries l = Log.routed h ep l -> id <> ep -> one_feed h -> has_input h (id, p) = true -> fed_by h id p (a, q) ->
  into id p l = emitted a q l.
Proof.
  intros D Ne (U & ND) Hi Cx. change (into id p l) with (pick id p (deliveries l)). rewrite D. clear D. unfold fed_by in Cx. cbn [fst snd] in Cx.
  induction l as [|x l IH]; [reflexivity|]. cbn [Log.routed flat_map emitted]. rewrite pick_app. fold (Log.routed h ep l) (emitted a q l). rewrite IH. f_equal.
  destruct x as [q' m|i e out|a' q' m]; [|reflexivity|].
  + unfold pick. cbn. destruct (String.eqb_spec id ep); [congruence|reflexivity].
  + destruct (comes_dec h id p (LEmit a' q' m)) as [C|C]; cbn in C.
    * specialize (U id p (a, q) (a', q') Cx C). injection U as <- <-. rewrite !String.eqb_refl. cbn.
      apply pick_once; [apply filter_NoDup, ND|]. apply filter_In. auto.
    * destruct (String.eqb_spec a a') as [<-|]; cbn; [destruct (String.eqb_spec q q') as [<-|]; cbn; [exfalso; auto|]|];
        apply pick_none; rewrite filter_In; intros [X _]; auto.
Qed.

Lemma into_source h ep id p l :
  deliveries l = Log.routed h ep l -> id <> ep -> one_feed h ->
  into id p l = [] \/ exists a q, fed_by h id p (a, q) /\ into id p l = emitted a q l.
Proof.
  intros D Ne (U & ND). change (into id p l) with (pick id p (deliveries l)). rewrite D. clear D.
  destruct (has_input h (id, p)) eqn:Hi.
  2: { left. induction l as [|x l IH]; [reflexivity|]. cbn [Log.routed flat_map]. rewrite pick_app. fold (Log.routed h ep l). rewrite IH, app_nil_r.
       destruct x as [q m|i e out|a q m]; [|reflexivity|].
       - unfold pick. cbn. destruct (String.eqb_spec id ep); [congruence|reflexivity].
       - apply pick_none. rewrite filter_In. intros [_ X]. congruence. }
  destruct (Exists_dec (comes h id p) l (comes_dec h id p)) as [Ex|Ex].
  - right. apply Exists_exists in Ex as (x & Hx & Cx). destruct x as [q m|i e out|a q m]; try contradiction. exists a, q. split; [exact Cx|]. cbn in Cx. clear Hx m.
    induction l as [|x l IH]; [reflexivity|]. cbn [Log.routed flat_map emitted]. rewrite pick_app. fold (Log.routed h ep l) (emitted a q l). rewrite IH. f_equal.
    destruct x as [q' m|i e out|a' q' m]; [|reflexivity|].
    + unfold pick. cbn. destruct (String.eqb_spec id ep); [congruence|reflexivity].
    + destruct (comes_dec h id p (LEmit a' q' m)) as [C|C]; cbn in C.
      * specialize (U id p (a, q) (a', q') Cx C). injection U as <- <-. rewrite !String.eqb_refl. cbn.
        apply pick_once; [apply filter_NoDup, ND|]. apply filter_In. auto.
      * destruct (String.eqb_spec a a') as [<-|]; cbn; [destruct (String.eqb_spec q q') as [<-|]; cbn; [exfalso; auto|]|];
          apply pick_none; rewrite filter_In; intros [X _]; auto.
  - left. induction l as [|x l IH]; [reflexivity|]. cbn [Log.routed flat_map]. rewrite pick_app. fold (Log.routed h ep l).
    rewrite IH, app_nil_r by (intros X; apply Ex; now constructor).
    destruct x as [q m|i e out|a q m]; [|reflexivity|].
    + unfold pick. cbn. destruct (String.eqb_spec id ep); [congruence|reflexivity].
    + apply pick_none. rewrite filter_In. intros [X _]. apply Ex. now constructor.
Qed.

(** ** The induction along the connections *)

Lemma emitted_In id port l m : In m (emitted id port l) -> In (LEmit id port m) l.
Proof.
  unfold emitted. rewrite in_flat_map. intros (x & Hx & Hm). destruct x as [q m'|i e out|a q m']; try destruct Hm.
  destruct (String.eqb_spec id a) as [->|]; cbn in Hm; [|destruct Hm]. destruct (String.eqb_spec port q) as [->|]; cbn in Hm; [|destruct Hm].
  destruct Hm as [->|[]]. exact Hx.
Qed.

Lemma log_increasing rank n ep ms h l h' oe :
  wf_heap h -> named h -> ranked rank h -> one_feed h ->
  (forall id o, sfind id h = Some o -> monotone o /\ is_pipeline o = false) ->
  sfind ep h = Some oe -> always_increasing oe ->
  lsend_all n ep ms h = (Ok l, h') ->
  forall id port, increasing (times (emitted id port l)).
Proof.
  intros W N Rk Of Mo Ho Al E.
  pose proof (lsend_all_replays _ _ _ _ _ _ W N E) as (_ & Rep). pose proof (lsend_all_balanced rank _ _ _ _ _ _ W N Rk E) as Bal.
  pose proof (lsend_all_routed _ _ _ _ _ _ W N E) as Ro. pose proof (lsend_all_proper _ _ _ _ _ _ W N E) as Pr.
  set (M := list_max (map (fun x => match x with LEmit i _ _ => rank i | _ => 0%nat end) l)).
  assert (HM : forall id port, emitted id port l <> [] -> (rank id <= M)%nat).
  { intros id port Hne. destruct (emitted id port l) as [|m r] eqn:Em; [congruence|].
    assert (In (LEmit id port m) l) as Hin by (apply emitted_In; rewrite Em; cbn; auto).
    pose proof (proj1 (list_max_le (map (fun x => match x with LEmit i _ _ => rank i | _ => 0%nat end) l) M) (Nat.le_refl _)) as F.
    rewrite Forall_forall in F. apply F. apply in_map_iff. exists (LEmit id port m). auto. }
  assert (Main : forall k id port, (S M - rank id < k)%nat -> increasing (times (emitted id port l))).
  { induction k as [|k IH]; intros id port Hk; [lia|].
    destruct (emitted id port l) as [|m0 r0] eqn:Em; [constructor|]. rewrite <- Em.
    destruct (sfind id h) as [o|] eqn:Hid.
    2: { exfalso. rewrite Bal in Em. destruct (returned id l) as [|out rr] eqn:Rt; [discriminate Em|].
         assert (Hin : In out (returned id l)) by (rewrite Rt; cbn; auto). unfold returned in Hin. apply in_flat_map in Hin as (x & Hx & Hy).
         destruct x as [q m|i e out'|a q m]; try destruct Hy. destruct (String.eqb_spec id i) as [<-|]; [|destruct Hy].
         unfold proper in Pr. rewrite Forall_forall in Pr. destruct (Pr _ Hx) as (o & Ho' & _). congruence. }
    destruct (Mo id o Hid) as (Mon & Np). destruct (Rep id o Hid Np) as (o' & _ & _ & R). rewrite Bal.
    destruct (string_dec id ep) as [->|Ne].
    { rewrite Ho in Hid. injection Hid as <-. eapply Al; eauto. }
    destruct (into_calls h ep id l o Pr Ne Hid) as (Pe & Hh).
    assert (Inc : forall p, increasing (times (into id p l))).
    { intros p. destruct (into_source h ep id p l Ro Ne Of) as [->|(a & q & Fb & ->)]; [constructor|].
      apply IH. assert (rank id < rank a)%nat by (apply Rk; exists q, p; exact Fb).
      assert (rank id <= M)%nat by (apply (HM id port); congruence). lia. }
    eapply Mon; eauto; intros p; destruct (Hh p) as ([Hd|Hd] & [Hc|Hc]); rewrite ?Hc, ?Hd; auto; constructor. }
  intros id port. apply (Main (S (S M - rank id))). lia.
Qed.

(** ** Several calls *)

Lemma receive_all_log n p batches : forall rs p', wf_heap (p_ops p) -> named (p_ops p) ->
  receive_all n p batches = (Ok rs, p') ->
  exists l, lsend_all n (p_entry p) (flat_map batch_messages batches) (p_ops p) = (Ok l, p_ops p') /\
    forall id port, flat_map (fun r => result_at r id port) rs = emitted id port l.
Proof.
  revert p. induction batches as [|b bs IH]; intros p rs p' W N E; cbn [receive_all] in E.
  - injection E as <- <-. exists []. split; reflexivity.
  - apply bind_ok in E as (r & p1 & E1 & E). apply bind_ok in E as (rs1 & p2 & E2 & E). injection E as <- <-.
    unfold receive_debug in E1. destruct (shas (p_entry p) (p_ops p)); [|discriminate E1].
    pose proof (lsend_batch_spec n (p_entry p) b [] (p_ops p)) as X. change (collate []) with (@nil (string * opmsg)) in X.
    rewrite X in E1. destruct (lsend_all n (p_entry p) (batch_messages b) (p_ops p)) as [[l1| | | |] h1] eqn:L1; try discriminate E1.
    cbn in E1. injection E1 as <- <-.
    assert (K : erase_heap h1 = erase_heap (p_ops p)) by (eapply lsend_all_keeps; eauto).
    destruct (IH (set_ops p h1) rs1 p2) as (l2 & L2 & R2); auto; [eapply wf_heap_same; eauto|eapply named_same; eauto|].
    exists (l1 ++ l2). split.
    + cbn [flat_map]. rewrite lsend_all_app, L1. cbn [bind sbind]. cbn [set_ops p_ops p_entry] in L2. rewrite L2. reflexivity.
    + intros id port. cbn [flat_map]. rewrite R2. change (fold_left record l1 []) with (collate l1). rewrite result_collate. unfold emitted. now rewrite flat_map_app.
Qed.

End Increasing.
