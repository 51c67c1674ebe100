(** * New programs of such operators *)

From Coq Require Import String Ascii ZArith Bool List Lia.
From Verif Require Import Base.StrMap Base.Num Base.NumInt Model.Core Model.Ops Model.Make Model.Graph Model.Json.
From Verif Require Import Spec.Shape Spec.Log Spec.Depth Spec.Snapshot Spec.Definition Spec.Bounds Spec.Pipeline Spec.Reliable.
From Verif Require Import Proofs.Ports Proofs.MakeP Proofs.ShapeP Proofs.JoinKinds Proofs.Deep Proofs.JsonP Proofs.Restored Proofs.PortNames Proofs.BoundsP
  Proofs.PipelineP Proofs.ReliableP Proofs.ReliableRun.
Import ListNotations.
Open Scope string_scope.
Open Scope list_scope.
Open Scope Z_scope.

Section New.
Context {NO : NumOps}.

Lemma Forall_limits b (P : Z -> Prop) : (forall x q, sfind x (o_data b) = Some q -> P (ip_max q)) -> swf (o_data b) -> Forall (fun x => P (snd x)) (limits b).
Proof.
  intros H W. apply Forall_forall. intros [x n] I. unfold limits in I. apply in_map_iff in I as ([y q] & [= <- <-] & I).
  cbn. eapply H. apply In_sfind; eauto.
Qed.

Lemma ports_fit id n max outs b : add_ports (seq 1 n) max outs (base0 id) = Ok b ->
  swf (o_data b) /\ o_ctrl b = [] /\ o_toproc b = [] /\ ~ In "" (skeys (o_data b)) /\
  (forall x, In x (skeys (o_data b)) <-> exists k, (1 <= k <= n)%nat /\ x = iport k) /\
  Forall (fun x => snd x = ip_max (new_port "" max)) (limits b) /\
  (outs = true -> all_mapped (limits b) (o_outs b) (port_map iport n)) /\ length (limits b) = n.
Proof.
  intros H. pose proof (add_ports_length _ _ _ _ _ H) as L. rewrite seq_length in L. cbn in L.
  destruct (add_ports_spec (seq 1 n) max outs (base0 id)) as (b' & E & W & Fp & C & _ & T & _ & O); auto using seq_NoDup; [constructor|].
  rewrite H in E. injection E as <-. cbn in Fp.
  assert (K : forall x, In x (skeys (o_data b)) <-> exists k, (1 <= k <= n)%nat /\ x = iport k).
  { intros x. split.
    - intros I. apply In_skeys_sfind in I as [p F]. rewrite Fp in F. destruct (num_ports iport (seq 1 n) max x) eqn:N; [|discriminate F].
      now apply num_ports_In in N.
    - intros (k & Hk & ->). apply (sfind_In_key (iport k) (new_port (iport k) max)). rewrite Fp. unfold num_ports.
      rewrite find_from; auto using iport_inj. apply in_seq. lia. }
  split; [exact W|]. split; [exact C|]. split; [exact T|]. split; [|split; [exact K|split; [|split]]].
  - intros I. apply K in I as (k & _ & X). symmetry in X. now apply iport_ne in X.
  - apply (Forall_limits b (fun n => n = ip_max (new_port "" max))); [|exact W]. intros x q F. rewrite Fp in F. unfold num_ports in F.
    destruct (find _ (seq 1 n)); [|discriminate F]. injection F as <-. reflexivity.
  - intros ->. intros port I. rewrite limits_keys in I. apply K in I as (k & Hk & ->). exists (oport k).
    split; [apply port_map_find; auto using iport_inj|]. rewrite O. apply fold_add_In. right. exists k. split; [apply in_seq; lia|auto].
  - unfold limits. rewrite map_length, L. lia.
Qed.

Lemma limits_add_out b port : limits (add_out b port) = limits b.
Proof. reflexivity. Qed.

Lemma nonempty_limits {A} (l : list A) n : length l = n -> (2 <= n)%nat -> l <> [].
Proof. intros L N ->. cbn in L. lia. Qed.

Notation lim max := (ip_max (new_port "" max)) (only parsing).

Lemma simple_static id max k : kfit [("i1", lim max)] ["o1"] k -> static (mkBase id [("i1", new_port "i1" max)] [] ["o1"] [] []) k.
Proof. intros K. split; [reflexivity|]. split; [intros [X|[]]; discriminate X|exact K]. Qed.

Lemma simple_reliable id max k o : mk_simple id max k = Ok o -> kfit [("i1", lim max)] ["o1"] k -> static (op_base o) (op_kind o) /\ o_toproc (op_base o) = [].
Proof. intros H K. injection H as <-. split; [now apply simple_static|reflexivity]. Qed.

Definition limited (n : Z) (o : op) : Prop := forall port q, sfind port (o_data (op_base o)) = Some q -> n <= ip_max q.

Lemma simple_limited id max k o n : mk_simple id max k = Ok o -> limited n o -> one_input [("i1", lim max)] n.
Proof. intros H W. injection H as <-. exists "i1", (lim max). split; [reflexivity|]. exact (W "i1" _ eq_refl). Qed.

Lemma created_static o : created o -> limited 1 o -> reliable o -> static (op_base o) (op_kind o) /\ o_toproc (op_base o) = [].
Proof.
  intros H Li R. destruct H as
    [id n o H|id n o H|id n o H|id n o H|id f o H|id c o H|id n o H|id f v o H|id v o H|id v o H|id v o H|id v o H
    |id o H|id n o H|id n o H|id n o H|id c o H|id c o H|id o H|id o H|id u o H|id dt times o H|id dt g1 g2 o H
    |id dt o H|id dt o H|id l ty o H|id v o H|id n g1 g2 g3 g4 o H];
    try (pose proof (simple_limited _ _ _ _ _ H Li) as X; eapply simple_reliable; [exact H|]; cbn [kfit]; split; [exact X|now left]).
  - unfold mk_input in H. apply rbind_ok in H as (b & E & H). injection H as <-. destruct (ports_fit _ _ _ _ _ E) as (W & C & T & N & _ & M & A & _).
    split; [|exact T]. split; [exact C|]. split; [exact N|]. split; [now apply A|]. eapply Forall_impl; [|exact M]. cbn. intros x ->. lia.
  - unfold mk_output in H. apply rbind_ok in H as (b & E & H). injection H as <-. destruct (ports_fit _ _ _ _ _ E) as (W & C & T & N & _ & M & A & _).
    split; [|exact T]. split; [exact C|]. split; [exact N|]. split; [now apply A|]. eapply Forall_impl; [|exact M]. cbn. intros x ->. lia.
  - injection H as <-. cbn [op_base op_kind]. split; [|reflexivity]. split; [reflexivity|]. split; [intros [X|[]]; discriminate X|].
    cbn. constructor; [|constructor]. exact (Li "i1" _ eq_refl).
  - unfold mk_join in H. destruct (Nat.ltb_spec n 2) as [|G]; [discriminate|]. apply rbind_ok in H as (b & E & H). injection H as <-. destruct (ports_fit _ _ _ _ _ E) as (W & C & T & N & _ & M & A & L).
    split; [|exact T]. split; [exact C|]. split; [exact N|]. split; [now apply A|]. eapply nonempty_limits; eauto.
  - injection H as <-. split; [|reflexivity]. split; [reflexivity|]. split; [intros [X|[X|[]]]; discriminate X|]. split; [now left|]. split; [right; now left|now left].
  - unfold mk_linear in H. destruct (Nat.ltb_spec (length c) 2) as [|G]; [discriminate|]. apply rbind_ok in H as (b & E & H). injection H as <-. destruct (ports_fit _ _ _ _ _ E) as (W & C & T & N & _ & M & _ & L).
    split; [|exact T]. split; [exact C|]. split; [exact N|]. cbn [kfit op_base op_kind]. rewrite limits_add_out. split; [exact L|]. split; [eapply nonempty_limits; eauto|].
    unfold add_out. cbn [set_outs o_outs]. apply sset_add_In. now left.
  - unfold mk_demux in H. destruct (Nat.ltb n 1); [discriminate|]. apply rbind_ok in H as (b & E & H). apply rbind_ok in H as (b' & E' & H). injection H as <-. destruct R.
  - pose proof (simple_limited _ _ _ _ _ H Li) as X. eapply simple_reliable; [exact H|]. split; [|split; [exact X|now left]].
    injection H as <-. exists "i1". destruct c; [now destruct R|]. reflexivity.
  - injection H as <-. destruct R.
  - injection H as <-. destruct R.
  - unfold mk_constres in H. destruct (dt <=? 0); [discriminate|]. injection H as <-. destruct R.
  - injection H as <-. destruct R.
  - injection H as <-. destruct R.
  - unfold mk_function in H. destruct (Nat.ltb _ 2); [discriminate|].
    destruct (String.eqb ty "linear"); [|destruct (String.eqb ty "hermite"); [|discriminate H]]; injection H as <-; destruct R.
  - injection H as <-. destruct R.
  - assert (X : limited 2 o) by (injection H as <-; exact R). pose proof (simple_limited _ _ _ _ _ H X) as Y.
    eapply simple_reliable; [exact H|]. split; [|split; [exact Y|now left]].
    exists "i1". eexists. split; [reflexivity|]. cbn [new_port ip_max]. pose proof (wrap_range (n + 1)). destruct (wrap (n + 1) =? 0); unfold two64 in *; lia.
Qed.

Lemma new_bounded o : new_base (op_base o) -> bounded o.
Proof. intros (H1 & H2 & _) _. split; eapply new_within; eauto. Qed.

Lemma simple_lim id max k o : mk_simple id max k = Ok o -> 0 <= max -> limited 1 o.
Proof.
  intros H M. injection H as <-. intros port q F. cbn in F. destruct (String.eqb port "i1"); [|discriminate F]. injection F as <-.
  cbn. destruct (Z.eqb_spec max 0); unfold two64; lia.
Qed.
Lemma ports_lim id n max outs b k : add_ports (seq 1 n) max outs (base0 id) = Ok b -> 0 <= max -> limited 1 (Op b k).
Proof.
  intros H M port q F. destruct (ports_fit _ _ _ _ _ H) as (_ & _ & _ & _ & _ & L & _). rewrite Forall_forall in L.
  specialize (L _ (limits_in b port q F)). cbn in L. cbn [op_base] in *. rewrite L. destruct (Z.eqb_spec max 0); unfold two64; lia.
Qed.

Context {JT : JsonText} {NI : NumInt NO}.

Ltac split_type H :=
  repeat match type of H with
  | (if String.eqb ?a ?b then _ else _) = _ => destruct (String.eqb_spec a b) as [->|_]
  end;
  try discriminate H;
  try (let H' := fresh in
       assert (H' := f_equal (fun x => match x with Some y => y | None => UB end) H); cbv beta iota in H'; clear H;
       rename H' into H);
  repeat match type of H with rbind _ _ = Ok _ => apply rbind_ok in H as (? & ? & H) end.

Lemma from_json_limited g ty j o : from_json g ty j = Some (Ok o) -> reliable o -> limited 1 o.
Proof.
  unfold from_json. intros H R. split_type H.
  all: repeat match goal with E : u64_of _ _ = Ok _ |- _ => apply u64_range in E end.
  all: try (apply simple_lim in H; [exact H|lia]).
  all: try ( apply rbind_ok in H as (b & E & H); injection H as <-; exact (ports_lim _ _ _ _ _ KIdentity E ltac:(lia))).
  - unfold mk_demux in H. destruct (Nat.ltb _ 1); [discriminate|]. apply rbind_ok in H as (b & E & H). apply rbind_ok in H as (b' & E' & H). injection H as <-. destruct R.
  - unfold mk_join in H. destruct (Nat.ltb _ 2); [discriminate|]. apply rbind_ok in H as (b & E & H). injection H as <-. eapply ports_lim; [exact E|lia].
  - pose proof (wrap_range (x0 + 1)) as W. apply simple_lim in H; [exact H|lia].
  - unfold mk_constres in H. destruct (_ <=? 0); [discriminate|]. injection H as <-. destruct R.
  - unfold mk_linear in H. destruct (Nat.ltb _ 2); [discriminate|]. apply rbind_ok in H as (b & E & H). injection H as <-. exact (ports_lim _ _ _ _ _ (KLinear []) E ltac:(lia)).
  - injection H as <-. destruct R.
  - unfold mk_function in H. destruct (Nat.ltb _ 2); [discriminate|].
    destruct (String.eqb _ "linear"); [|destruct (String.eqb _ "hermite"); [|discriminate H]]; injection H as <-; destruct R.
Qed.

Lemma wf_set_conns b k cs : wf_op (Op b k) -> wf_op (Op (set_conns b cs) k).
Proof. intros H. exact H. Qed.

(** ** What holds of new operators *)

Definition meant (o : op) : Prop := reliable o -> node o.

Lemma meant_conns b k cs : meant (Op b k) -> meant (Op (set_conns b cs) k).
Proof.
  intros H R. assert (R' : reliable (Op b k)) by (destruct k; exact R). destruct (H R') as [W N]. split; [exact W|].
  cbn [op_kind op_base] in *. destruct k; try exact N. destruct N as [? ? ? ? ? ? ?]. constructor; auto.
Qed.

Lemma from_json_meant g ty j o : from_json g ty j = Some (Ok o) -> meant o.
Proof.
  intros H R. pose proof (from_json_created _ _ _ _ H) as C. pose proof (from_json_limited _ _ _ _ H R) as L.
  destruct (created_static o C L R) as [St T]. pose proof (created_ports o C) as NB.
  assert (P : is_pipeline o = false) by (now apply created_simple). destruct o as [b k].
  apply node_simple; [destruct k; try exact I; discriminate P|]. split.
  - now apply created_names.
  - split; [exact St|]. split; [cbn [op_base] in T; rewrite T; intros ? []|now apply new_bounded].
Qed.

Lemma pipeline_meant g id text prog o : mk_pipeline (read_op g) id text prog = Ok o -> wf_op o -> meant o.
Proof.
  intros H W R. destruct (mk_pipeline_spec _ _ _ _ _ H) as (h & b & ins & outs & pm & -> & PS & _).
  split; [exact W|]. cbn [op_kind op_base]. unfold reliable in R. cbn [op_kind] in R.
  assert (PL : plain_ids h) by (intros i oi F; apply R; eapply sfind_In_key; eauto).
  assert (K : forall key, In key (skeys ins) -> exists i p oi, key = (i ++ ":" ++ p)%string /\ sfind key ins = Some i /\ sfind i h = Some oi /\
    In p (skeys (o_data (op_base oi))) /\ has_colon i = false).
  { intros key I. pose proof (proj1 (ps_ins _ _ _ _ _ PS PL key) I) as (i & p & -> & ((oi & F & P) & _)). exists i, p, oi.
    assert (Hc : has_colon i = false) by eauto. split; [reflexivity|]. split; [now apply PS|]. auto. }
  constructor; try apply PS.
  - intros name I. apply (ps_data_names _ _ _ _ _ PS) in I as (k & L & ->). split; [apply iport_ne|].
    destruct (nth_error (skeys ins) k) as [key|] eqn:N; [|apply nth_error_None in N; lia].
    destruct (K key (nth_error_In _ _ N)) as (i & p & oi & E & F1 & F2 & P & Hc). exists key, i, oi.
    split; [now apply PS|]. split; [exact F1|]. split; [exact F2|]. rewrite E, split2_key by exact Hc. exact P.
  - intros key i F. destruct (K key) as (i' & p & oi & E & F1 & F2 & _); [eapply sfind_In_key; eauto|]. rewrite F in F1. injection F1 as ->. eauto.
  - intros key I. apply In_nth_error in I as [k N]. exists (oport (S k)). split; [now apply PS|]. apply PS. exists k.
    split; [|reflexivity]. apply nth_error_Some. congruence.
  - rewrite (ps_toproc _ _ _ _ _ PS). intros ? [].
Qed.

Lemma read_op_meant g : forall d j o, (jdepth j < d)%nat -> read_op g j = Ok o -> every meant o.
Proof.
  induction d as [|d IH]; intros j o D H; [lia|].
  destruct (read_op_good _ _ _ _ H) as (id' & _ & G & _).
  destruct (read_op_cases _ _ _ H) as (ty & _ & [(_ & id & prog & _ & Ep & M)|(_ & E)]).
  - pose proof (pipeline_meant _ _ _ _ _ M (proj1 G)) as X.
    destruct (mk_pipeline_ok _ _ _ _ _ M) as (xs & h0 & cs & h & ui & uo & b & ins & outs & pm & Eo & R & _ & C & -> & _).
    apply every_pipe. split; [exact X|]. apply pipe_conns_conns in C. eapply read_conns_every; [exact meant_conns|exact C|].
    assert (A : forall l hh hh', (forall x, In x l -> (jdepth x < d)%nat) -> read_ops (read_op g) l hh = Ok hh' -> all_every meant hh -> all_every meant hh').
    { induction l as [|x l IHl]; intros hh hh' Dl E A; cbn [read_ops] in E; [injection E as <-; exact A|].
      apply rbind_ok in E as (idj & _ & E). apply rbind_ok in E as (o1 & E2 & E). apply rbind_ok in E as (i & _ & E).
      eapply IHl; [intros y I; apply Dl; now right|exact E|]. unfold semplace. destruct (sfind i hh); [exact A|]. apply all_sset; [exact A|].
      eapply IH; [|exact E2]. apply Dl. now left. }
    eapply A; [|exact R|apply all_every_nil].
    intros x Hx. apply jdepth_item in Hx. apply jat_depth in Ep. apply jat_depth in Eo. lia.
  - apply simple_every; [apply created_simple; eapply from_json_created; eauto|]. eapply from_json_meant; eauto.
Qed.

Lemma new_prog_meant g text p : new_prog g text = Ok p -> all_every meant (p_ops p).
Proof.
  unfold new_prog. intros H. apply rbind_ok in H as (j & _ & H).
  destruct (init_cases _ _ _ _ H) as (entry & filter & h & h' & cs & o & _ & _ & _ & E & _ & R & _ & [[_ ->]|[_ ->]]); cbn [p_ops];
    [|apply all_every_nil].
  eapply read_conns_every; [exact meant_conns|exact R|]. unfold operators_of in E. apply rbind_ok in E as (xs & _ & E).
  eapply read_ops_every; [|exact E|apply all_every_nil]. intros x o' Ho. eapply read_op_meant; [|exact Ho]. apply Nat.lt_succ_diag_r.
Qed.

Lemma meant_node_aux : forall s h, swf h -> (forall id o, sfind id h = Some o -> (op_size o <= s)%nat) ->
  (forall path o, lookup path h = Some o -> reliable o) -> all_every meant h -> all_every node h.
Proof.
  induction s as [|s IH]; intros h W Sz R A id o I; apply (In_sfind _ _ _ W) in I; specialize (Sz _ _ I) as So.
  - destruct o as [b []]; cbn in So; lia.
  - pose proof (all_find _ _ _ _ A I) as X. pose proof (every_L _ _ X (R [id] o I)) as N.
    destruct o as [b k]. destruct (simple_cases k) as [S|(js & ops & ins & outs & pm & ->)].
    + apply simple_every; [destruct k; try destruct S; reflexivity|exact N].
    + apply every_pipe in X as [_ X]. apply every_pipe. split; [exact N|].
      assert (Wo : wf_heap ops) by apply N. apply IH; [apply Wo| | |exact X].
      * intros i oi F. apply op_size_inner in F. cbn in So. lia.
      * intros path o F. destruct path as [|i path]; [discriminate F|]. apply (R (id :: i :: path)). cbn [lookup]. rewrite I. exact F.
Qed.
Lemma sizes (h : heap) : exists s, forall id o, sfind id h = Some o -> (op_size o <= s)%nat.
Proof.
  exists (fold_right (fun x n => op_size (snd x) + n)%nat 0%nat h). intros id o F. now apply op_size_inner in F.
Qed.

Lemma new_good g text p : new_prog g text = Ok p -> reliable_program p -> good (p_ops p).
Proof.
  intros H R. pose proof (new_prog_meant _ _ _ H) as A. destruct (new_prog_good g text p H) as [W _].
  split; [exact W|]. split.
  - unfold new_prog in H. apply rbind_ok in H as (j & _ & H).
    destruct (init_cases _ _ _ _ H) as (entry & filter & h & h' & cs & o & _ & _ & _ & E & _ & Rc & _ & [[_ ->]|[_ ->]]); cbn [p_ops].
    + destruct (operators_good _ _ _ E) as [_ N]. destruct (read_conns_ok _ _ _ Rc) as (cl & rs & _ & F & Rw).
      now destruct (wired_new _ _ _ _ N F Rw) as (_ & C & _).
    + intros a b (port & tp & []).
  - destruct (sizes (p_ops p)) as [s Hs]. eapply meant_node_aux; eauto. apply W.
Qed.

Lemma new_entry g text p : new_prog g text = Ok p -> p_ops p <> [] -> exists o, sfind (p_entry p) (p_ops p) = Some o.
Proof.
  unfold new_prog. intros H N. apply rbind_ok in H as (j & _ & H).
  destruct (init_cases _ _ _ _ H) as (entry & filter & h & h' & cs & o & _ & _ & _ & E & _ & Rc & F & [[_ ->]|[_ ->]]); [eauto|now destruct N].
Qed.

End New.
