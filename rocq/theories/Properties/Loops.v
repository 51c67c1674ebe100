(** * Loops are accepted, and nothing that reaches one is ever answered (C30) *)

From Coq Require Import String ZArith QArith Qcanon Bool List Lia.
From Verif Require Import Base.StrMap Base.Num Base.NumQc Model.Core Model.Ops Model.Make Model.Run Model.Graph Model.Codec Model.Json Model.Factory.
From Verif Require Import Spec.Show Spec.Multi Spec.Preserving Spec.Shape Spec.Log Spec.Snapshot Spec.Definition Spec.Loops.
From Verif Require Import Proofs.MakeP Proofs.ShapeP Proofs.Window Proofs.JsonP Proofs.Restored Proofs.Conns Proofs.LoopsP.
From Verif Require Import Properties.Single Properties.Definition Properties.Created Properties.Forest.
Import ListNotations.
Open Scope string_scope.
Open Scope list_scope.
Open Scope Z_scope.
Open Scope rtbot_scope.

Section C30.
Context {NO : NumOps} {JT : JsonText}.

Lemma simple_kind id n k o : mk_simple id n k = Ok o -> op_kind o = k.
Proof. rewrite mk_simple_sop. now intros [= <-]. Qed.

Lemma created_single o : created o -> In (type_name (op_kind o)) always_answers -> single o /\ o_outs (op_base o) = ["o1"].
Proof.
  intros C T.
  assert (Sg : forall id n k, mk_simple id n k = Ok o -> n = 1 -> passing k = true -> single o /\ o_outs (op_base o) = ["o1"]).
  { intros id n k E -> P. rewrite mk_simple_sop in E. injection E as <-. split; [|reflexivity]. split; [exact P|]. split; [reflexivity|]. exists "i1". eexists. split; reflexivity. }
  assert (Ps : passing (op_kind o) = true).
  { clear Sg C. destruct o as [b k]. cbn [op_kind] in *. unfold always_answers in T. cbn [In] in T.
    destruct k as [| | | |f| | |f ?| | | | | | | | | | | | | | | | | | | | |]; try reflexivity; exfalso;
      try destruct f; cbn [type_name] in T; intuition discriminate. }
  clear T. destruct C as [id n o H|id n o H|id n o H|id n o H|id f o H|id c o H|id n o H|id f v o H|id v o H|id v o H|id v o H|id v o H|id o H|id n o H|id n o H|id n o H
    |id c o H|id c o H|id o H|id o H|id u o H|id dt times o H|id dt g1 g2 o H|id dt o H|id dt o H|id l ty o H|id v o H|id n g1 g2 g3 g4 o H];
    try (eapply Sg; [exact H|reflexivity|reflexivity]);
    try (unfold mk_function in H; destruct (Nat.ltb _ 2); [discriminate H|]; destruct (String.eqb ty "linear"); [|destruct (String.eqb ty "hermite"); [|discriminate H]];
      (eapply Sg; [exact H|reflexivity|reflexivity]));
    exfalso; clear Sg;
    try (apply simple_kind in H; rewrite H in Ps; discriminate Ps);
    try (apply rbind_ok in H as (b & _ & H); injection H as <-; discriminate Ps).
  - unfold mk_join in H. destruct (Nat.ltb n 2); [discriminate H|]. apply rbind_ok in H as (b & _ & H). injection H as <-. discriminate Ps.
  - unfold mk_linear in H. destruct (Nat.ltb _ 2); [discriminate H|]. apply rbind_ok in H as (b & _ & H). injection H as <-. discriminate Ps.
  - unfold mk_demux in H. destruct (Nat.ltb n 1); [discriminate H|]. apply rbind_ok in H as (b & _ & H). apply rbind_ok in H as (b' & _ & H). injection H as <-. discriminate Ps.
  - unfold mk_constres in H. destruct (dt <=? 0); [discriminate H|]. apply simple_kind in H. rewrite H in Ps. discriminate Ps.
  - unfold mk_variable in H. apply rbind_ok in H as (b & _ & H). apply rbind_ok in H as (b' & _ & H). injection H as <-. discriminate Ps.
Qed.

(** the state of a program some of whose operators form a loop *)
Lemma loop_program (g : string -> junk) (text : string) (j : json) (p : program) (ops : heap) (conns : list connection) (loop : list string) :
  parse text = Ok j -> operators_of g j = Ok ops -> connections_of j = Ok conns -> a_loop ops conns loop ->
  new_prog g text = Ok p -> p_ops p <> [] ->
  (forall a, In a loop -> exists o, sfind a (p_ops p) = Some o /\ single o /\ enters (p_ops p) loop a "o1") /\
  (forall c ports, In c conns -> In (c_to c) loop -> resolves ops c ports -> enters (p_ops p) loop (c_from c) (fst ports)).
Proof.
  intros P Eo Ec A H NE. destruct (C41_creation _ _ _ _ P H NE) as (ops1 & conns1 & rs & E1 & E2 & F & K & T).
  rewrite Eo in E1. injection E1 as <-. rewrite Ec in E2. injection E2 as <-.
  assert (Sd : forall x o0, sfind x ops = Some o0 -> exists o, sfind x (p_ops p) = Some o /\ unwired o = unwired o0 /\
      forall port, targets o port = listed x port (combine conns rs)).
  { intros x o0 F0. assert (I : In x (skeys (p_ops p))) by (rewrite K; eapply sfind_In_key; eauto).
    destruct (sfind x (p_ops p)) as [o|] eqn:Fx; [|now apply sfind_None in Fx]. destruct (T x o Fx) as [(o1 & F1 & U) Tg].
    rewrite F0 in F1. injection F1 as <-. eauto. }
  assert (Sg : forall a, In a loop -> exists o, sfind a (p_ops p) = Some o /\ single o /\ o_outs (op_base o) = ["o1"]).
  { intros a I. destruct (A a I) as [(o0 & F0 & Ty) _]. destruct (Sd a o0 F0) as (o & Fo & U & _). exists o. split; [exact Fo|].
    unfold operators_of in Eo. apply rbind_ok in Eo as (xs & _ & Eo).
    destruct (read_ops_created _ _ _ _ Eo) with (id := a) (o := o0) as [Pp|C]; auto; [intros ? ? X; discriminate X| |].
    - exfalso. unfold is_pipeline in Pp. destruct (op_kind o0); try discriminate Pp. cbn in Ty. intuition discriminate.
    - destruct (created_single o0 C Ty) as [S1 S2]. destruct o as [b k], o0 as [b0 k0]. unfold unwired in U. destruct b, b0. cbn in U. injection U. intros. subst.
      split; [exact S1|exact S2]. }
  assert (En : forall c ports, In c conns -> In (c_to c) loop -> resolves ops c ports -> enters (p_ops p) loop (c_from c) (fst ports)).
  { intros c ports I Il R. assert (X : In (c, ports) (combine conns rs)).
    { clear - F I R. induction F as [|c' r cs rs R' F IH]; [destruct I|]. destruct I as [->|I]; [left|right; auto].
      f_equal. destruct R as (a & b & Fa & Fb & Ch), R' as (a' & b' & Fa' & Fb' & Ch'). rewrite Fa in Fa'. injection Fa' as <-. rewrite Fb in Fb'. injection Fb' as <-.
      eapply chooses_fun; eauto. }
    destruct R as (a & b & Fa & Fb & [_ Ch]). destruct (Sd _ _ Fa) as (oa & Foa & _ & Tg). destruct (Sd _ _ Fb) as (ob & Fob & U & _).
    exists oa, (c_to c), (snd ports), ob. split; [exact Foa|]. split; [|split; [exact Il|split; [exact Fob|]]].
    - rewrite Tg. unfold listed. apply in_map_iff. exists (c, ports). split; [reflexivity|]. apply filter_In. split; [exact X|]. cbn. now rewrite !String.eqb_refl.
    - destruct (Sg _ Il) as (ob1 & F1 & (_ & Cc & _) & _). rewrite Fob in F1. injection F1 as <-.
      assert (Db : o_data (op_base ob) = o_data (op_base b) /\ o_ctrl (op_base ob) = o_ctrl (op_base b)).
      { destruct ob as [b1 k1], b as [b2 k2]. unfold unwired in U. destruct b1, b2. cbn in *. injection U. intros. now subst. }
      unfold is_data_input. destruct Db as [Db Dc]. rewrite Db. rewrite Dc in Cc. rewrite Cc in Ch. apply shas_spec.
      destruct Ch as [(_ & -> & In_)|(_ & -> & _)]; [|now left]. cbn [skeys map] in In_. now rewrite app_nil_r in In_. }
  split; [|exact En]. intros a I. destruct (Sg a I) as (o & Fo & Si & Os). exists o. split; [exact Fo|]. split; [exact Si|].
  destruct (A a I) as [(o0 & F0 & _) (c & Ic & <- & Il)].
  assert (X : exists r, resolves ops c r).
  { clear - F Ic. induction F as [|c' r cs rs R' F IH]; [destruct Ic|]. destruct Ic as [->|Ic]; eauto. }
  destruct X as [r R]. pose proof (En c r Ic Il R) as Z. replace "o1" with (fst r); [exact Z|].
  destruct R as (x & y & Fx & _ & [Oc _]). destruct (Sd _ _ Fx) as (o1 & Fo1 & U & _). rewrite Fo in Fo1. injection Fo1 as <-.
  assert (Ox : o_outs (op_base x) = ["o1"]).
  { rewrite <- Os. destruct o as [b1 k1], x as [b2 k2]. unfold unwired in U. destruct b1, b2. cbn in *. injection U. intros. now subst. }
  rewrite Ox in Oc. destruct Oc as [(_ & -> & [<-|[]])|(_ & [= <-] & _)]; reflexivity.
Qed.

(** Take any definition that was accepted and in which some operators, of types that answer every
    message at once, are connected to each other in a loop.  Whatever was sent before, and whatever
    the depth of the stack: a call that succeeds has sent nothing into the loop.  If the entry is in
    the loop the call had no messages; and no output connected to the loop has emitted anything. *)
Theorem C30_loops (g : string -> junk) (text : string) (j : json) (p0 p p' : program) (ops : heap) (conns : list connection)
    (loop : list string) (n n' : nat) (history : list opmsg) (batch : opmsg) (out : progmsg) :
  parse text = Ok j -> operators_of g j = Ok ops -> connections_of j = Ok conns -> a_loop ops conns loop ->
  new_prog g text = Ok p0 -> p = snd (session n p0 history) ->
  receive_debug n' p batch = (Ok out, p') ->
  (In (p_entry p0) loop -> forall port ms, In (port, ms) batch -> ms = []) /\
  (forall c ports, In c conns -> In (c_to c) loop -> resolves ops c ports -> result_at out (c_from c) (fst ports) = []).
Proof.
  intros P Eo Ec A H -> E. destruct (created_well_formed _ _ _ H) as [W0 N0].
  destruct (session_shape n history p0 W0 N0) as (W & N & Er & Ee & _). set (p := snd (session n p0 history)) in *.
  assert (NE : p_ops p0 <> []).
  { intros X. rewrite X in Er. unfold receive_debug in E. destruct (p_ops p) as [|x y]; [discriminate E|discriminate Er]. }
  destruct (loop_program g text j p0 ops conns loop P Eo Ec A H NE) as [L En].
  unfold receive_debug in E. destruct (shas (p_entry p) (p_ops p)); [|discriminate E].
  destruct (send_batch n' (p_entry p) batch [] (p_ops p)) as [r h] eqn:Es. injection E as -> _.
  destruct (send_batch_calm (p_ops p0) loop N0 L n' (p_entry p) batch [] (p_ops p) out h (conj W Er) Merge.wf_pm_nil (fun _ _ _ => eq_refl) Es) as (B & _ & _ & _ & R).
  split; [|intros c ports I Il Rs; apply R; eauto]. rewrite Ee in B. intros I port ms Ib. destruct ms as [|m ms]; [reflexivity|].
  exfalso. apply (B port (m :: ms) Ib); [discriminate|exact I].
Qed.

Lemma input_answers id nn o cs k m : mk_input id nn = Ok o -> (1 <= k <= nn)%nat ->
  exists o1 x o2, recv_data_local (with_conns cs o) m (iport k) = (Ok tt, o1) /\ is_pipeline o1 = false /\
    exec_data_local o1 = (Ok x, o2) /\ In (oport k, [m]) x.
Proof.
  intros M K. destruct (C01_input_in_program id nn [(k, m)]) as (o' & outs & o'' & M' & R & Out); [repeat constructor; cbn; lia|].
  rewrite M in M'. injection M' as <-. destruct (Out k K) as [Op _]. unfold of_port in Op. cbn [filter fst map snd] in Op. rewrite Nat.eqb_refl in Op.
  replace (records (map snd [(k, m)])) with [m] in Op by reflexivity.
  pose proof (run_conns cs (arrivals [(k, m)]) o) as Rc. rewrite R in Rc. cbn [fst snd arrivals flat_map app] in Rc.
  cbn [run step] in Rc. unfold bind, sbind in Rc. destruct (recv_data_local (with_conns cs o) m (iport k)) as [[[]| | | |] o1] eqn:Er; try discriminate Rc.
  destruct (exec_data_local o1) as [[x| | | |] o2] eqn:Ee; try discriminate Rc. injection Rc as Rc _.
  exists o1, x, o2. split; [reflexivity|]. split; [|split; [exact Ee|]].
  - unfold mk_input in M. apply rbind_ok in M as (b & _ & M). injection M as <-. unfold with_conns, recv_data_local in Er. cbn [op_base op_kind] in Er.
    destruct (recv_data_base _ m (iport k)). injection Er as _ <-. reflexivity.
  - rewrite <- Rc in Op. unfold on_port in Op. cbn in Op. match type of Op with context [match ?t with Some _ => _ | None => _ end] => destruct t as [ms|] eqn:Fx end; [|discriminate Op].
    rewrite app_nil_r in Op. subst ms. now apply sfind_In in Fx.
Qed.

(** A program whose entry is an Input with an output connected to the loop: the very first message
    on this input already fails, with every depth of the stack. *)
Theorem C30_first_message (g : string -> junk) (text : string) (j : json) (p : program) (ops : heap) (conns : list connection)
    (loop : list string) (id inp : string) (nn k n : nat) (o : op) (c : connection) (m : msg) (more : portmsg) (others : opmsg) :
  parse text = Ok j -> operators_of g j = Ok ops -> connections_of j = Ok conns -> a_loop ops conns loop ->
  new_prog g text = Ok p ->
  sfind (p_entry p) ops = Some o -> mk_input id nn = Ok o -> (1 <= k <= nn)%nat ->
  In c conns -> c_from c = p_entry p -> In (c_to c) loop -> resolves ops c (oport k, inp) ->
  forall out, fst (receive_debug n p ((iport k, m :: more) :: others)) <> Ok out.
Proof.
  intros P Eo Ec A H Fe M K Ic Ef Il Rs out E. destruct (created_well_formed _ _ _ H) as [W N].
  unfold receive_debug in E. destruct (shas (p_entry p) (p_ops p)) eqn:Sh; [|discriminate E].
  assert (NE : p_ops p <> []) by (intros X; rewrite X in Sh; discriminate Sh).
  destruct (loop_program g text j p ops conns loop P Eo Ec A H NE) as [L En].
  destruct (C41_creation _ _ _ _ P H NE) as (ops1 & conns1 & rs & E1 & E2 & _ & _ & T). rewrite Eo in E1. injection E1 as <-.
  unfold shas in Sh. destruct (sfind (p_entry p) (p_ops p)) as [oe|] eqn:Fo; [|discriminate Sh].
  destruct (T _ _ Fo) as [(o0 & F0 & U) _]. rewrite Fe in F0. injection F0 as <-.
  assert (Eq : oe = with_conns (o_conns (op_base oe)) o).
  { destruct oe as [b1 k1], o as [b2 k2]. unfold unwired in U. destruct b1, b2. cbn in U. injection U. intros. subst. reflexivity. }
  destruct (input_answers id nn o (o_conns (op_base oe)) k m M K) as (o1 & x & o2 & Er & NP & Ee & Ix). rewrite <- Eq in Er.
  destruct (send_batch n (p_entry p) ((iport k, m :: more) :: others) [] (p_ops p)) as [r h] eqn:Es. cbn [fst] in E. subst r.
  cbn [send_batch] in Es. apply bind_inv in Es as (y & h1 & Es & _). cbn [send_port] in Es. apply bind_inv in Es as (z & h2 & Es & _).
  unfold send1 in Es. rewrite Fo in Es.
  assert (Rd : recv_data n oe m (iport k) = (Ok tt, o1)).
  { rewrite <- Er. unfold mk_input in M. apply rbind_ok in M as (b & _ & M). injection M as <-. rewrite Eq. destruct n; reflexivity. }
  rewrite Rd in Es. assert (Wo : wf_op oe) by (eapply (proj2 W); eauto).
  pose proof (recv_data_erase n oe m (iport k) Wo) as X. rewrite Rd in X. cbn [snd] in X.
  assert (Y : erase_heap (sset (p_entry p) o1 (p_ops p)) = erase_heap (p_ops p)) by exact (erase_heap_sset _ _ _ _ W Fo X).
  destruct (exec_emits (p_ops p) loop N L n false (p_entry p) _ _ _ o1 (conj (wf_heap_same _ _ Y W) Y) (sfind_sset_same _ _ _) NP Es) as (oms & o' & El & Nt).
  rewrite Ee in El. injection El as <- _. apply (Nt (oport k) [m] Ix); [discriminate|]. rewrite <- Ef. exact (En c (oport k, inp) Ic Il Rs).
Qed.

(** Creation does not look for loops: with an entry that exists and has no control inputs it is
    enough that each connection can be resolved. *)
Theorem C30_accepted (g : string -> junk) (text : string) (j : json) (entry : string) (filter : smap (list string)) (ops : heap)
    (conns : list connection) (o : op) :
  parse text = Ok j -> jvalue get_str "entryOperator" "" j = Ok entry -> entry <> "" -> filter_of j = Ok filter ->
  operators_of g j = Ok ops -> connections_of j = Ok conns -> (forall c, In c conns -> exists ports, resolves ops c ports) ->
  sfind entry ops = Some o -> o_ctrl (op_base o) = [] ->
  exists p, new_prog g text = Ok p /\ p_entry p = entry /\ skeys (p_ops p) = skeys ops.
Proof.
  intros P E1 N E2 E3 E4 R Fe C. unfold new_prog. rewrite P. cbn [rbind]. unfold init. rewrite E1. cbn [rbind].
  destruct (String.eqb_spec entry ""); [contradiction|]. rewrite E2. cbn [rbind].
  destruct (operators_good _ _ _ E3) as [[[Wo _] _] _].
  unfold operators_of in E3. apply rbind_ok in E3 as (xs & -> & E3). cbn [rbind]. rewrite E3. cbn [rbind].
  unfold connections_of in E4. apply rbind_ok in E4 as (cs & -> & E4). cbn [rbind].
  destruct (read_conns_resolve (jitems cs) conns ops E4 R) as [h' Rc]. rewrite Rc. cbn [rbind].
  destruct (read_conns_swf _ _ _ Rc Wo) as [_ Ks]. destruct (read_conns_ok _ _ _ Rc) as (cs' & rs & _ & _ & Rw). specialize (Rw entry).
  rewrite Fe in Rw. destruct (sfind entry h') as [o'|]; [|contradiction]. destruct Rw as [Sp _].
  destruct (same_ports_fields _ _ Sp) as (_ & _ & Cc & _). 
  assert (Cz : o_ctrl (op_base o') = []) by congruence. rewrite Cz.
  eexists. split; [reflexivity|]. split; [reflexivity|]. exact Ks.
Qed.

End C30.

Print Assumptions C30_loops.
Print Assumptions C30_first_message.
Print Assumptions C30_accepted.

(** Not vacuous: in -> a -> b -> a, and in -> out. *)
Definition circle : @json QcOps := obj [
  ("entryOperator", JStr "in");
  ("operators", JArr [definition "Input" "in" [("numPorts", JInt 2)]; definition "Scale" "a" [("value", JInt 2)]; definition "Count" "b" [];
                      definition "Output" "out" []]);
  ("connections", JArr [obj [("from", JStr "in"); ("fromPort", JStr "o1"); ("to", JStr "a")]; a_conn "a" "b"; a_conn "b" "a";
                        obj [("from", JStr "in"); ("fromPort", JStr "o2"); ("to", JStr "out")]])].

Example C30_hypotheses :
  let JT := a_text circle JNull in
  match operators_of j0 circle, connections_of circle, new_prog j0 "text" with
  | Ok ops, Ok conns, Ok p =>
      a_loop ops conns ["a"; "b"] /\ (exists o, sfind (p_entry p) ops = Some o /\ mk_input "in" 2 = Ok o) /\
      exists c, In c conns /\ c_from c = p_entry p /\ In (c_to c) ["a"; "b"] /\ resolves ops c (oport 1, "i1")
  | _, _, _ => False
  end.
Proof.
  cbn zeta. split; [|split].
  - intros a [<-|[<-|[]]]; (split; [eexists; split; [reflexivity|unfold always_answers; cbn; tauto]|]).
    + eexists. split; [right; left; reflexivity|]. split; [reflexivity|right; left; reflexivity].
    + eexists. split; [right; right; left; reflexivity|]. split; [reflexivity|left; reflexivity].
  - eexists. split; reflexivity.
  - eexists. split; [left; reflexivity|]. split; [reflexivity|]. split; [left; reflexivity|]. do 2 eexists. split; [reflexivity|]. split; [reflexivity|]. split.
    + left. split; [discriminate|]. split; [reflexivity|]. left; reflexivity.
    + right. split; [reflexivity|]. split; [reflexivity|]. split; [reflexivity|]. discriminate.
Qed.

(** the second input is answered, the first never *)
Example C30_example :
  let JT := a_text circle JNull in
  match new_prog j0 "text" with
  | Ok p => match fst (receive_debug 20 p [("i2", [im 1 5])]), fst (receive_debug 20 p [("i1", [im 1 5])]) with
            | Ok out, OutOfFuel => map (fun x => (fst x, show_om (snd x))) out = [("in", [("o2", [(1, 5%Q)])]); ("out", [("o1", [(1, 5%Q)])])]
            | _, _ => False
            end
  | _ => False
  end.
Proof. vm_compute. reflexivity. Qed.
