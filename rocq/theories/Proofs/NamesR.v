(** * Reading a definition with other names (for C97) *)

From Coq Require Import String ZArith Bool List Lia Permutation.
From Verif Require Import Base.StrMap Base.Num Model.Core Model.Ops Model.Make Model.Run Model.Graph Model.Json.
From Verif Require Import Spec.Snapshot Spec.Names Proofs.Merge Proofs.Retag Proofs.JsonP Proofs.NamesP.
Import ListNotations.
Open Scope string_scope.
Open Scope list_scope.
Open Scope Z_scope.
Open Scope rtbot_scope.

Section NamesR.
Context {NO : NumOps} {JT : JsonText}.

Definition lift {A} (f : A -> A) (x : res A) : res A := let! a := x in Ok (f a).

Lemma bind_lift {A B} (f : B -> B) (x : res A) k k' : (forall a, k' a = lift f (k a)) -> (let! a := x in k' a) = lift f (let! a := x in k a).
Proof. intros H. destruct x; cbn; auto. Qed.

Lemma lift_bind {A B} (f : A -> A) (x : res A) (k : A -> res B) : (let! a := lift f x in k a) = (let! a := x in k (f a)).
Proof. now destruct x. Qed.

(** ** The constructors: the id is only a name *)

Lemma add_data_tag i cs b port max : add_data (tag i cs b) port max = lift (tag i cs) (add_data b port max).
Proof.
  unfold add_data. change (o_data (tag i cs b)) with (o_data b). change (o_ctrl (tag i cs b)) with (o_ctrl b).
  destruct (String.eqb port ""); [reflexivity|]. destruct (_ || _); reflexivity.
Qed.
Lemma add_ctrl_tag i cs b port max : add_ctrl (tag i cs b) port max = lift (tag i cs) (add_ctrl b port max).
Proof.
  unfold add_ctrl. change (o_data (tag i cs b)) with (o_data b). change (o_ctrl (tag i cs b)) with (o_ctrl b).
  destruct (String.eqb port ""); [reflexivity|]. destruct (_ || _); reflexivity.
Qed.

Lemma add_ports_tag i cs ks max outs : forall b, add_ports ks max outs (tag i cs b) = lift (tag i cs) (add_ports ks max outs b).
Proof.
  induction ks as [|k ks IH]; intros b; [reflexivity|]. cbn [add_ports]. rewrite add_data_tag, lift_bind. apply bind_lift. intros b1. rewrite <- IH. now destruct outs.
Qed.
Lemma add_ctrls_tag i cs ks : forall b, add_ctrls ks (tag i cs b) = lift (tag i cs) (add_ctrls ks b).
Proof.
  induction ks as [|k ks IH]; intros b; [reflexivity|]. cbn [add_ctrls]. rewrite add_ctrl_tag, lift_bind. apply bind_lift. intros b1. now rewrite <- IH.
Qed.

Definition nominal (mk : string -> res op) : Prop := forall i i', mk i' = lift (retag i' []) (mk i).

Lemma nominal_simple max k : nominal (fun i => mk_simple i max k).
Proof. intros i i'. reflexivity. Qed.

Lemma base_tag i i' : base0 i' = tag i' [] (base0 i).
Proof. reflexivity. Qed.

Lemma nominal_ports n max outs k : nominal (fun i => let! b := add_ports n max outs (base0 i) in Ok (Op b k)).
Proof. intros i i'. rewrite (base_tag i i'), add_ports_tag, lift_bind. now apply bind_lift. Qed.
Lemma nominal_ports_out n max outs p k : nominal (fun i => let! b := add_ports n max outs (base0 i) in Ok (Op (add_out b p) k)).
Proof. intros i i'. rewrite (base_tag i i'), add_ports_tag, lift_bind. now apply bind_lift. Qed.

Lemma nominal_if (c : bool) mk mk' : nominal mk -> nominal mk' -> nominal (fun i => if c then mk i else mk' i).
Proof. intros A B. destruct c; [exact A|exact B]. Qed.
Lemma nominal_throw e : nominal (fun _ => Throw e).
Proof. intros i i'. reflexivity. Qed.
Lemma nominal_bind {A} (x : res A) mk : (forall a, nominal (mk a)) -> nominal (fun i => let! a := x in mk a i).
Proof. intros H i i'. apply bind_lift. intros a. apply H. Qed.

Lemma nominal_input n : nominal (fun i => mk_input i n). Proof. apply nominal_ports. Qed.
Lemma nominal_output n : nominal (fun i => mk_output i n). Proof. apply nominal_ports. Qed.
Lemma nominal_join n : nominal (fun i => mk_join i n).
Proof. apply (nominal_if (Nat.ltb n 2)); [apply nominal_throw|apply nominal_ports]. Qed.
Lemma nominal_binary f : nominal (fun i => mk_binary i f). Proof. apply nominal_ports_out. Qed.
Lemma nominal_linear c : nominal (fun i => mk_linear i c).
Proof. apply (nominal_if (Nat.ltb (length c) 2)); [apply nominal_throw|apply nominal_ports_out]. Qed.
Lemma nominal_demux n : nominal (fun i => mk_demux i n).
Proof.
  apply (nominal_if (Nat.ltb n 1)); [apply nominal_throw|]. intros i i'. rewrite (base_tag i i'), add_ctrls_tag, lift_bind.
  apply bind_lift. intros b. rewrite add_data_tag, lift_bind. now apply bind_lift.
Qed.
Lemma nominal_variable v : nominal (fun i => mk_variable i v).
Proof. intros i i'. reflexivity. Qed.
Lemma nominal_constres dt a b : nominal (fun i => mk_constres i dt a b).
Proof. apply (nominal_if (dt <=? 0)); [apply nominal_throw|apply nominal_simple]. Qed.
Lemma nominal_function points ty : nominal (fun i => mk_function i points ty).
Proof.
  apply (nominal_if (Nat.ltb (length points) 2)); [apply nominal_throw|].
  apply (nominal_if (String.eqb ty "linear")); [apply nominal_simple|].
  apply (nominal_if (String.eqb ty "hermite")); [apply nominal_simple|apply nominal_throw].
Qed.

Lemma pipe_inputs_tag i cs keys : forall c b pm, pipe_inputs c keys (tag i cs b) pm = lift (fun x => (tag i cs (fst x), snd x)) (pipe_inputs c keys b pm).
Proof.
  induction keys as [|key keys IH]; intros c b pm; [reflexivity|]. cbn [pipe_inputs]. rewrite add_data_tag, lift_bind. apply bind_lift. intros b1. apply IH.
Qed.
Lemma pipe_outs_tag i cs keys : forall c b pm, pipe_outs c keys (tag i cs b) pm = (tag i cs (fst (pipe_outs c keys b pm)), snd (pipe_outs c keys b pm)).
Proof.
  induction keys as [|key keys IH]; intros c b pm; [reflexivity|]. cbn [pipe_outs].
  change (add_out (tag i cs b) (oport c)) with (tag i cs (add_out b (oport c))). apply IH.
Qed.

Lemma nominal_pipeline read text prog : nominal (fun i => mk_pipeline read i text prog).
Proof.
  intros i i'. unfold mk_pipeline. apply bind_lift. intros xs. apply bind_lift. intros h. apply bind_lift. intros cs. apply bind_lift. intros [[h' ui] uo].
  rewrite (base_tag i i'), pipe_inputs_tag, lift_bind. apply bind_lift. intros [b pm]. cbn [fst snd]. rewrite pipe_outs_tag.
  destruct (pipe_outs _ _ _ _). reflexivity.
Qed.

(** ** Reading an operator *)

Section New.
Variable new : string -> string.
Hypothesis inj : forall a b, new a = new b -> a = b.

Lemma nominal_rt mk id : nominal mk -> mk (new id) = lift (rt new) (mk id).
Proof.
  intros N. rewrite (N id (new id)). pose proof (N id id) as S. destruct (mk id) as [o| | | |]; try reflexivity. cbn in S |- *.
  injection S as S. rewrite S. reflexivity.
Qed.

Ltac constructed id :=
  cbn [option_map]; f_equal; repeat (match goal with |- rbind _ _ = lift _ (rbind _ _) => apply bind_lift; intros end);
  match goal with |- _ = lift _ ?y => let f := eval pattern id in y in match f with ?mk _ => apply (nominal_rt mk id) end end;
  first [apply nominal_input | apply nominal_output | apply nominal_join | apply nominal_binary | apply nominal_linear | apply nominal_demux
        | apply nominal_variable | apply nominal_constres | apply nominal_function | apply nominal_simple].

Lemma from_json_rt g g' type m m' id : sfind "id" m = Some (JStr id) -> sfind "id" m' = Some (JStr (new id)) ->
  (forall key, key <> "id" -> sfind key m = sfind key m') -> g' (new id) = g id ->
  from_json g' type (JObj m') = option_map (lift (rt new)) (from_json g type (JObj m)).
Proof.
  intros I I' H G. unfold from_json. cbv beta zeta.
  assert (Ei : id_of (JObj m) = Ok id) by (unfold id_of, jindex; now rewrite I).
  assert (Ei' : id_of (JObj m') = Ok (new id)) by (unfold id_of, jindex; now rewrite I').
  assert (X : forall key, key <> "id" -> jindex key (JObj m') = jindex key (JObj m)) by (intros key N; unfold jindex; now rewrite H).
  assert (Y : forall A (get : json -> res A) key d, key <> "id" -> jvalue get key d (JObj m') = jvalue get key d (JObj m)) by (intros A get key d N; unfold jvalue; now rewrite H).
  rewrite Ei, Ei'. unfold V_of, Vs_of, u64_of.
  rewrite (X "value"), (X "coeff"), (X "numPorts"), (X "dt"), (X "n"), (X "interval"), (X "points") by discriminate.
  rewrite !(Y _ get_int "numPorts"), !(Y _ get_int "value"), !(Y _ get_int "dt"), !(Y _ get_int "times"), !(Y _ get_str "type") by discriminate.
  cbn [rbind]. rewrite G. clear Ei Ei' X Y I I' H G.
  generalize (g id). intros x.
  repeat (match goal with |- (if String.eqb type ?s then _ else _) = _ => destruct (String.eqb type s) end; [solve [constructed id]|]).
  reflexivity.
Qed.

Lemma from_json_ext g g' type j : (forall id, g' id = g id) -> from_json g' type j = from_json g type j.
Proof.
  intros G. unfold from_json. cbv beta zeta.
  repeat (match goal with |- (if String.eqb type ?s then _ else _) = _ => destruct (String.eqb type s) end;
    [solve [reflexivity | destruct (id_of j); try reflexivity; cbn [rbind]; now rewrite G]|]).
  reflexivity.
Qed.

Lemma read_op_ext g g' : (forall id, g' id = g id) -> forall n j, read_op_n n g' j = read_op_n n g j.
Proof.
  intros G. induction n as [|n IH]; intros j; [reflexivity|]. cbn [read_op_n]. destruct (jat "type" j) as [tj| | | |]; cbn [rbind]; [|reflexivity..].
  destruct (get_str tj) as [type| | | |]; cbn [rbind]; [|reflexivity..]. destruct (String.eqb type "Pipeline"); [|now rewrite (from_json_ext g g')].
  destruct (jat "id" j) as [idj| | | |]; cbn [rbind]; [|reflexivity..]. destruct (get_str idj); cbn [rbind]; [|reflexivity..].
  destruct (jat "prog" j) as [prog| | | |]; cbn [rbind]; [|reflexivity..]. unfold mk_pipeline. destruct (jat "operators" prog); cbn [rbind]; [|reflexivity..].
  now rewrite (read_ops_ext (read_op_n n g') (read_op_n n g)).
Qed.

Lemma read_op_rt g g' m m' id : sfind "id" m = Some (JStr id) -> sfind "id" m' = Some (JStr (new id)) ->
  (forall key, key <> "id" -> sfind key m = sfind key m') -> g' (new id) = g id ->
  (sfind "type" m = Some (JStr "Pipeline") -> forall id, g' id = g id) ->
  read_op g' (JObj m') = lift (rt new) (read_op g (JObj m)).
Proof.
  intros I I' H G Gp. rewrite (read_op_unfold g), (read_op_unfold g'). cbn [jat].
  rewrite I, I', <- (H "type"), <- (H "prog") by discriminate. destruct (sfind "type" m) as [tj|]; cbn [rbind]; [|reflexivity].
  destruct tj as [| | | |s| |]; cbn [get_str rbind]; [reflexivity..| |reflexivity|reflexivity]. destruct (String.eqb_spec s "Pipeline") as [->|_].
  - destruct (sfind "prog" m) as [prog|]; cbn [rbind]; [|reflexivity].
    rewrite <- (nominal_rt (fun i => mk_pipeline (read_op g) i (dump prog) prog)) by apply nominal_pipeline.
    unfold mk_pipeline. destruct (jat "operators" prog); cbn [rbind]; [|reflexivity..].
    rewrite (read_ops_ext (read_op g') (read_op g)); [reflexivity|]. intros x _. unfold read_op. apply read_op_ext. now apply Gp.
  - rewrite (from_json_rt g g' s m m' id I I' H G). now destruct (from_json g s (JObj m)).
Qed.

Lemma hrel_emplace h h' id o : hrel new h h' -> hrel new (semplace id o h) (semplace (new id) (rt new o) h').
Proof. intros H. unfold semplace. rewrite (H id). destruct (sfind id h); cbn [option_map]; [exact H|now apply hrel_set]. Qed.

Lemma read_ops_rel g g' l l' : Forall2 (renamed_operator new) l l' -> (forall id, g' (new id) = g id) ->
  ((exists op, In (JObj op) l /\ sfind "type" op = Some (JStr "Pipeline")) -> forall id, g' id = g id) ->
  forall h h', hrel new h h' -> orel (hrel new) (read_ops (read_op g) l h) (read_ops (read_op g') l' h').
Proof.
  intros F G. induction F as [|x y l l' (m & m' & id & -> & -> & I & I' & H) F IH]; intros Gp h h' Hh; [exact Hh|]. cbn [read_ops jindex]. rewrite I, I'. cbn [rbind].
  rewrite (read_op_rt g g' m m' id I I' H (G id)) by (intros T; apply Gp; exists m; split; [now left|exact T]).
  destruct (read_op g (JObj m)) as [o| | | |]; cbn; auto. apply IH; [|now apply hrel_emplace].
  intros (op & Io & T). apply Gp. exists op. split; [now right|exact T].
Qed.

(** ** Connections *)

Lemma smapv_set {A} (f : A -> A) k v m : smapv f (sset k v m) = sset k (f v) (smapv f m).
Proof.
  induction m as [|[k' v'] m IH]; [reflexivity|]. cbn [sset smapv map fst snd]. destruct (String.eqb k k'); [reflexivity|].
  destruct (sltb k k'); [reflexivity|]. cbn [map fst snd]. f_equal. exact IH.
Qed.

Lemma connect_rt a b id p q : connect (rt new a) (rt new b) (new id) p q = match connect a b id p q with Ok x => Ok (option_map (rt new) x) | Throw e => Throw e | UB => UB | Diverges => Diverges | OutOfFuel => OutOfFuel end.
Proof.
  destruct a as [ba ka]. unfold connect, rt at 1. cbv zeta. unfold retag at 1. cbn [op_base op_kind].
  change (all_inputs (op_base (rt new b))) with (all_inputs (op_base b)). change (o_data (op_base (rt new b))) with (o_data (op_base b)).
  change (o_outs (tag (new (o_id ba)) (smapv (ends new) (o_conns ba)) ba)) with (o_outs ba).
  set (q' := if (q =? "")%string then _ else _). set (p' := if (p =? "")%string then _ else _).
  destruct (String.eqb q' ""); [reflexivity|]. destruct (String.eqb p' ""); [reflexivity|]. destruct (_ && _); [|reflexivity].
  cbn [option_map]. unfold rt, retag. cbn [op_base op_kind o_conns tag set_conns o_id]. do 3 f_equal. unfold set_conns, tag. cbn. f_equal.
  rewrite smapv_set, sfind_smapv. f_equal. unfold ends. rewrite map_app. cbn [map fst snd]. now destruct (sfind p' (o_conns ba)).
Qed.

Lemma read_conns_rel l l' : Forall2 (renamed_connection new) l l' ->
  forall h h', hrel new h h' -> orel (hrel new) (read_conns l h) (read_conns l' h').
Proof.
  induction 1 as [|x y l l' (m & m' & from & to & -> & -> & F & F' & T & T' & H) Fl IH]; intros h h' Hh; [exact Hh|].
  cbn [read_conns]. unfold conn_of. cbn [jindex]. rewrite F, F', T, T'. cbn [rbind get_str]. unfold jvalue.
  rewrite <- (H "toPort"), <- (H "fromPort") by discriminate.
  destruct (match sfind "toPort" m with Some x => get_str x | None => Ok "" end) as [p| | | |]; cbn; auto.
  destruct (match sfind "fromPort" m with Some x => get_str x | None => Ok "" end) as [q| | | |]; cbn; auto.
  unfold connect1. cbn [c_from c_to c_toPort c_fromPort]. rewrite (Hh from), (Hh to).
  destruct (sfind from h) as [a|]; [|reflexivity]. destruct (sfind to h) as [b|]; [|reflexivity]. cbn [option_map]. rewrite connect_rt.
  destruct (connect a b to q p) as [[a'|]| | | |]; cbn; auto. apply IH. now apply hrel_set.
Qed.

(** ** The order of the operators *)

Lemma sset_swap {A} k1 k2 (v1 v2 : A) m : k1 <> k2 -> swf m -> sset k1 v1 (sset k2 v2 m) = sset k2 v2 (sset k1 v1 m).
Proof.
  intros N W. apply swf_ext; try now apply swf_sset, swf_sset. intros k. rewrite !sfind_sset.
  destruct (String.eqb_spec k k1), (String.eqb_spec k k2); auto. congruence.
Qed.

Lemma semplace_swap {A} k1 k2 (v1 v2 : A) m : k1 <> k2 -> swf m -> semplace k1 v1 (semplace k2 v2 m) = semplace k2 v2 (semplace k1 v1 m).
Proof.
  intros N W. unfold semplace. destruct (sfind k2 m) eqn:E2, (sfind k1 m) eqn:E1; rewrite ?E1, ?E2; try reflexivity.
  - rewrite sfind_sset_other by congruence. now rewrite E2.
  - rewrite sfind_sset_other by congruence. now rewrite E1.
  - rewrite !sfind_sset_other by congruence. rewrite E1, E2. now apply sset_swap.
Qed.

Lemma read_ops_perm read l l' : Permutation l l' -> NoDup (map id_in l) -> forall h h1, swf h ->
  read_ops read l h = Ok h1 -> read_ops read l' h = Ok h1.
Proof.
  induction 1 as [|x l l' P IH|x y l|l l1 l' P IH P' IH']; intros ND h h1 W E; [exact E| | |].
  - inversion ND; subst. cbn [read_ops] in E |- *. destruct (jindex "id" x) as [idj| | | |]; try discriminate E. cbn [rbind] in E |- *.
    destruct (read x) as [o| | | |]; try discriminate E. cbn [rbind] in E |- *. destruct (get_str idj); try discriminate E. cbn [rbind] in E |- *.
    apply IH; auto. now apply swf_semplace.
  - inversion ND as [|? ? N1 N2]; subst. cbn [read_ops] in E |- *.
    destruct (jindex "id" y) as [iy| | | |] eqn:Jy; try discriminate E. cbn [rbind] in E. destruct (read y) as [oy| | | |]; try discriminate E. cbn [rbind] in E.
    destruct (get_str iy) as [sy| | | |] eqn:Gy; try discriminate E. cbn [rbind] in E.
    destruct (jindex "id" x) as [ix| | | |] eqn:Jx; try discriminate E. cbn [rbind] in E |- *. destruct (read x) as [ox| | | |]; try discriminate E. cbn [rbind] in E |- *.
    destruct (get_str ix) as [sx| | | |] eqn:Gx; try discriminate E. cbn [rbind] in E |- *. rewrite Gy. cbn [rbind].
    rewrite semplace_swap; [exact E| |exact W]. intros <-. apply N1. left.
    destruct x as [| | | | | |mx], y as [| | | | | |my]; try discriminate Jx; try discriminate Jy. cbn in Jx, Jy |- *.
    destruct (sfind "id" mx); try discriminate Jx. destruct (sfind "id" my); try discriminate Jy. injection Jx as ->. injection Jy as ->.
    apply get_str_ok in Gx, Gy. now subst.
  - eapply IH' with (h := h); auto. eapply Permutation_NoDup; [|exact ND]. now apply Permutation_map.
Qed.

Lemma nodup_renamed l l' : Forall2 (renamed_operator new) l l' -> NoDup (map id_in l) -> NoDup (map id_in l').
Proof.
  induction 1 as [|x y l l' (m & m' & id & -> & -> & I & I' & _) F IH]; intros ND; [constructor|]. inversion ND as [|? ? N1 N2]; subst.
  cbn [map]. constructor; [|now apply IH]. intros K. apply N1. apply in_map_iff in K as (z & Ez & Iz). cbn in Ez |- *. rewrite I. rewrite I' in Ez.
  clear - F Ez Iz inj. induction F as [|x y l l' (n & n' & k & -> & -> & J & J' & _) F IH]; [contradiction Iz|]. destruct Iz as [<-|Iz]; [|right; now apply IH].
  left. cbn in Ez |- *. rewrite J' in Ez. injection Ez as Ez. apply inj in Ez. now subst.
Qed.

(** ** The output section *)

Lemma get_strs_form j : (exists l, get_strs j = Ok l) \/ get_strs j = Throw type_error.
Proof.
  destruct j; cbn; auto. induction l as [|x l IH]; [left; now exists []|]. cbn [map_res].
  destruct x; cbn; auto. destruct IH as [[ys ->]| ->]; cbn; [left; now exists (s :: ys)|auto].
Qed.

Definition read_entry (kv : string * json) : res (string * list string) := let! l := get_strs (snd kv) in Ok (fst kv, l).

Lemma entries_form m : (exists f, map_res read_entry m = Ok f) \/ map_res read_entry m = Throw type_error.
Proof.
  induction m as [|[k x] m IH]; [left; now exists []|]. cbn [map_res]. unfold read_entry at 1 3. cbn [fst snd].
  destruct (get_strs_form x) as [[l E]|E]; rewrite E; cbn; auto. destruct IH as [[f ->]| ->]; cbn; [left; now exists ((k, l) :: f)|auto].
Qed.

Lemma entries_new m : map_res read_entry (map (fun x => (new (fst x), snd x)) m) =
  match map_res read_entry m with Ok f => Ok (map (fun x => (new (fst x), snd x)) f) | Throw e => Throw e | UB => UB | Diverges => Diverges | OutOfFuel => OutOfFuel end.
Proof.
  induction m as [|[k x] m IH]; [reflexivity|]. cbn [map map_res fst snd]. unfold read_entry at 1 3. cbn [fst snd].
  destruct (get_strs x); cbn; auto. rewrite IH. now destruct (map_res read_entry m).
Qed.

Lemma entries_perm m m' : Permutation m m' -> forall f, map_res read_entry m = Ok f -> exists f', map_res read_entry m' = Ok f' /\ Permutation f f'.
Proof.
  induction 1 as [|[k x] m m' P IH|[k x] [k' x'] m|m m1 m' P IH P' IH']; intros f E; [now exists f| | |].
  - cbn [map_res] in E |- *. unfold read_entry at 1 in E. unfold read_entry at 1. cbn [fst snd] in E |- *. destruct (get_strs x); try discriminate E. cbn [rbind] in E |- *.
    destruct (map_res read_entry m) as [f1| | | |]; try discriminate E. injection E as <-. destruct (IH f1 eq_refl) as (f' & -> & Pf). cbn. eexists. split; [reflexivity|]. now constructor.
  - cbn [map_res] in E |- *. unfold read_entry at 1 2 in E. unfold read_entry at 1 2. cbn [fst snd] in E |- *. destruct (get_strs x'); try discriminate E. cbn [rbind] in E |- *.
    destruct (get_strs x); try discriminate E. cbn [rbind] in E |- *. destruct (map_res read_entry m) as [f1| | | |]; try discriminate E. injection E as <-. cbn. eexists. split; [reflexivity|]. constructor.
  - destruct (IH f E) as (f1 & E1 & P1). destruct (IH' f1 E1) as (f2 & E2 & P2). exists f2. split; [exact E2|]. now transitivity f1.
Qed.

Lemma entries_keys m : forall f, map_res read_entry m = Ok f -> skeys f = map fst m.
Proof.
  induction m as [|[k x] m IH]; intros f E; cbn [map_res] in E; [injection E as <-; reflexivity|]. unfold read_entry at 1 in E. cbn [fst snd] in E.
  destruct (get_strs x); try discriminate E. cbn [rbind] in E. destruct (map_res read_entry m); try discriminate E. injection E as <-. cbn. now rewrite <- (IH a0 eq_refl).
Qed.

Lemma frel_nil : frel new [] [].
Proof. split; [constructor|constructor]. Qed.

Lemma filter_of_rel m m' : renamed_output new m m' -> exists f f', filter_of (JObj m) = Ok f /\ filter_of (JObj m') = Ok f' /\ frel new f f'.
Proof.
  intros [[E E']|(f & f' & E & E' & ND & P)]; unfold filter_of; cbn [jat]; rewrite E, E'; cbn [rbind].
  - exists [], []. split; [reflexivity|]. split; [reflexivity|apply frel_nil].
  - change (fun kv : string * json => let! l := get_strs (snd kv) in Ok (fst kv, l)) with read_entry.
    destruct (entries_form f) as [[r Er]|Er]; rewrite Er.
    + pose proof (entries_new f) as En. rewrite Er in En. destruct (entries_perm _ _ P _ En) as (r' & -> & Pr).
      exists r, r'. split; [reflexivity|]. split; [reflexivity|]. split; [|exact Pr]. now rewrite (entries_keys f r Er).
    + destruct (entries_form f') as [[r' Er']|Er']; rewrite Er'.
      * exfalso. destruct (entries_perm _ _ (Permutation_sym P) _ Er') as (r & En & _). rewrite entries_new, Er in En. discriminate En.
      * exists [], []. split; [reflexivity|]. split; [reflexivity|apply frel_nil].
Qed.

End New.

(** ** The same id twice *)

Lemma read_ops_app read l1 l2 : forall h, read_ops read (l1 ++ l2) h = let! h1 := read_ops read l1 h in read_ops read l2 h1.
Proof.
  induction l1 as [|x l1 IH]; intros h; [reflexivity|]. cbn [app read_ops]. destruct (jindex "id" x) as [idj| | | |]; try reflexivity. cbn [rbind].
  destruct (read x); try reflexivity. cbn [rbind]. destruct (get_str idj); try reflexivity. cbn [rbind]. apply IH.
Qed.

Lemma read_ops_has read l : forall h h1, read_ops read l h = Ok h1 ->
  (forall id, sfind id h <> None -> sfind id h1 <> None) /\ (forall id, In (Some (JStr id)) (map id_in l) -> sfind id h1 <> None).
Proof.
  induction l as [|x l IH]; intros h h1 E; cbn [read_ops] in E; [injection E as <-; split; [auto|intros id []]|].
  destruct (jindex "id" x) as [idj| | | |] eqn:J; try discriminate E. cbn [rbind] in E. destruct (read x) as [o| | | |]; try discriminate E. cbn [rbind] in E.
  destruct (get_str idj) as [i| | | |] eqn:G; try discriminate E. cbn [rbind] in E. apply get_str_ok in G. subst idj. destruct (IH _ _ E) as [A B].
  assert (K : forall id, sfind id h <> None -> sfind id (semplace i o h) <> None).
  { intros id N. unfold semplace. destruct (sfind i h); [exact N|]. rewrite sfind_sset. now destruct (String.eqb id i). }
  assert (K' : sfind i (semplace i o h) <> None).
  { unfold semplace. destruct (sfind i h) eqn:F; [now rewrite F|]. now rewrite sfind_sset_same. }
  split; [auto|]. intros id [Ei|I]; [|now apply B]. apply A.
  destruct x as [| | | | | |m]; try discriminate Ei. cbn in Ei, J. rewrite Ei in J. injection J as J. now subst.
Qed.

End NamesR.
