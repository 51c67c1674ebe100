(** * Runs with other names (for C97) *)

From Coq Require Import String ZArith Bool List Lia Permutation.
From Verif Require Import Base.StrMap Base.Num Model.Core Model.Ops Model.Make Model.Run Model.Graph Model.Codec Model.Json Model.Factory.
From Verif Require Import Spec.Snapshot Spec.Names Proofs.Merge Proofs.Retag Proofs.JsonP.
Import ListNotations.
Open Scope string_scope.
Open Scope list_scope.
Open Scope Z_scope.
Open Scope rtbot_scope.

Section NamesP.
Context {NO : NumOps}.
Variable new : string -> string.
Hypothesis inj : forall a b, new a = new b -> a = b.

Definition ends (cs : list (string * string)) : list (string * string) := map (fun c => (new (fst c), snd c)) cs.

Definition rt (o : op) : op := retag (new (o_id (op_base o))) (smapv ends (o_conns (op_base o))) o.

(** the heap with the new names *)
Definition hrel (h h' : heap) : Prop := forall id, sfind (new id) h' = option_map rt (sfind id h).

Definition rrel (r r' : progmsg) : Prop := wf_pm r /\ wf_pm r' /\ renamed_result new r r'.

Definition orel {A} (R : A -> A -> Prop) (x y : res A) : Prop :=
  match x, y with
  | Ok a, Ok b => R a b
  | Throw e, Throw e' => e = e'
  | UB, UB | Diverges, Diverges | OutOfFuel, OutOfFuel => True
  | _, _ => False
  end.

Definition srel {A} (R : A -> A -> Prop) (x y : sres heap A) : Prop := orel R (fst x) (fst y) /\ hrel (snd x) (snd y).

Lemma sbind_rel {A B} (R : A -> A -> Prop) (Q : B -> B -> Prop) x y (k k' : A -> heap -> sres heap B) :
  srel R x y -> (forall a a' h h', R a a' -> hrel h h' -> srel Q (k a h) (k' a' h')) -> srel Q (bind x k) (bind y k').
Proof.
  destruct x as [[] h], y as [[] h']; intros [O H] K; cbn in O, H |- *; try contradiction O; try (split; [exact O|exact H]). now apply K.
Qed.

Lemma hrel_set h h' id o : hrel h h' -> hrel (sset id o h) (sset (new id) (rt o) h').
Proof.
  intros H k. rewrite !sfind_sset. destruct (String.eqb_spec (new k) (new id)) as [E|N], (String.eqb_spec k id) as [E'|N']; cbn [option_map]; auto.
  - elim N'. now apply inj.
  - subst. now elim N.
Qed.

Lemma untouched_rt {A} o (x : sres op A) : untouched o x -> rt (snd x) = retag (new (o_id (op_base o))) (smapv ends (o_conns (op_base o))) (snd x).
Proof. intros [E F]. unfold rt. now rewrite E, F. Qed.

Lemma recv_rt n o m port : recv_data n (rt o) m port = (fst (recv_data n o m port), rt (snd (recv_data n o m port))).
Proof. rewrite (untouched_rt o) by apply recv_untouched. apply recv_tag. Qed.
Lemma ctrl_rt o m port : recv_ctrl_local (rt o) m port = (fst (recv_ctrl_local o m port), rt (snd (recv_ctrl_local o m port))).
Proof. rewrite (untouched_rt o) by apply ctrl_untouched. apply recv_ctrl_tag. Qed.
Lemma exec_rt rec ctl o : exec_local rec ctl (rt o) = (fst (exec_local rec ctl o), rt (snd (exec_local rec ctl o))).
Proof. rewrite (untouched_rt o) by apply exec_untouched. apply exec_tag. Qed.

Lemma orel_eq {A} (x : res A) : orel (fun _ _ => True) x x.
Proof. destruct x; cbn; auto. Qed.

Lemma deliver1_rel n m c h h' : hrel h h' -> srel (fun _ _ => True) (deliver1 n m c h) (deliver1 n m (new (fst c), snd c) h').
Proof.
  intros H. destruct c as [dst port]. cbn [deliver1 fst snd]. rewrite (H dst). destruct (sfind dst h) as [o|]; cbn [option_map]; [|now split].
  change (is_data_input (rt o) port) with (is_data_input o port). change (is_control_input (rt o) port) with (is_control_input o port).
  destruct (is_data_input o port).
  - rewrite recv_rt. destruct (recv_data n o m port) as [r o']. cbn [fst snd]. split; [apply orel_eq|now apply hrel_set].
  - destruct (is_control_input o port); [|now split].
    rewrite ctrl_rt. destruct (recv_ctrl_local o m port) as [r o']. cbn [fst snd]. split; [apply orel_eq|now apply hrel_set].
Qed.

Lemma deliver_rel n m cs : forall h h', hrel h h' -> srel (fun _ _ => True) (deliver n m cs h) (deliver n m (ends cs) h').
Proof.
  induction cs as [|c cs IH]; intros h h' H; [now split|]. cbn [deliver ends map].
  eapply sbind_rel; [now apply deliver1_rel|]. intros _ _ h1 h1' _ H1. now apply IH.
Qed.

Lemma rrel_nil : rrel [] [].
Proof. split; [apply wf_pm_nil|split; [apply wf_pm_nil|]]. split; [reflexivity|]. intros name N. now elim N. Qed.

Lemma rrel_one id port m : rrel [(id, [(port, [m])])] [(new id, [(port, [m])])].
Proof.
  split; [apply wf_pm_one|split; [apply wf_pm_one|]]. split.
  - intros k. cbn [sfind]. destruct (String.eqb_spec (new k) (new id)) as [E|N], (String.eqb_spec k id) as [E'|N']; auto.
    + elim N'. now apply inj.
    + subst. now elim N.
  - intros nm N. cbn [sfind] in N. destruct (String.eqb_spec nm (new id)) as [E|_]; [now exists id|now elim N].
Qed.

Lemma rrel_merge a a' b b' : rrel a a' -> rrel b b' -> rrel (merge_pm a b) (merge_pm a' b').
Proof.
  intros (Wa & Wa' & A1 & A2) (Wb & Wb' & B1 & B2). split; [now apply merge_pm_wf|]. split; [now apply merge_pm_wf|]. split.
  - intros id. rewrite !merge_pm_find by assumption. now rewrite A1, B1.
  - intros name N. rewrite merge_pm_find in N by assumption. destruct (sfind name a') eqn:Ea; [apply A2; now rewrite Ea|].
    apply B2. intros E. now rewrite E in N.
Qed.

Section Rec.
Variable rec rec' : bool -> string -> heap -> sres heap progmsg.
Hypothesis R : forall ctl id h h', hrel h h' -> srel rrel (rec ctl id h) (rec' ctl (new id) h').

Lemma execute1_rel c h h' : hrel h h' -> srel rrel (execute1 rec c h) (execute1 rec' (new (fst c), snd c) h').
Proof.
  intros H. destruct c as [dst port]. cbn [execute1 fst snd]. rewrite (H dst). destruct (sfind dst h) as [o|]; cbn [option_map]; [|now split].
  change (is_data_input (rt o) port) with (is_data_input o port). change (is_control_input (rt o) port) with (is_control_input o port).
  destruct (is_data_input o port); [now apply R|]. destruct (is_control_input o port); [now apply R|]. split; [apply rrel_nil|exact H].
Qed.

Lemma execute_all_rel cs : forall out out' h h', rrel out out' -> hrel h h' -> srel rrel (execute_all rec cs out h) (execute_all rec' (ends cs) out' h').
Proof.
  induction cs as [|c cs IH]; intros out out' h h' O H; [now split|]. cbn [execute_all ends map].
  eapply sbind_rel; [now apply execute1_rel|]. intros x x' h1 h1' X H1. apply IH; [now apply rrel_merge|exact H1].
Qed.

Lemma emit_msg_rel n o port m h h' : hrel h h' -> srel rrel (emit_msg rec n (op_base o) port m h) (emit_msg rec' n (op_base (rt o)) port m h').
Proof.
  intros H. unfold emit_msg. cbn [op_base rt retag tag o_id o_conns]. rewrite sfind_smapv.
  destruct (sfind port (o_conns (op_base o))) as [cs|]; cbn [option_map]; [|split; [apply rrel_one|exact H]].
  eapply sbind_rel; [now apply deliver_rel|]. intros _ _ h1 h1' _ H1. apply execute_all_rel; [apply rrel_one|exact H1].
Qed.

Lemma emit_port_rel n o port ms : forall out out' h h', rrel out out' -> hrel h h' ->
  srel rrel (emit_port rec n (op_base o) port ms out h) (emit_port rec' n (op_base (rt o)) port ms out' h').
Proof.
  induction ms as [|m ms IH]; intros out out' h h' O H; [now split|]. cbn [emit_port].
  eapply sbind_rel; [now apply emit_msg_rel|]. intros x x' h1 h1' X H1. apply IH; [now apply rrel_merge|exact H1].
Qed.

Lemma emit_op_rel n o oms : forall out out' h h', rrel out out' -> hrel h h' ->
  srel rrel (emit_op rec n (op_base o) oms out h) (emit_op rec' n (op_base (rt o)) oms out' h').
Proof.
  induction oms as [|[port ms] oms IH]; intros out out' h h' O H; [now split|]. cbn [emit_op].
  change (o_outs (op_base (rt o))) with (o_outs (op_base o)). destruct (sset_mem port (o_outs (op_base o))); [|now split].
  eapply sbind_rel; [apply emit_port_rel; [apply rrel_nil|exact H]|]. intros x x' h1 h1' X H1. apply IH; [now apply rrel_merge|exact H1].
Qed.
End Rec.

Lemma exec_rel n : forall ctl id h h', hrel h h' -> srel rrel (exec n ctl id h) (exec n ctl (new id) h').
Proof.
  induction n as [|n IH]; intros ctl id h h' H; [now split|]. cbn [exec]. rewrite (H id).
  destruct (sfind id h) as [o|]; cbn [option_map]; [|now split]. rewrite exec_rt.
  destruct (exec_local (exec n) ctl o) as [[out| | | |] o']; cbn [fst snd]; try (split; [now cbn|now apply hrel_set]).
  apply emit_op_rel; [exact IH|apply rrel_nil|now apply hrel_set].
Qed.

Lemma send1_rel n entry port m h h' : hrel h h' -> srel rrel (send1 n entry port m h) (send1 n (new entry) port m h').
Proof.
  intros H. unfold send1. rewrite (H entry). destruct (sfind entry h) as [o|]; cbn [option_map]; [|now split]. rewrite recv_rt.
  destruct (recv_data n o m port) as [[out| | | |] o']; cbn [fst snd]; try (split; [now cbn|now apply hrel_set]).
  apply exec_rel. now apply hrel_set.
Qed.

Lemma send_port_rel n entry port ms : forall out out' h h', rrel out out' -> hrel h h' ->
  srel rrel (send_port n entry port ms out h) (send_port n (new entry) port ms out' h').
Proof.
  induction ms as [|m ms IH]; intros out out' h h' O H; [now split|]. cbn [send_port].
  eapply sbind_rel; [now apply send1_rel|]. intros x x' h1 h1' X H1. apply IH; [now apply rrel_merge|exact H1].
Qed.

Lemma send_batch_rel n entry b : forall out out' h h', rrel out out' -> hrel h h' ->
  srel rrel (send_batch n entry b out h) (send_batch n (new entry) b out' h').
Proof.
  induction b as [|[port ms] b IH]; intros out out' h h' O H; [now split|]. cbn [send_batch].
  eapply sbind_rel; [apply send_port_rel; [exact O|exact H]|]. intros x x' h1 h1' X H1. apply IH; [exact X|exact H1].
Qed.

(** ** Programs *)

Definition frel (f f' : smap (list string)) : Prop :=
  NoDup (skeys f) /\ Permutation (map (fun x => (new (fst x), snd x)) f) f'.

Definition prel (p p' : program) : Prop :=
  hrel (p_ops p) (p_ops p') /\ p_entry p' = new (p_entry p) /\ frel (p_filter p) (p_filter p').

Lemma apply_find f : NoDup (skeys f) -> forall r acc id,
  sfind id (apply_filter f r acc) =
    match sfind id f, sfind id r with
    | Some ports, Some om => match filter_ports ports om (sfind id acc) with Some a => Some a | None => sfind id acc end
    | _, _ => sfind id acc
    end.
Proof.
  induction f as [|[i ports] f IH]; intros ND r acc id; [reflexivity|]. inversion ND as [|? ? N1 N2]; subst. cbn [apply_filter].
  rewrite IH by exact N2. rewrite sfind_cons. destruct (String.eqb_spec id i) as [->|Ne].
  - rewrite (sfind_notin i f N1). destruct (sfind i r) as [om|]; [|reflexivity].
    destruct (filter_ports ports om (sfind i acc)) as [a|]; [now rewrite sfind_sset_same|reflexivity].
  - assert (E : forall acc', acc' = match sfind i r with None => acc | Some om => match filter_ports ports om (sfind i acc) with Some a => sset i a acc | None => acc end end -> sfind id acc' = sfind id acc).
    { intros acc' ->. destruct (sfind i r); [|reflexivity]. destruct (filter_ports _ _ _); [|reflexivity]. now rewrite sfind_sset_other. }
    now rewrite (E _ eq_refl).
Qed.

Lemma find_perm {A} (l l' : smap A) : Permutation l l' -> NoDup (skeys l) -> forall k, sfind k l = sfind k l'.
Proof.
  induction 1 as [|[a x] l l' P IH|[a x] [b y] l|l l1 l' P IH P' IH']; intros ND k; [reflexivity| | |].
  - inversion ND; subst. cbn [sfind]. now rewrite IH.
  - cbn [sfind]. inversion ND as [|? ? N1 N2]; subst. destruct (String.eqb_spec k a), (String.eqb_spec k b); try reflexivity. subst. elim N1. now left.
  - rewrite IH by exact ND. apply IH'. eapply Permutation_NoDup; [|exact ND]. now apply Permutation_map.
Qed.

Lemma find_new {A} (l : smap A) k : sfind (new k) (map (fun x => (new (fst x), snd x)) l) = sfind k l.
Proof.
  induction l as [|[a x] l IH]; [reflexivity|]. cbn [map fst snd sfind].
  destruct (String.eqb_spec (new k) (new a)) as [E|N], (String.eqb_spec k a) as [E'|N']; auto; [elim N'; now apply inj|subst; now elim N].
Qed.

Lemma nodup_new {A} (l : smap A) : NoDup (skeys l) -> NoDup (skeys (map (fun x => (new (fst x), snd x)) l)).
Proof.
  induction l as [|[a x] l IH]; intros ND; [constructor|]. inversion ND as [|? ? N1 N2]; subst. cbn. constructor; [|now apply IH].
  intros I. apply N1. unfold skeys in I |- *. rewrite map_map in I. cbn in I. apply in_map_iff in I as ((b & y) & E & I). cbn in E. apply inj in E. subst b.
  apply in_map_iff. now exists (a, y).
Qed.

Lemma filter_rel f f' r r' : frel f f' -> renamed_result new r r' -> renamed_result new (apply_filter f r []) (apply_filter f' r' []).
Proof.
  intros [ND P] [A B]. pose proof (nodup_new f ND) as ND1.
  assert (ND' : NoDup (skeys f')) by (eapply Permutation_NoDup; [apply Permutation_map; exact P|exact ND1]).
  split.
  - intros id. rewrite !apply_find by assumption. rewrite <- (find_perm _ _ P ND1), find_new, A. reflexivity.
  - intros name N. rewrite apply_find in N by assumption. destruct (sfind name f'); [|now elim N].
    apply B. intros E. now rewrite E in N.
Qed.

Lemma receive_debug_rel n p p' b : prel p p' ->
  orel (renamed_result new) (fst (receive_debug n p b)) (fst (receive_debug n p' b)) /\ prel (snd (receive_debug n p b)) (snd (receive_debug n p' b)).
Proof.
  intros P. pose proof P as (H & E & F). unfold receive_debug. rewrite E.
  assert (S : shas (new (p_entry p)) (p_ops p') = shas (p_entry p) (p_ops p)) by (unfold shas; rewrite (H (p_entry p)); now destruct (sfind (p_entry p) (p_ops p))).
  rewrite S. destruct (shas (p_entry p) (p_ops p)); [|now split].
  destruct (send_batch_rel n (p_entry p) b [] [] _ _ rrel_nil H) as [O H1].
  destruct (send_batch n (p_entry p) b [] (p_ops p)) as [r h1], (send_batch n (new (p_entry p)) b [] (p_ops p')) as [r' h1']. cbn [fst snd] in *.
  split; [|now repeat split; try apply F]. destruct r, r'; cbn in O |- *; try contradiction O; auto. apply O.
Qed.

Lemma receive_rel n p p' b : prel p p' ->
  orel (renamed_result new) (fst (receive n p b)) (fst (receive n p' b)) /\ prel (snd (receive n p b)) (snd (receive n p' b)).
Proof.
  intros P. pose proof P as (H & E & F). destruct (receive_debug_rel n p p' b P) as [O Q]. unfold receive.
  destruct (receive_debug n p b) as [r q], (receive_debug n p' b) as [r' q']. cbn [fst snd] in *.
  destruct r, r'; cbn in O; try contradiction O; cbn [fst snd]; try (split; [exact O|exact Q]). split; [|exact Q]. cbn [orel].
  pose proof F as [ND Pm]. destruct (p_filter p) as [|x f] eqn:Ef.
  - apply Permutation_nil in Pm. now rewrite Pm.
  - destruct (p_filter p') as [|x' f'] eqn:Ef'; [apply Permutation_sym, Permutation_nil in Pm; discriminate Pm|].
    now apply filter_rel.
Qed.

Lemma conversation_rel n history : forall p p', prel p p' ->
  Forall2 (renamed_answer new) (fst (conversation n p history)) (fst (conversation n p' history)).
Proof.
  induction history as [|[debug b] bs IH]; intros p p' P; [constructor|]. cbn [conversation].
  assert (R : orel (renamed_result new) (fst (receive_as debug n p b)) (fst (receive_as debug n p' b)) /\ prel (snd (receive_as debug n p b)) (snd (receive_as debug n p' b))).
  { destruct debug; [now apply receive_debug_rel|now apply receive_rel]. }
  destruct R as [A B]. destruct (receive_as debug n p b) as [r p1], (receive_as debug n p' b) as [r' p1']. cbn [fst snd] in *. specialize (IH p1 p1' B).
  destruct (conversation n p1 bs), (conversation n p1' bs). cbn [fst] in *. constructor; [exact A|exact IH].
Qed.

End NamesP.
