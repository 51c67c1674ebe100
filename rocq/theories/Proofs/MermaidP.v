(** * Texts that are split and put together (C95) *)

From Coq Require Import String Ascii ZArith Bool List Lia.
From Verif Require Import Base.StrMap Base.Num Model.Core Model.Json Model.Schema Model.Wrapper Model.Mermaid Spec.Wrapper Spec.Mermaid.
Import ListNotations.
Open Scope string_scope.
Open Scope list_scope.
Open Scope rtbot_scope.

Lemma app_nil_str s : (s ++ "" = s)%string.
Proof. induction s as [|c s IH]; [reflexivity|]. cbn. now rewrite IH. Qed.
Lemma app_assoc_str a b c : ((a ++ b) ++ c = a ++ b ++ c)%string.
Proof. induction a as [|x a IH]; [reflexivity|]. cbn. now rewrite IH. Qed.
Lemma length_str a b : String.length (a ++ b)%string = (String.length a + String.length b)%nat.
Proof. induction a as [|x a IH]; [reflexivity|]. cbn. now rewrite IH. Qed.

Lemma split_here c a r : lacks c a -> split_at c (a ++ String c r)%string = Some (a, r).
Proof.
  unfold lacks. induction a as [|x a IH]; cbn; [now rewrite Ascii.eqb_refl|]. destruct (Ascii.eqb x c); [discriminate|].
  destruct (split_at c a) as [[? ?]|]; [discriminate|]. intros _. now rewrite IH.
Qed.
Lemma lacks_app c a b : lacks c a -> lacks c b -> lacks c (a ++ b)%string.
Proof.
  unfold lacks. induction a as [|x a IH]; cbn; [auto|]. destruct (Ascii.eqb x c); [discriminate|].
  destruct (split_at c a) as [[? ?]|]; [discriminate|]. intros _ H. now rewrite IH.
Qed.
Lemma strip_app pre s : strip pre (pre ++ s)%string = Some s.
Proof. induction pre as [|c pre IH]; [reflexivity|]. cbn. now rewrite Ascii.eqb_refl. Qed.

Lemma read_node_at id ty lab r : lacks "(" id -> lacks "(" ty -> lacks dquote ty -> lacks dquote lab -> lab = "" \/ (exists l, lab = ("(" ++ l)%string) ->
  read_node (id ++ "(" ++ quote ++ ty ++ lab ++ quote ++ ")" ++ r)%string = Some (id, ty, r).
Proof.
  intros Hi Ht Hq Hl Sh. unfold read_node. change ("(" ++ quote ++ ty ++ lab ++ quote ++ ")" ++ r)%string with (String "(" (text dquote ++ ty ++ lab ++ String dquote (")" ++ r)))%string.
  rewrite (split_here _ _ _ Hi), strip_app, <- app_assoc_str, (split_here _ _ _ (lacks_app _ _ _ Hq Hl)), strip_app. unfold type_of.
  destruct Sh as [->|(l & ->)]; [rewrite app_nil_str, Ht; reflexivity|]. change ("(" ++ l)%string with (String "(" l). now rewrite (split_here _ _ _ Ht).
Qed.

Lemma read_line_at a b ta tb la lb fp tp r : read_node (a ++ "(" ++ quote ++ ta ++ la ++ quote ++ ")" ++ (" --> |" ++ fp ++ ":" ++ tp ++ "| " ++ b ++ "(" ++ quote ++ tb ++ lb ++ quote ++ ");" ++ newline ++ r))%string =
    Some (a, ta, " --> |" ++ fp ++ ":" ++ tp ++ "| " ++ b ++ "(" ++ quote ++ tb ++ lb ++ quote ++ ");" ++ newline ++ r)%string ->
  read_node (b ++ "(" ++ quote ++ tb ++ lb ++ quote ++ ")" ++ (";" ++ newline ++ r))%string = Some (b, tb, ";" ++ newline ++ r)%string ->
  lacks ":" fp -> lacks "|" tp ->
  read_line (a ++ "(" ++ quote ++ ta ++ la ++ quote ++ ") --> |" ++ fp ++ ":" ++ tp ++ "| " ++ b ++ "(" ++ quote ++ tb ++ lb ++ quote ++ ");" ++ newline ++ r)%string =
    Some (mkArrow a ta fp tp b tb, r).
Proof.
  intros N1 N2 Hf Ht. unfold read_line.
  change (a ++ "(" ++ quote ++ ta ++ la ++ quote ++ ") --> |" ++ fp ++ ":" ++ tp ++ "| " ++ b ++ "(" ++ quote ++ tb ++ lb ++ quote ++ ");" ++ newline ++ r)%string
    with (a ++ "(" ++ quote ++ ta ++ la ++ quote ++ ")" ++ (" --> |" ++ fp ++ ":" ++ tp ++ "| " ++ b ++ "(" ++ quote ++ tb ++ lb ++ quote ++ ");" ++ newline ++ r))%string.
  rewrite N1, strip_app. change (":" ++ tp ++ "| " ++ b ++ "(" ++ quote ++ tb ++ lb ++ quote ++ ");" ++ newline ++ r)%string
    with (String ":" (tp ++ String "|" (" " ++ (b ++ "(" ++ quote ++ tb ++ lb ++ quote ++ ")" ++ (";" ++ newline ++ r)))))%string.
  rewrite (split_here _ _ _ Hf), (split_here _ _ _ Ht), strip_app, N2.
  change (";" ++ newline ++ r)%string with ((";" ++ text (ascii_of_nat 10)) ++ r)%string. now rewrite strip_app.
Qed.

Section Lines.
Context {NO : NumOps}.
Variable py_str : json -> string.
Hypothesis str_str : forall s, py_str (JStr s) = s.

Lemma label_shape x : py_label py_str x = "" \/ exists l, py_label py_str x = ("(" ++ l)%string.
Proof. unfold py_label. destruct (match x with JObj m => _ | _ => [] end); [now left|right; eexists; reflexivity]. Qed.
Lemma join_lacks l : Forall (lacks dquote) l -> lacks dquote (py_join l).
Proof.
  induction 1 as [|s l H F IH]; [reflexivity|]. cbn [py_join]. destruct l as [|t l]; [exact H|]. apply lacks_app; [exact H|]. apply lacks_app; [reflexivity|exact IH].
Qed.
Lemma label_lacks x : plain_operator py_str x -> lacks dquote (py_label py_str x).
Proof.
  intros [_ P]. unfold py_label. destruct x as [| | | | | |m]; try reflexivity.
  assert (F : Forall (lacks dquote) (flat_map (fun '(k, y) => if String.eqb k "id" || String.eqb k "type" then [] else [py_str y]) m)).
  { induction P as [|[k y] m H P IH]; [constructor|]. cbn [flat_map]. apply Forall_app. split; [|exact IH]. destruct (_ || _); constructor; [exact H|constructor]. }
  destruct (flat_map _ m) as [|s l] eqn:E; [reflexivity|]. rewrite <- E in *. apply lacks_app; [reflexivity|]. apply lacks_app; [now apply join_lacks|reflexivity].
Qed.

(** an operator that has one of the known types *)
Definition typed (x : json) : Prop := exists m ty, x = JObj m /\ sfind "type" m = Some (JStr ty) /\ In ty (map fst operator_schemas).
Lemma typed_plain x : typed x -> lacks "(" (json_member "type" x) /\ lacks dquote (json_member "type" x).
Proof.
  intros (m & ty & -> & F & I). cbn [json_member]. rewrite F. cbn [map fst operator_schemas] in I.
  repeat (destruct I as [<-|I]; [split; reflexivity|]). destruct I.
Qed.
Lemma typed_at x : typed x -> py_at "type" x = Ok (JStr (json_member "type" x)).
Proof. intros (m & ty & -> & F & I). cbn [py_at json_member]. now rewrite F. Qed.
Lemma end_found ops key con s : py_at key con = Ok (JStr s) -> In s (map (json_member "id") ops) ->
  exists x, py_end key con ops = Ok x /\ In x ops /\ find (fun x => String.eqb (json_member "id" x) s) ops = Some x.
Proof.
  intros E I. unfold py_end. destruct ops as [|o ops]; [destruct I|]. rewrite E. cbn [rbind]. change json_id with (json_member "id").
  destruct (find (fun x => String.eqb (json_member "id" x) s) (o :: ops)) as [x|] eqn:Fx.
  - exists x. split; [reflexivity|]. split; [now apply find_some in Fx|reflexivity].
  - exfalso. apply in_map_iff in I as (y & Ey & I). pose proof (find_none _ _ Fx y I) as C. cbn beta in C. rewrite Ey, String.eqb_refl in C. discriminate C.
Qed.

Definition made (c : json) : Prop := exists a b fp tp, c = py_connection a b fp tp.

Lemma line_made p c : made c -> known_py p c -> Forall typed (py_operators p) ->
  exists x y, In x (py_operators p) /\ In y (py_operators p) /\ json_member "type" x = type_in p (json_member "from" c) /\ json_member "type" y = type_in p (json_member "to" c) /\
    json_member "id" x = json_member "from" c /\ json_member "id" y = json_member "to" c /\
    py_line py_str (py_operators p) c = Ok (json_member "from" c ++ "(" ++ quote ++ json_member "type" x ++ py_label py_str x ++ quote ++ ") --> |" ++
      json_member "fromPort" c ++ ":" ++ json_member "toPort" c ++ "| " ++ json_member "to" c ++ "(" ++ quote ++ json_member "type" y ++ py_label py_str y ++ quote ++ ");" ++ newline)%string.
Proof.
  intros (a & b & fp & tp & ->) [K1 K2] T. change (json_member "from" (py_connection a b fp tp)) with a in *. change (json_member "to" (py_connection a b fp tp)) with b in *.
  destruct (end_found (py_operators p) "from" (py_connection a b fp tp) a eq_refl K1) as (x & X1 & X2 & X3).
  destruct (end_found (py_operators p) "to" (py_connection a b fp tp) b eq_refl K2) as (y & Y1 & Y2 & Y3).
  exists x, y. split; [exact X2|]. split; [exact Y2|]. unfold type_in. rewrite X3, Y3. split; [reflexivity|]. split; [reflexivity|].
  split; [apply find_some in X3 as [_ E]; now apply String.eqb_eq in E|]. split; [apply find_some in Y3 as [_ E]; now apply String.eqb_eq in E|].
  rewrite Forall_forall in T. unfold py_line. rewrite X1. cbn [rbind]. rewrite Y1. cbn [rbind]. rewrite (typed_at x (T x X2)), (typed_at y (T y Y2)). cbn [rbind].
  change (py_at "from" (py_connection a b fp tp)) with (@Ok json (JStr a)). change (py_at "fromPort" (py_connection a b fp tp)) with (@Ok json (JStr fp)).
  change (py_at "toPort" (py_connection a b fp tp)) with (@Ok json (JStr tp)). change (py_at "to" (py_connection a b fp tp)) with (@Ok json (JStr b)). cbn [rbind]. rewrite !str_str. reflexivity.
Qed.

Lemma lines_read p cs : Forall made cs -> Forall (known_py p) cs -> Forall typed (py_operators p) ->
  exists s, py_lines py_str (py_operators p) cs = Ok s /\
    (Forall (plain_operator py_str) (py_operators p) -> Forall plain_connection cs -> forall n, (String.length s <= n)%nat -> read_lines n s = Some (map (drawn p) cs)).
Proof.
  intros M K T. induction M as [|c cs Mc M IH]; [exists ""; split; [reflexivity|intros _ _ [|n] _; reflexivity]|].
  inversion K as [|? ? Kc K']; subst. destruct (IH K') as (s & Es & Rs). destruct (line_made p c Mc Kc T) as (x & y & X1 & Y1 & X2 & Y2 & X3 & Y3 & El).
  eexists. split; [cbn [py_lines]; rewrite El; cbn [rbind]; rewrite Es; reflexivity|]. intros Po Pc n Hn. inversion Pc as [|? ? [P1 P2] Pc']; subst.
  rewrite Forall_forall in Po, T. destruct (typed_plain x (T x X1)) as [A1 A2]. destruct (typed_plain y (T y Y1)) as [B1 B2].
  pose proof (Po x X1) as Px. pose proof (Po y Y1) as Py. rewrite !app_assoc_str in *.
  match goal with |- read_lines _ ?t = _ => assert (R : read_line t = Some (drawn p c, s)) end.
  { unfold drawn. rewrite <- X2, <- Y2. apply read_line_at; [| |exact P1|exact P2].
    - apply read_node_at; [rewrite <- X3; apply Px|exact A1|exact A2|now apply label_lacks|apply label_shape].
    - apply read_node_at; [rewrite <- Y3; apply Py|exact B1|exact B2|now apply label_lacks|apply label_shape]. }
  match goal with |- read_lines _ ?t = _ => assert (Hs : (String.length s < String.length t)%nat) by (repeat rewrite length_str; cbn [String.length quote newline]; lia); destruct t as [|ch t'] eqn:Et; [cbn [String.length] in Hs; lia|] end.
  destruct n as [|n]; [cbn [String.length] in Hn; lia|]. cbn [read_lines]. rewrite R, (Rs ltac:(now apply Forall_forall) Pc' n) by (cbn [String.length] in *; lia). reflexivity.
Qed.
End Lines.
