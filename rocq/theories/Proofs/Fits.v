(** * Checking that a state fits in its C++ types *)

From Coq Require Import String ZArith Bool List Lia.
From Verif Require Import Base.StrMap Base.Num Model.Core Model.Graph Spec.Snapshot.
Import ListNotations.
Open Scope string_scope.
Open Scope list_scope.
Open Scope Z_scope.

Section Fits.
Context {NO : NumOps}.

Definition is_timeb (t : Z) : bool := (0 <=? t) && (t <? two64).
Definition shortb {A} (l : list A) : bool := Z.of_nat (length l) <? two64.
Definition short_strb (s : string) : bool := Z.of_nat (String.length s) <? two64.
Definition fits_msgb (m : msg) : bool := is_timeb (mtime m).
Definition fits_portb (p : inport) : bool :=
  short_strb (ip_id p) && is_timeb (ip_max p) && shortb (ip_data p) && forallb fits_msgb (ip_data p).
Definition fits_portsb (m : smap inport) : bool :=
  shortb m && forallb (fun x => short_strb (fst x) && fits_portb (snd x)) m.
Definition fits_kindb (k : kind) : bool :=
  match k with
  | KInput _ ls => shortb ls && forallb (fun x => short_strb (fst x) && fits_msgb (snd x)) ls
  | KCount c => is_timeb c
  | KConstResampler dt next _ _ => is_timeb dt && is_timeb next
  | KCosineResampler _ carry => is_timeb carry
  | KHermiteResampler _ carry before =>
      is_timeb carry && match before with Some m => fits_msgb m | None => true end
  | KFunction points _ => shortb points
  | _ => true
  end.
Definition fitsb (o : op) : bool :=
  fits_portsb (o_data (op_base o)) && fits_portsb (o_ctrl (op_base o)) && shortb (o_toproc (op_base o)) &&
  forallb short_strb (o_toproc (op_base o)) && fits_kindb (op_kind o).
Definition fits_programb (p : program) : bool :=
  short_strb (p_text p) && forallb (fun x => short_strb (fst x) && fitsb (snd x)) (p_ops p).

Lemma is_timeb_ok t : is_timeb t = true -> is_time t.
Proof. unfold is_timeb, is_time. rewrite andb_true_iff, Z.leb_le, Z.ltb_lt. lia. Qed.
Lemma forallb_Forall {A} (f : A -> bool) (P : A -> Prop) l : (forall x, f x = true -> P x) -> forallb f l = true -> Forall P l.
Proof. intros H E. rewrite forallb_forall in E. apply Forall_forall. auto. Qed.
Lemma shortb_ok {A} (l : list A) : shortb l = true -> short l.
Proof. apply Z.ltb_lt. Qed.
Lemma short_strb_ok s : short_strb s = true -> short_str s.
Proof. apply Z.ltb_lt. Qed.
Lemma fits_portb_ok p : fits_portb p = true -> fits_port p.
Proof.
  unfold fits_portb, fits_port. rewrite !andb_true_iff. intros [[[H1 H2] H3] H4].
  split; [now apply short_strb_ok|]. split; [now apply is_timeb_ok|]. split; [now apply shortb_ok|].
  eapply forallb_Forall; [|exact H4]. intros m. apply is_timeb_ok.
Qed.
Lemma fits_portsb_ok m : fits_portsb m = true -> fits_ports m.
Proof.
  unfold fits_portsb, fits_ports. rewrite andb_true_iff. intros [H1 H2]. split; [now apply shortb_ok|].
  eapply forallb_Forall; [|exact H2]. intros x. rewrite andb_true_iff. intros [X1 X2].
  split; [now apply short_strb_ok|now apply fits_portb_ok].
Qed.
Lemma fits_kindb_ok k : fits_kindb k = true -> fits_kind k.
Proof.
  destruct k; cbn; auto; rewrite ?andb_true_iff; intros H;
    try (apply is_timeb_ok; assumption); try (apply shortb_ok; assumption).
  - destruct H as [H1 H2]. split; [now apply shortb_ok|]. eapply forallb_Forall; [|exact H2].
    intros x. rewrite andb_true_iff. intros [X1 X2]. split; [now apply short_strb_ok|now apply is_timeb_ok].
  - destruct H. split; now apply is_timeb_ok.
  - destruct H as [H1 H2]. split; [now apply is_timeb_ok|]. destruct before; auto. now apply is_timeb_ok.
Qed.
Lemma fitsb_ok o : fitsb o = true -> fits o.
Proof.
  unfold fitsb, fits, fits_base. rewrite !andb_true_iff. intros [[[[H1 H2] H3] H4] H5].
  split; [|now apply fits_kindb_ok]. split; [now apply fits_portsb_ok|]. split; [now apply fits_portsb_ok|].
  split; [now apply shortb_ok|]. eapply forallb_Forall; [|exact H4]. apply short_strb_ok.
Qed.
Lemma fits_programb_ok p : fits_programb p = true -> fits_program p.
Proof.
  unfold fits_programb, fits_program. rewrite andb_true_iff. intros [H1 H2]. split; [now apply short_strb_ok|].
  eapply forallb_Forall; [|exact H2]. intros x. rewrite andb_true_iff. intros [X1 X2].
  split; [now apply short_strb_ok|now apply fitsb_ok].
Qed.
End Fits.
