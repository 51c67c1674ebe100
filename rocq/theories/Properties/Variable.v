(** * Properties of Variable (C19, C20). *)

From Coq Require Import String ZArith QArith Qcanon Bool List Lia Sorted.
From Verif Require Import Base.StrMap Base.Num Base.NumQc Model.Core Model.Ops Model.Make Model.Run.
From Verif Require Import Spec.Streams Spec.Show Spec.Variable Proofs.Window Proofs.VariableP.
Import ListNotations.
Open Scope string_scope.
Open Scope list_scope.
Open Scope Z_scope.

(** ** C19 *)

(** Every interleaving of data (in time order), questions and executions produces exactly
    the answers of the specification; the only other outcome is an exception, and only
    when the questions are not in time order. *)
Theorem C19_variable {NO : NumOps} (id : string) (dflt : V) (evs : list ev) :
  variable_calls evs -> increasing (times (received evs)) -> Z.of_nat (length (received evs)) < two64 ->
  exists o, mk_variable id dflt = Ok o /\
    ((exists o', run o evs = (Ok (variable_answers dflt [] None evs), o')) \/
     (exists e o', run o evs = (Throw e, o') /\ ~ nondecreasing (questions evs))).
Proof.
  intros Hc Hi Hl. destruct (var_inv_start id dflt) as (o & Ho & Inv). exists o. split; auto.
  destruct (run_variable id ["o1"] [] dflt evs [] [] None o Inv Hc Hi Hl) as [(op & o' & R & _)|(e & o' & R & N)]; eauto.
Qed.
Print Assumptions C19_variable.

(** Whatever is emitted by a call is the answer to the latest question, not answered
    before, carries the time [q] of the question and the value of the last data message not
    after [q] (the default if there is none), and some data message is at or after [q]. *)
Theorem C19_every_answer_is_right {NO : NumOps} (id : string) (dflt : V) (o o' : op) (pre post : list ev) (e : ev)
    (outs : list opmsg) (out : opmsg) :
  let evs := pre ++ e :: post in
  variable_calls evs -> increasing (times (received evs)) -> Z.of_nat (length (received evs)) < two64 ->
  mk_variable id dflt = Ok o -> run o evs = (Ok outs, o') ->
  nth_error outs (length pre) = Some out -> out <> emits_nothing ->
  (e = EExec \/ e = EExecC) /\
  exists a p m b,
    pre = a ++ ECtrl p m :: b /\ questions b = [] /\
    (forall j, (length a <= j < length pre)%nat -> nth_error outs j = Some emits_nothing) /\
    (exists d, In d (received pre) /\ mtime m <= mtime d) /\
    out = emits (mkMsg (mtime m) (value_at dflt (received pre) (mtime m))).
Proof.
  intros evs Hc Hi Hl Ho R Hn Ne.
  destruct (C19_variable id dflt evs Hc Hi Hl) as (o1 & Ho1 & C). rewrite Ho in Ho1. injection Ho1 as <-.
  destruct C as [(o2 & R2)|(x & o2 & R2 & _)]; rewrite R in R2; [|discriminate]. injection R2 as -> _.
  destruct (va_sound dflt pre e post out Hn Ne) as (He & a & p & m & b & Ep & Q & J & C & Eo).
  split; auto. exists a, p, m, b. repeat split; auto.
  unfold covered in C. apply existsb_exists in C as (d & Hd & Ld). apply Z.leb_le in Ld. eauto.
Qed.
Print Assumptions C19_every_answer_is_right.

(** with questions in time order nothing is ever thrown *)
Theorem C19_ordered_questions {NO : NumOps} (id : string) (dflt : V) (o : op) (evs : list ev) :
  variable_calls evs -> increasing (times (received evs)) -> Z.of_nat (length (received evs)) < two64 ->
  nondecreasing (questions evs) -> mk_variable id dflt = Ok o ->
  exists o', run o evs = (Ok (variable_answers dflt [] None evs), o').
Proof.
  intros Hc Hi Hl Hq Ho. destruct (C19_variable id dflt evs Hc Hi Hl) as (o1 & Ho1 & C).
  rewrite Ho in Ho1. injection Ho1 as <-. destruct C as [C|(e & o' & R & N)]; auto. contradiction.
Qed.
Print Assumptions C19_ordered_questions.

Definition show_variable (dflt : Z) (evs : list (@ev QcOps)) :=
  match @mk_variable QcOps "v" (qc_ofZ dflt) with
  | Ok o => show_outs (fst (run o evs))
  | _ => UB
  end.

Example C19_example :
  show_variable 7 [ECtrl "c1" (im 1 0); EExecC; EData "i1" (im 3 30); EExec; ECtrl "c1" (im 4 0); EExecC;
                   EData "i1" (im 5 50); EExec; ECtrl "" (im 5 0); EExecC]
  = Ok [[]; []; []; [("o1", [(1, 7%Q)])]; []; []; []; [("o1", [(4, 30%Q)])]; []; [("o1", [(5, 50%Q)])]].
Proof. vm_compute. reflexivity. Qed.

(** a question older than the data already left behind is an exception *)
Example C19_out_of_order :
  show_variable 7 [EData "i1" (im 3 30); EData "i1" (im 5 50); ECtrl "c1" (im 5 0); EExecC; ECtrl "c1" (im 4 0); EExecC]
  = Throw (RuntimeError "PortMessage out of order detected").
Proof. vm_compute. reflexivity. Qed.

(** ** C20 *)

(** The latest question is answered, exactly once, at the latest by the first execution
    after data covering it has arrived. *)
Theorem C20_latest_question_partial {NO : NumOps} (id : string) (dflt : V) (o : op) (a b : list ev) (p : string) (m : msg) (e : ev) :
  let evs := a ++ ECtrl p m :: b ++ [e] in
  variable_calls evs -> increasing (times (received evs)) -> Z.of_nat (length (received evs)) < two64 ->
  nondecreasing (questions evs) -> mk_variable id dflt = Ok o ->
  questions b = [] -> (e = EExec \/ e = EExecC) ->
  (exists d, In d (received evs) /\ mtime m <= mtime d) ->
  exists outs o', run o evs = (Ok outs, o') /\
    on_port "o1" (skipn (length a + 1) outs) = [mkMsg (mtime m) (value_at dflt (received evs) (mtime m))].
Proof.
  intros evs Hc Hi Hl Hn Ho Hq He (d & Hd & Ld).
  destruct (C19_ordered_questions id dflt o evs Hc Hi Hl Hn Ho) as (o' & R).
  eexists _, o'. split; [exact R|]. unfold evs in *.
  assert (Er : received (a ++ ECtrl p m :: b ++ [e]) = received a ++ received b).
  { rewrite Proofs.Lists.received_app. cbn. rewrite Proofs.Lists.received_app. destruct He as [->| ->]; cbn; now rewrite app_nil_r. }
  rewrite Er in *. rewrite va_app. cbn [app].
  rewrite skipn_app, va_length. rewrite skipn_all2 by (rewrite va_length; lia).
  replace (length a + 1 - length a)%nat with 1%nat by lia. cbn [app variable_answers skipn].
  apply va_complete; auto.
  unfold covered. apply existsb_exists. exists d. split; auto. now apply Z.leb_le.
Qed.
Print Assumptions C20_latest_question_partial.

Example C20_example :
  show_variable 7 [ECtrl "c1" (im 2 0); EExecC; EExecC; EData "i1" (im 1 10); EData "i1" (im 3 30); EExec; EExec]
  = Ok [[]; []; []; []; []; [("o1", [(2, 10%Q)])]; []].
Proof. vm_compute. reflexivity. Qed.

(** A question is lost when another one arrives before data covers it. *)
Theorem C20_every_question_refuted :
  ~ (forall (id : string) (dflt : V) (o : op) (evs : list ev) (outs : list opmsg) (o' : op) (q : Z),
      variable_calls evs -> increasing (times (received evs)) -> nondecreasing (questions evs) ->
      mk_variable id dflt = Ok o -> run o (evs ++ [EExec; EExec; EExec]) = (Ok outs, o') ->
      In q (questions evs) -> (exists d, In d (received evs) /\ q <= mtime d) ->
      In q (times (on_port "o1" outs))).
Proof.
  intros H.
  set (evs := [ECtrl "c1" (im 1 0); EExecC; ECtrl "c1" (im 2 0); EExecC; EData "i1" (im 5 50); EExec]).
  destruct (@mk_variable QcOps "v" (qc_ofZ 7)) as [o| | | |] eqn:Ho; try discriminate Ho.
  destruct (run o (evs ++ [EExec; EExec; EExec])) as [r o'] eqn:R.
  assert (E : show_port "o1" r = [(2, 7%Q)]).
  { replace r with (fst (run o (evs ++ [EExec; EExec; EExec]))) by (rewrite R; reflexivity).
    injection Ho as <-. vm_compute. reflexivity. }
  destruct r as [outs| | | |]; try discriminate E.
  assert (X : In 1 (times (on_port "o1" outs))).
  { apply (H "v" (qc_ofZ 7) o evs outs o' 1); auto.
    - unfold evs, variable_calls. repeat constructor; auto.
    - unfold evs, increasing. cbn. repeat constructor.
    - unfold evs, nondecreasing. cbn. repeat constructor; lia.
    - cbn; auto.
    - exists (im 5 50). cbn. split; auto. lia. }
  apply (f_equal (map fst)) in E. cbn [show_port] in E. rewrite map_map in E.
  change (times (on_port "o1" outs) = [2]) in E. rewrite E in X. cbn in X. lia.
Qed.
Print Assumptions C20_every_question_refuted.
