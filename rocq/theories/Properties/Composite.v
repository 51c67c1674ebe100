(** * C49: a Composite behaves like its operators, wired directly *)

From Coq Require Import String ZArith QArith Qcanon Bool List Lia.
From Verif Require Import Base.StrMap Base.Num Base.NumQc Model.Core Model.Ops Model.Make Model.Graph Model.Composite.
From Verif Require Import Spec.Show Spec.Build Spec.Snapshot Spec.Composite.
From Verif Require Import Proofs.CompositeP Proofs.CompositeBuild.
Import ListNotations.
Open Scope string_scope.
Open Scope list_scope.
Open Scope rtbot_scope.

Section C49.
Context {NO : NumOps}.

(** ** C49: replacing each Composite by its operators, wired directly, changes no outcome.
    [l] is any sequence of calls that builds operators and Composites, connects them and sends
    messages, in any order; every message gives the same result, failures included. *)
Theorem C49_direct (n : nat) (l : list usercall) (rs : list (res progmsg)) :
  Forall library l -> inputs_first l ->
  outcomes n l = Ok rs -> outcomes n (direct l) = Ok rs.
Proof. apply outcomes_direct. Qed.

(** the direct script has no Composites ... *)
Definition plain (u : usercall) : Prop :=
  match u with New _ _ | Connect _ _ _ _ | Send _ _ _ => True | _ => False end.
Theorem C49_direct_plain (l : list usercall) : Forall plain (direct l).
Proof.
  apply Forall_forall. intros u I. apply in_flat_map in I as (v & _ & I).
  destruct v; cbn [directly In] in I; try (destruct I as [<-|[]]; exact Logic.I); destruct I.
Qed.

(** ... and its messages are processed by the execution of operator graphs that the other
    properties are about *)
Theorem C49_plain (n : nat) (h : heap) (a port : string) (m : msg) : shas a h = true ->
  ustep n (mkWorld h []) (Send a port m) =
  let '(r, h') := send1 n a port m h in Ok (mkWorld h' [], [r]).
Proof.
  intros S. cbn [ustep]. unfold used. cbn [w_ops w_comps]. rewrite S. cbn [orb]. now rewrite csend_plain.
Qed.

(** a message for a Composite that has no input operator is refused, and nothing changes *)
Theorem C49_no_input (n : nat) (w : world) (c : string) (k : composite) (port : string) (m : msg) :
  sfind c (w_comps w) = Some k -> c_in k = None ->
  ustep n w (Send c port m) = Ok (w, [Throw no_input]).
Proof.
  intros F N. cbn [ustep]. unfold used, shas. rewrite F, orb_true_r. unfold csend. rewrite F, N. now destruct w.
Qed.

End C49.

(** ** A Composite with a moving average and a count between two operators *)
Definition composite_script : list (@usercall QcOps) :=
  [ New "100" (mk_input "in" 1); NewComposite "200";
    CreateInput "200" "301" "ci" 1; CreateOutput "200" "302" "co" 2;
    Create "200" "303" "ma" (mk_movavg "ma" 2); Create "200" "304" "n" (mk_count "n");
    Internal "200" "ci" "ma" "" ""; Internal "200" "ma" "co" "" "i1";
    Connect "100" "200" "" "";
    Internal "200" "ci" "n" "" ""; Internal "200" "n" "co" "" "i2";
    New "101" (mk_join "j" 2);
    Connect "200" "101" "o1" "i1"; Connect "200" "101" "o2" "i2";
    Send "100" "i1" (im 1 10); Send "200" "i1" (im 2 20); Send "100" "i1" (im 3 40); Send "100" "nope" (im 4 40) ].
Definition show_outcomes (r : res (list (res (@progmsg QcOps)))) := show_res (map (show_res show_pm)) r.

(** the script meets the conditions of [C49_direct] *)
Example composite_script_library : Forall library composite_script.
Proof.
  unfold composite_script. repeat constructor; cbn [library]; auto; intros o H.
  - eapply N_input; exact H.
  - eapply N_movavg; exact H.
  - eapply N_count; exact H.
  - eapply N_join; exact H.
Qed.
Example composite_script_inputs : inputs_first composite_script.
Proof.
  intros before x port m after E I. assert (X : x = "200").
  { assert (J : In (NewComposite x) composite_script) by (rewrite E; apply in_app_iff; now left).
    unfold composite_script in J. repeat (destruct J as [J|J]; [try discriminate J; now injection J|]). destruct J. }
  subst x. exists "301", "ci", 1%nat. clear I. unfold composite_script in E.
  do 3 (destruct before as [|? before]; [discriminate E|]; cbn [app] in E; injection E as <- E).
  right. right. now left.
Qed.
Example composite_script_outcomes :
  show_outcomes (outcomes 20 composite_script) =
  Ok [ Ok [("ci", [("o1", [(1%Z, 10%Q)])]); ("co", [("o2", [(1%Z, 1%Q)])]); ("in", [("o1", [(1%Z, 10%Q)])]); ("n", [("o1", [(1%Z, 1%Q)])])];
       Ok [("ci", [("o1", [(2%Z, 20%Q)])]); ("co", [("o1", [(2%Z, 15%Q)]); ("o2", [(2%Z, 2%Q)])]);
           ("j", [("o1", [(2%Z, 15%Q)]); ("o2", [(2%Z, 2%Q)])]); ("ma", [("o1", [(2%Z, 15%Q)])]); ("n", [("o1", [(2%Z, 2%Q)])])];
       Ok [("ci", [("o1", [(3%Z, 40%Q)])]); ("co", [("o1", [(3%Z, 30%Q)]); ("o2", [(3%Z, 3%Q)])]); ("in", [("o1", [(3%Z, 40%Q)])]);
           ("j", [("o1", [(3%Z, 30%Q)]); ("o2", [(3%Z, 3%Q)])]); ("ma", [("o1", [(3%Z, 30%Q)])]); ("n", [("o1", [(3%Z, 3%Q)])])];
       Throw (RuntimeError "refers to a non existing input port") ].
Proof. vm_compute. reflexivity. Qed.
(** what [direct] makes of its connections *)
Definition wires (l : list (@usercall QcOps)) : list (string * string) :=
  flat_map (fun u => match u with Connect x y _ _ => [(x, y)] | _ => [] end) l.
Example composite_script_direct : wires (direct composite_script) =
  [("301", "303"); ("303", "302"); ("100", "301"); ("301", "304"); ("304", "302"); ("302", "101"); ("302", "101")].
Proof. reflexivity. Qed.

Print Assumptions C49_direct.
Print Assumptions C49_direct_plain.
Print Assumptions C49_plain.
Print Assumptions C49_no_input.
