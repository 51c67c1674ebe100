(** * Putting programs together, and calling them one message at a time *)

From Coq Require Import String ZArith QArith Bool List.
From Verif Require Import Base.StrMap Base.Num Base.NumQc Model.Core Model.Ops Model.Make Model.Run Model.Graph Spec.Show.
Import ListNotations.
Open Scope string_scope.
Open Scope list_scope.
Open Scope rtbot_scope.

Section Build.
Context {NO : NumOps}.

(** file the operators under their ids *)
Fixpoint collect_ops (l : list (res op)) : res heap :=
  match l with
  | [] => Ok []
  | x :: r => let! o := x in let! h := collect_ops r in Ok (sset (o_id (op_base o)) o h)
  end.

(** [from.connect(to, output, input)], one after the other *)
Fixpoint connect_all (cs : list (string * string * string * string)) (h : heap) : res heap :=
  match cs with
  | [] => Ok h
  | (from, out, to, inp) :: r =>
      match sfind from h, sfind to h with
      | Some a, Some b =>
          let! x := connect a b to out inp in
          match x with
          | Some a' => connect_all r (sset from a' h)
          | None => Throw (RuntimeError "could not connect")
          end
      | _, _ => Throw OutOfRange
      end
  end.

Definition build (ops : list (res op)) (cs : list (string * string * string * string))
  (entry : string) (filter : smap (list string)) : res program :=
  let! h := collect_ops ops in
  let! h' := connect_all cs h in
  Ok (mkProgram "" h' entry filter).

(** [receiveDebug] once per message; the list of results *)
Fixpoint one_by_one (n : nat) (p : program) (ms : list (string * msg)) : sres program (list progmsg) :=
  match ms with
  | [] => (Ok [], p)
  | (port, m) :: ms' =>
      do! (r, p1) <- receive_debug n p [(port, [m])];
      do! (rs, p2) <- one_by_one n p1 ms';
      (Ok (r :: rs), p2)
  end.

(** several calls of [receiveDebug] *)
Fixpoint receive_all (n : nat) (p : program) (batches : list opmsg) : sres program (list progmsg) :=
  match batches with
  | [] => (Ok [], p)
  | b :: bs =>
      do! (r, p1) <- receive_debug n p b;
      do! (rs, p2) <- receive_all n p1 bs;
      (Ok (r :: rs), p2)
  end.

End Build.

Definition show_pm (r : @progmsg QcOps) : list (string * list (string * list (Z * Q))) :=
  map (fun x => (fst x, show_om (snd x))) r.
Definition show_res {A B} (f : A -> B) (r : res A) : res B :=
  match r with
  | Ok a => Ok (f a)
  | Throw e => Throw e
  | UB => UB
  | Diverges => Diverges
  | OutOfFuel => OutOfFuel
  end.
