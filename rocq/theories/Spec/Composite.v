(** * Specification of Composites (C49) *)

From Coq Require Import String ZArith Bool List.
From Verif Require Import Base.StrMap Base.Num Model.Core Model.Ops Model.Make Model.Graph Model.Composite.
From Verif Require Import Spec.Snapshot.
Import ListNotations.
Open Scope string_scope.
Open Scope list_scope.
Open Scope rtbot_scope.

Section Composite.
Context {NO : NumOps}.

(** ** What a C++ user does: a sequence of calls *)
Inductive usercall :=
| New (a : string) (constructor : res op)                     (* an operator of their own, at [a] *)
| NewComposite (c : string)
| CreateInput (c a id : string) (numPorts : nat)                (* c.createInput; the operator gets address [a] *)
| CreateOutput (c a id : string) (numPorts : nat)
| Create (c a id : string) (constructor : res op)             (* the other c.create... *)
| Internal (c from to out inp : string)                       (* c.createInternalConnection *)
| Connect (x y out inp : string)                              (* x.connect(y, ...) *)
| Send (x port : string) (m : msg).                           (* x.receiveData(m, port); x.executeData() *)

Definition is_send (u : usercall) : bool := match u with Send _ _ _ => true | _ => false end.

(** a message that fails is an outcome; construction that fails ends the run *)
Definition ustep (n : nat) (w : world) (u : usercall) : res (world * list (res progmsg)) :=
  let built r := let! w' := r in Ok (w', []) in
  match u with
  | New a r => built (let! o := r in put_op w a o)
  | NewComposite c => built (new_composite w c)
  | CreateInput c a id k => built (create_input w c a id k)
  | CreateOutput c a id k => built (create_output w c a id k)
  | Create c a id r => built (create w c a id r)
  | Internal c from to out inp => built (create_internal w c from to out inp)
  | Connect x y out inp =>
      built (let! r := connect_at w x y out inp in
             match r with Some w' => Ok w' | None => Throw (RuntimeError "not connected") end)
  | Send x port m =>
      if used w x then
        let '(r, h) := csend (w_comps w) n x port m (w_ops w) in Ok (mkWorld h (w_comps w), [r])
      else UB
  end.

Fixpoint usteps (n : nat) (w : world) (l : list usercall) : res (world * list (res progmsg)) :=
  match l with
  | [] => Ok (w, [])
  | u :: l' =>
      let! x := ustep n w u in
      let! y := usteps n (fst x) l' in
      Ok (fst y, snd x ++ snd y)
  end.

(** all calls, from nothing: what the messages give *)
Definition outcomes (n : nat) (l : list usercall) : res (list (res progmsg)) :=
  let! y := usteps n (mkWorld [] []) l in Ok (snd y).

(** ** The same operators, wired directly *)

(** the address of the input operator of Composite [x]; of [x] itself if it is not a Composite *)
Fixpoint input_address (l : list usercall) (x : string) : string :=
  match l with
  | [] => x
  | CreateInput c a _ _ :: l' => if String.eqb c x then a else input_address l' x
  | _ :: l' => input_address l' x
  end.
Fixpoint output_address (l : list usercall) (x : string) : string :=
  match l with
  | [] => x
  | CreateOutput c a _ _ :: l' => if String.eqb c x then a else output_address l' x
  | _ :: l' => output_address l' x
  end.
(** the address of the operator that Composite [x] calls [i] *)
Fixpoint inner_address (l : list usercall) (x i : string) : string :=
  match l with
  | [] => i
  | CreateInput c a id _ :: l' | CreateOutput c a id _ :: l' | Create c a id _ :: l' =>
      if String.eqb c x && String.eqb id i then a else inner_address l' x i
  | _ :: l' => inner_address l' x i
  end.

(** each call without the Composite *)
Definition directly (l : list usercall) (u : usercall) : list usercall :=
  match u with
  | NewComposite _ => []
  | CreateInput _ a id k => [New a (mk_input id k)]
  | CreateOutput _ a id k => [New a (mk_output id k)]
  | Create _ a _ r => [New a r]
  | Internal c from to out inp => [Connect (inner_address l c from) (inner_address l c to) out inp]
  | Connect x y out inp => [Connect (output_address l x) (input_address l y) out inp]
  | Send x port m => [Send (input_address l x) port m]
  | New a r => [New a r]
  end.

Definition direct (l : list usercall) : list usercall := flat_map (directly l) l.

(** ** Conditions *)

(** what is constructed comes from the constructors of the library *)
Definition library (u : usercall) : Prop :=
  match u with
  | New _ r | Create _ _ _ r => forall o, r = Ok o -> created o
  | _ => True
  end.

(** a Composite gets messages from the user only after createInput *)
Definition inputs_first (l : list usercall) : Prop :=
  forall before x port m after, l = before ++ Send x port m :: after -> In (NewComposite x) before ->
    exists a id k, In (CreateInput x a id k) before.

End Composite.
