(** * Specification of synchronisation: what several ports have in common. *)

From Coq Require Import String ZArith Bool List Sorted.
From Verif Require Import Base.StrMap Base.Num Model.Core Model.Ops Model.Make Model.Run Spec.Streams Spec.Multi.
Import ListNotations.
Open Scope string_scope.
Open Scope list_scope.
Open Scope Z_scope.

Section Spec.
Context {NO : NumOps}.

(** the messages received on one port *)
Definition hist (port : string) (evs : list ev) : list msg := received (project port evs).

(** has the port received a message at time [t]? *)
Definition has_time (t : Z) (h : list msg) : bool := existsb (fun m => mtime m =? t) h.

(** the message received at time [t] *)
Definition at_time (h : list msg) (t : Z) : msg := hd msg0 (filter (fun m => mtime m =? t) h).

(** the times every one of the ports [i1..in] has received, in the order of [i1] *)
Definition common_times (n : nat) (evs : list ev) : list Z :=
  filter (fun t => forallb (fun k => has_time t (hist (iport k) evs)) (seq 1 n)) (times (hist (iport 1) evs)).

(** times increase on every port *)
Definition ordered_ports (n : nat) (evs : list ev) : Prop :=
  forall k, (1 <= k <= n)%nat -> increasing (times (hist (iport k) evs)).

(** the message each of the ports received at time [t] *)
Definition tuple_at (n : nat) (evs : list ev) (t : Z) : list msg :=
  map (fun k => at_time (hist (iport k) evs) t) (seq 1 n).

Fixpoint somes {A} (l : list (option A)) : list A :=
  match l with
  | [] => []
  | Some x :: r => x :: somes r
  | None :: r => somes r
  end.

(** every call emits nothing or [f] of a time; the times emitted are, in order and without
    repetition, an initial part of the common times ([pending]: the common times still to come) *)
Definition synchronized (n : nat) (f : Z -> opmsg -> Prop) (evs : list ev) (outs : list opmsg) (pending : list Z) : Prop :=
  exists ts : list (option Z),
    Forall2 (fun t out => match t with Some t => f t out | None => out = emits_nothing end) ts outs /\
    common_times n evs = somes ts ++ pending.

End Spec.

Section Emissions.
Context {NO : NumOps}.

(** the emission of Join at [t]: on every output [ok] exactly the message port [ik]
    received at [t], and nothing on any other output *)
Definition one_per_port (n : nat) (evs : list ev) (t : Z) (out : opmsg) : Prop :=
  (forall k, (1 <= k <= n)%nat -> sfind (oport k) out = Some [at_time (hist (iport k) evs) t]) /\
  (forall x ms, sfind x out = Some ms -> exists k, (1 <= k <= n)%nat /\ x = oport k).

(** the functions of the two-input operators; [None]: nothing is emitted *)
Definition truth (x : V) : bool := vle vhalf x.
Definition of_bool (b : bool) : V := if b then v1 else v0.
Definition two_input (f : binop) (a c : V) : option V :=
  match f with
  | BPlus => Some (vadd a c)
  | BMinus => Some (vsub a c)
  | BMult => Some (vmul a c)
  | BDiv => if veq c v0 then None else Some (vdiv a c)
  | BAnd => Some (of_bool (truth a && truth c))
  | BOr => Some (of_bool (truth a || truth c))
  | BGreater => if vlt c a then Some a else None
  | BLess => if vlt a c then Some a else None
  end.

Definition two_input_emits (f : binop) (evs : list ev) (t : Z) (out : opmsg) : Prop :=
  out = match two_input f (mval (at_time (hist "i1" evs) t)) (mval (at_time (hist "i2" evs) t)) with
        | Some v => emits (mkMsg t v)
        | None => emits_nothing
        end.

(** every received value is below 0.5 or at least 0.5 (all numbers are; a NaN is not) *)
Definition comparable (x : V) : Prop := vle vhalf x = negb (vlt x vhalf).
Definition comparable_values (evs : list ev) : Prop := Forall (fun m => comparable (mval m)) (received evs).

(** c1 * v1 + ... + cn * vn for the messages at time [t], the coefficients in order *)
Definition linear_emits (order : list nat) (coeff : list V) (evs : list ev) (t : Z) (out : opmsg) : Prop :=
  out = emits (mkMsg t (vsum (map (fun kc => vmul (mval (at_time (hist (iport (fst kc)) evs) t)) (snd kc))
                                  (combine order coeff)))).

(** the numbers [1..n] in the alphabetical order of their decimal notation:
    [l] lists them without repetition and [iport] of them increases alphabetically *)
Definition alphabetical (n : nat) (l : list nat) : Prop :=
  (forall k, In k l <-> (1 <= k <= n)%nat) /\ Sorted.StronglySorted slt (map iport l).

End Emissions.

Section Clock.
Context {NO : NumOps}.

(** the arrivals [(k, m)]: [m] is received on port [ik] and the operator is executed *)
Definition paced (arrivals : list (nat * msg)) : list ev :=
  flat_map (fun km => [EData (iport (fst km)) (snd km); EExec]) arrivals.

(** all ports follow one clock: what each has received is an initial part of [clk] *)
Definition one_clock (n : nat) (clk : list Z) (evs : list ev) : Prop :=
  increasing clk /\ forall k, (1 <= k <= n)%nat -> exists later, clk = times (hist (iport k) evs) ++ later.

End Clock.
