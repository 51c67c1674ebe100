(** * Helpers for concrete examples: exact rational messages, printed as plain pairs. *)

From Coq Require Import String ZArith QArith Qcanon List.
From Verif Require Import Base.StrMap Base.Num Base.NumQc Model.Core Model.Run.
Import ListNotations.
Open Scope list_scope.

(** a message at time [t] with the integer value [v] *)
Definition im (t v : Z) : @msg QcOps := @mkMsg QcOps t (qc_ofZ v).
Definition show_msg (m : @msg QcOps) : Z * Q := (mtime m, this (@mval QcOps m)).
Definition show_om (om : @opmsg QcOps) : list (string * list (Z * Q)) :=
  map (fun pm => (fst pm, map show_msg (snd pm))) om.
Definition show_outs (r : res (list (@opmsg QcOps))) : res (list (list (string * list (Z * Q)))) :=
  match r with
  | Ok l => Ok (map show_om l)
  | Throw e => Throw e
  | UB => UB
  | Diverges => Diverges
  | OutOfFuel => OutOfFuel
  end.
Definition show_port (p : string) (r : res (list (@opmsg QcOps))) : list (Z * Q) :=
  match r with Ok l => map show_msg (on_port p l) | _ => [] end.
