(** * Snapshots: [collect] / [restore] of operators, [serialize] / construction from bytes
    of programs, at the level of bytes.

    [Bytes] is [vector<unsigned char>].  The C++ code reads through
    [reinterpret_cast<const size_t*>(&( *it))] without looking at the end of the vector:
    reading or advancing past the end is undefined behaviour ([UB]).  The target is little
    endian with 8 byte [size_t], [uint64_t], [double], 4 byte [int] and 1 byte [bool];
    misaligned reads are taken to work (as on x86-64). *)

From Coq Require Import String Ascii ZArith Bool List.
From Verif Require Import Base.StrMap Base.Num Model.Core Model.Graph.
Import ListNotations.
Open Scope string_scope.
Open Scope list_scope.
Open Scope Z_scope.
Open Scope rtbot_scope.

Definition bytes := list ascii.

(** ** Writing *)

Definition byte_of (z : Z) : ascii := ascii_of_N (Z.to_N (z mod 256)).

(** [n] bytes, little endian *)
Fixpoint le (n : nat) (z : Z) : bytes :=
  match n with
  | O => []
  | S n' => byte_of z :: le n' (z / 256)
  end.

Definition enc64 (z : Z) : bytes := le 8 z.
Definition enc_bool (b : bool) : bytes := le 1 (if b then 1 else 0).

(** the size of a word followed by its characters, e.g. Operator.h:162-165, Program.cpp:83-86 *)
Definition enc_str (s : string) : bytes :=
  enc64 (Z.of_nat (String.length s)) ++ list_ascii_of_string s.

(** a container: its size, then its elements *)
Definition enc_list {A} (enc : A -> bytes) (l : list A) : bytes :=
  enc64 (Z.of_nat (length l)) ++ flat_map enc l.

(** ** Reading *)

Definition parser (A : Type) := bytes -> res (A * bytes).

Definition pret {A} (a : A) : parser A := fun bs => Ok (a, bs).
Definition pbind {A B} (p : parser A) (f : A -> parser B) : parser B :=
  fun bs => let! x := p bs in f (fst x) (snd x).

Fixpoint take (n : nat) : parser bytes := fun bs =>
  match n with
  | O => Ok ([], bs)
  | S n' =>
      match bs with
      | [] => UB
      | c :: bs' => let! x := take n' bs' in Ok (c :: fst x, snd x)
      end
  end.

Fixpoint unle (bs : bytes) : Z :=
  match bs with
  | [] => 0
  | c :: bs' => Z.of_N (N_of_ascii c) + 256 * unle bs'
  end.

Definition rd64 : parser Z := pbind (take 8) (fun x => pret (unle x)).

(** a [bool] other than 0 or 1 is undefined *)
Definition rd_bool : parser bool :=
  pbind (take 1) (fun x bs =>
    if unle x =? 0 then Ok (false, bs) else if unle x =? 1 then Ok (true, bs) else UB).

(** [string(it, it + size); it += size;] *)
Definition rd_chars (size : Z) : parser string := fun bs =>
  if Z.of_nat (length bs) <? size then UB
  else let! x := take (Z.to_nat size) bs in Ok (string_of_list_ascii (fst x), snd x).

Definition rd_str : parser string := pbind rd64 rd_chars.

(** [for (size_t i = 0; i < n; i++) body].  Every body used below reads at least one byte, so
    a loop that makes more turns than there are bytes reads past the end: when the bound is
    exhausted the result is [UB].  [bound] is the buffer at the start of the loop. *)
Fixpoint rd_loop {S} (body : S -> parser S) (bound : bytes) (n : Z) (s : S) : parser S := fun bs =>
  if n <=? 0 then Ok (s, bs)
  else match bound with
       | [] => UB
       | _ :: bound' => pbind (body s) (fun s' => rd_loop body bound' (n - 1) s') bs
       end.

(** the size, then as many turns *)
Definition rd_list {S} (body : S -> parser S) (s : S) : parser S :=
  pbind rd64 (fun n bs => rd_loop body bs n s bs).

Section Codec.
Context {NO : NumOps}.

Definition encV (v : V) : bytes := enc64 (vbits v).
Definition rdV : parser V := pbind rd64 (fun z => pret (vofbits z)).

(** [Message::collect] / [restore] Message.h:24-46 *)
Definition enc_msg (m : msg) : bytes := enc64 (mtime m) ++ encV (mval m).
Definition rd_msg : parser msg := pbind rd64 (fun t => pbind rdV (fun v => pret (mkMsg t v))).

(** [Operator::Input::collect] Operator.h:78-105 *)
Definition enc_port (p : inport) : bytes :=
  enc_str (ip_id p) ++ enc64 (ip_max p) ++ encV (ip_sum p) ++ enc_list enc_msg (ip_data p).

(** [Input input(""); input.restore(it);] Operator.h:107-131 *)
Definition rd_port : parser inport :=
  pbind rd_str (fun id =>
  pbind rd64 (fun max =>
  pbind rdV (fun sum =>
  pbind (rd_list (fun data => pbind rd_msg (fun m => pret (data ++ [m]))) []) (fun data =>
  pret (mkPort id max sum data))))).

(** Operator.h:155-170, 173-187: the ports with their names *)
Definition enc_named_port (x : string * inport) : bytes := enc_str (fst x) ++ enc_port (snd x).
Definition enc_ports (m : smap inport) : bytes := enc_list enc_named_port m.

(** [Operator::collect] Operator.h:147-201 *)
Definition collect_base (b : base) : bytes :=
  enc_ports (o_data b) ++ enc_ports (o_ctrl b) ++ enc_list enc_str (o_toproc b).

(** Operator.h:207-219, 224-238: [erase(input.getId()); insert({input.getId(), input});]
    replaces (or adds) the port under the id that was read; the separately stored name of the
    port is not used *)
Definition rd_ports (m : smap inport) : parser (smap inport) :=
  rd_list (fun m => pbind rd_str (fun _ => pbind rd_port (fun p => pret (sset (ip_id p) p m)))) m.

(** [Operator::restore] Operator.h:203-252: ports that are not in the bytes stay as they are,
    [toProcess] is added to *)
Definition restore_base (b : base) : parser base :=
  pbind (rd_ports (o_data b)) (fun d =>
  pbind (rd_ports (o_ctrl b)) (fun c =>
  pbind (rd_list (fun t => pbind rd_str (fun s => pret (sset_add s t))) (o_toproc b)) (fun t =>
  pret (mkBase (o_id b) d c (o_outs b) (o_conns b) t)))).

Definition enc_sent (x : string * msg) : bytes := enc_str (fst x) ++ enc_msg (snd x).
Definition enc_point (p : V * V) : bytes := encV (fst p) ++ encV (snd p).

(** the virtual [collect].  RelativeStrengthIndex, Pipeline and all other classes inherit
    [Operator::collect]; CumulativeSum does not call it. *)
Definition collect (o : op) : bytes :=
  let 'Op b k := o in
  match k with
  | KInput _ ls => collect_base b ++ enc_list enc_sent ls                    (* Input.h:25-45 *)
  | KCount c => collect_base b ++ enc64 c                                    (* Count.h:22-28 *)
  | KCumSum acc => encV acc                                                  (* CumulativeSum.h:22-30 *)
  | KVariable v i => collect_base b ++ encV v ++ enc_bool i                  (* Variable.h:25-37 *)
  | KConstResampler dt next init lastv =>                                    (* ConstantResampler.h:28-41 *)
      collect_base b ++ enc64 dt ++ enc64 next ++ enc_bool init ++ encV lastv
  | KCosineResampler _ carry => collect_base b ++ enc64 carry                (* CosineResampler.h:29-37 *)
  | KHermiteResampler _ carry before =>                                      (* HermiteResampler.h:30-49 *)
      collect_base b ++ enc64 carry ++
      match before with
      | None => enc_bool false
      | Some m => enc_bool true ++ enc_msg m
      end
  | KFunction points ty =>                                                   (* Function.h:41-62 *)
      collect_base b ++ enc_list enc_point points ++
      le 4 (match ty with ILinear => 0 | IHermite => 1 end)
  | _ => collect_base b
  end.

(** the virtual [restore], into an existing operator *)
Definition restore (o : op) : parser op :=
  let 'Op b k := o in
  match k with
  | KInput pm ls =>                                                          (* Input.h:47-67 *)
      pbind (restore_base b) (fun b' =>
      pbind (rd_list (fun ls => pbind rd_str (fun port => pbind rd_msg (fun m => pret (sset port m ls)))) ls)
        (fun ls' => pret (Op b' (KInput pm ls'))))
  | KCount _ =>                                                              (* Count.h:30-35 *)
      pbind (restore_base b) (fun b' => pbind rd64 (fun c => pret (Op b' (KCount c))))
  | KCumSum _ => pbind rdV (fun acc => pret (Op b (KCumSum acc)))            (* CumulativeSum.h:32-36 *)
  | KVariable _ _ =>                                                         (* Variable.h:39-49 *)
      pbind (restore_base b) (fun b' =>
      pbind rdV (fun v => pbind rd_bool (fun i => pret (Op b' (KVariable v i)))))
  | KConstResampler _ _ _ _ =>                                               (* ConstantResampler.h:43-54 *)
      pbind (restore_base b) (fun b' =>
      pbind rd64 (fun dt => pbind rd64 (fun next => pbind rd_bool (fun init => pbind rdV (fun lastv =>
      pret (Op b' (KConstResampler dt next init lastv)))))))
  | KCosineResampler dt _ =>                                                 (* CosineResampler.h:39-44 *)
      pbind (restore_base b) (fun b' => pbind rd64 (fun c => pret (Op b' (KCosineResampler dt c))))
  | KHermiteResampler dt _ before =>                                         (* HermiteResampler.h:51-66 *)
      pbind (restore_base b) (fun b' =>
      pbind rd64 (fun carry =>
      pbind rd_bool (fun has =>
      if has then pbind rd_msg (fun m => pret (Op b' (KHermiteResampler dt carry (Some m))))
      else pret (Op b' (KHermiteResampler dt carry before)))))
  | KFunction _ _ =>                                                         (* Function.h:64-84 *)
      (* an interpolation type other than 0 behaves as HERMITE in processData *)
      pbind (restore_base b) (fun b' =>
      pbind (rd_list (fun l => pbind rdV (fun x => pbind rdV (fun y => pret (l ++ [(x, y)])))) []) (fun pts =>
      pbind (take 4) (fun t =>
      pret (Op b' (KFunction pts (if unle t =? 0 then ILinear else IHermite))))))
  | _ => pbind (restore_base b) (fun b' => pret (Op b' k))
  end.

(** [Program::serialize] Program.cpp:79-102 *)
Definition enc_named_op (x : string * op) : bytes := enc_str (fst x) ++ collect (snd x).
Definition serialize (p : program) : bytes := enc_str (p_text p) ++ flat_map enc_named_op (p_ops p).

(** Program.h:38-47: [while (bytes_it != bytes.end())] restore the next operator.  Every turn
    reads at least 8 bytes, [bound] is the remaining buffer. *)
Fixpoint load_ops (bound : bytes) (h : heap) (bs : bytes) : res heap :=
  match bs with
  | [] => Ok h
  | _ =>
      match bound with
      | [] => UB
      | _ :: bound' =>
          let! x := rd_str bs in
          match sfind (fst x) h with
          | None => Throw OutOfRange
          | Some o => let! y := restore o (snd x) in load_ops bound' (sset (fst x) (fst y) h) (snd y)
          end
      end
  end.

(** [Program(Bytes const&)] Program.h:24-48; [init] is [Program::init], which builds the
    program from the text of its definition (Program.cpp:41-77) *)
Definition load (init : string -> res program) (bs : bytes) : res program :=
  let! x := rd_str bs in
  let! p := init (fst x) in
  let! h := load_ops (snd x) (p_ops p) (snd x) in
  Ok (set_ops p h).

End Codec.
