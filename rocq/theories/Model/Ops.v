(** * Operators: receiving a message and the local part of an execution.

    Every C++ [executeData]/[executeControl] first updates the operator and computes
    the messages to emit, and only then emits them.  This file models the first part
    ([exec_data_local], [exec_ctrl_local]); emission is in [Graph.v]. *)

From Coq Require Import String ZArith Bool List.
From Verif Require Import Base.StrMap Base.Num Model.Core.
Import ListNotations.
Open Scope string_scope.
Open Scope list_scope.
Open Scope Z_scope.
Open Scope rtbot_scope.

Section Ops.
Context {NO : NumOps}.

Definition no_port {A} : res A := Throw (RuntimeError "refers to a non existing input port").

(** ** Accessors of Operator *)

(** the automatic port selection used when the port name is empty,
    Operator.h:311-314, 324-327, 395-398, 433-436 *)
Definition resolve (port : string) (m : smap inport) : string :=
  if String.eqb port "" then match m with [(p, _)] => p | _ => port end else port.

(** [getDataInputSum] Operator.h:302-308 *)
Definition d_sum (b : base) (port : string) : res V :=
  match sfind port (o_data b) with Some p => Ok (ip_sum p) | None => no_port end.

(** [getDataInputMaxSize] Operator.h:310-320 *)
Definition d_max (b : base) (port : string) : res Z :=
  match sfind (resolve port (o_data b)) (o_data b) with Some p => Ok (ip_max p) | None => no_port end.

(** [getDataInputSize] Operator.h:322-333 *)
Definition d_size (b : base) (port : string) : res Z :=
  match sfind (resolve port (o_data b)) (o_data b) with Some p => Ok (ip_size p) | None => no_port end.

(** [empty() ? {} : at(index)], the core of Operator.h:335-345 and 371-381 *)
Definition q_at (q : list msg) (i : Z) : res msg :=
  match q with
  | [] => Ok msg0
  | _ => if i <? 0 then Throw OutOfRange
         else if i <? Z.of_nat (length q)
         then match nth_error q (Z.to_nat i) with Some m => Ok m | None => Throw OutOfRange end
         else Throw OutOfRange
  end.

(** [getDataInputMessage] Operator.h:335-345 *)
Definition d_msg (b : base) (port : string) (i : Z) : res msg :=
  match sfind port (o_data b) with Some p => q_at (ip_data p) i | None => no_port end.

(** [getDataInputLastMessage] Operator.h:347-357 *)
Definition d_last (b : base) (port : string) : res msg :=
  match sfind port (o_data b) with Some p => Ok (last (ip_data p) msg0) | None => no_port end.

(** [getDataInputFirstMessage] Operator.h:383-392 *)
Definition d_first (b : base) (port : string) : res msg :=
  match sfind port (o_data b) with Some p => Ok (hd msg0 (ip_data p)) | None => no_port end.

(** the test at the start of most [processData]: exactly one data input, e.g. Add.h:20-25 *)
Definition single_port (b : base) : res string :=
  match o_data b with
  | [(p, _)] => Ok p
  | _ => Throw (RuntimeError "more than 1 input port found")
  end.

(** ** Receiving *)

(** the buffer update of [Operator::receiveData] / [receiveControl],
    Operator.h:401-411 and 439-449 *)
Definition port_receive (p : inport) (m : msg) : res inport :=
  if ip_max p =? ip_size p then
    match ip_pop p with
    | None => UB
    | Some p' => Ok (ip_push p' m)
    end
  else if ip_max p <? ip_size p then Throw (RuntimeError "went above maximum size")
  else Ok (ip_push p m).

(** [Operator::receiveData] Operator.h:394-415 *)
Definition recv_data_base (b : base) (m : msg) (port : string) : sres base unit :=
  let port := resolve port (o_data b) in
  match sfind port (o_data b) with
  | None => (no_port, b)
  | Some p =>
      match port_receive p m with
      | Ok p' =>
          (Ok tt, set_toproc (set_data b (sset port p' (o_data b))) (sset_add port (o_toproc b)))
      | Throw e => (Throw e, b)
      | _ => (UB, b)
      end
  end.

(** [Operator::receiveControl] Operator.h:432-454 *)
Definition recv_ctrl_base (b : base) (m : msg) (port : string) : sres base unit :=
  let port := resolve port (o_ctrl b) in
  match sfind port (o_ctrl b) with
  | None => (no_port, b)
  | Some p =>
      match port_receive p m with
      | Ok p' => (Ok tt, set_ctrl b (sset port p' (o_ctrl b)))
      | Throw e => (Throw e, b)
      | _ => (UB, b)
      end
  end.

(** [Join::receiveData] Join.h:31-42 *)
Definition recv_data_join (b : base) (m : msg) (port : string) : sres base unit :=
  if String.eqb port "" then (Throw (RuntimeError "inputPort have to be specified"), b) else
  match sfind port (o_data b) with
  | None => (no_port, b)
  | Some p => (Ok tt, set_data b (sset port (ip_push p m) (o_data b)))
  end.

(** [Demultiplexer::receiveData] Demultiplexer.h:29-41 *)
Definition recv_data_demux (b : base) (m : msg) (port : string) : sres base unit :=
  let port := resolve port (o_data b) in
  match sfind port (o_data b) with
  | None => (no_port, b)
  | Some p => (Ok tt, set_data b (sset port (ip_push p m) (o_data b)))
  end.

(** [Demultiplexer::receiveControl] Demultiplexer.h:49-62 *)
Definition recv_ctrl_demux (b : base) (m : msg) (port : string) : sres base unit :=
  let port := resolve port (o_ctrl b) in
  match sfind port (o_ctrl b) with
  | None => (no_port, b)
  | Some p => (Ok tt, set_ctrl b (sset port (ip_push p m) (o_ctrl b)))
  end.

(** [deque<Message>::max_size()] = PTRDIFF_MAX / 16 *)
Definition deque_max : Z := 2 ^ 59 - 1.

(** [AutoRegressive::receiveData] AutoRegressive.h:24-38.  Padding beyond the maximal
    size of a deque is reported as [LengthError] (in practice memory is exhausted). *)
Definition recv_data_ar (b : base) (m : msg) (port : string) : sres base unit :=
  let port := resolve port (o_data b) in
  match sfind port (o_data b) with
  | None => (no_port, b)
  | Some p =>
      let missing := ip_max p - ip_size p in
      if deque_max <=? missing then (Throw LengthError, b)
      else
        let d := ip_data p ++ repeat msg0 (Z.to_nat missing) ++ [m] in
        (Ok tt, set_data b (sset port (mkPort (ip_id p) (ip_max p) (ip_sum p) d) (o_data b)))
  end.

(** dispatch of the virtual [receiveData]; Pipelines are in Graph.v *)
Definition recv_data_local (o : op) (m : msg) (port : string) : sres op unit :=
  let 'Op b k := o in
  let '(r, b') :=
    match k with
    | KJoin _ | KBinary _ | KLinear _ => recv_data_join b m port
    | KDemux _ => recv_data_demux b m port
    | KAutoReg _ => recv_data_ar b m port
    | _ => recv_data_base b m port
    end in
  (r, Op b' k).

(** dispatch of the virtual [receiveControl] *)
Definition recv_ctrl_local (o : op) (m : msg) (port : string) : sres op unit :=
  let 'Op b k := o in
  let '(r, b') :=
    match k with
    | KDemux _ => recv_ctrl_demux b m port
    | _ => recv_ctrl_base b m port
    end in
  (r, Op b' k).

(** ** Processing functions *)

Definition out1 (m : msg) : opmsg := [("o1", [m])].

(** [Input::processData] Input.h:82-105.  The loop takes the ports of [toProcess] in
    order and erases them; [emplace] never overwrites. *)
Fixpoint input_loop (tp : list string) (b : base) (pm : smap string) (ls : smap msg) (out : opmsg)
  : sres (base * kind) opmsg :=
  match tp with
  | [] => (Ok out, (set_toproc b [], KInput pm ls))
  | port :: tp' =>
      let here := set_toproc b tp in
      match d_msg b port 0 with
      | Ok m0 =>
          let fwd :=
            match sfind port ls with
            | Some l => mtime l <? mtime m0
            | None => true
            end in
          if fwd then
            match sfind port pm with
            | None => (UB, (here, KInput pm ls))
            | Some o => input_loop tp' b pm (sset port m0 ls) (semplace o [m0] out)
            end
          else input_loop tp' b pm ls out
      | Throw e => (Throw e, (here, KInput pm ls))
      | _ => (UB, (here, KInput pm ls))
      end
  end.

(** [Output::processData] Output.h:33-44 *)
Fixpoint output_loop (tp : list string) (b : base) (pm : smap string) (out : opmsg)
  : sres (base * kind) opmsg :=
  match tp with
  | [] => (Ok out, (set_toproc b [], KOutput pm))
  | port :: tp' =>
      let here := set_toproc b tp in
      match d_last b port with
      | Ok m =>
          match sfind port pm with
          | None => (UB, (here, KOutput pm))
          | Some o => output_loop tp' b pm (semplace o [m] out)
          end
      | Throw e => (Throw e, (here, KOutput pm))
      | _ => (UB, (here, KOutput pm))
      end
  end.

(** the predicate of GreaterThan.h:12, LessThan.h:12, EqualTo.h:12 *)
Definition filter_test (f : filterop) (value x : V) : bool :=
  match f with
  | FGreater => vlt value x
  | FLess => vlt x value
  | FEqual => veq x value
  end.

(** StandardDeviation.h:37-44 ([at(j)] for j = 0..size-1 is a fold over the buffer) *)
Definition std_value (sum : V) (q : list msg) : V :=
  let size := Z.of_nat (length q) in
  let average := vdiv sum (vofZ size) in
  let s := fold_left (fun acc m => vadd acc (vpow (vsub (mval m) average) (vofZ 2))) q v0 in
  vsqrt (vdiv s (vofZ (wrap (size - 1)))).

(** FiniteImpulseResponse.h:38-40: [at((size-1)-i)] walks the buffer from newest to
    oldest; [coeff.at(i)] throws when there are too few coefficients *)
Fixpoint fir_loop (newest_first : list msg) (coeff : list V) (acc : V) : res V :=
  match newest_first with
  | [] => Ok acc
  | m :: q =>
      match coeff with
      | [] => Throw OutOfRange
      | c :: cs => fir_loop q cs (vadd acc (vmul (mval m) c))
      end
  end.

(** PeakDetector.h:30-37 *)
Definition peak_value (q : list msg) : res (option msg) :=
  let! c := q_at q (Z.of_nat (length q) / 2) in
  if existsb (fun m => vlt (mval c) (mval m)) q then Ok None else Ok (Some c).

(** TimeShift.h:35-38.  [dt * times] is computed in uint64_t, so the test [< 0] is
    false and the result is 0 exactly when the product is 0. *)
Definition shift_time (dt times t : Z) : Z :=
  let p := wrap (dt * wrap times) in
  if ((p <? 0) && (t >? Z.abs p)) || (p >? 0) then wrap (t + p) else 0.

(** ConstantResampler.h:81-87: the loop over grid points before the message time.
    [nextEmit] takes at most 2^64 values, a longer loop never ends. *)
Definition cr_step (dt t : Z) (lastv : V) (s : Z * list msg) : (Z * list msg) + (Z * list msg) :=
  let '(next, acc) := s in
  if next <? t then inl (wrap (next + dt), mkMsg next lastv :: acc) else inr s.

Definition cr_process (dt next : Z) (initiated : bool) (lastv : V) (m : msg)
  : res (list msg * (Z * bool * V)) :=
  if negb initiated then Ok ([], (wrap (mtime m + dt), true, mval m))
  else
    match iter_pos 18446744073709551616 (cr_step dt (mtime m) lastv) (next, []) with
    | inl _ => Diverges
    | inr (next', acc) =>
        if next' =? mtime m
        then Ok (rev (mkMsg (mtime m) (mval m) :: acc), (wrap (next' + dt), true, mval m))
        else Ok (rev acc, (next', true, mval m))
    end.

(** [cosineInterpolate] CosineResampler.h:86-90 *)
Definition cosine_interpolate (y1 y2 mu : V) : V :=
  let mu2 := vdiv (vsub v1 (vcos (vmul mu vpi))) (vofZ 2) in
  vadd (vmul y1 (vsub v1 mu2)) (vmul y2 mu2).

(** the loop of CosineResampler.h:58-70 and HermiteResampler.h:111-122: [j] is an int,
    so reaching 2^31 is a signed overflow.  The body may itself fail. *)
Definition grid_step {S} (t0 t1 dt carry : Z) (body : Z -> Z -> S -> res S)
  (s : Z * S) : (Z * S) + res (Z * S) :=
  let '(j, st) := s in
  let off := wrap (wrap (j * dt) - carry) in
  if off <=? wrap (t1 - t0) then
    match body off (wrap (t0 + off)) st with
    | Ok st' => inl (j + 1, st')
    | Throw e => inr (Throw e)
    | _ => inr UB
    end
  else inr (Ok (j, st)).

Definition grid_loop {S} (t0 t1 dt carry : Z) (body : Z -> Z -> S -> res S) (st : S) : res (Z * S) :=
  match iter_pos 2147483647 (grid_step t0 t1 dt carry body) (1, st) with
  | inl _ => UB
  | inr r => r
  end.

(** CosineResampler.h:72-73, HermiteResampler.h:124 *)
Definition carry_after (t0 t1 dt carry j : Z) : Z :=
  wrap (t1 - wrap (t0 + wrap (wrap ((j - 1) * dt) - carry))).

Definition cosine_process (dt carry : Z) (m0 m1 : msg) : res (list msg * Z) :=
  let t0 := mtime m0 in
  let t1 := mtime m1 in
  let body off t (acc : list msg) :=
    let mu := vdiv (vofZ off) (vofZ (wrap (t1 - t0))) in
    Ok (mkMsg t (cosine_interpolate (mval m0) (mval m1) mu) :: acc) in
  let! r := grid_loop t0 t1 dt carry body [] in
  let '(j, acc) := r in
  Ok (rev acc, carry_after t0 t1 dt carry j).

(** [HermiteResampler::hermiteInterpolate] with tension = bias = 0, HermiteResampler.h:206-222 *)
Definition hermite_interpolate4 (y0 y1 y2 y3 mu : V) : V :=
  let z := v0 in
  let mu2 := vmul mu mu in
  let mu3 := vmul mu2 mu in
  let h a b bias_term := vdiv (vmul (vmul (vsub a b) bias_term) (vsub v1 z)) (vofZ 2) in
  let m0 := vadd (h y1 y0 (vadd v1 z)) (h y2 y1 (vsub v1 z)) in
  let m1 := vadd (h y2 y1 (vadd v1 z)) (h y3 y2 (vsub v1 z)) in
  let a0 := vadd (vsub (vmul (vofZ 2) mu3) (vmul (vofZ 3) mu2)) v1 in
  let a1 := vadd (vsub mu3 (vmul (vofZ 2) mu2)) mu in
  let a2 := vsub mu3 mu2 in
  let a3 := vadd (vmul (vofZ (-2)) mu3) (vmul (vofZ 3) mu2) in
  vadd (vadd (vadd (vmul a0 y1) (vmul a1 m0)) (vmul a2 m1)) (vmul a3 y2).

Definition toT (x : V) : res Z := match vtoT x with Some t => Ok t | None => UB end.

(** [getLineLeastSquares] HermiteResampler.h:174-195; sumX and sumX2 are uint64_t, the
    conversions back from double are undefined when out of range *)
Fixpoint ls_sums (q : list msg) (sx : Z) (sy sxy : V) (sx2 : Z) : res (Z * V * V * Z) :=
  match q with
  | [] => Ok (sx, sy, sxy, sx2)
  | m :: q' =>
      let x := mtime m in
      let y := mval m in
      let! sx2' := toT (vadd (vofZ sx2) (vpow (vofZ x) (vofZ 2))) in
      ls_sums q' (wrap (sx + x)) (vadd sy y) (vadd sxy (vmul (vofZ x) y)) sx2'
  end.

Definition least_squares (q : list msg) : res (V * V) :=
  let size := Z.of_nat (length q) in
  let! sums := ls_sums q 0 v0 v0 0 in
  let '(sx, sy, sxy, sx2) := sums in
  let! den := toT (vsub (vofZ (wrap (size * sx2))) (vpow (vofZ sx) (vofZ 2))) in
  if den =? 0 then
    match q with
    | a :: b :: _ =>
        let m := vdiv (vsub (mval b) (mval a)) (vofZ (wrap (mtime b - mtime a))) in
        Ok (vsub (mval a) (vmul m (vofZ (mtime a))), m)
    | _ => Throw OutOfRange
    end
  else
    Ok (vdiv (vsub (vmul (vofZ sx2) sy) (vmul sxy (vofZ sx))) (vofZ den),
        vdiv (vsub (vmul (vofZ size) sxy) (vmul (vofZ sx) sy)) (vofZ den)).

(** sum of the consecutive time differences, HermiteResampler.h:153-156 *)
Fixpoint gap_sum (q : list msg) (acc : V) : V :=
  match q with
  | a :: ((b :: _) as q') => gap_sum q' (vadd acc (vofZ (wrap (mtime b - mtime a))))
  | _ => acc
  end.

(** [HermiteResampler::get(-1)] HermiteResampler.h:141-164 when [before] is not set *)
Definition hermite_before (q : list msg) : res msg :=
  let n := Z.of_nat (length q) in
  let average := vdiv (gap_sum q v0) (vofZ (wrap (n - 1))) in
  let! nm := least_squares q in
  let! avg := toT average in
  let! m0 := q_at q 0 in
  let t := wrap (mtime m0 + wrap (wrap (-1) * avg)) in
  Ok (mkMsg t (vadd (vmul (snd nm) (vofZ t)) (fst nm))).

(** [get(index)]; [q] is the buffer *)
Definition hermite_get (q : list msg) (before : option msg) (index : Z) : res (msg * option msg) :=
  if 0 <=? index then let! m := q_at q index in Ok (m, before)
  else match before with
       | Some m => Ok (m, before)
       | None => let! m := hermite_before q in Ok (m, Some m)
       end.

(** [lookAt] HermiteResampler.h:109-127 *)
Definition look_at (q : list msg) (from dt carry : Z) (before : option msg)
  : res (list msg * Z * option msg) :=
  let! mf := q_at q from in
  let! mt := q_at q (from + 1) in
  let t0 := mtime mf in
  let t1 := mtime mt in
  let body off t (st : list msg * option msg) :=
    let '(acc, bf) := st in
    let mu := vdiv (vofZ off) (vofZ (wrap (t1 - t0))) in
    let! g := hermite_get q bf (from - 1) in
    let '(y0, bf') := g in
    let! y3 := q_at q (from + 2) in
    Ok (mkMsg t (hermite_interpolate4 (mval y0) (mval mf) (mval mt) (mval y3) mu) :: acc, bf') in
  let! r := grid_loop t0 t1 dt carry body ([], before) in
  let '(j, (acc, bf)) := r in
  Ok (rev acc, carry_after t0 t1 dt carry j, bf).

(** [HermiteResampler::processData] HermiteResampler.h:75-99 *)
Definition hermite_process (dt carry : Z) (before : option msg) (q : list msg)
  : res (list msg * Z * option msg) :=
  match before with
  | None =>
      let! r1 := look_at q 0 dt carry before in
      let '(e1, c1, b1) := r1 in
      let! r2 := look_at q 1 dt c1 b1 in
      let '(e2, c2, b2) := r2 in
      Ok (e1 ++ e2, c2, b2)
  | Some _ => look_at q 1 dt carry before
  end.

(** Function.h:100-103: the loop [while (i < size-1 && points[i+1].first <= x) i++]
    over the points after the first one *)
Fixpoint seg_index (rest : list (V * V)) (x : V) : nat :=
  match rest with
  | [] => 0
  | p :: r => if vle (fst p) x then S (seg_index r x) else 0
  end.

(** [linearInterpolate] Function.h:141 *)
Definition linear_interpolate (x1 y1 x2 y2 x : V) : V :=
  vadd y1 (vdiv (vmul (vsub y2 y1) (vsub x x1)) (vsub x2 x1)).

(** [hermiteInterpolate] Function.h:143-152 *)
Definition hermite_interpolate (y0 y1 m0 m1 mu : V) : V :=
  let mu2 := vmul mu mu in
  let mu3 := vmul mu2 mu in
  let h00 := vadd (vsub (vmul (vofZ 2) mu3) (vmul (vofZ 3) mu2)) v1 in
  let h10 := vadd (vsub mu3 (vmul (vofZ 2) mu2)) mu in
  let h01 := vadd (vmul (vofZ (-2)) mu3) (vmul (vofZ 3) mu2) in
  let h11 := vsub mu3 mu2 in
  vadd (vadd (vadd (vmul h00 y0) (vmul h10 m0)) (vmul h01 y1)) (vmul h11 m1).

Definition slope (p q : V * V) : V := vdiv (vsub (snd q) (snd p)) (vsub (fst q) (fst p)).

(** [points[i]]: undefined outside *)
Definition pt (points : list (V * V)) (i : nat) : res (V * V) :=
  match nth_error points i with Some p => Ok p | None => UB end.

(** [getTangent] Function.h:154-162 *)
Definition tangent (points : list (V * V)) (i : nat) : res V :=
  match i with
  | O => let! p0 := pt points 0 in let! p1 := pt points 1 in Ok (slope p0 p1)
  | S i' =>
      if Nat.eqb (S i) (length points)
      then let! a := pt points i' in let! c := pt points i in Ok (slope a c)
      else let! a := pt points i' in let! c := pt points (S i) in Ok (slope a c)
  end.

Definition hermite_segment (points : list (V * V)) (i : nat) (x : V) : res V :=
  let! a := pt points i in
  let! c := pt points (S i) in
  let! ta := tangent points i in
  let! tc := tangent points (S i) in
  Ok (hermite_interpolate (snd a) (snd c) ta tc (vdiv (vsub x (fst a)) (vsub (fst c) (fst a)))).

Definition linear_segment (points : list (V * V)) (i : nat) (x : V) : res V :=
  let! a := pt points i in
  let! c := pt points (S i) in
  Ok (linear_interpolate (fst a) (snd a) (fst c) (snd c) x).

(** Function.h:97-126.  With fewer than two points every branch reads outside. *)
Definition function_value (points : list (V * V)) (ty : interp) (x : V) : res V :=
  match points with
  | p0 :: ((_ :: _) as rest) =>
      let n := length points in
      let i := seg_index rest x in
      match ty with
      | ILinear =>
          if Nat.eqb i 0 && vlt x (fst p0) then linear_segment points 0 x
          else if Nat.eqb i (n - 1) then linear_segment points (i - 1) x
          else linear_segment points i x
      | IHermite =>
          if Nat.eqb i 0 && vlt x (fst p0) then hermite_segment points 0 x
          else if Nat.leb (n - 2) i then hermite_segment points (n - 2) x
          else hermite_segment points i x
      end
  | _ => UB
  end.

(** RelativeStrengthIndex.h:37-43 *)
Fixpoint rsi_sums (q : list msg) (g l : V) : V * V :=
  match q with
  | a :: ((b :: _) as q') =>
      let diff := vsub (mval b) (mval a) in
      if vlt v0 diff then rsi_sums q' (vadd g diff) l
      else if vlt diff v0 then rsi_sums q' g (vsub l diff)
      else rsi_sums q' g l
  | _ => (g, l)
  end.

(** RelativeStrengthIndex.h:67-73 *)
Definition rsi_of (g l : V) : V :=
  if vlt v0 l
  then vsub (vofZ 100) (vdiv (vofZ 100) (vadd v1 (vdiv g l)))
  else vofZ 100.

(** RelativeStrengthIndex.h:30-64: new averages (gain, loss) *)
Definition rsi_averages (q : list msg) (pg pl : V) (initialized : bool) : res (V * V) :=
  let n := Z.of_nat (length q) in
  let n1 := vofZ (wrap (n - 1)) in
  if negb initialized then
    let '(g, l) := rsi_sums q v0 v0 in
    Ok (vdiv g n1, vdiv l n1)
  else
    let! a := q_at q (wrap (n - 1)) in
    let! b := q_at q (wrap (n - 2)) in
    let diff := vsub (mval a) (mval b) in
    let '(gain, loss) :=
      if vlt v0 diff then (diff, v0)
      else if vlt diff v0 then (v0, vneg diff)
      else (v0, v0) in
    let n2 := vofZ (wrap (n - 2)) in
    Ok (vdiv (vadd (vmul pg n2) gain) n1, vdiv (vadd (vmul pl n2) loss) n1).

(** lift a pure result to the state of the operator *)
Definition keep {A} (b : base) (k : kind) (r : res A) : sres (base * kind) A := (r, (b, k)).

(** operators whose [processData] maps the last message of the single port *)
Definition map_last (b : base) (f : msg -> opmsg) : res opmsg :=
  let! port := single_port b in
  let! m := d_last b port in
  Ok (f m).

Definition port_data (b : base) (port : string) : list msg :=
  match sfind port (o_data b) with Some p => ip_data p | None => [] end.

(** dispatch of the virtual [processData] for the operators that use the base class'
    [executeData]; every branch starts with the single-port test of the class except
    Input, Output and Collector. *)
Definition process_data (b : base) (k : kind) : sres (base * kind) opmsg :=
  match k with
  | KInput pm ls => input_loop (o_toproc b) b pm ls []
  | KOutput pm => output_loop (o_toproc b) b pm []
  | KCollector => keep b k (Ok [])                                   (* Collector.h:15 *)
  | KFilter f value =>                                                (* FilterByValue.h:23-39 *)
      keep b k (map_last b (fun m => if filter_test f value (mval m) then out1 m else []))
  | KAdd v => keep b k (map_last b (fun m => out1 (mkMsg (mtime m) (vadd (mval m) v))))   (* Add.h:19-33 *)
  | KScale v => keep b k (map_last b (fun m => out1 (mkMsg (mtime m) (vmul (mval m) v)))) (* Scale.h:22-36 *)
  | KPower v => keep b k (map_last b (fun m => out1 (mkMsg (mtime m) (vpow (mval m) v)))) (* Power.h:24-38 *)
  | KConstant v => keep b k (map_last b (fun m => out1 (mkMsg (mtime m) v)))              (* Constant.h:19-33 *)
  | KIdentity =>                                                      (* Identity.h:21-34 *)
      keep b k (let! port := single_port b in let! m := d_first b port in Ok (out1 m))
  | KMovAvg =>                                                        (* MovingAverage.h:21-38 *)
      keep b k (let! port := single_port b in
                let! m := d_last b port in
                let! s := d_sum b port in
                let! n := d_size b port in
                Ok (out1 (mkMsg (mtime m) (vdiv s (vofZ n)))))
  | KStdDev =>                                                        (* StandardDeviation.h:25-51 *)
      keep b k (let! port := single_port b in
                let! s := d_sum b port in
                let! m := d_last b port in
                Ok (out1 (mkMsg (mtime m) (std_value s (port_data b port)))))
  | KFIR coeff =>                                                     (* FiniteImpulseResponse.h:22-45 *)
      keep b k (let! port := single_port b in
                let! m := d_last b port in
                let! v := fir_loop (rev (port_data b port)) coeff v0 in
                Ok (out1 (mkMsg (mtime m) v)))
  | KPeak =>                                                          (* PeakDetector.h:21-38 *)
      keep b k (let! port := single_port b in
                let! r := peak_value (port_data b port) in
                Ok (match r with Some m => out1 m | None => [] end))
  | KCount c =>                                                       (* Count.h:44-59 *)
      match (let! port := single_port b in d_last b port) with
      | Ok m =>
          let c' := wrap (c + 1) in
          (Ok (out1 (mkMsg (mtime m) (vofZ c'))), (b, KCount c'))
      | Throw e => (Throw e, (b, k))
      | _ => (UB, (b, k))
      end
  | KCumSum acc =>                                                    (* CumulativeSum.h:40-55 *)
      match (let! port := single_port b in d_last b port) with
      | Ok m =>
          let acc' := vadd acc (mval m) in
          (Ok (out1 (mkMsg (mtime m) acc')), (b, KCumSum acc'))
      | Throw e => (Throw e, (b, k))
      | _ => (UB, (b, k))
      end
  | KDifference useOldest =>                                          (* Difference.h:22-39 *)
      (* [(cond) ? m1.time : m0.value] mixes uint64_t and double: both branches are
         converted to double, the result back to uint64_t *)
      keep b k (let! port := single_port b in
                let! m1 := d_msg b port 1 in
                let! m0 := d_msg b port 0 in
                let! t := toT (if useOldest then vofZ (mtime m1) else mval m0) in
                Ok (out1 (mkMsg t (vsub (mval m1) (mval m0)))))
  | KTimeShift dt times =>                                            (* TimeShift.h:25-43 *)
      keep b k (map_last b (fun m => out1 (mkMsg (shift_time dt times (mtime m)) (mval m))))
  | KConstResampler dt next init lastv =>                             (* ConstantResampler.h:58-107 *)
      match (let! port := single_port b in
             let! m := d_last b port in cr_process dt next init lastv m) with
      | Ok (e, (next', init', lastv')) =>
          (Ok (match e with [] => [] | _ => [("o1", e)] end),
           (b, KConstResampler dt next' init' lastv'))
      | Throw e => (Throw e, (b, k))
      | Diverges => (Diverges, (b, k))
      | _ => (UB, (b, k))
      end
  | KCosineResampler dt carry =>                                      (* CosineResampler.h:48-80 *)
      match (let! port := single_port b in
             let! m1 := d_msg b port 1 in
             let! m0 := d_msg b port 0 in
             cosine_process dt carry m0 m1) with
      | Ok (e, carry') =>
          (Ok (match e with [] => [] | _ => [("o1", e)] end), (b, KCosineResampler dt carry'))
      | Throw e => (Throw e, (b, k))
      | _ => (UB, (b, k))
      end
  | KHermiteResampler dt carry before =>                              (* HermiteResampler.h:75-99 *)
      match (let! port := single_port b in hermite_process dt carry before (port_data b port)) with
      | Ok (e, carry', before') =>
          (Ok (match e with [] => [] | _ => [("o1", e)] end),
           (b, KHermiteResampler dt carry' before'))
      | Throw e => (Throw e, (b, k))
      | _ => (UB, (b, k))
      end
  | KFunction points ty =>                                            (* Function.h:88-132 *)
      keep b k (let! port := single_port b in
                let! m := d_last b port in
                let! v := function_value points ty (mval m) in
                Ok (out1 (mkMsg (mtime m) v)))
  | KRSI ag al pg pl init =>                                          (* RelativeStrengthIndex.h:23-82 *)
      match (let! port := single_port b in
             let! m := d_last b port in
             let! a := rsi_averages (port_data b port) pg pl init in
             Ok (m, a)) with
      | Ok (m, (g, l)) => (Ok (out1 (mkMsg (mtime m) (rsi_of g l))), (b, KRSI g l g l true))
      | Throw e => (Throw e, (b, k))
      | _ => (UB, (b, k))
      end
  (* the operators below override executeData and are not handled here *)
  | KJoin _ | KBinary _ | KLinear _ | KDemux _ | KAutoReg _ | KVariable _ _ | KPipeline _ _ _ _ _ =>
      keep b k (Ok [])
  end.

(** ** [Operator::executeData] Operator.h:417-430 *)

(** the ports of [toProcess] whose buffer is full *)
Fixpoint ready_ports (b : base) (tp : list string) : res (list string) :=
  match tp with
  | [] => Ok []
  | p :: tp' =>
      let! mx := d_max b p in
      let! sz := d_size b p in
      let! r := ready_ports b tp' in
      Ok (if sz <? mx then r else p :: r)
  end.

Definition exec_base (b : base) (k : kind) : sres (base * kind) opmsg :=
  match ready_ports b (o_toproc b) with
  | Ok [] => (Ok [], (set_toproc b [], k))
  | Ok tp =>
      match process_data (set_toproc b tp) k with
      | (Ok out, (b', k')) => (Ok out, (set_toproc b' [], k'))
      | r => r
      end
  | Throw e => (Throw e, (b, k))
  | _ => (UB, (b, k))
  end.

(** ** Join, BinaryJoin, Linear *)

(** Join.h:49-59: the port with the latest front; [None] when some port is empty *)
Fixpoint join_latest (ports : smap inport) (best : string) (t : Z) : option (string * Z) :=
  match ports with
  | [] => Some (best, t)
  | (name, p) :: r =>
      match ip_data p with
      | [] => None
      | m :: _ => if t <? mtime m then join_latest r name (mtime m) else join_latest r best t
      end
  end.

(** [while (!empty() && front().time < t) { setSum(getSum() - front().value); pop_front(); }]
    Join.h:63-66, Demultiplexer.h:92-95 *)
Fixpoint drop_older (t : Z) (sum : V) (q : list msg) : V * list msg :=
  match q with
  | [] => (sum, [])
  | m :: q' => if mtime m <? t then drop_older t (vsub sum (mval m)) q' else (sum, q)
  end.

Definition port_trim (t : Z) (p : inport) : inport :=
  let '(s, q) := drop_older t (ip_sum p) (ip_data p) in mkPort (ip_id p) (ip_max p) s q.

(** Join.h:61-67 *)
Definition join_trim (best : string) (t : Z) (ports : smap inport) : smap inport :=
  map (fun '(name, p) => (name, if String.eqb name best then p else port_trim t p)) ports.

(** Join.h:69-75 *)
Definition join_ready (t : Z) (ports : smap inport) : bool :=
  forallb (fun '(_, p) => match ip_data p with [] => false | m :: _ => negb (t <? mtime m) end) ports.

(** [setSum(getSum() - front().value); pop_front();] on every port, Join.h:79-82 *)
Definition pop_all (ports : smap inport) : smap inport :=
  map (fun '(name, p) => (name, match ip_pop p with Some p' => p' | None => p end)) ports.

(** [Join::processData] Join.h:88-98 *)
Fixpoint join_tuple (ports : smap inport) (cm : smap string) (out : opmsg) : res opmsg :=
  match ports with
  | [] => Ok out
  | (name, p) :: r =>
      match ip_data p, sfind name cm with
      | m :: _, Some o => join_tuple r cm (semplace o [m] out)
      | _, _ => UB
      end
  end.

(** the lambdas given to BinaryJoin *)
Definition bin_apply (f : binop) (a c : V) : option V :=
  match f with
  | BPlus => Some (vadd a c)                                          (* Plus.h:13 *)
  | BMinus => Some (vsub a c)                                         (* Minus.h:13 *)
  | BMult => Some (vmul a c)                                          (* Multiplication.h:13 *)
  | BDiv => if negb (veq c v0) then Some (vdiv a c) else None         (* Division.h:14-17 *)
  | BAnd => Some (if negb (vlt a vhalf) && vle vhalf c then v1 else v0)  (* And.h:14-19 *)
  | BOr => Some (if negb (vlt a vhalf) || vle vhalf c then v1 else v0)   (* Or.h:14-19 *)
  | BGreater => if vlt c a then Some a else None                      (* GreaterThanStream.h:14-17 *)
  | BLess => if vlt a c then Some a else None                         (* LessThanStream.h:14-17 *)
  end.

(** [Linear::processData] Linear.h:27-44 *)
Fixpoint linear_loop (ports : smap inport) (coeff : list V) (t : Z) (acc : V) : res msg :=
  match ports with
  | [] => Ok (mkMsg t acc)
  | (_, p) :: r =>
      match ip_data p, coeff with
      | [], _ => UB
      | _, [] => Throw OutOfRange
      | m :: _, c :: cs => linear_loop r cs (mtime m) (vadd acc (vmul (mval m) c))
      end
  end.

(** the virtual [processData] of the Join family *)
Definition join_process (b : base) (k : kind) : res opmsg :=
  match k with
  | KJoin cm => join_tuple (o_data b) cm []
  | KBinary f =>                                                      (* BinaryJoin.h:26-41 *)
      let! m1 := d_msg b "i2" 0 in
      let! m0 := d_msg b "i1" 0 in
      Ok (match bin_apply f (mval m0) (mval m1) with
          | Some v => out1 (mkMsg (mtime m0) v)
          | None => []
          end)
  | KLinear coeff => let! m := linear_loop (o_data b) coeff 0 v0 in Ok (out1 m)
  | _ => Ok []
  end.

(** [Join::executeData] Join.h:44-86 *)
Definition join_exec (b : base) (k : kind) : sres (base * kind) opmsg :=
  match o_data b with
  | [] => (Throw OutOfRange, (b, k))
  | (name0, p0) :: _ =>
      match ip_data p0 with
      | [] => (Ok [], (b, k))
      | f0 :: _ =>
          match join_latest (o_data b) name0 (mtime f0) with
          | None => (Ok [], (b, k))
          | Some (best, t) =>
              let b1 := set_data b (join_trim best t (o_data b)) in
              if join_ready t (o_data b1) then
                match join_process b1 k with
                | Ok out => (Ok out, (set_data b1 (pop_all (o_data b1)), k))
                | Throw e => (Throw e, (b1, k))
                | _ => (UB, (b1, k))
                end
              else (Ok [], (b1, k))
          end
      end
  end.

(** ** Demultiplexer *)

(** Demultiplexer.h:91-103 (the loop over the control ports; file lines 91-103) *)
Fixpoint demux_scan (t : Z) (ctrls : smap inport) : sres (smap inport) Z :=
  match ctrls with
  | [] => (Ok 0, [])
  | (name, p) :: r =>
      let p' := port_trim t p in
      match ip_data p' with
      | [] => let '(x, r') := demux_scan t r in (x, (name, p') :: r')
      | m :: _ =>
          if (mtime m =? t) && (veq (mval m) v1 || veq (mval m) v0)
          then let '(x, r') := demux_scan t r in
               (rbind x (fun n => Ok (n + 1)), (name, p') :: r')
          else (Throw (RuntimeError "Count not find matching control message"), (name, p') :: r)
      end
  end.

(** Demultiplexer.h:106-112 *)
Fixpoint demux_out (m : msg) (ctrls : smap inport) (cm : smap string) (out : opmsg) : res opmsg :=
  match ctrls with
  | [] => Ok out
  | (name, p) :: r =>
      match ip_data p with
      | [] => UB
      | c :: _ =>
          if veq (mval c) v1 then
            match sfind name cm with
            | Some o => demux_out m r cm (semplace o [m] out)
            | None => UB
            end
          else demux_out m r cm out
      end
  end.

(** [Demultiplexer::join] Demultiplexer.h:77-125 *)
Definition demux_join (b : base) (k : kind) (cm : smap string) : sres (base * kind) opmsg :=
  match o_data b with
  | [(port, p)] =>
      match ip_data p with
      | [] => (Ok [], (b, k))
      | m :: _ =>
          match demux_scan (mtime m) (o_ctrl b) with
          | (Ok n, ctrls) =>
              let b1 := set_ctrl b ctrls in
              if n =? Z.of_nat (length ctrls) then
                match demux_out m ctrls cm [] with
                | Ok out =>
                    (Ok out,
                     (set_ctrl (set_data b1 (pop_all (o_data b1))) (pop_all ctrls), k))
                | Throw e => (Throw e, (b1, k))
                | _ => (UB, (b1, k))
                end
              else (Ok [], (b1, k))
          | (Throw e, ctrls) => (Throw e, (set_ctrl b ctrls, k))
          | (_, ctrls) => (UB, (set_ctrl b ctrls, k))
          end
      end
  | _ => (Throw (RuntimeError "should have 1 input port, no more no less"), (b, k))
  end.

(** ** Variable *)

(** Variable.h:113-138: the answer (if any) and the remaining data queue *)
Fixpoint var_loop (q : Z) (data : list msg) : option V * list msg :=
  match data with
  | a :: ((c :: _) as rest) =>
      if (mtime a <? q) && (q <? mtime c) then (Some (mval a), data)
      else if q =? mtime c then (Some (mval c), rest)
      else var_loop q rest
  | _ => (None, data)
  end.

Definition set_q (p : inport) (q : list msg) : inport := mkPort (ip_id p) (ip_max p) (ip_sum p) q.

(** [Variable::query] Variable.h:69-143 *)
Definition var_query (b : base) (value : V) (init : bool) : sres (base * kind) opmsg :=
  let stay r := (r, (b, KVariable value init)) in
  match o_data b with
  | [(dport, dp)] =>
      match o_ctrl b with
      | [(cport, cp)] =>
          match ip_data dp, ip_data cp with
          | [], _ => stay (Ok [])
          | _, [] => stay (Ok [])
          | d0 :: _, c0 :: crest =>
              let qt := mtime c0 in
              let popped := set_ctrl b [(cport, set_q cp crest)] in
              let answer v := out1 (mkMsg qt v) in
              if (qt <? mtime d0) && negb init then
                (Ok (answer value), (popped, KVariable value init))
              else if mtime d0 <=? qt then
                if qt =? mtime d0 then
                  (Ok (answer (mval d0)), (popped, KVariable value true))
                else
                  match var_loop qt (ip_data dp) with
                  | (Some v, q') =>
                      (Ok (answer v), (set_data popped [(dport, set_q dp q')], KVariable value true))
                  | (None, q') =>
                      (Ok [], (set_data b [(dport, set_q dp q')], KVariable value true))
                  end
              else stay (Throw (RuntimeError "PortMessage out of order detected"))
          end
      | _ => stay (Throw (RuntimeError "should have 1 control port, no more no less"))
      end
  | _ => stay (Throw (RuntimeError "should have 1 input port, no more no less"))
  end.

(** ** AutoRegressive *)

(** AutoRegressive.h:63 *)
Fixpoint ar_loop (coeff : list V) (q : list msg) (i n : Z) (acc : V) : res V :=
  if n <=? i then Ok acc
  else match coeff with
       | [] => UB
       | c :: cs => let! m := q_at q i in ar_loop cs q (i + 1) n (vadd acc (vmul c (mval m)))
       end.

(** [AutoRegressive::executeData] AutoRegressive.h:40-69 *)
Definition ar_exec (b : base) (coeff : list V) : sres (base * kind) opmsg :=
  let stay r := (r, (b, KAutoReg coeff)) in
  match o_data b with
  | [(port, p)] =>
      let m := last (ip_data p) msg0 in
      match ar_loop coeff (ip_data p) 0 (ip_max p) (mval m) with
      | Ok v =>
          let out := mkMsg (mtime m) v in
          match ip_data p with
          | _ :: ((_ :: _) as q) =>
              (Ok (out1 out),
               (set_data b [(port, set_q p (removelast q ++ [out]))], KAutoReg coeff))
          | _ => stay UB
          end
      | Throw e => stay (Throw e)
      | _ => stay UB
      end
  | _ => stay (Throw (RuntimeError "more than 1 input port found"))
  end.

(** ** Dispatch of the virtual [executeData] and [executeControl] (local part) *)

Definition exec_data_local (o : op) : sres op opmsg :=
  let 'Op b k := o in
  let '(r, (b', k')) :=
    match k with
    | KJoin _ | KBinary _ | KLinear _ => join_exec b k
    | KDemux cm => demux_join b k cm
    | KVariable v i => var_query b v i
    | KAutoReg c => ar_exec b c
    | _ => exec_base b k
    end in
  (r, Op b' k').

Definition exec_ctrl_local (o : op) : sres op opmsg :=
  let 'Op b k := o in
  let '(r, (b', k')) :=
    match k with
    | KDemux cm => demux_join b k cm
    | KVariable v i => var_query b v i
    | _ => (Ok [], (b, k))            (* Operator::processControl, Operator.h:297-300 *)
    end in
  (r, Op b' k').

End Ops.
