(* Reductions: src/ops/loops/{contiguous,strided}.rs (reduce, cumulative),
   src/ops/dispatch.rs (reduce, axis reduce, logical axis, cumulative),
   src/ops/ufunc.rs reduce_all_op / reduce_axis_op,
   src/ops/array_methods/{reductions,logical,cumulative}.rs.

   Kernels (init, combine) are arguments.  Reductions never write their source,
   so a lane is first read and then folded. *)
From Verif Require Import Base Arr_Spec Arr_Model Copy_Model Elem_Model Red_Spec Int_Model F64_Model.
Local Open Scope nat_scope.

(* n items from byte offset base, step bytes apart *)
Definition read_run {T} (buf : list T) (a : arr) (base step : Z) (n : nat) : res (list T) :=
  mapM (fun k => read buf a (base + Z.of_nat k * step)) (seq 0 n).


Section Fold.
Context {T : Type}.
Variables (init : T) (comb : T -> T -> T).

(* contiguous.rs:108-118: "while i < end" over blocks of eight *)
Fixpoint lanes_loop (fuel : nat) (data : list T) (i end_ : nat) (r : list T) : nat * list T :=
  match fuel with
  | 0 => (i, r)
  | S f => if i <? end_
           then lanes_loop f data (i + 8) end_ (zip_with comb r (firstn 8 (skipn i data)))
           else (i, r)
  end.
(* contiguous.rs:121-124 combination of the eight accumulators *)
Definition tree8 (r : list T) : T :=
  match r with
  | [r0; r1; r2; r3; r4; r5; r6; r7] =>
      comb (comb (comb r0 r1) (comb r2 r3)) (comb (comb r4 r5) (comb r6 r7))
  | _ => init
  end.
(* loops/contiguous.rs:77-133 reduce; loops/strided.rs:58-119 reduce_strided has
   the same control flow with byte offsets *)
Definition reduce8 (data : list T) : T :=
  let n := length data in
  if n =? 0 then init
  else if n <? 8 then fold_left comb data init
  else
    let r := map (comb init) (firstn 8 data) in
    let '(i, r) := lanes_loop n data 8 (n - n mod 8) r in
    fold_left comb (skipn i data) (tree8 r).

(* loops/contiguous.rs:141-151 cumulative *)
Fixpoint cumulative_from (acc : T) (data : list T) : list T :=
  match data with
  | [] => []
  | v :: data' => let acc' := comb acc v in acc' :: cumulative_from acc' data'
  end.
Definition cumulative (data : list T) : list T := cumulative_from init data.

Variable buf : list T.

(* dispatch.rs:541-563 dispatch_reduce_typed; Ok None = fall back *)
Definition dispatch_reduce (a : arr) : res (option T) :=
  if size a =? 0 then Ok (Some init)
  else if a_c a then
    bind (read_run buf a 0 (a_item a) (size a)) (fun d => Ok (Some (reduce8 d)))
  else if ndim a <=? 1 then
    bind (if ndim a =? 0 then Ok 0%Z else at_ (a_strides a) 0) (fun stride =>
    bind (read_run buf a 0 stride (size a)) (fun d => Ok (Some (reduce8 d))))
  else Ok None.

(* ufunc.rs:580-593 trait fallback: reduce_init, then reduce_acc over iter_offsets *)
Definition trait_reduce (a : arr) : res T :=
  if size a =? 0 then Ok init
  else bind (mapM (read buf a) (iter_offsets a)) (fun d => Ok (fold_left comb d init)).

(* dispatch.rs:618-711 and reductions.rs:514-614 share this row-major traversal:
   for outer, for axis_idx, for inner: read the next source item and update
   accumulator out_base + inner.  Out of bounds accumulator = wild write. *)
Section RowMajor.
Context {S : Type}.
Variable step : S -> nat -> T -> S.

Definition row_major_steps (outer axis_len inner : nat) : list (nat * nat) :=
  flat_map (fun o => flat_map (fun j => map (fun i => (o * inner + i, j)) (seq 0 inner))
                              (seq 0 axis_len)) (seq 0 outer).
Fixpoint row_major_run (a : arr) (steps : list (nat * nat)) (src_idx : nat) (accs : list S)
  : res (list S) :=
  match steps with
  | [] => Ok accs
  | (o, j) :: steps' =>
      bind (read buf a (Z.of_nat src_idx * a_item a)) (fun v =>
      match nth_error accs o with
      | None => Fault
      | Some acc => row_major_run a steps' (src_idx + 1) (upd accs o (step acc j v))
      end)
  end.
End RowMajor.

(* dispatch.rs:618-711 dispatch_reduce_axis_typed: output shape and buffer *)
Definition dispatch_reduce_axis (a : arr) (axis : nat) : res (list nat * list T) :=
  bind (at_ (a_shape a) axis) (fun axis_len =>
  let out_shape := match remove_at axis (a_shape a) with [] => [1] | r => r end in
  bind (at_ (a_strides a) axis) (fun axis_stride =>
  let out_size := prod out_shape in
  bind (if (out_size =? 0) || (axis_len =? 0) then Ok (repeat init out_size)
        else if (axis_stride =? a_item a)%Z then
          mapM (fun base => bind (read_run buf a base (a_item a) axis_len) (fun d => Ok (reduce8 d)))
               (axis_offsets a axis)
        else if a_c a then
          row_major_run (fun acc _ v => comb acc v) a
            (row_major_steps (Nat.max (prod (firstn axis (a_shape a))) 1) axis_len
                             (Nat.max (prod (skipn (axis + 1) (a_shape a))) 1))
            0 (repeat init out_size)
        else
          mapM (fun base => bind (read_run buf a base axis_stride axis_len) (fun d => Ok (reduce8 d)))
               (axis_offsets a axis))
       (fun out => Ok (out_shape, out)))).

(* ufunc.rs:624-694 registry / trait loops of reduce_axis_op (bool, datetime):
   [zero] is the all-zero-bytes item that RumpyArray::zeros leaves in place when
   there is nothing to reduce *)
Definition trait_reduce_axis (zero : T) (a : arr) (axis : nat) : res (list nat * list T) :=
  bind (at_ (a_shape a) axis) (fun axis_len =>
  let out_shape := match remove_at axis (a_shape a) with [] => [1] | r => r end in
  bind (at_ (a_strides a) axis) (fun axis_stride =>
  let out_size := prod out_shape in
  bind (if (out_size =? 0) || (axis_len =? 0) then Ok (repeat zero out_size)
        else mapM (fun base => bind (read_run buf a base axis_stride axis_len)
                                    (fun d => Ok (fold_left comb d init)))
                  (axis_offsets a axis))
       (fun out => Ok (out_shape, out)))).

(* dispatch.rs:1972-2004 dispatch_cumulative_flat *)
Definition cumulative_flat (a : arr) : res (list nat * list T) :=
  if size a =? 0 then Ok ([0], [])
  else bind (if a_c a then read_run buf a 0 (a_item a) (size a)
             else mapM (read buf a) (iter_offsets a))
            (fun d => Ok ([size a], cumulative d)).

(* dispatch.rs:2064-2070: flat index of the written element, running product
   from the last axis *)
Fixpoint flat_idx_rev (idx_rev sh_rev : list nat) (acc stride : nat) : nat :=
  match idx_rev, sh_rev with
  | i :: idx', s :: sh' => flat_idx_rev idx' sh' (acc + i * stride) (stride * s)
  | _, _ => acc
  end.
Definition flat_idx (idx sh : list nat) : nat := flat_idx_rev (rev idx) (rev sh) 0 1.

(* writing a list of (position, value) pairs into a buffer, in order *)
Fixpoint write_all {A} (l : list (nat * A)) (out : list A) : res (list A) :=
  match l with
  | [] => Ok out
  | (p, v) :: l' => if p <? length out then write_all l' (upd out p v) else Fault
  end.

(* dispatch.rs:2007-2091 dispatch_cumulative_axis.  [zero]: initial contents.
   The written index has one entry per axis d < ndim (a one-dimensional array has
   a dummy outer index that is not part of it). *)
Definition cumulative_axis (zero : T) (a : arr) (axis : nat) : res (list nat * list T) :=
  let sh := a_shape a in
  if size a =? 0 then Ok (sh, []) else
  bind (at_ sh axis) (fun axis_len =>
  bind (at_ (a_strides a) axis) (fun axis_stride =>
  bind (if (axis_stride =? a_item a)%Z && a_c a then
          bind (mapM (fun ln => bind (read_run buf a (Z.of_nat (ln * axis_len) * a_item a) (a_item a) axis_len)
                                     (fun d => Ok (cumulative d)))
                     (seq 0 (size a / axis_len)))
               (fun rows => Ok (concat rows))
        else
          let outer_shape := match remove_at axis sh with [] => [1] | r => r end in
          let ost := remove_at axis (a_strides a) in
          bind (mapM (fun oi =>
                  bind (read_run buf a (dot oi ost) axis_stride axis_len) (fun d =>
                  Ok (combine (map (fun j => flat_idx (firstn (length sh) (insert_at axis j oi)) sh) (seq 0 axis_len))
                              (cumulative d))))
                (odometer (prod outer_shape) (repeat 0 (length outer_shape)) outer_shape))
               (fun writes => write_all (concat writes) (repeat zero (size a))))
       (fun out => Ok (sh, out)))).
End Fold.

(* ---- integer reductions ------------------------------------------------------ *)

Inductive rop := RSum | RProd | RMax | RMin.
(* kernels/arithmetic.rs:403-479 (and the identical reduce_init / reduce_acc of
   dtype/macros.rs:330-351) *)
Definition int_red_init (t : ity) (op : rop) : Z :=
  match op with RSum => 0 | RProd => 1 | RMax => i_min t | RMin => i_max t end%Z.
Definition int_red_comb (t : ity) (op : rop) (acc v : Z) : Z :=
  match op with
  | RSum => wrap t (acc + v)
  | RProd => wrap t (acc * v)
  | RMax => if (acc <? v)%Z then v else acc
  | RMin => if (v <? acc)%Z then v else acc
  end.
Definition int_trait_comb (t : ity) (op : rop) (acc v : Z) : Z :=
  match op with
  | RSum => wrap t (acc + v)
  | RProd => wrap t (acc * v)
  | RMax => Z.max acc v
  | RMin => Z.min acc v
  end.

(* ufunc.rs:529-594 reduce_all_op for an integer dtype: the dispatched value goes
   through "val as f64" and full(.., val, dtype) (dispatch.rs:500-530); the
   fallback stores it directly.  Result: the single stored integer. *)
Definition int_reduce_all (t : ity) (op : rop) (buf : list Z) (a : arr) : res Z :=
  bind (dispatch_reduce (int_red_init t op) (int_red_comb t op) buf a) (fun r =>
  match r with
  | Some v => Ok (through_f64 t v)
  | None => trait_reduce (int_red_init t op) (int_trait_comb t op) buf a
  end).
(* ufunc.rs:597-600 reduce_all_f64: what sum()/prod()/max()/min() return, an f64
   (an integer value here) *)
Definition int_reduce_scalar (t : ity) (op : rop) (buf : list Z) (a : arr) : res Z :=
  bind (int_reduce_all t op buf a) (fun v => Ok (f64_of_int v)).
(* ufunc.rs:607-622 reduce_axis_op for an integer dtype *)
Definition int_reduce_axis (t : ity) (op : rop) (buf : list Z) (a : arr) (axis : nat)
  : res (list nat * list Z) :=
  dispatch_reduce_axis (int_red_init t op) (int_red_comb t op) buf a axis.

(* pyarray/mod.rs:154-171 scalar_reduction_with_keepdims: shape of ones, the f64
   written with write_f64 *)
Definition keepdims_all (t : ity) (a : arr) (value : Z) : list nat * list Z :=
  (repeat 1 (ndim a), [sat t value]).
(* pyarray/mod.rs:148-151 apply_keepdims and 174-186 axis_reduction_with_keepdims *)
Definition keepdims_axis {T} (out_shape : list nat) (out : list T) (item : Z) (axis : nat) : list T * arr :=
  let r := fresh out_shape item in
  (out, match expand_dims r axis with Ok r' => r' | _ => r end).

(* ---- sum of squares / 2-norm ------------------------------------------------- *)

(* dispatch.rs:444-471 and reductions.rs:27-29: the SumOfSquares kernel
   (kernels/arithmetic.rs: init 0, combine acc v = acc + v*v) through the same
   loops; None becomes 0.  linalg.rs:142-178, 217-223: norm is its square root
   (vector_norm answers 0 for an empty vector). *)
Definition sum_of_squares {T} (zero : T) (add mul : T -> T -> T) (buf : list T) (a : arr) : res T :=
  bind (dispatch_reduce zero (fun acc v => add acc (mul v v)) buf a) (fun r =>
  Ok (match r with Some v => v | None => zero end)).

(* ---- all / any ---------------------------------------------------------------- *)
Section Logical.
Context {T : Type}.
Variable truthy : T -> bool.
Variable buf : list T.

(* "for x in xs { if stop(x) { return !empty } } empty" *)
Fixpoint scan_until (stop : T -> bool) (empty : bool) (l : list T) : bool :=
  match l with
  | [] => empty
  | x :: l' => if stop x then negb empty else scan_until stop empty l'
  end.

(* logical.rs:27-40 all, 93-106 any.  Reads past the stopping point are not
   performed by the code; on a well-formed view they cannot fail. *)
Definition all_arr (a : arr) : res bool :=
  if size a =? 0 then Ok true
  else bind (mapM (read buf a) (iter_offsets a)) (fun d => Ok (scan_until (fun v => negb (truthy v)) true d)).
Definition any_arr (a : arr) : res bool :=
  if size a =? 0 then Ok false
  else bind (mapM (read buf a) (iter_offsets a)) (fun d => Ok (scan_until truthy false d)).
(* logical.rs:9-24 count_nonzero *)
Definition count_nonzero (a : arr) : res nat :=
  if size a =? 0 then Ok 0
  else bind (mapM (read buf a) (iter_offsets a)) (fun d => Ok (length (filter truthy d))).

(* dispatch.rs:1789-1840 dispatch_logical_axis_typed (the complex version
   1853-1906 differs only in the truth test) *)
Definition logical_axis (empty_val : bool) (stop : T -> bool) (a : arr) (axis : nat)
  : res (list nat * list bool) :=
  bind (at_ (a_shape a) axis) (fun axis_len =>
  let out_shape := match remove_at axis (a_shape a) with [] => [1] | r => r end in
  let out_size := prod out_shape in
  if out_size =? 0 then Ok (out_shape, [])
  else if axis_len =? 0 then Ok (out_shape, repeat empty_val out_size)
  else bind (at_ (a_strides a) axis) (fun axis_stride =>
  bind (mapM (fun base => bind (read_run buf a base axis_stride axis_len)
                               (fun d => Ok (scan_until stop empty_val d)))
             (axis_offsets a axis))
       (fun out => Ok (out_shape, out)))).

(* logical.rs:42-90, 108-157: fallback for the dtypes without typed dispatch
   (int8, datetime64, timedelta64, str): zeros when there is nothing to reduce *)
Definition logical_axis_slow (empty_val : bool) (stop : T -> bool) (a : arr) (axis : nat)
  : res (list nat * list bool) :=
  bind (at_ (a_shape a) axis) (fun axis_len =>
  let out_shape := match remove_at axis (a_shape a) with [] => [1] | r => r end in
  let out_size := prod out_shape in
  if (out_size =? 0) || (axis_len =? 0) then Ok (out_shape, repeat false out_size)
  else bind (mapM (fun oi =>
               bind (mapM (fun j =>
                       let pre := firstn (Nat.min axis (length oi)) oi in
                       let in_idx := pre ++ [0] ++ (if axis <? ndim a - 1 then skipn axis oi else []) in
                       get_element buf a (upd in_idx axis j)) (seq 0 axis_len))
                    (fun d => Ok (scan_until stop empty_val d)))
             (odometer out_size (repeat 0 (length out_shape)) out_shape))
       (fun out => Ok (out_shape, out))).
End Logical.

Definition all_axis {T} (typed : bool) (truthy : T -> bool) buf a axis :=
  (if typed then logical_axis else logical_axis_slow) buf true (fun v => negb (truthy v)) a axis.
Definition any_axis {T} (typed : bool) (truthy : T -> bool) buf a axis :=
  (if typed then logical_axis else logical_axis_slow) buf false truthy a axis.

(* ---- argmax / argmin ----------------------------------------------------------- *)
Section ArgRed.
Context {T : Type}.
Variable beats : T -> T -> bool.   (* v > best  /  v < best *)
Variable worst : T.                (* neg_infinity() / pos_infinity() *)
Variable buf : list T.

(* the scan "for i in .. { if v > best_val {..} }" *)
Fixpoint arg_scan (l : list T) (i : nat) (best_val : T) (best_idx : nat) : nat :=
  match l with
  | [] => best_idx
  | v :: l' => if beats v best_val then arg_scan l' (i + 1) v i
               else arg_scan l' (i + 1) best_val best_idx
  end.
(* starting from element 0 (the caller has checked that there is one) *)
Definition arg_from_first (l : list T) : nat :=
  match l with [] => 0 | v :: l' => arg_scan l' 1 v 0 end.

(* reductions.rs:221-254, 433-510: argmax / argmin of the whole array.
   [typed]: f64, f32 and the integers except int8; the others use the strided
   scan on f64 values (argmax_slow, 291-321) *)
Definition arg_full (typed : bool) (a : arr) : res nat :=
  if size a =? 0 then Ok 0
  else if typed && a_c a then
    bind (read_run buf a 0 (a_item a) (size a)) (fun d => Ok (arg_from_first d))
  else bind (mapM (read buf a) (iter_offsets a)) (fun d => Ok (arg_scan d 0 worst 0)).

(* reductions.rs:514-614 impl_arg_axis *)
Definition arg_axis (a : arr) (axis : nat) : res (list nat * list nat) :=
  bind (at_ (a_shape a) axis) (fun axis_len =>
  bind (at_ (a_strides a) axis) (fun axis_stride =>
  let out_shape := match remove_at axis (a_shape a) with [] => [1] | r => r end in
  let out_size := prod out_shape in
  bind (if (out_size =? 0) || (axis_len =? 0) then Ok (repeat 0 out_size)
        else if (axis_stride =? a_item a)%Z then
          if a_c a && (ndim a =? 2) && (axis =? 1) then
            mapM (fun row => bind (read_run buf a (Z.of_nat (row * axis_len) * a_item a) (a_item a) axis_len)
                                  (fun d => Ok (arg_from_first d)))
                 (seq 0 (nth 0 (a_shape a) 0))
          else
            mapM (fun base => bind (read_run buf a base (a_item a) axis_len)
                                   (fun d => Ok (arg_from_first d)))
                 (axis_offsets a axis)
        else if a_c a then
          bind (row_major_run buf (fun (s : T * nat) j v => if beats v (fst s) then (v, j) else s) a
                  (row_major_steps (Nat.max (prod (firstn axis (a_shape a))) 1) axis_len
                                   (Nat.max (prod (skipn (axis + 1) (a_shape a))) 1))
                  0 (repeat (worst, 0) out_size))
               (fun accs => Ok (map snd accs))
        else
          (* 604: *(start as *const u8).offset(..) as *const T parses as a cast of
             the BYTE read there to a pointer, which is then dereferenced *)
          mapM (fun base => bind (read buf a base) (fun _ =>
                            if 1 <? axis_len then Fault else Ok 0))
               (axis_offsets a axis))
       (fun out => Ok (out_shape, out)))).

(* reductions.rs:334-382 arg_reduce_axis_slow (int8, bool, float16, complex, ...) *)
Definition arg_axis_slow (a : arr) (axis : nat) : res (list nat * list nat) :=
  bind (at_ (a_shape a) axis) (fun axis_len =>
  let out_shape := match remove_at axis (a_shape a) with [] => [1] | r => r end in
  let out_size := prod out_shape in
  if (out_size =? 0) || (axis_len =? 0) then Ok (out_shape, repeat 0 out_size)
  else bind (mapM (fun oi =>
               bind (mapM (fun j =>
                       let pre := firstn (Nat.min axis (length oi)) oi in
                       let in_idx := pre ++ [0] ++
                         (if (axis <? ndim a - 1) && (axis <? length oi) then skipn axis oi else []) in
                       get_element buf a (upd in_idx axis j)) (seq 0 axis_len))
                    (fun d => Ok (arg_from_first d)))
             (odometer out_size (repeat 0 (length out_shape)) out_shape))
       (fun out => Ok (out_shape, out))).
End ArgRed.

(* ---- diff ------------------------------------------------------------------------ *)

(* cumulative.rs:17-54 diff_1d_contiguous with the wrapping Sub kernel of an
   integer dtype (int8 is not listed there: it takes the f64 branch) *)
Fixpoint diff_list {A} (sub : A -> A -> A) (l : list A) : list A :=
  match l with
  | x :: ((y :: _) as l') => sub y x :: diff_list sub l'
  | _ => []
  end.
(* write_f64(v2 - v1) of two integers read as f64: the difference of two doubles
   is rounded again, then saturated.  The exact difference of two integer
   doubles below 2^65 rounds like an integer. *)
Definition sub_f64 (t : ity) (v2 v1 : Z) : Z := sat t (f64_of_int (f64_of_int v2 - f64_of_int v1)).

(* cumulative.rs:82-129 diff with n = 1; [kernel]: the dtype is in the list of
   diff_1d_contiguous *)
Definition int_diff (t : ity) (kernel : bool) (buf : list Z) (a : arr) (axis : nat) : res (list nat * list Z) :=
  bind (at_ (a_shape a) axis) (fun axis_len =>
  if axis_len <=? 1 then Ok (upd (a_shape a) axis 0, [])
  else
    let new_shape := upd (a_shape a) axis (axis_len - 1) in
    if prod new_shape =? 0 then Ok (new_shape, [])
    else if (ndim a =? 1) && a_c a then
      bind (read_run buf a 0 (a_item a) axis_len) (fun d =>
      Ok (new_shape, diff_list (if kernel then fun y x => wrap t (y - x)%Z else sub_f64 t) d))
    else
      bind (at_ (a_strides a) axis) (fun axis_stride =>
      bind (mapM (fun idx =>
              bind (read buf a (byte_offset_for a idx)) (fun v1 =>
              bind (read buf a (byte_offset_for a idx + axis_stride)) (fun v2 => Ok (sub_f64 t v2 v1))))
            (odometer (prod new_shape) (repeat 0 (ndim a)) new_shape))
           (fun out => Ok (new_shape, out)))).
