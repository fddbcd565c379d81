(* Running totals with their dtypes: cumsum, cumprod, nancumsum, nancumprod.
   src/ops/array_methods/cumulative.rs, src/ops/dispatch.rs, src/python/reductions.rs.
   The typed loops are Red_Model.cumulative_flat and cumulative_axis; here they are used for
   every dtype, and the loops through f64 are added. *)
From Coq Require Import SpecFloat.
From Verif Require Import Base Lists Arr_Model Copy_Model Elem_Model Red_Model Int_Model F64_Model Rng_Model Promo_Spec Promo_Model Cast_Spec Cast_Model Bitw_Model Rnd_Model Ari_Model Cpx_Model Fred_Model Run_Spec.
Local Open Scope nat_scope.

Section Scan.
Context {T : Type}.
Variables (init : T) (comb : T -> T -> T).
(* cumulative.rs:135-156, 432-456: flattened, in index order *)
Definition scan_flat (buf : list T) (a : arr) : res (list nat * list T) :=
  if size a =? 0 then Ok ([0], [])
  else bind (mapM (read buf a) (iter_offsets a)) (fun d => Ok ([size a], cumulative init comb d)).
(* cumulative.rs:157-201, 457-505: along an axis.  in_indices is the outer index with j put in
   at the axis; a one-dimensional array has a dummy outer index that is not part of it.
   get_element's bounds assertions hold for every index met here.  [zero]: initial contents. *)
Definition scan_axis (zero : T) (buf : list T) (a : arr) (axis : nat) : res (list nat * list T) :=
  let sh := a_shape a in
  if size a =? 0 then Ok (sh, []) else
  bind (at_ sh axis) (fun axis_len =>
  let outer_shape := match remove_at axis sh with [] => [1] | r => r end in
  bind (mapM (fun oi =>
          let in_indices j := firstn (length sh) (insert_at axis j oi) in
          bind (mapM (fun j => read buf a (byte_offset_for a (in_indices j))) (seq 0 axis_len)) (fun d =>
          Ok (combine (map (fun j => flat_idx (in_indices j) sh) (seq 0 axis_len)) (cumulative init comb d))))
        (odometer (size a / axis_len) (repeat 0 (length outer_shape)) outer_shape)) (fun writes =>
  bind (write_all (concat writes) (repeat zero (size a))) (fun out => Ok (sh, out)))).
End Scan.

(* elements are read with g and written with h *)
Definition scan_with {T} (typed : bool) (g : scalar -> T) (h : T -> scalar) (init : T) (comb : T -> T -> T) (zero : T)
    (x : narr) (axis : option nat) : res narr :=
  let b := map g (n_buf x) in
  bind (match axis with
        | None => if typed then cumulative_flat init comb b (n_arr x) else scan_flat init comb b (n_arr x)
        | Some ax => if typed then cumulative_axis init comb b zero (n_arr x) ax else scan_axis init comb zero b (n_arr x) ax
        end) (fun '(sh, out) =>
  Ok (mkN (n_kind x) (map h out) (fresh sh (itemsize (n_kind x))))).

(* cumulative.rs:205-223, 507-515: the identity and the operation in f64 *)
Definition f64_start (op : cum) : spec_float := match op with CumSum => S754_zero false | CumProd => f64_int 1 end.
Definition f64_step (op : cum) (acc v : spec_float) : spec_float :=
  match op with CumSum => SFadd 53 1024 acc v | CumProd => SFmul 53 1024 acc v end.
(* cumulative.rs:131-202 cumulative_op *)
Definition cumulative_op (op : cum) (x : narr) (axis : option nat) : res narr :=
  scan_with false as_f64 (write_f64 (n_kind x)) (f64_start op) (f64_step op) (S754_zero false) x axis.
(* cumulative.rs:428-515 nan_cumulative_op; nancumsum, nancumprod *)
Definition nan_cumulative (op : cum) (x : narr) (axis : option nat) : res narr :=
  scan_with false as_f64 (write_f64 (n_kind x)) (f64_start op) (fun acc v => if is_nan v then acc else f64_step op acc v) (S754_zero false) x axis.
(* the machine integer of an element *)
Definition int_item (v : scalar) : Z := match v with SInt z => z | _ => 0%Z end.
(* dispatch.rs:1926-1956 dispatch_cumulative_kernel; cumulative.rs:204-223 cumsum, cumprod: no
   kernel for bool and int8 *)
Definition cumulative_total (op : cum) (x : narr) (axis : option nat) : res narr :=
  let r := match op with CumSum => Cpx_Model.RSum | CumProd => Cpx_Model.RProd end in
  match n_kind x with
  | Bool | Int8 => cumulative_op op x axis
  | Float16 | Float32 | Float64 =>
      scan_with true flt SFlt (fred_init (n_kind x) r) (fred_comb (n_kind x) r) (S754_zero false) x axis
  | Complex64 | Complex128 =>
      let '(prec, emax) := part (n_kind x) in
      scan_with true scalar_cpx (fun c => SCpx (fst c) (snd c)) (red_init prec emax r) (red_comb prec emax r) (zero, zero) x axis
  | k =>
      match int_of k with
      | Some t =>
          let r := match op with CumSum => Red_Model.RSum | CumProd => Red_Model.RProd end in
          scan_with true int_item SInt (int_red_init t r) (int_red_comb t r) 0%Z x axis
      | None => Fault
      end
  end.
