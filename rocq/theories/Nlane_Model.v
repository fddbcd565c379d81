(* nanmean, nanvar and, for dtypes other than float64 and float32, nansum, nanprod, nanmin and nanmax along an axis: src/ops/array_methods/reductions.rs. *)
From Coq Require Import SpecFloat.
From Verif Require Import Base Int_Model F64_Model Arr_Model Copy_Model Elem_Model Rng_Model Promo_Spec Promo_Model Cast_Spec Cast_Model Red_Model Cpx_Model Fred_Model Sqrt_Model Var_Model Nmean_Model.
Local Open Scope nat_scope.

(* reductions.rs:680-684 the index of the first element of a lane *)
Definition lane_start (ndim axis : nat) (out : list nat) : list nat :=
  firstn (Nat.min axis (length out)) out ++ [0] ++ (if axis <? ndim - 1 then skipn axis out else []).
(* reductions.rs:768-770: indices[ax] = j; get_element for j in 0..len *)
Definition lane_f64 (x : narr) (axis len : nat) (start : list nat) : res (list spec_float) :=
  mapM (fun j => get_element (map as_f64 (n_buf x)) (n_arr x) (upd start axis j)) (seq 0 len).
(* reductions.rs:656-691 nan_reduce_axis with a result of dtype k; Vec::remove panics past the end *)
Definition nan_reduce_lanes (k : kind) (x : narr) (axis : nat) (f : list spec_float -> spec_float) : res narr :=
  let sh := a_shape (n_arr x) in
  match nth_error sh axis with
  | None => Panic
  | Some len =>
      let out_shape := match remove_at axis sh with [] => [1] | s => s end in
      if (prod out_shape =? 0) || (len =? 0)
      then Ok (mkN k (repeat (write_f64 k (S754_zero false)) (prod out_shape)) (fresh out_shape (itemsize k)))
      else bind (mapM (fun out => bind (lane_f64 x axis len (lane_start (length sh) axis out)) (fun d => Ok (write_f64 k (f d))))
                      (odometer (prod out_shape) (repeat 0 (length out_shape)) out_shape))
                (fun vals => Ok (mkN k vals (fresh out_shape (itemsize k))))
  end.
(* reductions.rs:765-777 the closure of nanmean_axis *)
Definition lane_mean (d : list spec_float) : spec_float :=
  let (sum, count) := fold_left nan_add d (S754_zero false, 0) in
  if count =? 0 then S754_nan else SFdiv 53 1024 sum (f64_int (Z.of_nat count)).
(* reductions.rs:804-830 the closure of nanvar_axis; the second loop does not count *)
Definition lane_var (d : list spec_float) : spec_float :=
  let (sum, count) := fold_left nan_add d (S754_zero false, 0) in
  if count =? 0 then S754_nan else
  let mean := SFdiv 53 1024 sum (f64_int (Z.of_nat count)) in
  SFdiv 53 1024 (fold_left (fun s v => if is_nan v then s else deviation mean s v) d (S754_zero false)) (f64_int (Z.of_nat count)).
(* reductions.rs:764-778, 803-831 *)
Definition nan_mean_axis (x : narr) (axis : nat) : res narr := nan_reduce_lanes Float64 x axis lane_mean.
Definition nan_var_axis (x : narr) (axis : nat) : res narr := nan_reduce_lanes Float64 x axis lane_var.
(* reductions.rs:705-712, 730-737, 862-871, 895-904 the closures of nansum_axis, nanprod_axis,
   nanmin_axis and nanmax_axis *)
Definition lane_red (op : red) (d : list spec_float) : spec_float :=
  let r := fold_left (full_step op) d (fred_init Float64 op, false) in
  match op with RMax | RMin => if snd r then fst r else S754_nan | _ => fst r end.
(* reductions.rs:701-715, 726-740, 858-874, 891-907, where dispatch_nan_reduce_axis_float
   (dispatch.rs:779-789) gives None *)
Definition nan_red_axis (op : red) (x : narr) (axis : nat) : res narr :=
  match n_kind x with
  | Float64 | Float32 => nan_axis op x axis
  | k => nan_reduce_lanes k x axis (lane_red op)
  end.
