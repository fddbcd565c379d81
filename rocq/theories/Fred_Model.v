(* Reductions of float and bool arrays: src/ops/kernels/arithmetic.rs, src/ops/dispatch.rs,
   src/ops/ufunc.rs, src/ops/registry.rs, src/array/dtype/{macros,float16,bool}.rs,
   src/ops/array_methods/reductions.rs. *)
From Coq Require Import SpecFloat.
From Verif Require Import Base Int_Model F64_Model Arr_Model Bcast_Model Copy_Model Idx_Model Elem_Model Red_Model Rng_Model Date_Model New_Model Promo_Spec Promo_Model Cast_Spec Cast_Model Bitw_Model Rnd_Model Ari_Model Cpx_Model.
Local Open Scope Z_scope.

(* the float stored in an element of a float array *)
Definition flt (v : scalar) : spec_float := match v with SFlt x => x | SInt z => f64_int z | SCpx x _ => x end.
Definition float_unit (k : kind) : spec_float := let (p, m) := format k in float_one p m false.

(* kernels/arithmetic.rs:110-134 (f64, f32), 285-308 (f16): init and combine *)
Definition fred_init (k : kind) (op : red) : spec_float :=
  match op with
  | RSum => S754_zero false
  | RProd => float_unit k
  | RMax => S754_infinity true
  | RMin => S754_infinity false
  end.
Definition fred_comb (k : kind) (op : red) (acc v : spec_float) : spec_float :=
  match op with
  | RSum => float_elem k AAdd acc v
  | RProd => float_elem k AMul acc v
  | RMax => if SFltb acc v then v else acc
  | RMin => if SFltb v acc then v else acc
  end.
(* dtype/macros.rs:144-164, float16.rs:136-156: the same initial values; max and min are
   f64::max and f64::min (f32, f16 through f32), which pass over a NaN *)
Definition ftrait_comb (k : kind) (op : red) (acc v : spec_float) : spec_float :=
  match op with
  | RSum => float_elem k AAdd acc v
  | RProd => float_elem k AMul acc v
  | RMax => float_elem k AFMax acc v
  | RMin => float_elem k AFMin acc v
  end.
(* ufunc.rs:529-594 reduce_all_op; dispatch.rs:474-538: the result goes through f64 into an
   array of the dtype; ufunc.rs:597-600 reduce_all_f64 reads it back as f64 *)
Definition float_total (op : red) (x : narr) : res spec_float :=
  let k := n_kind x in
  let buf := map flt (n_buf x) in
  bind (dispatch_reduce (fred_init k op) (fred_comb k op) buf (n_arr x)) (fun r =>
  match r with
  | Some v => Ok (as_f64 (write_f64 k (as_f64 (SFlt v))))
  | None => bind (trait_reduce (fred_init k op) (ftrait_comb k op) buf (n_arr x)) (fun v => Ok (as_f64 (SFlt v)))
  end).
(* ufunc.rs:607-620 with dispatch.rs:590-711 *)
Definition float_axis (op : red) (x : narr) (axis : nat) : res narr :=
  let k := n_kind x in
  bind (dispatch_reduce_axis (fred_init k op) (fred_comb k op) (map flt (n_buf x)) (n_arr x) axis) (fun r =>
  Ok (mkN k (map SFlt (snd r)) (fresh (fst r) (itemsize k)))).

(* ---- NaN-skipping ------------------------------------------------------------- *)
(* arithmetic.rs:223-257 impl_nan_reduce *)
Definition nan_comb (k : kind) (op : red) (acc v : spec_float) : spec_float :=
  if is_nan v then acc else fred_comb k op acc v.
(* f64::max and min in nan_reduce_full's closures; the accumulator is never NaN there *)
Definition full_comb (op : red) (acc v : spec_float) : spec_float :=
  match op with
  | RSum => SFadd 53 1024 acc v
  | RProd => SFmul 53 1024 acc v
  | RMax => float_bin AFMax 53 1024 acc v
  | RMin => float_bin AFMin 53 1024 acc v
  end.
(* array_methods/reductions.rs:633-653 nan_reduce_full: value, and whether a number was found *)
Definition full_step (op : red) (s : spec_float * bool) (v : spec_float) : spec_float * bool :=
  if is_nan v then s else (full_comb op (fst s) v, true).
Definition nan_reduce_full (op : red) (x : narr) : res (spec_float * bool) :=
  let init := (fred_init Float64 op, false) in
  if (size (n_arr x) =? 0)%nat then Ok init
  else bind (mapM (read (map as_f64 (n_buf x)) (n_arr x)) (iter_offsets (n_arr x))) (fun d =>
       Ok (fold_left (full_step op) d init)).
(* dispatch.rs:738-756 dispatch_nan_reduce_float: float64 and float32 only *)
Definition nan_dispatch (op : red) (x : narr) : res (option spec_float) :=
  let k := n_kind x in
  match k with
  | Float64 | Float32 =>
      bind (dispatch_reduce (fred_init k op) (nan_comb k op) (map flt (n_buf x)) (n_arr x)) (fun r =>
      Ok (option_map (fun v => as_f64 (SFlt v)) r))
  | _ => Ok None
  end.
(* reductions.rs:691-696, 716-721, 842-852, 876-886 nansum, nanprod, nanmin, nanmax of a whole array *)
Definition nan_total (op : red) (x : narr) : res spec_float :=
  bind (nan_dispatch op x) (fun r =>
  match r with
  | Some v =>
      Ok (match op with
          | RMax => if SFeqb v (S754_infinity true) then S754_nan else v
          | RMin => if SFeqb v (S754_infinity false) then S754_nan else v
          | _ => v
          end)
  | None =>
      bind (nan_reduce_full op x) (fun r =>
      Ok (match op with
          | RMax | RMin => if snd r then fst r else S754_nan
          | _ => fst r
          end))
  end).
(* reductions.rs:698-714, 723-739, 854-873, 888-907 with dispatch.rs:779-790; float16 and
   integers take nan_reduce_axis instead, which is not in this model *)
Definition nan_axis (op : red) (x : narr) (axis : nat) : res narr :=
  let k := n_kind x in
  bind (dispatch_reduce_axis (fred_init k op) (nan_comb k op) (map flt (n_buf x)) (n_arr x) axis) (fun r =>
  Ok (mkN k (map SFlt (snd r)) (fresh (fst r) (itemsize k)))).

(* reductions.rs:911-931 nanargmin, 940-960 nanargmax: value and position so far *)
Fixpoint nanarg_scan (better : spec_float -> spec_float -> bool) (d : list spec_float) (i : nat)
    (best : spec_float) (at_ : option nat) : option nat :=
  match d with
  | [] => at_
  | v :: d' => if negb (is_nan v) && better v best then nanarg_scan better d' (i + 1) v (Some i)
               else nanarg_scan better d' (i + 1) best at_
  end.
(* python/reductions.rs:377-420: no position is an error *)
Definition nanarg (greatest : bool) (x : narr) : res nat :=
  if (size (n_arr x) =? 0)%nat then Err
  else bind (mapM (read (map as_f64 (n_buf x)) (n_arr x)) (iter_offsets (n_arr x))) (fun d =>
       match nanarg_scan (fun v best => if greatest then SFltb best v else SFltb v best) d 0 (S754_infinity greatest) None with
       | Some i => Ok i
       | None => Err
       end).

(* ---- bool ----------------------------------------------------------------------- *)
(* registry.rs:131-156 (sum, prod); dtype/bool.rs:73-93 (max, min) *)
Definition bool_init (op : red) : bool := match op with RSum | RMax => false | RProd | RMin => true end.
Definition bool_comb (op : red) (acc v : bool) : bool := match op with RSum | RMax => acc || v | RProd | RMin => acc && v end.
Definition truth (v : scalar) : bool := match v with SInt z => negb (z =? 0) | _ => true end.
Definition bool_total (op : red) (x : narr) : res spec_float :=
  bind (trait_reduce (bool_init op) (bool_comb op) (map truth (n_buf x)) (n_arr x)) (fun b =>
  Ok (as_f64 (SInt (if b then 1 else 0)))).
(* ufunc.rs:624-694 *)
Definition bool_axis (op : red) (x : narr) (axis : nat) : res (list nat * list bool) :=
  trait_reduce_axis (bool_init op) (bool_comb op) (map truth (n_buf x)) false (n_arr x) axis.
