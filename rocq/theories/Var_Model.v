(* Variance and standard deviation of all elements of a float array, in floating point:
   src/ops/array_methods/reductions.rs, src/ops/ufunc.rs. *)
From Coq Require Import SpecFloat.
From Verif Require Import Base Int_Model F64_Model Arr_Model Copy_Model Elem_Model Rng_Model Promo_Spec Promo_Model Cast_Spec Cast_Model Red_Model Cpx_Model Fred_Model Sqrt_Model.
Local Open Scope Z_scope.

(* ufunc.rs:34-41, reductions.rs:99-104: the squared deviations added in order, over the count *)
Definition deviation (mean s v : spec_float) : spec_float :=
  let d := SFsub 53 1024 v mean in SFadd 53 1024 s (SFmul 53 1024 d d).
Definition spread (mean : spec_float) (n : nat) (vals : list spec_float) : spec_float :=
  SFdiv 53 1024 (fold_left (deviation mean) vals (S754_zero false)) (f64_int (Z.of_nat n)).
(* reductions.rs:62-67 mean *)
Definition float_mean (x : narr) : res spec_float :=
  if Nat.eqb (size (n_arr x)) 0 then Ok S754_nan else
  bind (float_total RSum x) (fun s => Ok (SFdiv 53 1024 s (f64_int (Z.of_nat (size (n_arr x)))))).
(* reductions.rs:79-106 var, with ufunc.rs:26-42 variance_f64_contiguous, whose own mean adds the
   elements one after the other; its items are 8 bytes apart, the item size of float64 *)
Definition float_var (x : narr) : res spec_float :=
  let a := n_arr x in
  let n := size a in
  if Nat.eqb n 0 then Ok S754_nan
  else if a_c a && kind_eqb (n_kind x) Float64 then
    bind (read_run (map flt (n_buf x)) a 0 (a_item a) n) (fun d =>
    Ok (spread (SFdiv 53 1024 (fold_left (SFadd 53 1024) d (S754_zero false)) (f64_int (Z.of_nat n))) n d))
  else
    bind (float_mean x) (fun mean =>
    bind (mapM (read (map as_f64 (n_buf x)) a) (iter_offsets a)) (fun d => Ok (spread mean n d))).
(* reductions.rs:211-213 std *)
Definition float_std (x : narr) : res spec_float := bind (float_var x) (fun v => Ok (sqrt_float Float64 v)).
