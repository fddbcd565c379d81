(* nanmean, nanvar and nanstd of all elements: src/ops/array_methods/reductions.rs. *)
From Coq Require Import SpecFloat.
From Verif Require Import Base Int_Model F64_Model Arr_Model Copy_Model Elem_Model Rng_Model Promo_Spec Promo_Model Cast_Spec Cast_Model Red_Model Cpx_Model Fred_Model Sqrt_Model Var_Model.
Local Open Scope Z_scope.

(* reductions.rs:748-759, 786-798: read every element as f64 *)
Definition all_f64 (x : narr) : res (list spec_float) := mapM (read (map as_f64 (n_buf x)) (n_arr x)) (iter_offsets (n_arr x)).
(* reductions.rs:753-759 *)
Definition nan_add (acc : spec_float * nat) (v : spec_float) : spec_float * nat :=
  if is_nan v then acc else (SFadd 53 1024 (fst acc) v, S (snd acc)).
(* reductions.rs:744-761 nanmean *)
Definition nan_mean (x : narr) : res spec_float :=
  if Nat.eqb (size (n_arr x)) 0 then Ok S754_nan else
  bind (all_f64 x) (fun d =>
  let (sum, count) := fold_left nan_add d (S754_zero false, O) in
  Ok (if Nat.eqb count 0 then S754_nan else SFdiv 53 1024 sum (f64_int (Z.of_nat count)))).
(* reductions.rs:791-798 *)
Definition nan_square (mean : spec_float) (acc : spec_float * nat) (v : spec_float) : spec_float * nat :=
  if is_nan v then acc else (deviation mean (fst acc) v, S (snd acc)).
(* reductions.rs:781-800 nanvar *)
Definition nan_var (x : narr) : res spec_float :=
  bind (nan_mean x) (fun mean =>
  if is_nan mean then Ok S754_nan else
  bind (all_f64 x) (fun d =>
  let (sum, count) := fold_left (nan_square mean) d (S754_zero false, O) in
  Ok (SFdiv 53 1024 sum (f64_int (Z.of_nat count))))).
(* reductions.rs:834-836 nanstd *)
Definition nan_std (x : narr) : res spec_float := bind (nan_var x) (fun v => Ok (sqrt_float Float64 v)).
