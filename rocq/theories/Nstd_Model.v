(* nanstd along an axis: src/ops/array_methods/reductions.rs. *)
From Coq Require Import SpecFloat.
From Verif Require Import Base Arr_Model Promo_Spec Cast_Model Cpx_Model Tra_Model Sqrt_Model Nlane_Model.

(* reductions.rs:839-842: map_unary_op Sqrt of nanvar_axis (the function and its kernels are C170's; fc
   stands for the complex kernel, which no float64 array reaches) *)
Definition nan_std_axis (fc : kind -> cpx -> cpx) (x : narr) (axis : nat) : res narr :=
  bind (nan_var_axis x axis) (fun_map sqrt_float fc true).
