(* The mean of a float array along an axis: src/ops/array_methods/reductions.rs. *)
From Coq Require Import SpecFloat.
From Verif Require Import Base Int_Model F64_Model Arr_Model Copy_Model Elem_Model Rng_Model Promo_Spec Promo_Model Cast_Spec Cast_Model Ari_Model Red_Model Cpx_Model Fred_Model.
Local Open Scope Z_scope.

(* array/constructors.rs:176-192 full, of shape [1] *)
Definition count_array (k : kind) (n : nat) : narr := mkN k [write_f64 k (f64_int (Z.of_nat n))] (fresh [1]%nat (itemsize k)).
(* reductions.rs:70-75 mean_axis; an index past the shape panics, and so does an error of the division *)
Definition float_mean_axis (x : narr) (axis : nat) : res narr :=
  bind (float_axis RSum x axis) (fun sum =>
  match nth_error (a_shape (n_arr x)) axis with
  | None => Panic
  | Some n => match binary ADiv sum (count_array (n_kind sum) n) with Err => Panic | r => r end
  end).
