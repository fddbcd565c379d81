(* cumulative_sum and cumulative_prod with include_initial: the identity in front of the
   running totals.  src/ops/array_methods/cumulative.rs:225-411. *)
From Coq Require Import SpecFloat.
From Verif Require Import Base Lists Arr_Model Copy_Model Elem_Model Red_Model Int_Model F64_Model Rng_Model Promo_Spec Promo_Model Cast_Spec Cast_Model Rnd_Model Ari_Model Cpx_Model Fred_Model Run_Spec Run_Model.
Local Open Scope nat_scope.

Section Prepend.
Context {V : Type}.
(* [rd]: how an element is carried over; [ident]: the identity as an element; [zero]: what
   RumpyArray::zeros leaves in place *)
Variables (rd : V -> V) (ident zero : V).
(* the sum of index times row-major stride *)
Definition place (sh idx : list nat) : nat := Z.to_nat (dot idx (c_strides sh 1)).
(* cumulative.rs:273-295: the last axis of a contiguous array, row by row *)
Definition prepend_rows (data : list V) (sh : list nat) (axis_len : nat) : res (list V) :=
  bind (mapM (fun i => bind (mapM (fun j => of_load (nth_error data (i * axis_len + j))) (seq 0 axis_len)) (fun row => Ok (ident :: row)))
             (seq 0 (prod (removelast sh)))) (fun rows => Ok (concat rows)).
(* cumulative.rs:297-347, 350-411: one lane per outer index, at least one.  The fallback reads
   its lane with get_element, which panics out of bounds; here both read out of bounds. *)
Definition prepend_lanes (data : list V) (sh : list nat) (axis axis_len : nat) : res (list V) :=
  let new_shape := upd sh axis (axis_len + 1) in
  let outer_shape := remove_at axis sh in
  bind (mapM (fun oi =>
          bind (mapM (fun j => of_load (nth_error data (place sh (insert_at axis j oi)))) (seq 0 axis_len)) (fun lane =>
          Ok ((place new_shape (insert_at axis 0 oi), ident)
              :: combine (map (fun j => place new_shape (insert_at axis (j + 1) oi)) (seq 0 axis_len)) (map rd lane))))
        (odometer (Nat.max (prod outer_shape) 1) (repeat 0 (length outer_shape)) outer_shape)) (fun writes =>
  write_all (concat writes) (repeat zero (prod new_shape))).
End Prepend.

(* cumulative.rs:250-261: the dtypes with a typed loop *)
Definition typed_prepend (k : kind) : bool :=
  match k with Float64 | Float32 | Int64 | Int32 | Uint64 | Uint32 => true | _ => false end.
(* prepend_identity_along_axis of a fresh row-major array *)
Definition prepend (op : cum) (x : narr) (axis : nat) : res narr :=
  let k := n_kind x in
  let sh := a_shape (n_arr x) in
  bind (at_ sh axis) (fun axis_len =>
  let ident := write_f64 k (f64_start op) in
  let zero := write_f64 k (S754_zero false) in
  bind (if typed_prepend k then
          if (axis =? length sh - 1) && a_c (n_arr x) then prepend_rows ident (n_buf x) sh axis_len
          else prepend_lanes (fun v => v) ident zero (n_buf x) sh axis axis_len
        else prepend_lanes (fun v => write_f64 k (as_f64 v)) ident zero (n_buf x) sh axis axis_len)
       (fun vals => Ok (mkN k vals (fresh (upd sh axis (axis_len + 1)) (itemsize k))))).
(* cumulative.rs:225-245 cumulative_sum, cumulative_prod with include_initial *)
Definition cumulative_initial (op : cum) (x : narr) (axis : nat) : res narr :=
  bind (cumulative_total op x (Some axis)) (fun y => prepend op y axis).
