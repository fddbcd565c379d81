(* numpy.diff for every numeric dtype: src/ops/array_methods/cumulative.rs. *)
From Coq Require Import SpecFloat.
From Verif Require Import Base Lists Arr_Model Copy_Model Elem_Model Red_Model Int_Model F64_Model Promo_Spec Promo_Model Cast_Spec Cast_Model Bitw_Model Rnd_Model Ari_Model Cpx_Model.
Local Open Scope nat_scope.

Section Diff.
Context {V : Type}.
(* the difference w - v: in the typed loop, and through f64 *)
Variables (fast slow : V -> V -> V).

(* cumulative.rs:99-119: one difference along an axis of length [axis_len] > 1 *)
Definition diff_data (buf : list V) (a : arr) (axis axis_len : nat) : res (list V) :=
  let new_shape := upd (a_shape a) axis (axis_len - 1) in
  if prod new_shape =? 0 then Ok []
  else if (ndim a =? 1) && a_c a then
    bind (read_run buf a 0 (a_item a) axis_len) (fun d => Ok (diff_list fast d))
  else
    bind (at_ (a_strides a) axis) (fun axis_stride =>
    mapM (fun idx =>
            bind (read buf a (byte_offset_for a idx)) (fun v1 =>
            bind (read buf a (byte_offset_for a idx + axis_stride)) (fun v2 => Ok (slow v2 v1))))
         (odometer (prod new_shape) (repeat 0 (ndim a)) new_shape)).
End Diff.

(* ops.write_f64(v2 - v1) on read_f64(..).unwrap_or(0.0): cumulative.rs:41-53, 56-80 *)
Definition sub_slow (k : kind) (w v : scalar) : scalar := write_f64 k (SFsub 53 1024 (as_f64 w) (as_f64 v)).
(* kernels/arithmetic.rs Sub; cumulative.rs:28-53: the dtypes not listed go through f64 *)
Definition sub_fast (k : kind) (w v : scalar) : scalar :=
  match k with
  | Float16 | Bool | Int8 => sub_slow k w v
  | _ =>
      match w, v with
      | SFlt x, SFlt y => SFlt (float_elem k ASub x y)
      | SInt x, SInt y => match int_of k with Some t => SInt (wrap t (x - y)) | None => SInt 0 end
      | SCpx a b, SCpx c d => let '(p, q) := cpx_bin ASub (fst (Cast_Spec.format k)) (snd (Cast_Spec.format k)) (a, b) (c, d) in SCpx p q
      | _, _ => w
      end
  end.
Definition diff_once (x : narr) (axis axis_len : nat) : res narr :=
  let k := n_kind x in
  bind (diff_data (sub_fast k) (sub_slow k) (n_buf x) (n_arr x) axis axis_len) (fun vals =>
  Ok (mkN k vals (fresh (upd (a_shape (n_arr x)) axis (axis_len - 1)) (itemsize k)))).
(* cumulative.rs:84-129 diff *)
Fixpoint diff (n : nat) (x : narr) (axis : nat) : res narr :=
  match nth_error (a_shape (n_arr x)) axis with
  | None => Panic
  | Some axis_len =>
      match n with
      | O => astype x (n_kind x)
      | S n' =>
          if axis_len <=? n then Ok (mkN (n_kind x) [] (fresh (upd (a_shape (n_arr x)) axis 0) (itemsize (n_kind x))))
          else bind (diff_once x axis axis_len) (fun r => match n' with O => Ok r | S _ => diff n' r axis end)
      end
  end.
