(* Element-wise arithmetic of numeric arrays with their dtypes: add, subtract, multiply,
   divide, remainder (and fmod), floor_divide, maximum, minimum, fmax, fmin, copysign and
   nextafter.  src/ops/ufunc.rs, src/ops/dispatch.rs, src/ops/kernels/arithmetic.rs,
   src/array/dtype/{macros,bool,float16}.rs, src/python/ufuncs.rs.
   Complex operands are left out: their element function is Fault here. *)
From Coq Require Import SpecFloat.
From Verif Require Import Base Int_Model F64_Model Arr_Model Bcast_Model Copy_Model Idx_Model Elem_Model Rng_Model Date_Model New_Model Promo_Spec Promo_Model Cast_Spec Cast_Model Bitw_Model Rnd_Model.
Local Open Scope Z_scope.

Inductive aop := AAdd | ASub | AMul | ADiv | AMod | AFloorDiv | AMaximum | AMinimum | AFMax | AFMin | ACopysign | ANextafter.

(* Rust's % on floats, C's fmod: exact, with the sign of the dividend *)
Definition float_rem (prec emax : Z) (x y : spec_float) : spec_float :=
  match x, y with
  | S754_nan, _ | _, S754_nan | S754_infinity _, _ | _, S754_zero _ => S754_nan
  | S754_zero _, _ | _, S754_infinity _ => x
  | S754_finite s m e, S754_finite _ n g =>
      let ez := Z.min e g in
      match (Zpos (fst (shl_align m e ez))) mod (Zpos (fst (shl_align n g ez))) with
      | Zpos r => binary_round prec emax s r ez
      | _ => S754_zero s
      end
  end.
(* f64::max and min of numbers that are not NaN; which zero is returned for two zeros is
   not specified by Rust, here the first *)
Definition float_max (x y : spec_float) : spec_float := if SFltb x y then y else x.
Definition float_min (x y : spec_float) : spec_float := if SFltb y x then y else x.
Definition sign_bit (x : spec_float) : bool :=
  match x with S754_zero s | S754_infinity s | S754_finite s _ _ => s | S754_nan => false end.
(* f64::copysign (the sign bit of a NaN is not in this model: it counts as positive) *)
Definition float_copysign (x y : spec_float) : spec_float := if sign_bit y then SFopp (SFabs x) else SFabs x.
(* to_bits and from_bits: sign, biased exponent, fraction *)
Definition to_bits (prec emax : Z) (x : spec_float) : Z :=
  let top (s : bool) := if s then emax * 2 ^ prec else 0 in
  match x with
  | S754_zero s => top s
  | S754_infinity s => top s + (2 * emax - 1) * 2 ^ (prec - 1)
  | S754_nan => (2 * emax - 1) * 2 ^ (prec - 1) + 2 ^ (prec - 2)
  | S754_finite s m e => top s + (e - SpecFloat.emin prec emax) * 2 ^ (prec - 1) + Zpos m
  end.
Definition from_bits (prec emax : Z) (b : Z) : spec_float :=
  let s := emax * 2 ^ prec <=? b in
  let u := b mod (emax * 2 ^ prec) in
  let ebits := u / 2 ^ (prec - 1) in
  let frac := u mod 2 ^ (prec - 1) in
  if ebits =? 2 * emax - 1 then (if frac =? 0 then S754_infinity s else S754_nan)
  else if ebits =? 0 then (if frac =? 0 then S754_zero s else S754_finite s (Z.to_pos frac) (SpecFloat.emin prec emax))
  else S754_finite s (Z.to_pos (frac + 2 ^ (prec - 1))) (ebits - 1 + SpecFloat.emin prec emax).
(* arithmetic.rs:204-212 Nextafter: the pattern plus or minus one, wrapping *)
Definition float_next (prec emax : Z) (x y : spec_float) : spec_float :=
  let bits d := from_bits prec emax ((to_bits prec emax x + d) mod (emax * 2 ^ (prec + 1))) in
  if SFeqb x y then y
  else if is_nan x || is_nan y then S754_nan
  else if SFltb x y then bits 1
  else bits (-1).

(* kernels/arithmetic.rs:92-215 impl_float_arithmetic *)
Definition float_bin (op : aop) (prec emax : Z) (x y : spec_float) : spec_float :=
  match op with
  | AAdd => SFadd prec emax x y
  | ASub => SFsub prec emax x y
  | AMul => SFmul prec emax x y
  | ADiv => SFdiv prec emax x y
  | AMod => float_rem prec emax x y
  | AFloorDiv => round_float prec emax UFloor (SFdiv prec emax x y)
  | AMaximum => if is_nan x || is_nan y then S754_nan else float_max x y
  | AMinimum => if is_nan x || is_nan y then S754_nan else float_min x y
  | AFMax => if is_nan y then x else if is_nan x then y else float_max x y
  | AFMin => if is_nan y then x else if is_nan x then y else float_min x y
  | ACopysign => float_copysign x y
  | ANextafter => float_next prec emax x y
  end.
(* f64 and f32; arithmetic.rs:268-397: f16 through f32 and back, nextafter on its own bits *)
Definition float_elem (k : kind) (op : aop) (x y : spec_float) : spec_float :=
  match k with
  | Float16 =>
      match op with
      | ANextafter => float_next 11 16 x y
      | _ => to_format 11 16 (float_bin op 24 128 (to_format 24 128 x) (to_format 24 128 y))
      end
  | Float32 => float_bin op 24 128 x y
  | _ => float_bin op 53 1024 x y
  end.
(* arithmetic.rs:406-470 impl_int_arithmetic, one element.  MIN / -1 and MIN % -1 panic.
   The operations without a kernel (copysign, nextafter, fmax, fmin) use
   dtype/macros.rs:305-329 (signed) and 508-531 (unsigned). *)
Definition int_bin (t : ity) (op : aop) (x y : Z) : res Z :=
  match op with
  | AAdd => Ok (wrap t (x + y))
  | ASub => Ok (wrap t (x - y))
  | AMul => Ok (wrap t (x * y))
  | ADiv => Ok (if y =? 0 then 0 else wrap t (Z.quot x y))
  | AMod => if y =? 0 then Ok 0 else if (y =? -1) && (x =? i_min t) then Panic else Ok (Z.rem x y)
  | AFloorDiv => if y =? 0 then Ok 0 else if (y =? -1) && (x =? i_min t) then Panic else Ok (Z.quot x y)
  | AMaximum => Ok (if y <? x then x else y)
  | AMinimum => Ok (if x <? y then x else y)
  | AFMax => Ok (Z.max x y)
  | AFMin => Ok (Z.min x y)
  | ACopysign => Ok (if signed t then if 0 <=? y then wrap t (Z.abs x) else wrap t (- wrap t (Z.abs x)) else x)
  | ANextafter => Ok (if x <? y then wrap t (x + 1) else if y <? x then wrap t (x - 1) else y)
  end.
(* bool.rs:52-70 *)
Definition bool_bin (op : aop) (x y : Z) : Z :=
  let a := negb (x =? 0) in let b := negb (y =? 0) in
  bit01 (match op with
         | AAdd | AMaximum | AFMax => a || b
         | ASub => a && negb b
         | AMul | AMinimum | AFMin => a && b
         | ADiv | AMod | AFloorDiv | ACopysign => a
         | ANextafter => b
         end).
(* one element of operands of one dtype *)
Definition same_elem (k : kind) (op : aop) (v w : scalar) : res scalar :=
  match v, w with
  | SFlt x, SFlt y => Ok (SFlt (float_elem k op x y))
  | SInt x, SInt y =>
      match k, int_of k with
      | Bool, _ => Ok (SInt (bool_bin op x y))
      | _, Some t => bind (int_bin t op x y) (fun z => Ok (SInt z))
      | _, None => Fault
      end
  | _, _ => Fault
  end.
(* does the operation have a kernel for the dtype?  dispatch.rs:35-117, 269-342 *)
Definition has_kernel (k : kind) (op : aop) : bool :=
  match op with
  | AFMax | AFMin | ACopysign | ANextafter => is_float_kind k
  | _ => is_float_kind k || match int_of k with Some _ => true | None => false end
  end.
(* ufunc.rs:440-452: nextafter of mixed dtypes in f64 *)
Definition mixed_next (x y : spec_float) : spec_float :=
  let bits d := from_bits 53 1024 ((to_bits 53 1024 x + d) mod (1024 * 2 ^ 54)) in
  if is_nan x || is_nan y then S754_nan
  else if SFeqb x y then y
  else if SFltb x y then bits (if SFleb (S754_zero false) x then 1 else -1)
  else bits (if SFltb (S754_zero false) x then -1 else 1).
(* ufunc.rs:418-454 one element of operands of different dtypes, in f64 *)
Definition mixed_bin (op : aop) (x y : spec_float) : spec_float :=
  match op with
  | ADiv => if SFeqb y (S754_zero false) then S754_nan else SFdiv 53 1024 x y
  | ANextafter => mixed_next x y
  | _ => float_bin op 53 1024 x y
  end.
Definition mixed_elem (k : kind) (op : aop) (v w : scalar) : res scalar :=
  match v, w with
  | SCpx _ _, _ | _, SCpx _ _ => Fault
  | _, _ => Ok (write_f64 k (mixed_bin op (as_f64 v) (as_f64 w)))
  end.
(* ufunc.rs:207-459: no output buffer to reuse (C18) *)
Definition binary_plain (op : aop) (x y : narr) : res narr :=
  let k := promote (n_kind x) (n_kind y) in
  let same := kind_eqb (n_kind x) (n_kind y) in
  bind (elementwise2 (if same then same_elem (n_kind x) op else mixed_elem k op)
                     (if same && has_kernel (n_kind x) op then PKernel else PTrait)
                     (n_buf x) (n_arr x) (n_buf y) (n_arr y)) (fun '(sh, vals) =>
  Ok (mkN k vals (fresh sh (itemsize k)))).
(* ufunc.rs:188-198 the float dtype an integer array is divided in, by its item size *)
Definition float_for (k : kind) : kind :=
  if itemsize k <=? 1 then Float16 else if itemsize k <=? 2 then Float32 else Float64.
(* ufunc.rs:182-205 division; both converted arrays differ from integers, so the
   recursive call goes straight to the rest *)
Definition binary (op : aop) (x y : narr) : res narr :=
  match op with
  | ADiv =>
      if integer (n_kind x) && integer (n_kind y) then
        bind (astype x Float64) (fun x' => bind (astype y Float64) (fun y' => binary_plain op x' y'))
      else if integer (n_kind x) then bind (astype x (float_for (n_kind x))) (fun x' => binary_plain op x' y)
      else if integer (n_kind y) then bind (astype y (float_for (n_kind y))) (fun y' => binary_plain op x y')
      else binary_plain op x y
  | _ => binary_plain op x y
  end.
