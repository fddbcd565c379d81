(* The float kernels of sqrt. *)
From Coq Require Import SpecFloat.
From Verif Require Import Base Promo_Spec Cast_Model Cpx_Model.
Local Open Scope Z_scope.

(* kernels/math.rs:129-132 (float32, float64: sqrt of Rust, the IEEE operation), 267-270 (float16
   through float32) *)
Definition sqrt_float (k : kind) (x : spec_float) : spec_float :=
  match k with
  | Float16 => to_format 11 16 (SFsqrt 24 128 (to_format 24 128 x))
  | Float32 => SFsqrt 24 128 x
  | _ => SFsqrt 53 1024 x
  end.

(* kernels/math.rs:492-495: Complex::sqrt of num-complex 0.4, whose first branches treat numbers on
   the real axis; [other] stands for the remaining branches.  A NaN, which has no sign here, takes
   the branch of positive numbers. *)
Definition sign_negative (x : spec_float) : bool :=
  match x with S754_zero s | S754_infinity s | S754_finite s _ _ => s | S754_nan => false end.
Definition sqrt_complex (other : kind -> cpx -> cpx) (k : kind) (c : cpx) : cpx :=
  let (a, b) := c in
  let rt := sqrt_float (match k with Complex64 => Float32 | _ => Float64 end) in
  match b with
  | S754_zero s =>
      if sign_negative a then (S754_zero false, if s then SFopp (rt (SFopp a)) else rt (SFopp a)) else (rt a, b)
  | _ => other k c
  end.
