(* Fixed-width integer element arithmetic: the integer macros of
   src/ops/kernels/arithmetic.rs and src/array/dtype/macros.rs. *)
From Verif Require Import Base.
Local Open Scope Z_scope.

(* an integer dtype: width in bits and signedness *)
Record ity := mkIty { bits : Z; signed : bool }.
Definition i_min (t : ity) : Z := if signed t then - 2 ^ (bits t - 1) else 0.
Definition i_max (t : ity) : Z := if signed t then 2 ^ (bits t - 1) - 1 else 2 ^ bits t - 1.
Definition representable (t : ity) (z : Z) : Prop := i_min t <= z <= i_max t.

(* two's complement reduction: the representable value congruent modulo 2^bits *)
Definition wrap (t : ity) (z : Z) : Z := (z - i_min t) mod 2 ^ bits t + i_min t.

(* Rust / and % on integers: truncating; MIN / -1 and MIN % -1 panic.
   Division by zero is excluded by every caller. *)
Definition rust_div (t : ity) (a b : Z) : res Z :=
  if signed t && (a =? i_min t) && (b =? -1) then Panic else Ok (Z.quot a b).
Definition rust_rem (t : ity) (a b : Z) : res Z :=
  if signed t && (a =? i_min t) && (b =? -1) then Panic else Ok (Z.rem a b).
(* i64::div_euclid: q = self / rhs; if self % rhs < 0 { if rhs > 0 q-1 else q+1 } *)
Definition rust_div_euclid (t : ity) (a b : Z) : res Z :=
  bind (rust_div t a b) (fun q => bind (rust_rem t a b) (fun r =>
  Ok (if r <? 0 then (if 0 <? b then q - 1 else q + 1) else q))).

(* iN::wrapping_pow(exp): square-and-multiply with wrapping products *)
Fixpoint wrapping_pow_pos (t : ity) (a : Z) (e : positive) : Z :=
  match e with
  | xH => a
  | xO e' => wrapping_pow_pos t (wrap t (a * a)) e'
  | xI e' => wrap t (a * wrapping_pow_pos t (wrap t (a * a)) e')
  end.
Definition wrapping_pow (t : ity) (a e : Z) : Z :=
  match e with Zpos p => wrapping_pow_pos t a p | _ => wrap t 1 end.

Inductive iop := IAdd | ISub | IMul | IPow | IMod | IFloorDiv | IMax | IMin.

(* kernels/arithmetic.rs:403-479 impl_int_arithmetic; Pow has no integer kernel
   (dispatch_binary_pow is float/complex only) *)
Definition int_kernel (t : ity) (op : iop) : option (Z -> Z -> res Z) :=
  match op with
  | IAdd => Some (fun a b => Ok (wrap t (a + b)))
  | ISub => Some (fun a b => Ok (wrap t (a - b)))
  | IMul => Some (fun a b => Ok (wrap t (a * b)))
  | IMod => Some (fun a b => if b =? 0 then Ok 0 else rust_rem t a b)
  | IFloorDiv => Some (fun a b => if b =? 0 then Ok 0 else rust_div t a b)
  | IMax => Some (fun a b => Ok (if b <? a then a else b))
  | IMin => Some (fun a b => Ok (if a <? b then a else b))
  | IPow => None
  end.

(* dtype/macros.rs:306-328 (signed) and 508-530 (unsigned) binary_op *)
Definition int_trait (t : ity) (op : iop) : Z -> Z -> res Z :=
  match op with
  | IAdd => fun a b => Ok (wrap t (a + b))
  | ISub => fun a b => Ok (wrap t (a - b))
  | IMul => fun a b => Ok (wrap t (a * b))
  | IMod => fun a b => if b =? 0 then Ok 0 else rust_rem t a b
  | IFloorDiv => fun a b => if b =? 0 then Ok 0 else if signed t then rust_div_euclid t a b else rust_div t a b
  | IMax => fun a b => Ok (Z.max a b)
  | IMin => fun a b => Ok (Z.min a b)
  (* bv as u32 keeps the low 32 bits of the exponent *)
  | IPow => fun a b => if signed t && (b <? 0) then Ok 0 else Ok (wrapping_pow t a (b mod 2 ^ 32))
  end.

(* what a caller without elision gets: the kernel if there is one *)
Definition int_op (t : ity) (op : iop) : Z -> Z -> res Z :=
  match int_kernel t op with Some k => k | None => int_trait t op end.
