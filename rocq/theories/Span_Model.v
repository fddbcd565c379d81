(* arange, linspace and full: src/array/constructors.rs, src/python/creation.rs. *)
From Coq Require Import SpecFloat.
From Verif Require Import Base Int_Model F64_Model Arr_Model Rng_Model New_Spec New_Model.
Local Open Scope Z_scope.

Notation fsub64 := (SFsub f64_prec f64_emax).
Notation fadd64 := (SFadd f64_prec f64_emax).
Notation fmul64 := (SFmul f64_prec f64_emax).
Notation fdiv64 := (SFdiv f64_prec f64_emax).

(* x.ceil().max(0.0) as usize: f64::max ignores NaN, the cast saturates *)
Definition ceil_usize (x : spec_float) : Z :=
  match x with
  | S754_zero _ | S754_nan => 0
  | S754_infinity s => if s then 0 else 2 ^ 64 - 1
  | S754_finite s m e =>
      if s then 0
      else Z.min (2 ^ 64 - 1) (if 0 <=? e then Z.shiftl (Zpos m) e else (Zpos m + 2 ^ (- e) - 1) / 2 ^ (- e))
  end.

(* constructors.rs:12-26 zeros, buffer.rs:8-12: size * itemsize wraps in usize
   (release build); vec![0u8; nbytes] panics above isize::MAX.  Filling n elements
   of a buffer whose size wrapped writes outside it. *)
Definition alloc (n item : Z) : res unit :=
  if 2 ^ 63 <=? wrap_usize (n * item) then Panic
  else if n * item <? 2 ^ 64 then Ok tt else Fault.

(* constructors.rs:110-130 arange *)
Definition arange (d : ldt) (start stop step : spec_float) : res (list cell) :=
  let n := ceil_usize (fdiv64 (fsub64 stop start) step) in
  bind (alloc n (ld_item d)) (fun _ =>
    Ok (map (fun i => write_f64 d (fadd64 start (fmul64 (f64_int (Z.of_nat i)) step))) (seq 0 (Z.to_nat n)))).
(* creation.rs:38-50: default start 0, step 1 and dtype int64 *)
Definition arange_py (x : spec_float) (stop step : option spec_float) (dtype : option ldt) : res (list cell) :=
  let st := match step with Some s => s | None => f64_int 1 end in
  let d := match dtype with Some d => d | None => LInt i64_ty end in
  match stop with
  | Some s => arange d x s st
  | None => arange d (f64_int 0) x st
  end.

(* constructors.rs:135-154 linspace *)
Definition linspace (d : ldt) (start stop : spec_float) (num : nat) : res (list cell) :=
  bind (alloc (Z.of_nat num) (ld_item d)) (fun _ =>
    let step := if (1 <? num)%nat then fdiv64 (fsub64 stop start) (f64_int (Z.of_nat num - 1)) else f64_int 0 in
    Ok (map (fun i => write_f64 d (fadd64 start (fmul64 (f64_int (Z.of_nat i)) step))) (seq 0 num))).

(* constructors.rs:175-193 full (ones and zeros write the same value everywhere too) *)
Definition full (d : ldt) (sh : list nat) (x : spec_float) : list cell * arr :=
  (map (fun _ => write_f64 d x) (seq 0 (prod sh)), fresh sh (ld_item d)).
