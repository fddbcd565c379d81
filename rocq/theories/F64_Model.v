(* Conversions between integers and f64: the casts "x as f64" and "v as i64"
   that integer data makes on its way through read_f64 / write_f64. *)
From Verif Require Import Base Int_Model.
Local Open Scope Z_scope.

(* nearest multiple count of a modulo m, ties to even *)
Definition rne (a m : Z) : Z :=
  let q := a / m in let r := a mod m in
  if 2 * r <? m then q else if m <? 2 * r then q + 1 else if Z.even q then q else q + 1.

(* The cast "x as f64" of a 64-bit integer (Rust reference: rounds to nearest,
   ties to even).  The result is an integer and is kept as one; no overflow to
   infinity is possible for 64-bit arguments. *)
Definition f64_of_nonneg (a : Z) : Z :=
  if a <? 2 ^ 53 then a else let m := 2 ^ (Z.log2 a - 52) in rne a m * m.
Definition f64_of_int (z : Z) : Z :=
  if z <? 0 then - f64_of_nonneg (- z) else f64_of_nonneg z.

(* The cast "v as iN / uN" of a finite f64 holding an integer: saturating *)
Definition sat (t : ity) (z : Z) : Z := Z.max (i_min t) (Z.min (i_max t) z).

(* dtype/macros.rs write_f64 after "as f64": the round trip of an integer *)
Definition through_f64 (t : ity) (z : Z) : Z := sat t (f64_of_int z).
