(* What floating-point arithmetic, maximum and minimum, copysign, nextafter, remainder and
   floor division of numbers are.  Numbers are as in Cast_Spec: [Fin x] is x * 2^-1074.
   Independent of the model. *)
From Coq Require Import SpecFloat.
From Verif Require Import Base Promo_Spec Cast_Spec Rnd_Spec.
Local Open Scope Z_scope.

(* r is the number with property P nearest to N / D; of two equally near, the one that is
   an even multiple of their distance *)
Definition nearest (P : Z -> Prop) (N D r : Z) : Prop :=
  P r /\ forall r', P r' -> Z.abs (N - r * D) <= Z.abs (N - r' * D) /\
                            (Z.abs (N - r * D) = Z.abs (N - r' * D) -> r' = r \/ (2 * (r - r') | r)).
(* N / D is less than half a step above the greatest number of the dtype *)
Definition in_range (k : kind) (N D : Z) : Prop :=
  let (p, emax) := format k in 2 * Z.abs N < (2 ^ (p + 1) - 1) * 2 ^ (emax - p + 1074) * D.
(* the IEEE rounding of N / D, D > 0, to dtype k *)
Definition rounded (k : kind) (N D : Z) (e : ext) : Prop :=
  match e with
  | NaN => False
  | Fin r => in_range k N D /\ nearest (fun x => holds k (x, 0)) N D r
  | Inf s => ~ in_range k N D /\ (s = true <-> N < 0)
  end.

(* the sum of two numbers, exact results rounded by R *)
Definition sum_of (R : Z -> Z -> ext -> Prop) (e f r : ext) : Prop :=
  match e, f with
  | NaN, _ | _, NaN => r = NaN
  | Inf s, Inf t => r = if Bool.eqb s t then Inf s else NaN
  | Inf s, Fin _ => r = Inf s
  | Fin _, Inf t => r = Inf t
  | Fin x, Fin y => R (x + y) 1 r
  end.
Definition difference_of (R : Z -> Z -> ext -> Prop) (e f r : ext) : Prop := sum_of R e (ext_opp f) r.
Definition negative (x : Z) : bool := x <? 0.
Definition product_of (R : Z -> Z -> ext -> Prop) (e f r : ext) : Prop :=
  match e, f with
  | NaN, _ | _, NaN => r = NaN
  | Inf s, Inf t => r = Inf (xorb s t)
  | Inf s, Fin y | Fin y, Inf s => r = if y =? 0 then NaN else Inf (xorb s (negative y))
  | Fin x, Fin y => R (x * y) one r
  end.
(* a zero divisor: the sign of the infinity comes from the sign of the zero *)
Definition quotient_of (R : Z -> Z -> ext -> Prop) (e f r : ext) : Prop :=
  match e, f with
  | NaN, _ | _, NaN => r = NaN
  | Inf _, Inf _ => r = NaN
  | Inf s, Fin y => if y =? 0 then exists t, r = Inf t else r = Inf (xorb s (negative y))
  | Fin x, Inf _ => r = Fin 0
  | Fin x, Fin y => if y =? 0 then if x =? 0 then r = NaN else exists t, r = Inf t
                    else R (x * one * Z.sgn y) (Z.abs y) r
  end.

(* z is the exact result of an operation on the numbers x and y (multiples of 2^-1074) *)
Definition exact_sum (x y z : Z) : Prop := z = x + y.
Definition exact_difference (x y z : Z) : Prop := z = x - y.
Definition exact_product (x y z : Z) : Prop := z * one = x * y.
Definition exact_quotient (x y z : Z) : Prop := y <> 0 /\ z * y = x * one.

(* r is the larger (smaller) of e and f *)
Definition larger (e f r : ext) : Prop := (r = e \/ r = f) /\ ext_le e r /\ ext_le f r.
Definition smaller (e f r : ext) : Prop := (r = e \/ r = f) /\ ext_le r e /\ ext_le r f.
(* NaN if either is NaN *)
Definition nan_wins (R : ext -> ext -> ext -> Prop) (e f r : ext) : Prop :=
  match e, f with NaN, _ | _, NaN => r = NaN | _, _ => R e f r end.
(* the other one if either is NaN *)
Definition nan_loses (R : ext -> ext -> ext -> Prop) (e f r : ext) : Prop :=
  match e, f with NaN, _ => r = f | _, NaN => r = e | _, _ => R e f r end.

(* r has the size of e and the sign of f; the sign of a zero is not seen here *)
Definition with_sign_of (e f r : ext) : Prop :=
  ext_abs r = ext_abs e /\ (ext_lt (Fin 0) f -> r = ext_abs e) /\ (ext_lt f (Fin 0) -> r = ext_opp (ext_abs e)).

(* r is the number of the dtype next to e in the direction of f *)
Definition next_toward (P : Z -> Prop) (e f r : ext) : Prop :=
  match ext_compare e f with
  | None => r = NaN
  | Some Eq => r = f
  | Some Lt => ext_in P r /\ ext_lt e r /\ forall z, ext_in P z -> ext_lt e z -> ext_le r z
  | Some Gt => ext_in P r /\ ext_lt r e /\ forall z, ext_in P z -> ext_lt z e -> ext_le z r
  end.

(* x - y * trunc(x / y) *)
Definition remainder_of (e f r : ext) : Prop :=
  match e, f with
  | NaN, _ | _, NaN | Inf _, _ => r = NaN
  | Fin x, Inf _ => r = Fin x
  | Fin x, Fin y => if y =? 0 then r = NaN else r = Fin (Z.rem x y)
  end.
(* the greatest whole number not above x / y *)
Definition floor_quotient (x y r : Z) : Prop := y <> 0 /\ r = Z.div x y * one.
