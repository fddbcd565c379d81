(* What rounding, clipping, the sign and the absolute value of a number are.
   Numbers are as in Cast_Spec: [Fin x] is x * 2^-1074.  Independent of the model. *)
From Coq Require Import SpecFloat.
From Verif Require Import Base Promo_Spec Cast_Spec.
Local Open Scope Z_scope.

Definition whole (x : Z) : Prop := exists z, x = z * one.
(* r is x rounded down, up, toward zero, to a nearest whole number *)
Definition floor_of (x r : Z) : Prop := whole r /\ r <= x < r + one.
Definition ceil_of (x r : Z) : Prop := whole r /\ r - one < x <= r.
Definition trunc_of (x r : Z) : Prop := whole r /\ Z.abs r <= Z.abs x < Z.abs r + one /\ 0 <= x * r.
Definition nearest_of (x r : Z) : Prop := whole r /\ 2 * Z.abs (x - r) <= one.
(* infinities and NaN are left alone *)
Definition on_finite (R : Z -> Z -> Prop) (e e' : ext) : Prop :=
  match e with Fin x => exists r, e' = Fin r /\ R x r | _ => e' = e end.

(* e <= e' as numbers *)
Definition ext_le (e e' : ext) : Prop := match ext_compare e e' with Some (Lt | Eq) => True | _ => False end.
Definition ext_lt (e e' : ext) : Prop := ext_compare e e' = Some Lt.

(* r is e limited to at least lo and at most hi; hi wins when they cross; NaN stays *)
Definition limited (lo hi : option ext) (e r : ext) : Prop :=
  let below_hi x := match hi with Some h => ext_le x h | None => True end in
  let above_lo x := match lo with Some l => ext_le l x | None => True end in
  match e with
  | NaN => r = NaN
  | _ => below_hi r /\ (r = e \/ (lo = Some r /\ ext_lt e r) \/ hi = Some r /\ (ext_lt r e \/ match lo with Some l => ext_lt r l | None => False end)) /\
         (match lo, hi with Some l, Some h => ext_le l h | _, _ => True end -> above_lo r)
  end.

(* sign and size of a number *)
Definition ext_opp (e : ext) : ext := match e with NaN => NaN | Inf s => Inf (negb s) | Fin x => Fin (- x) end.
Definition ext_abs (e : ext) : ext := match e with NaN => NaN | Inf s => Inf false | Fin x => Fin (Z.abs x) end.
Definition ext_sgn (e : ext) : ext :=
  match e with NaN => NaN | Inf s => Fin (if s then - one else one) | Fin x => Fin (Z.sgn x * one) end.

(* r is the multiple of u nearest to x, the even one of two *)
Definition nearest_even_multiple (u x r : Z) : Prop :=
  exists k, r = k * u /\ 2 * Z.abs (x - r) <= u /\ (2 * Z.abs (x - r) = u -> Z.even k = true).
