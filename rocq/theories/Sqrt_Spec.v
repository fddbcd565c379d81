(* Square roots rounded to a format. *)
From Verif Require Import Base Promo_Spec Cast_Spec.
Local Open Scope Z_scope.

(* r is as near to the square root of a >= 0 as any number with property P: no r' above it has the
   root above the middle of r and r', and no r' below it has the root below the middle.
   Numbers are counted in units of 1 / one, where the root of a is the integer root of a * one. *)
Definition nearest_root (P : Z -> Prop) (a r : Z) : Prop :=
  P r /\ 0 <= r /\ forall r', P r' -> 0 <= r' ->
    (r < r' -> 4 * (a * one) <= (r + r') * (r + r')) /\ (r' < r -> (r + r') * (r + r') <= 4 * (a * one)).
Definition square_root (P : Z -> Prop) (e e' : ext) : Prop :=
  match e with
  | NaN => e' = NaN
  | Inf true => e' = NaN
  | Inf false => e' = Inf false
  | Fin a => if a <? 0 then e' = NaN else exists r, e' = Fin r /\ nearest_root P a r
  end.
(* p + q i is the root of the real number e; no claim about NaN *)
Definition axis_root (P : Z -> Prop) (e p q : ext) : Prop :=
  match e with
  | NaN => True
  | Inf s => (p, q) = if s then (Fin 0, Inf false) else (Inf false, Fin 0)
  | Fin a => if a <? 0 then p = Fin 0 /\ square_root P (Fin (- a)) q else square_root P (Fin a) p /\ q = Fin 0
  end.
