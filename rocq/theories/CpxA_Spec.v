(* What sums, products, quotients and the order of complex numbers are.  Numbers are as in
   Cast_Spec: [Fin x] is x * 2^-1074.  Independent of the model. *)
From Verif Require Import Base Promo_Spec Cast_Spec Rnd_Spec Ari_Spec Cpx_Spec.
Local Open Scope Z_scope.

(* part by part, each part rounded once *)
Definition csum (R : Z -> Z -> ext -> Prop) (p q r : number) : Prop :=
  sum_of R (fst p) (fst q) (fst r) /\ sum_of R (snd p) (snd q) (snd r).
Definition cdifference (R : Z -> Z -> ext -> Prop) (p q r : number) : Prop :=
  difference_of R (fst p) (fst q) (fst r) /\ difference_of R (snd p) (snd q) (snd r).

(* (a + bi)(c + di) = re + im i *)
Definition exact_cproduct (a b c d re im : Z) : Prop := re * one = a * c - b * d /\ im * one = a * d + b * c.
(* (a + bi) / (c + di) = re + im i *)
Definition exact_cquotient (a b c d re im : Z) : Prop :=
  (c <> 0 \/ d <> 0) /\ re * c - im * d = a * one /\ re * d + im * c = b * one.

(* the product x * y is a number with property H *)
Definition product_in (H : Z -> Prop) (x y : Z) : Prop := exists p, H p /\ exact_product x y p.
Definition scaled_in (H : Z -> Prop) (t : Z) : Prop := exists p, H p /\ p * one = t.
(* what a product written out in the parts needs to be exact *)
Definition product_steps (H : Z -> Prop) (a b c d : Z) : Prop :=
  product_in H a c /\ product_in H b d /\ product_in H a d /\ product_in H b c.
(* what a quotient by the squared size of the divisor needs to be exact *)
Definition quotient_steps (H : Z -> Prop) (a b c d : Z) : Prop :=
  product_steps H a b c d /\ product_in H c c /\ product_in H d d /\
  scaled_in H (c * c + d * d) /\ scaled_in H (a * c + b * d) /\ scaled_in H (b * c - a * d).

(* r is the lexicographically greater (less) of p and q *)
Definition cgreater (p q r : number) : Prop := (r = p \/ r = q) /\ lex_le p r /\ lex_le q r.
Definition cless (p q r : number) : Prop := (r = p \/ r = q) /\ lex_le r p /\ lex_le r q.
(* a NaN in either makes both parts NaN *)
Definition cnan_wins (R : number -> number -> number -> Prop) (p q r : number) : Prop :=
  (has_nan p \/ has_nan q -> r = (NaN, NaN)) /\ (~ has_nan p -> ~ has_nan q -> R p q r).
(* an operand with a NaN is passed over *)
Definition cnan_loses (R : number -> number -> number -> Prop) (p q r : number) : Prop :=
  (has_nan p -> has_nan q -> r = (NaN, NaN)) /\ (has_nan p -> ~ has_nan q -> r = q) /\
  (~ has_nan p -> has_nan q -> r = p) /\ (~ has_nan p -> ~ has_nan q -> R p q r).
