(* Vector products, Kronecker products and cross products, as formulas. *)
From Verif Require Import Base Conv_Spec Mat_Spec.
Local Open Scope nat_scope.

Section Prod.
Context {R : Type}.
Variables (zero : R) (add mul sub : R -> R -> R).
(* x(0) y(0) + ... + x(n-1) y(n-1), the terms added from the left *)
Definition dot_product (n : nat) (x y : nat -> R) : R :=
  fold_left (fun s k => add s (mul (x k) (y k))) (seq 0 n) zero.
(* every entry of x replaced by that entry times the p*q matrix y *)
Definition kronecker (p q : nat) (x y : nat -> nat -> R) (r c : nat) : R :=
  mul (x (r / p) (c / q)) (y (r mod p) (c mod q)).
Definition kronecker1 (p : nat) (x y : nat -> R) (r : nat) : R := mul (x (r / p)) (y (r mod p)).
(* the vector product in three dimensions *)
Definition cross3 (x y : nat -> R) (i : nat) : R :=
  match i with
  | 0 => sub (mul (x 1) (y 2)) (mul (x 2) (y 1))
  | 1 => sub (mul (x 2) (y 0)) (mul (x 0) (y 2))
  | _ => sub (mul (x 0) (y 1)) (mul (x 1) (y 0))
  end.
End Prod.
