(* The trapezoidal rule and finite differences, stated independently of the code. *)
From Verif Require Import Base Conv_Spec.
Local Open Scope nat_scope.

Section Calc.
Context {R : Type}.
Variables (zero half : R) (add sub mul div : R -> R -> R).

(* sum over the n-1 intervals of (y_j + y_{j+1}) * (x_{j+1} - x_j) / 2 *)
Definition trapezoids (n : nat) (x y : nat -> R) : R :=
  big zero add (n - 1) (fun j => mul (mul (add (y j) (y (S j))) (sub (x (S j)) (x j))) half).

(* the neighbours used for the derivative at position i of n: one-sided at the two ends *)
Definition before (i : nat) : nat := i - 1.
Definition after (n i : nat) : nat := Nat.min (i + 1) (n - 1).
(* difference quotient of y against x at position i *)
Definition quotient (n : nat) (x y : nat -> R) (i : nat) : R :=
  div (sub (y (after n i)) (y (before i))) (sub (x (after n i)) (x (before i))).
End Calc.
