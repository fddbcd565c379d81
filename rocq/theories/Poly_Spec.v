(* Independent specification of polynomials given by their coefficients, highest
   degree first, over any commutative ring. *)
From Verif Require Import Base Conv_Spec.
Local Open Scope nat_scope.

Section Poly.
Context {R : Type}.
Variables (zero one : R) (add mul : R -> R -> R).

Fixpoint power (x : R) (n : nat) : R := match n with 0 => one | S n' => mul x (power x n') end.

(* sum of p[i] * x^(n-1-i) *)
Definition value (p : list R) (x : R) : R :=
  big zero add (length p) (fun i => mul (nth i p zero) (power x (length p - 1 - i))).

(* 1 + 1 + ... + 1, n times *)
Fixpoint times_one (n : nat) : R := match n with 0 => zero | S n' => add (times_one n') one end.
End Poly.
