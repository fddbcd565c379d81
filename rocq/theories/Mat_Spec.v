(* Matrices as functions of row and column; the textbook product. *)
From Verif Require Import Base Conv_Spec.
Local Open Scope nat_scope.

Section Mat.
Context {R : Type}.
Variables (zero one : R) (add mul : R -> R -> R).
(* entry (i,j) of the product of an m*n and an n*p matrix: sum over k < n of x(i,k) y(k,j) *)
Definition product (n : nat) (x y : nat -> nat -> R) (i j : nat) : R := big zero add n (fun k => mul (x i k) (y k j)).
Definition identity (i j : nat) : R := if i =? j then one else zero.
(* n-th power of a square matrix of side s *)
Fixpoint power (s : nat) (x : nat -> nat -> R) (n : nat) : nat -> nat -> R :=
  match n with O => identity | S n' => product s (power s x n') x end.
End Mat.

Definition zproduct := product 0%Z Z.add Z.mul.
Definition flip2 {R} (x : nat -> nat -> R) (i j : nat) : R := x j i.
