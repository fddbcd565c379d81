(* Independent specification of discrete convolution over a commutative ring. *)
From Verif Require Import Base.
Local Open Scope nat_scope.

Section Conv.
Context {R : Type}.
Variables (zero : R) (add mul : R -> R -> R).

(* f 0 + f 1 + ... + f (n-1) *)
Fixpoint big (n : nat) (f : nat -> R) : R := match n with 0 => zero | S n' => add (big n' f) (f n') end.

(* the sum of a[i] * v[j] over all i < n, j < m with i + j = k *)
Definition conv_at (a v : list R) (k : nat) : R :=
  big (length a) (fun i => big (length v) (fun j => if i + j =? k then mul (nth i a zero) (nth j v zero) else zero)).

Definition conv_full (a v : list R) : list R := map (conv_at a v) (seq 0 (length a + length v - 1)).
End Conv.
