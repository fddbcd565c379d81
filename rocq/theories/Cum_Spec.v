(* Repeated differences. *)
From Verif Require Import Base.
Local Open Scope Z_scope.

(* the n-th difference of a sequence *)
Fixpoint delta (n : nat) (f : nat -> Z) : nat -> Z :=
  match n with O => f | S n' => delta n' (fun i => f (S i) - f i) end.
(* the numbers along the axis through idx *)
Definition lane (f : list nat -> Z) (axis : nat) (idx : list nat) : nat -> Z := fun i => f (upd idx axis i).
Definition difference (n : nat) (f : list nat -> Z) (axis : nat) (idx : list nat) : Z := delta n (lane f axis idx) (nth axis idx O).
