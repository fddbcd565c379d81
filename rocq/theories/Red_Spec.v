(* What reductions mean, independently of the code. *)
From Verif Require Import Base Arr_Model.
Local Open Scope nat_scope.

(* The elements of a along one axis, for a given index of the other axes. *)
Definition lane {V} (buf : list V) (a : arr) (axis : nat) (outer : list nat) : list (option V) :=
  map (fun j => get buf a (insert_at axis j outer)) (seq 0 (nth axis (a_shape a) 0)).

(* The index of the other axes that entry idx of a reduced array stands for: a
   one-dimensional array reduces to a single entry with no other axes. *)
Definition outer_of (sh idx : list nat) : list nat :=
  match sh with [_] => [] | _ => idx end.
(* the shape of a reduced array: the axis dropped, except that a reduced
   one-dimensional array keeps one dimension of length 1 *)
Definition reduced_shape (axis : nat) (sh : list nat) : list nat :=
  match remove_at axis sh with [] => [1] | r => r end.

(* exact sum and product of integers *)
Definition zsum (l : list Z) : Z := fold_right Z.add 0%Z l.
Definition zprod (l : list Z) : Z := fold_right Z.mul 1%Z l.
(* m is the largest / smallest element of l *)
Definition is_max (l : list Z) (m : Z) : Prop := In m l /\ forall x, In x l -> (x <= m)%Z.
Definition is_min (l : list Z) (m : Z) : Prop := In m l /\ forall x, In x l -> (m <= x)%Z.

(* i is the first position of l holding a value that no other element beats *)
Definition first_best {T} (beats : T -> T -> bool) (l : list T) (i : nat) : Prop :=
  exists v, nth_error l i = Some v /\
    (forall j w, nth_error l j = Some w -> beats w v = false) /\
    (forall j w, j < i -> nth_error l j = Some w -> beats v w = true).
