(* Reductions over several axes: which entries of the array go into which entry of the
   result. *)
From Verif Require Import Base Arr_Spec Arr_Model Arr_Wf.
Local Open Scope nat_scope.

(* what is left of a shape or an index without the axes *)
Definition drop_axes {A} (axes : list nat) (l : list A) : list A :=
  map snd (filter (fun p => negb (existsb (Nat.eqb (fst p)) axes)) (combine (seq 0 (length l)) l)).
(* the indices of the array that agree with oi on the axes that are kept *)
Definition cell (sh axes oi : list nat) : list (list nat) :=
  filter (fun idx => if list_eq_dec Nat.eq_dec (drop_axes axes idx) oi then true else false) (all_idx sh).
(* a result without axes is an array of one element *)
Definition keep1 (sh : list nat) : list nat := match sh with [] => [1] | r => r end.
Definition at1 (oi : list nat) : list nat := match oi with [] => [0] | r => r end.
(* x stands for the function f on the indices of sh; without axes, an array of one element *)
Definition stands_for {T} (item : Z) (x : list T * arr) (sh : list nat) (f : list nat -> T) : Prop :=
  wf (fst x) (snd x) /\ a_shape (snd x) = keep1 sh /\ a_item (snd x) = item /\ forall oi, inb oi sh -> get (fst x) (snd x) (at1 oi) = Some (f oi).
(* no array with this shape, or with some of its axes dropped, is too large to address *)
Definition roomy (item : Z) (sh : list nat) : Prop := (Z.of_nat (prod (map (Nat.max 1) sh)) * item < 2 ^ 63)%Z.
(* the integer z names axis k of nd axes *)
Definition names (nd : nat) (z : Z) (k : nat) : Prop := k < nd /\ (z = Z.of_nat k \/ z = Z.of_nat k - Z.of_nat nd)%Z.
