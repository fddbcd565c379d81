(* Independent specification of the shape functions of the module level API:
   which axis goes where, which element each element of the result is. *)
From Verif Require Import Base Arr_Spec.
From Coq Require Import Permutation Sorted.
Local Open Scope nat_scope.

(* Python axis number x of an n-dimensional array is axis k: negative numbers
   count from the end *)
Definition axis_is (n : nat) (x : Z) (k : nat) : Prop :=
  k < n /\ (x = Z.of_nat k \/ x = Z.of_nat k - Z.of_nat n)%Z.

(* the list with the item of place s taken out and put back at place d *)
Definition moved (s d : nat) (l : list nat) : list nat := insert_at d (nth s l 0) (remove_at s l).

(* the items of l listed in the order of axes *)
Definition listed (axes l : list nat) : list nat := map (fun i => nth i l 0) axes.

(* axes is the order of axes after moving axis src[k] to place dst[k] for every k,
   all the other axes staying in their order *)
Definition moves (n : nat) (src dst axes : list nat) : Prop :=
  Permutation axes (seq 0 n) /\
  (forall k s d, nth_error src k = Some s -> nth_error dst k = Some d -> nth_error axes d = Some s) /\
  StronglySorted lt (filter (fun x => negb (existsb (Nat.eqb x) src)) axes).

(* every coordinate counted from the other end *)
Definition mirrored (sh idx : list nat) : list nat := zip_with (fun s i => s - 1 - i) sh idx.

(* sh is the least shape to which all the shapes can be broadcast *)
Definition common_shape (shs : list (list nat)) (sh : list nat) : Prop :=
  (forall s, In s shs -> broadcastable s sh) /\
  (forall c, (forall s, In s shs -> broadcastable s c) -> broadcastable sh c).
