(* Independent specification of the array manipulation routines: which element of
   the argument each element of the result is.  No buffers, strides or flags. *)
From Verif Require Import Base Arr_Spec.
Local Open Scope nat_scope.

(* array_split(a, k) of an axis of length n: length and first position of piece i *)
Definition part_size (n k i : nat) : nat := if i <? n mod k then n / k + 1 else n / k.
Definition part_start (n k i : nat) : nat := i * (n / k) + Nat.min i (n mod k).

(* roll: element i moves to this position *)
Definition rolled (n : nat) (shift : Z) (i : nat) : nat := Z.to_nat ((Z.of_nat i + shift) mod Z.of_nat n).

(* the triangle below (above) diagonal k *)
Definition in_tri (lower : bool) (k : Z) (i j : nat) : bool :=
  (if lower then Z.of_nat j - Z.of_nat i <=? k else k <=? Z.of_nat j - Z.of_nat i)%Z.

(* positions of an n-by-m grid, row by row *)
Definition grid (n m : nat) : list (nat * nat) := flat_map (fun i => map (fun j => (i, j)) (seq 0 m)) (seq 0 n).
Definition tri_positions (lower : bool) (n m : nat) (k : Z) : list (nat * nat) :=
  filter (fun p => in_tri lower k (fst p) (snd p)) (grid n m).

(* q quarter turns in the plane of two axes: the shape, and the place each element comes from *)
Fixpoint turned_shape (q ax0 ax1 : nat) (sh : list nat) : list nat :=
  match q with 0 => sh | S q' => swap_at ax0 ax1 (turned_shape q' ax0 ax1 sh) end.
Fixpoint turned (q ax0 ax1 : nat) (sh idx : list nat) : list nat :=
  match q with
  | 0 => idx
  | S q' => turned q' ax0 ax1 sh (flip_idx ax1 (nth ax1 (turned_shape q' ax0 ax1 sh) 0) (swap_at ax0 ax1 idx))
  end.

(* pad with pw = (before, after) per axis *)
Definition padded (sh : list nat) (pw : list (nat * nat)) : list nat := zip_with (fun s p => s + fst p + snd p) sh pw.
(* is the position inside the copied region ... *)
Fixpoint in_region (sh : list nat) (pw : list (nat * nat)) (idx : list nat) : bool :=
  match sh, pw, idx with
  | s :: sh', p :: pw', i :: idx' => (fst p <=? i) && (i <? fst p + s) && in_region sh' pw' idx'
  | _, _, _ => true
  end.
(* ... where it comes from ... *)
Fixpoint shifted_back (pw : list (nat * nat)) (idx : list nat) : list nat :=
  match pw, idx with
  | p :: pw', i :: idx' => (i - fst p) :: shifted_back pw' idx'
  | _, _ => []
  end.
(* ... and the nearest position inside the array *)
Fixpoint clamped (sh : list nat) (pw : list (nat * nat)) (idx : list nat) : list nat :=
  match sh, pw, idx with
  | s :: sh', p :: pw', i :: idx' =>
      Z.to_nat (Z.max 0 (Z.min (Z.of_nat s - 1) (Z.of_nat i - Z.of_nat (fst p)))) :: clamped sh' pw' idx'
  | _, _, _ => []
  end.

(* numpy's position of insert: negative positions count from the end *)
Definition np_insert_pos (n : nat) (i : Z) : Z := if (i <? 0)%Z then (Z.of_nat n + i)%Z else i.
