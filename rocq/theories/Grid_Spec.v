(* Coordinate grids and diagonals, in terms of index tuples only. *)
From Verif Require Import Base Arr_Spec.

(* the shape with length len on axis d and 1 on the other n - 1 axes *)
Definition only_axis (n d len : nat) : list nat := map (fun k => if k =? d then len else 1) (seq 0 n).

(* the axis of the result along which input d of meshgrid varies: input d itself
   with indexing="ij"; with the Cartesian "xy" the first two are exchanged *)
Definition mesh_axis (xy : bool) (n d : nat) : nat :=
  if xy && (1 <? n) then (if d =? 0 then 1 else if d =? 1 then 0 else d) else d.

(* l lists the index tuples of an array of shape sh, in row-major order, once each *)
Definition lists_indices (sh : list nat) (l : list (list nat)) : Prop :=
  forall k idx, nth_error l k = Some idx <-> inb idx sh /\ rm_rank sh idx = k.

(* the position of an element of a two-dimensional array with ncols columns that
   belongs to the (possibly wrapped) main diagonal, and which entry of the
   diagonal it is: the positions ncols+1 apart in row-major order, up to row
   ncols unless wrapping *)
Definition diag_pos (wrap : bool) (ncols i j t : nat) : Prop :=
  i * ncols + j = t * (ncols + 1) /\ (wrap = false -> t < ncols).
