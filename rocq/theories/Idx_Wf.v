(* Guards used by the theorems about subscripts. *)
From Verif Require Import Base Arr_Spec Arr_Model Arr_Wf Idx_Spec Idx_Model.
Local Open Scope Z_scope.

(* axis lengths are representable as isize *)
Definition dims_fit (sh : list nat) : Prop := Forall (fun s => Z.of_nat s <= isize_max) sh.

(* the slices of an index tuple that the code interprets as Python does: with a
   positive step everything except start > isize::MAX and stop < isize::MIN; with
   a negative step only a non-empty axis, a start inside it (or absent) and a
   stop below isize::MAX *)
Definition opt_all (P : Z -> bool) (o : option Z) : bool :=
  match o with Some z => P z | None => true end.
Definition slice_ok (b e : option Z) (st : Z) (s : nat) : bool :=
  fits_isize st && negb (st =? 0) &&
  (if st >? 0
   then opt_all (fun z => z <=? isize_max) b && opt_all (fun z => isize_min <=? z) e
   else Nat.ltb 0 s
        && opt_all (fun z => (- Z.of_nat s <=? z) && (z <? Z.of_nat s)) b
        && opt_all (fun z => z <? isize_max) e).
Fixpoint subs_ok (ks : list subscript) (sh : list nat) : bool :=
  match ks, sh with
  | [], _ => true
  | SNew :: ks', _ => subs_ok ks' sh
  | SInt i :: ks', _ :: sh' => fits_isize i && subs_ok ks' sh'
  | SSlice b e st :: ks', s :: sh' => slice_ok b e st s && subs_ok ks' sh'
  | _, _ => true
  end.
(* assignment: only a zero step or a non-isize integer is special *)
Definition set_sub_ok (k : subscript) : bool :=
  match k with
  | SInt i => fits_isize i
  | SSlice _ _ st => negb (st =? 0)
  | _ => false
  end.

(* byte address of an element *)
Definition addr (a : arr) (idx : list nat) : Z := a_off a + byte_offset_for a idx.

(* distinct indices address distinct cells *)
Definition injective (a : arr) : Prop :=
  forall i j, inb i (a_shape a) -> inb j (a_shape a) -> addr a i = addr a j -> i = j.

(* no cell of dst is read through src after it was written, when both are walked
   in row-major order *)
Definition no_late_read (dst src : arr) : Prop :=
  forall i j, inb i (a_shape dst) -> inb j (a_shape dst) ->
    (rm_rank (a_shape dst) i < rm_rank (a_shape dst) j)%nat -> addr dst i <> addr src j.
