(* Specification of subscripts: Python slice semantics, what a[k0, k1, ...]
   selects, what x[dst] = x[src] stores. *)
From Verif Require Import Base Arr_Spec.
Local Open Scope Z_scope.

(* CPython's slice.indices(len) for a non-zero step (PySlice_AdjustIndices) *)
Definition py_clamp (lower upper len : Z) (v : Z) : Z :=
  if v <? 0 then Z.max (v + len) lower else Z.min v upper.
Definition py_indices (start stop : option Z) (step len : Z) : Z * Z :=
  let lower := if step <? 0 then -1 else 0 in
  let upper := if step <? 0 then len - 1 else len in
  (match start with None => if step <? 0 then upper else lower | Some v => py_clamp lower upper len v end,
   match stop with None => if step <? 0 then lower else upper | Some v => py_clamp lower upper len v end).

(* number of positions of range(start, stop, step) *)
Definition py_count (start stop step : Z) : nat :=
  Z.to_nat (if step >? 0 then (stop - start + step - 1) / step
            else (start - stop - step - 1) / (- step)).

(* one subscript of a tuple *)
Inductive subscript :=
| SNew                                             (* None / newaxis *)
| SInt (i : Z)
| SSlice (start stop : option Z) (step : Z)
| SEllipsis.

(* shape selected by a tuple of subscripts without ellipsis; None = IndexError *)
Fixpoint sel_shape (ks : list subscript) (sh : list nat) : option (list nat) :=
  match ks, sh with
  | [], _ => Some sh
  | SNew :: ks', _ => option_map (cons 1%nat) (sel_shape ks' sh)
  | SInt i :: ks', s :: sh' =>
      if (- Z.of_nat s <=? i) && (i <? Z.of_nat s) then sel_shape ks' sh' else None
  | SSlice b e st :: ks', s :: sh' =>
      let '(b', e') := py_indices b e st (Z.of_nat s) in
      option_map (cons (py_count b' e' st)) (sel_shape ks' sh')
  | _, _ => None
  end.

(* source index of element idx of the selection *)
Fixpoint sel_src (ks : list subscript) (sh idx : list nat) : list nat :=
  match ks, sh with
  | [], _ => idx
  | SNew :: ks', _ => sel_src ks' sh (tl idx)
  | SInt i :: ks', s :: sh' =>
      Z.to_nat (if i <? 0 then i + Z.of_nat s else i) :: sel_src ks' sh' idx
  | SSlice b e st :: ks', s :: sh' =>
      let '(b', e') := py_indices b e st (Z.of_nat s) in
      Z.to_nat (b' + Z.of_nat (hd 0%nat idx) * st) :: sel_src ks' sh' (tl idx)
  | _, _ => []
  end.

(* an ellipsis stands for as many full slices as needed to index every axis *)
Definition consumes (k : subscript) : bool :=
  match k with SInt _ => true | SSlice _ _ _ => true | _ => false end.
Definition full_slice : subscript := SSlice None None 1.
Definition is_ellipsis (k : subscript) : bool := match k with SEllipsis => true | _ => false end.
Definition ellipsis_free (ks : list subscript) : bool := forallb (fun k => negb (is_ellipsis k)) ks.

(* the same tuple with the ellipsis written out, for an array of rank nd *)
Definition written_out (nd : nat) (ks : list subscript) : list subscript :=
  flat_map (fun k => match k with
                     | SEllipsis => repeat full_slice (nd - length (filter consumes ks))
                     | _ => [k]
                     end) ks.

(* assignment keeps integer axes with length 1 *)
Fixpoint set_shape (ks : list subscript) (sh : list nat) : option (list nat) :=
  match ks, sh with
  | [], _ => Some sh
  | SInt i :: ks', s :: sh' =>
      if (- Z.of_nat s <=? i) && (i <? Z.of_nat s)
      then option_map (cons 1%nat) (set_shape ks' sh') else None
  | SSlice b e st :: ks', s :: sh' =>
      let '(b', e') := py_indices b e st (Z.of_nat s) in
      option_map (cons (py_count b' e' st)) (set_shape ks' sh')
  | _, _ => None
  end.
Fixpoint set_src (ks : list subscript) (sh idx : list nat) : list nat :=
  match ks, sh with
  | [], _ => idx
  | SInt i :: ks', s :: sh' =>
      Z.to_nat (if i <? 0 then i + Z.of_nat s else i) :: set_src ks' sh' (tl idx)
  | SSlice b e st :: ks', s :: sh' =>
      let '(b', e') := py_indices b e st (Z.of_nat s) in
      Z.to_nat (b' + Z.of_nat (hd 0%nat idx) * st) :: set_src ks' sh' (tl idx)
  | _, _ => []
  end.
