(* src/ops/indexing.rs: unravel_index, ravel_multi_index; src/python/indexing.rs:
   the reading of an index array.  Lengths are usize (wrapping products), indices
   i64.  Overflow wraps, as in a release build. *)
From Verif Require Import Base Arr_Spec Arr_Model Idx_Model Int_Model Copy_Model Red_Model.
Local Open Scope Z_scope.

(* indexing.rs:669 shape.iter().product() *)
Definition usize_product (sh : list Z) : Z := fold_left (fun p d => wrap_usize (p * d)) sh 1.

(* indexing.rs:697-702, 762-767: C-order strides, filled from the back *)
Fixpoint c_str (sh : list Z) : list Z :=
  match sh with
  | [] => []
  | _ :: sh' =>
      let rest := c_str sh' in
      match rest with
      | [] => 1
      | s :: _ => wrap_usize (s * hd 1 sh')
      end :: rest
  end.
(* indexing.rs:690-695, 755-760: F-order strides *)
Fixpoint f_str (s : Z) (sh : list Z) : list Z :=
  match sh with [] => [] | d :: sh' => s :: f_str (wrap_usize (s * d)) sh' end.

(* indexing.rs:722-727: C order, division by the strides *)
Fixpoint unravel_c (rem : Z) (strides : list Z) : res (list Z) :=
  match strides with
  | [] => Ok []
  | s :: st => if s =? 0 then Panic else bind (unravel_c (rem mod s) st) (fun r => Ok (rem / s :: r))
  end.
(* indexing.rs:715-720: F order, division by the lengths *)
Fixpoint unravel_f (rem : Z) (sh : list Z) : res (list Z) :=
  match sh with
  | [] => Ok []
  | d :: sh' => if d =? 0 then Panic else bind (unravel_f (rem / d) sh') (fun r => Ok (rem mod d :: r))
  end.

(* indexing.rs:667-731.  The result is one column per dimension.  With no
   dimensions "0..ndim - 1" underflows and the first access panics. *)
Definition unravel_index (indices : list Z) (sh : list Z) (fortran : bool) : res (list (list Z)) :=
  if existsb (fun k => usize_product sh <=? wrap_usize k) indices then Err
  else if negb fortran && (length sh =? 0)%nat then Panic
  else bind (mapM (fun k => if fortran then unravel_f (wrap_usize k) sh else unravel_c (wrap_usize k) (c_str sh)) indices) (fun rows =>
       Ok (map (fun d => map (fun r => wrap_isize (nth d r 0)) rows) (seq 0 (length sh)))).

Inductive rmode := Clip | Wrap | Raise.

(* indexing.rs:779-798 one coordinate *)
Definition adjust (m : rmode) (i d : Z) : res Z :=
  let dim := wrap_isize d in
  match m with
  | Clip => if dim - 1 <? 0 then Panic (* clamp: min > max *) else Ok (Z.max 0 (Z.min i (dim - 1)))
  | Wrap => if dim =? 0 then Panic (* rem_euclid by zero *) else Ok (i mod Z.abs dim)
  | Raise => if (i <? 0) || (dim <=? i) then Err else Ok i
  end.
(* indexing.rs:775-800 one tuple *)
Fixpoint ravel_one (m : rmode) (flat : Z) (idx sh strides : list Z) : res Z :=
  match idx, sh, strides with
  | i :: idx', d :: sh', s :: st =>
      bind (adjust m i d) (fun i' => ravel_one m (wrap_isize (flat + wrap_isize (i' * wrap_isize s))) idx' sh' st)
  | _, _, _ => Ok flat
  end.
(* indexing.rs:734-805 *)
Definition ravel_multi_index (cols : list (list Z)) (sh : list Z) (m : rmode) (fortran : bool) : res (list Z) :=
  if negb (length cols =? length sh)%nat then Err
  else match cols with
       | [] => Panic (* multi_index[0] *)
       | c0 :: _ =>
           let n := length c0 in
           if negb (forallb (fun c => length c =? n)%nat cols) then Err
           else let strides := if fortran then f_str 1 sh else c_str sh in
                mapM (fun i => ravel_one m 0 (map (fun c => nth i c 0) cols) sh strides) (seq 0 n)
       end.

(* python/indexing.rs:388-394: an index array is read at i * itemsize *)
Definition index_array (ibuf : list Z) (ia : arr) : res (list Z) :=
  mapM (fun i => read ibuf ia (Z.of_nat i * a_item ia)) (seq 0 (size ia)).
