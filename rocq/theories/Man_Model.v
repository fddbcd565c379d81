(* src/array/manipulation.rs: concatenate, stack, split, array_split, tri, tril,
   triu, diagflat, repeat, tile, append, insert, delete, pad, roll, rot90; and
   src/ops/indexing.rs: tril_indices, triu_indices.
   Loops that write item idx of a new buffer are modelled as the list of
   (position, value) writes in the order of the loop, replayed by write_all. *)
From Verif Require Import Base Arr_Spec Arr_Model Copy_Model Idx_Model Int_Model F64_Model Elem_Model Red_Model.
Local Open Scope nat_scope.

(* isize arithmetic (release build: wrapping) *)
Definition wrap_isize (z : Z) : Z := to_isize (wrap_usize z).

(* "if ax < 0 { (ndim as isize + ax) as usize } else { ax as usize }" followed by
   the test axis >= ndim (a negative value cast to usize is huge) *)
Definition norm_axis (nd : nat) (ax : Z) : option nat :=
  let ax' := if (ax <? 0)%Z then (Z.of_nat nd + ax)%Z else ax in
  if ((ax' <? 0) || (Z.of_nat nd <=? ax'))%Z then None else Some (Z.to_nat ax').

Section Man.
Context {V : Type}.
Variable zero : V.          (* the zero byte pattern of RumpyArray::zeros *)

(* an array with its buffer *)
Definition nd : Type := (list V * arr)%type.

(* An operand of concatenate: the array part, and what copy_element reads at an
   absolute byte address of its buffer with the RESULT's item type.  For an
   operand of the result's own dtype this is [operand_of]. *)
Record operand := mkOp { o_arr : arr; o_read : Z -> option V }.
Definition operand_of (x : nd) : operand := mkOp (snd x) (load (fst x) (a_item (snd x))).

(* manipulation.rs:26-31: equal lengths off the concatenation axis *)
Fixpoint agree_from (i axis : nat) (sh sh' : list nat) : bool :=
  match sh, sh' with
  | x :: t, y :: t' => ((i =? axis) || (x =? y)) && agree_from (S i) axis t t'
  | _, _ => true
  end.

(* manipulation.rs:53-75: copy loop of one operand after the other *)
Fixpoint concat_writes (out_sh : list nat) (axis : nat) (l : list operand) (axis_offset : nat)
  : res (list (nat * V)) :=
  match l with
  | [] => Ok []
  | o :: l' =>
      let a := o_arr o in
      bind (mapM (fun si =>
              bind (of_load (o_read o (a_off a + byte_offset_for a si)%Z)) (fun v =>
              Ok (flat_idx (upd si axis (nth axis si 0 + axis_offset)) out_sh, v)))
            (odometer (size a) (repeat 0 (ndim a)) (a_shape a))) (fun ws =>
      bind (concat_writes out_sh axis l' (axis_offset + nth axis (a_shape a) 0)) (fun ws' =>
      Ok (ws ++ ws')))
  end.

(* manipulation.rs:10-78 concatenate: shape and buffer of the result *)
Definition concatenate (l : list operand) (axis : nat) : res (list nat * list V) :=
  match l with
  | [] => Err
  | first :: rest =>
      let n := ndim (o_arr first) in
      if n <=? axis then Err
      else if negb (forallb (fun o => (ndim (o_arr o) =? n) &&
                                      agree_from 0 axis (a_shape (o_arr first)) (a_shape (o_arr o))) rest)
      then Err
      else
        let out_sh := upd (a_shape (o_arr first)) axis
                          (fold_left Nat.add (map (fun o => nth axis (a_shape (o_arr o)) 0) l) 0) in
        if prod out_sh =? 0 then Ok (out_sh, [])
        else bind (concat_writes out_sh axis l 0) (fun ws =>
             bind (write_all ws (repeat zero (prod out_sh))) (fun out => Ok (out_sh, out)))
  end.

(* manipulation.rs:82-112 stack *)
Definition stack (l : list operand) (axis : nat) : res (list nat * list V) :=
  match l with
  | [] => Err
  | first :: rest =>
      if ndim (o_arr first) <? axis then Err
      else if negb (forallb (fun o => if list_eq_dec Nat.eq_dec (a_shape (o_arr o)) (a_shape (o_arr first))
                                      then true else false) rest)
      then Err
      else bind (mapM (fun o => bind (expand_dims (o_arr o) axis) (fun a => Ok (mkOp a (o_read o)))) l)
                (fun l' => concatenate l' axis)
  end.

(* manipulation.rs:151-162 split_into_sizes *)
Fixpoint split_into_sizes (a : arr) (axis : nat) (start : Z) (sizes : list nat) : res (list arr) :=
  match sizes with
  | [] => Ok []
  | s :: sizes' =>
      bind (slice_axis a axis start (start + Z.of_nat s) 1) (fun sec =>
      bind (split_into_sizes a axis (start + Z.of_nat s) sizes') (fun r => Ok (sec :: r)))
  end.
(* manipulation.rs:116-128 split *)
Definition split (a : arr) (k axis : nat) : res (list arr) :=
  if (k =? 0) || (ndim a <=? axis) then Err
  else let n := nth axis (a_shape a) 0 in
       if negb (n mod k =? 0) then Err
       else split_into_sizes a axis 0 (repeat (n / k) k).
(* manipulation.rs:132-147 array_split *)
Definition array_split (a : arr) (k axis : nat) : res (list arr) :=
  if (k =? 0) || (ndim a <=? axis) then Err
  else let n := nth axis (a_shape a) 0 in
       split_into_sizes a axis 0 (map (fun i => if i <? n mod k then n / k + 1 else n / k) (seq 0 k)).

(* manipulation.rs:533-553 tri *)
Definition tri (one : V) (n m : nat) (k : Z) : res (list nat * list V) :=
  bind (write_all (flat_map (fun i => flat_map (fun j =>
                     if (Z.of_nat j <=? wrap_isize (Z.of_nat i + k))%Z then [(i * m + j, one)] else [])
                   (seq 0 m)) (seq 0 n)) (repeat zero (n * m)))
       (fun out => Ok ([n; m], out)).

(* manipulation.rs:578-586: the columns copied from row i of a contiguous source *)
Definition tri_cols (lower : bool) (m i : nat) (k : Z) : nat * nat :=
  if lower then (0, Nat.min (Z.to_nat (Z.max (wrap_isize (wrap_isize (Z.of_nat i + k) + 1)) 0)) m)
  else (Nat.min (Z.to_nat (Z.max (wrap_isize (Z.of_nat i + k)) 0)) m, m).
(* manipulation.rs:556-618 extract_triangle; tril: lower = true, triu: lower = false *)
Definition extract_triangle (buf : list V) (a : arr) (k : Z) (lower : bool) : res (list nat * list V) :=
  match a_shape a with
  | [n; m] =>
      if (n =? 0) || (m =? 0) then Ok ([n; m], [])
      else
        bind
          (if a_c a then
             bind (mapM (fun i => let '(s, e) := tri_cols lower m i k in
                     mapM (fun c => bind (read buf a (Z.of_nat (i * m + c) * a_item a)%Z) (fun v =>
                                    Ok (i * m + c, v))) (seq s (e - s))) (seq 0 n))
                  (fun rows => Ok (concat rows))
           else
             bind (mapM (fun i => mapM (fun j =>
                     if (if lower then Z.of_nat j <=? wrap_isize (Z.of_nat i + k)
                         else wrap_isize (Z.of_nat i + k) <=? Z.of_nat j)%Z
                     then bind (read buf a (byte_offset_for a [i; j])) (fun v => Ok [(i * m + j, v)])
                     else Ok []) (seq 0 m)) (seq 0 n))
                  (fun rows => Ok (concat (concat rows))))
          (fun ws => bind (write_all ws (repeat zero (n * m))) (fun out => Ok ([n; m], out)))
  | _ => Err
  end.

(* manipulation.rs:632-657 diagflat *)
Definition diagflat (buf : list V) (a : arr) (k : Z) : res (list nat * list V) :=
  let n := size a + Z.abs_nat k in
  bind (mapM (fun p => bind (read buf a (snd p)) (fun v =>
          let i := fst p in
          let '(row, col) := if (0 <=? k)%Z then (i, i + Z.to_nat k) else (i + Z.to_nat (- k), i) in
          Ok (row * n + col, v)))
        (combine (seq 0 (size a)) (iter_offsets a))) (fun ws =>
  bind (write_all ws (repeat zero (n * n))) (fun out => Ok ([n; n], out))).

(* Values that travel through read_f64(..).unwrap_or(0.0) / write_f64 *)
Variable via : V -> V.

(* manipulation.rs:911-986 repeat *)
Definition repeat_arr (buf : list V) (a : arr) (r : nat) (axis : option Z) : res (list nat * list V) :=
  if r =? 0 then Ok ([0], [])
  else match axis with
  | None =>
      bind (mapM (read buf a) (iter_offsets a)) (fun vs =>
      Ok ([size a * r], flat_map (fun v => repeat (via v) r) vs))
  | Some ax =>
      match norm_axis (ndim a) ax with
      | None => Err
      | Some axis =>
          let new_sh := upd (a_shape a) axis (nth axis (a_shape a) 0 * r) in
          bind (mapM (fun si => bind (read buf a (byte_offset_for a si)) (fun v =>
                  Ok (map (fun q => (flat_idx (upd si axis (nth axis si 0 * r + q)) new_sh, via v)) (seq 0 r))))
                (odometer (size a) (repeat 0 (ndim a)) (a_shape a))) (fun ws =>
          bind (write_all (concat ws) (repeat zero (prod new_sh))) (fun out => Ok (new_sh, out)))
      end
  end.

(* manipulation.rs:1001-1011: left-pad with ones *)
Definition pad_left (n : nat) (l : list nat) : list nat := repeat 1 (n - length l) ++ l.
(* manipulation.rs:989-1077 tile.  [typed]: see copy_buf *)
Definition tile (typed : bool) (buf : list V) (a : arr) (reps : list nat) : res (list nat * list V) :=
  if (match reps with [] => true | _ => false end) || forallb (fun r => r =? 1) reps
  then bind (copy_buf buf a typed) (fun b => Ok (a_shape a, b))
  else
    let d := Nat.max (ndim a) (length reps) in
    let full_reps := pad_left d reps in
    let padded := pad_left d (a_shape a) in
    let new_sh := zip_with Nat.mul padded full_reps in
    if (ndim a =? 1) && (length reps =? 1) && a_c a then
      bind (read_run buf a 0 (a_item a) (size a)) (fun vs =>
      Ok (new_sh, concat (repeat vs (nth 0 reps 0))))
    else
      bind (mapM (fun di =>
              let si := skipn (d - ndim a) (zip_with Nat.modulo di padded) in
              bind (read buf a (byte_offset_for a si)) (fun v => Ok (flat_idx di new_sh, via v)))
            (odometer (prod new_sh) (repeat 0 d) new_sh)) (fun ws =>
      bind (write_all ws (repeat zero (prod new_sh))) (fun out => Ok (new_sh, out))).

(* manipulation.rs:1080-1087 ravel_arr: a one-dimensional view, or a copy made
   one-dimensional when reshape answers None *)
Definition ravel_arr (typed : bool) (x : nd) : res nd :=
  match reshape (snd x) [size (snd x)] with
  | Ok v => Ok (fst x, v)
  | _ => bind (copy_buf (fst x) (snd x) typed) (fun b =>
         match reshape (fresh (a_shape (snd x)) (a_item (snd x))) [size (snd x)] with
         | Ok v => Ok (b, v)
         | _ => Panic
         end)
  end.
(* RumpyArray::zeros(vec![0], dtype) *)
Definition empty_nd (item : Z) : nd := ([], fresh [0] item).
Definition slice_nd (x : nd) (axis : nat) (start stop : Z) : res nd :=
  bind (slice_axis (snd x) axis start stop 1) (fun a => Ok (fst x, a)).
Definition concat_nd (l : list nd) (axis : nat) : res (list nat * list V) :=
  concatenate (map operand_of l) axis.

(* manipulation.rs:1091-1105 append *)
Definition append (typed : bool) (x v : nd) (axis : option Z) : res (list nat * list V) :=
  match axis with
  | None => bind (ravel_arr typed x) (fun fx => bind (ravel_arr typed v) (fun fv => concat_nd [fx; fv] 0))
  | Some ax => match norm_axis (ndim (snd x)) ax with
               | Some axis => concat_nd [x; v] axis
               | None => Err
               end
  end.

(* manipulation.rs:1115-1116, 1131-1132 *)
Definition insert_pos (n : nat) (index : Z) : nat :=
  Nat.min (Z.to_nat (if (index <? 0)%Z then Z.max (Z.of_nat n + index + 1) 0 else index)) n.
(* manipulation.rs:1109-1147 insert *)
Definition insert (typed : bool) (x : nd) (index : Z) (v : nd) (axis : option Z) : res (list nat * list V) :=
  match axis with
  | None =>
      bind (ravel_arr typed x) (fun flat =>
      let n := size (snd flat) in
      let idx := insert_pos n index in
      bind (if 0 <? idx then slice_nd flat 0 0 (Z.of_nat idx) else Ok (empty_nd (a_item (snd x)))) (fun before =>
      bind (if idx <? n then slice_nd flat 0 (Z.of_nat idx) (Z.of_nat n) else Ok (empty_nd (a_item (snd x)))) (fun after =>
      bind (ravel_arr typed v) (fun fv => concat_nd [before; fv; after] 0))))
  | Some ax =>
      match norm_axis (ndim (snd x)) ax with
      | None => Err
      | Some axis =>
          let n := nth axis (a_shape (snd x)) 0 in
          let idx := insert_pos n index in
          bind (slice_nd x axis 0 (Z.of_nat idx)) (fun before =>
          bind (slice_nd x axis (Z.of_nat idx) (Z.of_nat n)) (fun after =>
          if n =? 0 then Panic (* arr.size() / axis_len *)
          else
            let vsh := upd (a_shape (snd x)) axis (size (snd v) / Nat.max (size (snd x) / n) 1) in
            let vals := match reshape (snd v) vsh with Ok a => (fst v, a) | _ => v end in
            concat_nd [before; vals; after] axis))
      end
  end.

(* manipulation.rs:1159-1162, 1177-1180: None = nothing to delete *)
Definition delete_pos (n : nat) (index : Z) : option nat :=
  if n =? 0 then None
  else let idx := Z.to_nat (if (index <? 0)%Z then Z.max (Z.of_nat n + index) 0 else index) in
       if n <=? idx then None else Some idx.
(* what the caller gets when the array itself is returned (a view of x) *)
Definition as_result (x : nd) : res (list nat * list V) :=
  bind (mapM (read (fst x) (snd x)) (iter_offsets (snd x))) (fun vs => Ok (a_shape (snd x), vs)).
(* manipulation.rs:1151-1191 delete.  When nothing is deleted the array is
   returned as it is; the model lists its elements (as_result). *)
Definition delete (typed : bool) (x : nd) (index : Z) (axis : option Z) : res (list nat * list V) :=
  match axis with
  | None =>
      bind (ravel_arr typed x) (fun flat =>
      let n := size (snd flat) in
      match delete_pos n index with
      | None => as_result flat
      | Some idx =>
          bind (if 0 <? idx then slice_nd flat 0 0 (Z.of_nat idx) else Ok (empty_nd (a_item (snd x)))) (fun before =>
          bind (if idx + 1 <? n then slice_nd flat 0 (Z.of_nat (idx + 1)) (Z.of_nat n)
                else Ok (empty_nd (a_item (snd x)))) (fun after =>
          concat_nd [before; after] 0))
      end)
  | Some ax =>
      match norm_axis (ndim (snd x)) ax with
      | None => Err
      | Some axis =>
          let n := nth axis (a_shape (snd x)) 0 in
          match delete_pos n index with
          | None => as_result x
          | Some idx =>
              bind (slice_nd x axis 0 (Z.of_nat idx)) (fun before =>
              bind (slice_nd x axis (Z.of_nat (idx + 1)) (Z.of_nat n)) (fun after =>
              concat_nd [before; after] axis))
          end
      end
  end.

(* manipulation.rs:1195-1250 pad, 1253-1283 copy_region.  [cval]: the padding
   value as written by RumpyArray::full *)
Inductive pad_mode := PadConstant (cval : V) | PadEdge | PadOther.
Definition edge_src (di b s : nat) : nat :=
  if di <? b then 0 else if b + s <=? di then s - 1 else di - b.
Definition pad (buf : list V) (a : arr) (pw : list (nat * nat)) (mode : pad_mode) : res (list nat * list V) :=
  if negb (length pw =? ndim a) then Err
  else
    let new_sh := zip_with (fun s p => s + fst p + snd p) (a_shape a) pw in
    match mode with
    | PadConstant cval =>
        bind (mapM (fun si => bind (read buf a (byte_offset_for a si)) (fun v =>
                Ok (flat_idx (zip_with (fun i p => i + fst p) si pw) new_sh, via v)))
              (odometer (size a) (repeat 0 (ndim a)) (a_shape a))) (fun ws =>
        bind (write_all ws (repeat cval (prod new_sh))) (fun out => Ok (new_sh, out)))
    | PadEdge =>
        bind (mapM (fun di =>
                let si := zip_with (fun x s => edge_src (fst x) (snd x) s)
                                   (combine di (map fst pw)) (a_shape a) in
                bind (read buf a (byte_offset_for a si)) (fun v => Ok (flat_idx di new_sh, via v)))
              (odometer (prod new_sh) (repeat 0 (ndim a)) new_sh)) (fun ws =>
        bind (write_all ws (repeat zero (prod new_sh))) (fun out => Ok (new_sh, out)))
    | PadOther => Err
    end.

(* manipulation.rs:1299, 1346: ((shift % n) + n) as usize % n *)
Definition norm_shift (shift : Z) (n : nat) : nat := Z.to_nat (Z.rem shift (Z.of_nat n) + Z.of_nat n) mod n.
(* manipulation.rs:1287-1382 roll *)
Definition roll (typed : bool) (buf : list V) (a : arr) (shift : Z) (axis : option Z) : res (list nat * list V) :=
  let copy := bind (copy_buf buf a typed) (fun b => Ok (a_shape a, b)) in
  match axis with
  | None =>
      bind (ravel_arr typed (buf, a)) (fun flat =>
      let n := size (snd flat) in
      if n =? 0 then copy
      else
        let s := norm_shift shift n in
        if s =? 0 then copy
        else
          let fa := snd flat in
          bind (read_run (fst flat) fa (Z.of_nat (n - s) * a_item fa) (a_item fa) s) (fun part1 =>
          bind (read_run (fst flat) fa 0 (a_item fa) (n - s)) (fun part2 =>
          Ok (a_shape a, part1 ++ part2))))
  | Some ax =>
      match norm_axis (ndim a) ax with
      | None => copy
      | Some axis =>
          let n := nth axis (a_shape a) 0 in
          if n =? 0 then copy
          else
            let s := norm_shift shift n in
            if s =? 0 then copy
            else
              bind (mapM (fun di =>
                      bind (read buf a (byte_offset_for a (upd di axis ((nth axis di 0 + n - s) mod n)))) (fun v =>
                      Ok (flat_idx di (a_shape a), via v)))
                    (odometer (size a) (repeat 0 (ndim a)) (a_shape a))) (fun ws =>
              bind (write_all ws (repeat zero (size a))) (fun out => Ok (a_shape a, out)))
      end
  end.
End Man.

(* ops/indexing.rs:823-870 tril_indices, triu_indices: the two index lists,
   each stored through from_vec (f64) as int64 *)
Definition int64_t : ity := mkIty 64 true.
Definition tril_indices (n : nat) (k : Z) (m : nat) : list Z * list Z :=
  let pos := flat_map (fun i =>
      let max_col := Z.to_nat (Z.max (Z.min (wrap_isize (wrap_isize (Z.of_nat i + k) + 1)) (Z.of_nat m)) 0) in
      map (fun j => (i, j)) (seq 0 max_col)) (seq 0 n) in
  (map (fun p => through_f64 int64_t (Z.of_nat (fst p))) pos, map (fun p => through_f64 int64_t (Z.of_nat (snd p))) pos).
Definition triu_indices (n : nat) (k : Z) (m : nat) : list Z * list Z :=
  let pos := flat_map (fun i =>
      let start := Z.to_nat (Z.max (wrap_isize (Z.of_nat i + k)) 0) in
      map (fun j => (i, j)) (seq start (m - start))) (seq 0 n) in
  (map (fun p => through_f64 int64_t (Z.of_nat (fst p))) pos, map (fun p => through_f64 int64_t (Z.of_nat (snd p))) pos).

(* manipulation.rs:1386-1413 rot90 (a view).  k = ((k % 4) + 4) as usize % 4;
   axes.swap panics when out of range *)
Definition unwrap {A} (r : res A) : res A := match r with Err => Panic | _ => r end.
Definition rot90 (a : arr) (k : Z) (axis0 axis1 : nat) : res arr :=
  if negb ((axis0 <? ndim a) && (axis1 <? ndim a)) then Panic
  else
    let axes := swap_axes_list (ndim a) axis0 axis1 in
    match norm_shift k 4 with
    | 0 => Ok a
    | 1 => bind (unwrap (flip a axis1)) (fun f => transpose_axes f axes)
    | 2 => bind (unwrap (flip a axis0)) (fun f => unwrap (flip f axis1))
    | 3 => bind (unwrap (flip a axis0)) (fun f => transpose_axes f axes)
    | _ => Panic
    end.
