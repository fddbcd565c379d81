(* src/ops/indexing.rs: take, take_along_axis, compress, argwhere, flatnonzero,
   put, put_along_axis, choose; src/array/mod.rs: select_by_mask,
   select_by_indices; src/ops/mod.rs: nonzero.
   Index arrays are given by a buffer of the values read_i64 yields (integer
   dtypes: "as i64"); masks by a buffer of truth values.  read_i64 answers None
   only for dtypes without integer reading (unwrap_or(0)), which is not modelled. *)
From Verif Require Import Base Arr_Spec Arr_Model Copy_Model Idx_Model Int_Model F64_Model Red_Model.
Local Open Scope nat_scope.

(* indexing.rs:8-15 normalize_index *)
Definition norm_index (i : Z) (n : nat) : option nat :=
  let k := normalize_index i n in
  if (k <? Z.of_nat n)%Z then Some (Z.to_nat k) else None.
Definition of_opt {A} (o : option A) : res A := match o with Some x => Ok x | None => Err end.

Section Sel.
Context {V : Type}.
Variable zero : V.          (* the zero byte pattern of RumpyArray::zeros *)

(* indexing.rs:39-43: the index values, in row-major order of the index array *)
Definition index_values (ibuf : list Z) (ia : arr) (n : nat) : res (list nat) :=
  mapM (fun o => bind (read ibuf ia o) (fun i => of_opt (norm_index i n))) (iter_offsets ia).

(* indexing.rs:61-79 take_1d_contiguous *)
Definition take_1d (buf : list V) (a : arr) (idxs : list nat) : res (list V) :=
  mapM (fun i => read buf a (Z.of_nat i * a_item a)%Z) idxs.

(* indexing.rs:82-102 take_axis0_contiguous: copies strides[0] bytes per index.
   Byte counts that are not a whole number of items, or negative (cast to a huge
   usize), are answered with Fault. *)
Definition take_axis0 (buf : list V) (a : arr) (idxs : list nat) (osh : list nat) : res (list V) :=
  let row_bytes := nth 0 (a_strides a) 0%Z in
  if ((row_bytes <? 0) || negb (row_bytes mod a_item a =? 0))%Z then Fault
  else
    let r := Z.to_nat (row_bytes / a_item a) in
    bind (mapM (fun p => mapM (fun j =>
            bind (read buf a (Z.of_nat (snd p) * row_bytes + Z.of_nat j * a_item a)%Z) (fun v =>
            Ok (fst p * r + j, v))) (seq 0 r)) (combine (seq 0 (length idxs)) idxs)) (fun rows =>
    write_all (concat rows) (repeat zero (prod osh))).

(* indexing.rs:105-146 take_general, also the loop of compress_axis 318-337 *)
Definition take_general (buf : list V) (a : arr) (idxs : list nat) (axis : nat) (osh : list nat) : res (list V) :=
  mapM (fun oi => match nth_error idxs (nth axis oi 0) with
                  | Some i => read buf a (byte_offset_for a (upd oi axis i))
                  | None => Panic
                  end)
       (odometer (prod osh) (repeat 0 (ndim a)) osh).

(* indexing.rs:18-58 take *)
Definition take (buf : list V) (a : arr) (ibuf : list Z) (ia : arr) (axis : option nat) : res (list nat * list V) :=
  let axis := match axis with Some x => x | None => 0 end in
  if ndim a <=? axis then Err
  else
    let osh := upd (a_shape a) axis (size ia) in
    if size ia =? 0 then Ok (osh, repeat zero (prod osh))
    else bind (index_values ibuf ia (nth axis (a_shape a) 0)) (fun idxs =>
         bind (if (ndim a =? 1) && a_c a then take_1d buf a idxs
               else if (axis =? 0) && a_c a then take_axis0 buf a idxs osh
               else take_general buf a idxs axis osh)
              (fun out => Ok (osh, out))).

(* indexing.rs:155-159, 534-538: equal lengths off the axis *)
Fixpoint match_off (i axis : nat) (sh sh' : list nat) : bool :=
  match sh, sh' with
  | x :: t, y :: t' => ((i =? axis) || (x =? y)) && match_off (S i) axis t t'
  | _, _ => true
  end.

(* indexing.rs:149-218 take_along_axis *)
Definition take_along_axis (buf : list V) (a : arr) (ibuf : list Z) (ia : arr) (axis : nat) : res (list nat * list V) :=
  if (ndim a <=? axis) || negb (ndim ia =? ndim a) then Err
  else if negb (match_off 0 axis (a_shape a) (a_shape ia)) then Err
  else
    let n := nth axis (a_shape a) 0 in
    bind (mapM (fun oi =>
            bind (read ibuf ia (byte_offset_for ia oi)) (fun iv =>
            bind (of_opt (norm_index iv n)) (fun i =>
            read buf a (byte_offset_for a (upd oi axis i)))))
          (odometer (size ia) (repeat 0 (ndim a)) (a_shape ia))) (fun out =>
    Ok (a_shape ia, out)).

(* indexing.rs:229-280 compress_flat *)
Definition compress_flat (cond : list bool) (buf : list V) (a : arr) : res (list nat * list V) :=
  let m := Nat.min (length cond) (size a) in
  let sel := filter (fun p => fst p) (combine (firstn m cond) (combine (seq 0 m) (firstn m (iter_offsets a)))) in
  let count := length (filter (fun b => b) (firstn m cond)) in
  if count =? 0 then Ok ([0], [])
  else bind (if (ndim a =? 1) && a_c a
             then mapM (fun p => read buf a (Z.of_nat (fst (snd p)) * a_item a)%Z) sel
             else mapM (fun p => read buf a (snd (snd p))) sel)
            (fun out => Ok ([count], out)).
(* indexing.rs:282-340 compress_axis *)
Definition compress_axis (cond : list bool) (buf : list V) (a : arr) (axis : nat) : res (list nat * list V) :=
  if ndim a <=? axis then Err
  else
    let n := nth axis (a_shape a) 0 in
    let m := Nat.min (length cond) n in
    let idxs := map snd (filter (fun p => fst p) (combine (firstn m cond) (seq 0 m))) in
    let osh := upd (a_shape a) axis (length idxs) in
    if length idxs =? 0 then Ok (osh, repeat zero (prod osh))
    else bind (take_general buf a idxs axis osh) (fun out => Ok (osh, out)).

(* array/mod.rs:227-283 select_by_mask (the mask is a bool array) *)
Definition select_by_mask (buf : list V) (a : arr) (mbuf : list bool) (m : arr) : res (list nat * list V) :=
  if negb (list_eqb (a_shape a) (a_shape m)) then Err
  else if size a =? 0 then Ok ([0], [])
  else
    let idxs := odometer (size a) (repeat 0 (ndim m)) (a_shape m) in
    bind (mapM (fun i => read mbuf m (byte_offset_for m i)) idxs) (fun bs =>
    let count := length (filter (fun b => b) bs) in
    if count =? 0 then Ok ([0], [])
    else
      bind (mapM (fun i => bind (read mbuf m (byte_offset_for m i)) (fun b =>
              if b then bind (read buf a (byte_offset_for a i)) (fun v => Ok [v]) else Ok []))
            (odometer (size a) (repeat 0 (ndim a)) (a_shape a))) (fun vs =>
      Ok ([count], concat vs))).

(* array/mod.rs:288-346 select_by_indices.  [as_idx]: the index value after
   get_element (read_f64) and the cast to isize. *)
Definition select_by_indices (as_idx : Z -> Z) (buf : list V) (a : arr) (ibuf : list Z) (ia : arr)
  : res (list nat * list V) :=
  match a_shape a with
  | [] => Err
  | n :: rest =>
      let osh := size ia :: rest in
      if size ia =? 0 then Ok (osh, repeat zero (prod osh))
      else
        let slice_size := Nat.max (prod rest) 1 in
        bind (mapM (fun p =>
                bind (get_element ibuf ia (snd p)) (fun iv =>
                bind (of_opt (norm_index (as_idx iv) n)) (fun idx =>
                mapM (fun q => bind (read buf a (byte_offset_for a (idx :: snd q))) (fun v =>
                               Ok (fst p * slice_size + fst q, v)))
                     (combine (seq 0 slice_size) (odometer slice_size (repeat 0 (length rest)) rest)))))
              (combine (seq 0 (size ia)) (odometer (size ia) (repeat 0 (ndim ia)) (a_shape ia)))) (fun rows =>
        bind (write_all (concat rows) (repeat zero (prod osh))) (fun out => Ok (osh, out)))
  end.

(* indexing.rs:590-657 choose, all choices of one dtype *)
Definition choose (ibuf : list Z) (ia : arr) (choices : list (list V * arr)) : res (list nat * list V) :=
  match choices with
  | [] => Err
  | _ =>
      if negb (forallb (fun c => list_eqb (a_shape (snd c)) (a_shape ia)) choices) then Err
      else
        bind (mapM (fun oi =>
                bind (read ibuf ia (byte_offset_for ia oi)) (fun iv =>
                let c := wrap_usize iv in
                if (Z.of_nat (length choices) <=? c)%Z then Err
                else match nth_error choices (Z.to_nat c) with
                     | Some x => read (fst x) (snd x) (byte_offset_for (snd x) oi)
                     | None => Panic
                     end))
              (odometer (size ia) (repeat 0 (ndim ia)) (a_shape ia))) (fun out =>
        Ok (a_shape ia, out))
  end.

Variable truthy : V -> bool.     (* is_truthy of the dtype *)

(* indexing.rs:459-492 flatnonzero *)
Definition flatnonzero (buf : list V) (a : arr) : res (list nat * list Z) :=
  if size a =? 0 then Ok ([0], [])
  else
    bind (mapM (read buf a) (iter_offsets a)) (fun vs =>
    let sel := filter (fun p => truthy (snd p)) (combine (seq 0 (length vs)) vs) in
    Ok ([length (filter truthy vs)], map (fun p => Z.of_nat (fst p)) sel)).

(* indexing.rs:404-456 argwhere: shape and buffer (rows of max(ndim,1) entries,
   zero-initialised, of which ndim are written) *)
Definition argwhere (buf : list V) (a : arr) : res (list nat * list Z) :=
  let w := Nat.max (ndim a) 1 in
  if size a =? 0 then Ok ([0; w], [])
  else
    bind (mapM (read buf a) (iter_offsets a)) (fun vs =>
    let count := length (filter truthy vs) in
    if count =? 0 then Ok ([0; w], [])
    else
      bind (mapM (fun i => bind (read buf a (byte_offset_for a i)) (fun v => Ok (truthy v, i)))
                 (odometer (size a) (repeat 0 (ndim a)) (a_shape a))) (fun l =>
      let rows := map snd (filter (fun p => fst p) l) in
      bind (write_all (concat (map (fun p => map (fun q => (fst p * w + fst q, Z.of_nat (snd q)))
                                               (combine (seq 0 (ndim a)) (snd p)))
                               (combine (seq 0 (length rows)) rows))) (repeat 0%Z (count * w))) (fun out =>
      Ok ([count; w], out)))).

(* ops/mod.rs:134-158 nonzero.  [nz]: get_element(..) != 0.0 (read_f64, which is
   0.0 for complex dtypes); the indices make a round trip through f64. *)
Definition nonzero (nz : V -> bool) (buf : list V) (a : arr) : res (list (list Z)) :=
  bind (mapM (fun i => bind (get_element buf a i) (fun v => Ok (nz v, i)))
             (odometer (size a) (repeat 0 (ndim a)) (a_shape a))) (fun l =>
  let rows := map snd (filter (fun p => fst p) l) in
  Ok (map (fun d => map (fun r => through_f64 (mkIty 64 true) (Z.of_nat (nth d r 0))) rows) (seq 0 (ndim a)))).

(* Values that travel through read_f64 / write_f64 *)
Variable via : V -> V.

(* indexing.rs:507-524 loop of put *)
Fixpoint put_loop (l : list (nat * nat)) (buf : list V) (a : arr) (values : list V) : res (list V) :=
  match l with
  | [] => Ok buf
  | (i, k) :: l' =>
      match values with
      | [] => Panic (* i % 0 *)
      | _ => match nth_error values (i mod length values) with
             | None => Panic
             | Some v => bind (set_element buf a (fst (flat_indices (a_shape a) k)) (via v)) (fun buf' =>
                         put_loop l' buf' a values)
             end
      end
  end.
(* indexing.rs:495-525 put *)
Definition put (buf : list V) (a : arr) (indices : list Z) (values : list V) : res (list V) :=
  match indices with
  | [] => Ok buf
  | _ => bind (mapM (fun i => of_opt (norm_index i (size a))) indices) (fun ks =>
         put_loop (combine (seq 0 (length ks)) ks) buf a values)
  end.

(* indexing.rs:528-587 put_along_axis.  The answer is the buffer together with
   success: an index out of range stops the loop and leaves what was written. *)
Fixpoint put_along_loop (idxs : list (list nat)) (buf : list V) (a : arr) (ibuf : list Z) (ia : arr)
    (vbuf : list V) (va : arr) (axis : nat) : res (list V * bool) :=
  match idxs with
  | [] => Ok (buf, true)
  | oi :: rest =>
      bind (read ibuf ia (byte_offset_for ia oi)) (fun iv =>
      match norm_index iv (nth axis (a_shape a) 0) with
      | None => Ok (buf, false)
      | Some k =>
          bind (read vbuf va (byte_offset_for va oi)) (fun v =>
          bind (set_element buf a (upd oi axis k) (via v)) (fun buf' =>
          put_along_loop rest buf' a ibuf ia vbuf va axis))
      end)
  end.
Definition put_along_axis (buf : list V) (a : arr) (ibuf : list Z) (ia : arr) (vbuf : list V) (va : arr) (axis : nat)
  : res (list V * bool) :=
  if (ndim a <=? axis) || negb (list_eqb (a_shape ia) (a_shape va)) || negb (ndim ia =? ndim a) then Ok (buf, false)
  else if negb (match_off 0 axis (a_shape a) (a_shape ia)) then Ok (buf, false)
  else put_along_loop (odometer (size ia) (repeat 0 (ndim ia)) (a_shape ia)) buf a ibuf ia vbuf va axis.
End Sel.
