(* Model of the array core: src/array/{mod,iter,views,constructors}.rs.
   usize lengths/indices are nat, isize strides and byte offsets are Z. *)
From Verif Require Import Base Arr_Spec.
Local Open Scope Z_scope.

(* src/array/mod.rs:24-37 RumpyArray, without the buffer (views share it) and
   with the dtype reduced to its item size.  flags keeps the two layout bits. *)
Record arr := mkArr {
  a_off : Z;              (* offset: usize, byte offset into the buffer *)
  a_shape : list nat;
  a_strides : list Z;
  a_item : Z;             (* dtype.itemsize() *)
  a_c : bool;             (* flags contains C_CONTIGUOUS *)
  a_f : bool              (* flags contains F_CONTIGUOUS *)
}.

Definition ndim (a : arr) : nat := length (a_shape a).
(* mod.rs:61-63 size *)
Definition size (a : arr) : nat := prod (a_shape a).

(* mod.rs:486-497 compute_c_strides: the loop runs from the last axis with a
   running product; the recursion returns that product alongside the strides. *)
Fixpoint c_strides_aux (sh : list nat) (item : Z) : list Z * Z :=
  match sh with
  | [] => ([], item)
  | s :: sh' => let '(st, stride) := c_strides_aux sh' item in
                (stride :: st, stride * Z.of_nat s)
  end.
Definition c_strides (sh : list nat) (item : Z) : list Z := fst (c_strides_aux sh item).

(* mod.rs:500-511 compute_f_strides *)
Fixpoint f_strides_from (sh : list nat) (stride : Z) : list Z :=
  match sh with
  | [] => []
  | s :: sh' => stride :: f_strides_from sh' (stride * Z.of_nat s)
  end.
Definition f_strides (sh : list nat) (item : Z) : list Z := f_strides_from sh item.

(* mod.rs:514-529 is_c_contiguous: right-to-left loop.  State: the expected
   stride so far, or the early answer (true at a zero-length axis, false at a
   stride mismatch). *)
Inductive cstate := Going (expected : Z) | Done (b : bool).
Definition contig_step (s : nat) (st : Z) (c : cstate) : cstate :=
  match c with
  | Done b => Done b
  | Going e =>
      if Nat.eqb s 0 then Done true
      else if negb (Nat.eqb s 1) && negb (st =? e) then Done false
      else Going (e * Z.of_nat s)
  end.
Fixpoint c_contig_run (sh : list nat) (st : list Z) (item : Z) : cstate :=
  match sh, st with
  | s :: sh', x :: st' => contig_step s x (c_contig_run sh' st' item)
  | _, _ => Going item
  end.
Definition contig_answer (c : cstate) : bool :=
  match c with Going _ => true | Done b => b end.
Definition is_c_contiguous (sh : list nat) (st : list Z) (item : Z) : bool :=
  contig_answer (c_contig_run sh st item).

(* mod.rs:532-547 is_f_contiguous: left-to-right loop *)
Fixpoint f_contig_run (sh : list nat) (st : list Z) (c : cstate) : cstate :=
  match sh, st with
  | s :: sh', x :: st' => f_contig_run sh' st' (contig_step s x c)
  | _, _ => c
  end.
Definition is_f_contiguous (sh : list nat) (st : list Z) (item : Z) : bool :=
  contig_answer (f_contig_run sh st (Going item)).

(* constructors.rs:12-26 zeros (array part; flags.rs default = C | WRITEABLE) *)
Definition fresh (sh : list nat) (item : Z) : arr :=
  mkArr 0 sh (c_strides sh item) item true false.

(* mod.rs:181-187 byte_offset_for: sum of idx[i]*strides[i] *)
Definition byte_offset_for (a : arr) (idx : list nat) : Z := dot idx (a_strides a).

(* the memory cell of an element: data_ptr + byte_offset_for *)
Definition get {V} (buf : list V) (a : arr) (idx : list nat) : option V :=
  load buf (a_item a) (a_off a + byte_offset_for a idx).

(* mod.rs:144-152 get_element: asserts on rank and bounds, then reads.
   The conversion to f64 is left to the caller. *)
Fixpoint idx_ok (idx sh : list nat) : bool :=
  match idx, sh with
  | i :: idx', s :: sh' => Nat.ltb i s && idx_ok idx' sh'
  | [], [] => true
  | _, _ => false
  end.
Definition get_element {V} (buf : list V) (a : arr) (idx : list nat) : res V :=
  if idx_ok idx (a_shape a) then of_load (get buf a idx) else Panic.

(* mod.rs:550-558 increment_indices: from the last axis, add one and stop unless
   the coordinate reaches its length, in which case it becomes 0 and the loop
   goes on to the axis to the left.  The boolean says "the loop is still going". *)
Fixpoint increment_aux (idx sh : list nat) : list nat * bool :=
  match idx, sh with
  | i :: idx', s :: sh' =>
      let '(r, going) := increment_aux idx' sh' in
      if going then
        if Nat.ltb (S i) s then (S i :: r, false) else (0%nat :: r, true)
      else (i :: r, false)
  | _, _ => (idx, true)
  end.
Definition increment_indices (idx sh : list nat) : list nat := fst (increment_aux idx sh).

(* a loop "for _ in 0..n { visit(indices); increment_indices(...) }" *)
Fixpoint odometer (n : nat) (idx sh : list nat) : list (list nat) :=
  match n with
  | O => []
  | S n' => idx :: odometer n' (increment_indices idx sh) sh
  end.

(* iter.rs:10-17 StridedIter *)
Record siter := mkIter {
  it_shape : list nat; it_strides : list Z; it_back : list Z;
  it_counters : list nat; it_offset : Z; it_remaining : nat }.

(* iter.rs:21-37 StridedIter::new; backstride = (s-1)*st when s>0 *)
Fixpoint backstrides (sh : list nat) (st : list Z) : list Z :=
  match sh, st with
  | s :: sh', x :: st' =>
      (if Nat.ltb 0 s then (Z.of_nat s - 1) * x else 0) :: backstrides sh' st'
  | _, _ => []
  end.
Definition iter_new (sh : list nat) (st : list Z) (base : Z) : siter :=
  mkIter sh st (backstrides sh st) (repeat 0%nat (length sh)) base (prod sh).

(* iter.rs:41-54 advance *)
Fixpoint advance_aux (sh : list nat) (st back : list Z) (cnt : list nat) (off : Z)
  : list nat * Z * bool :=
  match sh, st, back, cnt with
  | s :: sh', x :: st', b :: back', c :: cnt' =>
      let '(cnt2, off2, going) := advance_aux sh' st' back' cnt' off in
      if going then
        if Nat.ltb (S c) s then (S c :: cnt2, off2 + x, false)
        else (0%nat :: cnt2, off2 - b, true)
      else (c :: cnt2, off2, false)
  | _, _, _, _ => (cnt, off, true)
  end.
Definition advance (it : siter) : siter :=
  let '(cnt, off, _) :=
    advance_aux (it_shape it) (it_strides it) (it_back it) (it_counters it) (it_offset it) in
  mkIter (it_shape it) (it_strides it) (it_back it) cnt off (it_remaining it).

(* iter.rs:59-70 next *)
Definition iter_next (it : siter) : option (Z * siter) :=
  match it_remaining it with
  | O => None
  | S r =>
      let it1 := mkIter (it_shape it) (it_strides it) (it_back it)
                        (it_counters it) (it_offset it) r in
      Some (it_offset it, if Nat.ltb 0 r then advance it1 else it1)
  end.

(* draining the iterator; fuel = number of calls to next() made *)
Fixpoint drain (fuel : nat) (it : siter) : list Z :=
  match fuel with
  | O => []
  | S f => match iter_next it with
           | None => []
           | Some (o, it') => o :: drain f it'
           end
  end.
(* "for off in arr.iter_offsets()": one more call than elements sees the None *)
Definition strided_offsets (sh : list nat) (st : list Z) (base : Z) : list Z :=
  drain (S (prod sh)) (iter_new sh st base).
(* mod.rs:130-132 iter_offsets *)
Definition iter_offsets (a : arr) : list Z := strided_offsets (a_shape a) (a_strides a) 0.

(* iter.rs:93-114 AxisOffsetIter::new and mod.rs:138-140 axis_offsets *)
Definition axis_offsets (a : arr) (axis : nat) : list Z :=
  let osh := remove_at axis (a_shape a) in
  let ost := remove_at axis (a_strides a) in
  if Nat.eqb (length osh) 0 then strided_offsets [1%nat] [0] 0
  else strided_offsets osh ost 0.

(* ---------------- views.rs ---------------- *)
Definition two64 : Z := 2 ^ 64.
Definition wrap_usize (z : Z) : Z := z mod two64.

(* views.rs:9-26 view_with: usize addition of the offset delta (wrapping in a
   release build), flags recomputed from shape and strides *)
Definition view_with (a : arr) (delta : Z) (sh : list nat) (st : list Z) : arr :=
  mkArr (wrap_usize (a_off a + delta)) sh st (a_item a)
        (is_c_contiguous sh st (a_item a)) (is_f_contiguous sh st (a_item a)).

(* views.rs:58-69 number of selected positions.  The isize arithmetic is exact
   here; Idx_Model.slice_len_isize is the wrapping version (they differ only for
   steps within the axis length of 2^63).  step = 0 reaches the
   division by zero only when start > stop, as in the source. *)
Definition slice_len (start stop step : Z) : res Z :=
  if step >? 0 then
    Ok (if stop >? start then Z.quot (stop - start + step - 1) step else 0)
  else if start >? stop then
    (if step =? 0 then Panic else Ok (Z.quot (start - stop - step - 1) (- step)))
  else Ok 0.

(* views.rs:56-83 slice_axis.  [start as usize] and the product with
   |old_stride| are usize operations (release build: wrapping). *)
Definition slice_axis (a : arr) (axis : nat) (start stop step : Z) : res arr :=
  match nth_error (a_strides a) axis, nth_error (a_shape a) axis with
  | Some old_stride, Some _ =>
      bind (slice_len start stop step) (fun n =>
      let new_len := Z.to_nat (Z.max n 0) in
      let delta := wrap_usize (wrap_usize start * Z.abs old_stride) in
      Ok (view_with a delta (upd (a_shape a) axis new_len)
                    (upd (a_strides a) axis (old_stride * step))))
  | _, _ => Panic
  end.

(* views.rs:87-104 reshape: the two products are usize products (release build:
   wrapping) *)
Definition usize_prod (sh : list nat) : Z := wrap_usize (Z.of_nat (prod sh)).
Definition reshape (a : arr) (sh : list nat) : res arr :=
  if negb (usize_prod (a_shape a) =? usize_prod sh) then Err
  else if negb (a_c a) && negb (a_f a) then Err
  else
    let st := if a_c a then c_strides sh (a_item a) else f_strides sh (a_item a) in
    Ok (view_with a 0 sh st).

(* views.rs:107-111 transpose *)
Definition transpose (a : arr) : arr :=
  view_with a 0 (rev (a_shape a)) (rev (a_strides a)).

(* views.rs:114-123 transpose_axes: assert on the number of axes, indexing
   self.shape[a] panics when out of range *)
Definition gather {A} (l : list A) (axes : list nat) : res (list A) :=
  mapM (fun i => match nth_error l i with Some x => Ok x | None => Panic end) axes.
Definition transpose_axes (a : arr) (axes : list nat) : res arr :=
  if negb (Nat.eqb (length axes) (ndim a)) then Panic
  else bind (gather (a_shape a) axes) (fun sh =>
       bind (gather (a_strides a) axes) (fun st =>
       Ok (view_with a 0 sh st))).

(* views.rs:126-136 flip *)
Definition flip (a : arr) (axis : nat) : res arr :=
  match nth_error (a_shape a) axis with
  | None => Err
  | Some O => Ok a
  | Some len => slice_axis a axis (Z.of_nat len - 1) (-1) (-1)
  end.

(* views.rs:149-160: strides of the broadcast view for the aligned axes *)
Fixpoint bcast_strides (sh : list nat) (st : list Z) (nsh : list nat) : option (list Z) :=
  match sh, st, nsh with
  | s :: sh', x :: st', n :: nsh' =>
      if Nat.eqb s n then option_map (cons x) (bcast_strides sh' st' nsh')
      else if Nat.eqb s 1 then option_map (cons 0) (bcast_strides sh' st' nsh')
      else None
  | [], _, _ => Some []
  | _, _, _ => None
  end.
(* views.rs:140-165 broadcast_to: leading axes get stride 0 *)
Definition broadcast_to (a : arr) (nsh : list nat) : res arr :=
  if Nat.ltb (length nsh) (ndim a) then Err
  else
    let off := (length nsh - ndim a)%nat in
    match bcast_strides (a_shape a) (a_strides a) (skipn off nsh) with
    | None => Err
    | Some st => Ok (view_with a 0 nsh (repeat 0 off ++ st))
    end.

(* views.rs:169-185 squeeze *)
Fixpoint squeeze_lists (sh : list nat) (st : list Z) : list nat * list Z :=
  match sh, st with
  | s :: sh', x :: st' =>
      let '(r, t) := squeeze_lists sh' st' in
      if Nat.eqb s 1 then (r, t) else (s :: r, x :: t)
  | _, _ => ([], [])
  end.
Definition squeeze (a : arr) : arr :=
  let '(sh, st) := squeeze_lists (a_shape a) (a_strides a) in
  if Nat.eqb (length sh) 0 && Nat.eqb (size a) 1
  then view_with a 0 [1%nat] [a_item a]
  else view_with a 0 sh st.

(* views.rs:189-202 expand_dims *)
Definition expand_dims (a : arr) (axis : nat) : res arr :=
  if Nat.ltb (ndim a) axis then Err
  else Ok (view_with a 0 (insert_at axis 1%nat (a_shape a))
                     (insert_at axis (a_item a) (a_strides a))).

(* views.rs:206-223 squeeze_axis *)
Definition squeeze_axis (a : arr) (axis : nat) : arr :=
  match nth_error (a_shape a) axis with
  | Some 1%nat => view_with a 0 (remove_at axis (a_shape a)) (remove_at axis (a_strides a))
  | _ => a
  end.

(* ops/mod.rs:163-174 diagonal: keeps only the first two axes *)
Definition diagonal (a : arr) : res arr :=
  match a_shape a, a_strides a with
  | d0 :: d1 :: _, s0 :: s1 :: _ => Ok (view_with a 0 [Nat.min d0 d1] [s0 + s1])
  | _, _ => Panic
  end.

(* ops/mod.rs:183-197 swapaxes for two different axes (equal axes make a copy,
   see Copy_Model.swapaxes_nd): Vec::swap on the identity permutation *)
Definition swap_axes_list (n i j : nat) : list nat := upd (upd (seq 0 n) i j) j i.
Definition swapaxes_view (a : arr) (i j : nat) : res arr :=
  if Nat.ltb i (ndim a) && Nat.ltb j (ndim a)
  then transpose_axes a (swap_axes_list (ndim a) i j)
  else Panic.

(* one step of a history of view operations (the methods above, by name) *)
Definition run_vop (op : vop) (a : arr) : res arr :=
  match op with
  | VTranspose => Ok (transpose a)
  | VPermute axes => transpose_axes a axes
  | VSwap i j => swapaxes_view a i j
  | VSlice axis start stop step => slice_axis a axis start stop step
  | VFlip axis => flip a axis
  | VReshape sh => reshape a sh
  | VBroadcast sh => broadcast_to a sh
  | VExpand axis => expand_dims a axis
  | VSqueezeAxis axis => Ok (squeeze_axis a axis)
  | VSqueeze => Ok (squeeze a)
  | VDiagonal => diagonal a
  end.
Fixpoint run_vops (ops : list vop) (a : arr) : res arr :=
  match ops with
  | [] => Ok a
  | op :: ops' => bind (run_vop op a) (run_vops ops')
  end.
