(* Model of subscripting: src/python/pyarray/mod.rs:982-1175 and
   src/python/pyarray/dunder_item.rs. *)
From Verif Require Import Base Arr_Spec Arr_Model Idx_Spec.
Local Open Scope Z_scope.

Definition isize_min : Z := - 2 ^ 63.
Definition isize_max : Z := 2 ^ 63 - 1.
Definition fits_isize (z : Z) : bool := (isize_min <=? z) && (z <=? isize_max).
(* "as isize" of a usize *)
Definition to_isize (u : Z) : Z := if u <? 2 ^ 63 then u else u - two64.

(* pyarray/mod.rs:982-988 normalize_index: result is a usize *)
Definition normalize_index (idx : Z) (len : nat) : Z :=
  if idx <? 0 then wrap_usize (Z.of_nat len + idx) else idx.

(* pyarray/mod.rs:1039-1055 normalize_slice *)
Definition normalize_slice (start stop step len : Z) : Z * Z :=
  let '(dstart, dstop) := if step >? 0 then (0, len) else (len - 1, - len - 1) in
  let start := if start =? isize_min then dstart else start in
  let stop := if stop =? isize_max then dstop else stop in
  let start := if start <? 0 then Z.max (start + len) 0 else Z.min start len in
  let stop := if stop <? 0 then Z.max (stop + len) (-1) else Z.min stop len in
  (start, stop).

(* pyarray/mod.rs:1059-1063 IndexItem *)
Inductive item := NewAxis | IInt (i : Z) | ISlice (start stop step : Z).

(* a Python int that is not an isize makes extract() fail, and .ok() turns the
   failure into "absent" (pyarray/mod.rs:1112-1119) *)
Definition extract_ok (o : option Z) : option Z :=
  match o with Some z => if fits_isize z then Some z else None | None => None end.
Definition default_z (d : Z) (o : option Z) : Z := match o with Some z => z | None => d end.

(* pyarray/mod.rs:1067-1136 expand_ellipsis.  A tuple entry is a subscript; the
   step is never absent here (absent = 1 is applied by [default_z 1]). *)
Definition count_explicit (ks : list subscript) : nat := length (filter consumes ks).
Definition count_ellipsis (ks : list subscript) : nat := length (filter is_ellipsis ks).
Fixpoint expand_items (n_ell : nat) (ks : list subscript) : res (list item) :=
  match ks with
  | [] => Ok []
  | k :: ks' =>
      bind (match k with
            | SEllipsis => Ok (repeat (ISlice 0 isize_max 1) n_ell)
            | SNew => Ok [NewAxis]
            | SInt i => if fits_isize i then Ok [IInt i] else Err
            | SSlice b e st =>
                Ok [ISlice (default_z isize_min (extract_ok b)) (default_z isize_max (extract_ok e))
                           (default_z 1 (extract_ok (Some st)))]
            end)
           (fun here => bind (expand_items n_ell ks') (fun rest => Ok (here ++ rest)))
  end.
Definition expand_ellipsis (ks : list subscript) (nd : nat) : res (list item) :=
  if Nat.ltb 1 (count_ellipsis ks) then Err
  else if Nat.ltb 0 (count_ellipsis ks) && Nat.ltb nd (count_explicit ks) then Err
  else expand_items (nd - count_explicit ks) ks.

(* dunder_item.rs:109-151: apply the items from left to right, remembering the
   axes that came from an integer *)
Fixpoint apply_items (items : list item) (a : arr) (axis : nat) (sq : list nat)
  : res (arr * list nat) :=
  match items with
  | [] => Ok (a, sq)
  | NewAxis :: r => bind (expand_dims a axis) (fun a' => apply_items r a' (S axis) sq)
  | IInt i :: r =>
      match nth_error (a_shape a) axis with
      | None => Err
      | Some len =>
          let j := to_isize (normalize_index i len) in
          bind (slice_axis a axis j (j + 1) 1) (fun a' => apply_items r a' (S axis) (sq ++ [axis]))
      end
  | ISlice b e st :: r =>
      match nth_error (a_shape a) axis with
      | None => Err
      | Some len =>
          let '(b', e') := normalize_slice b e st (Z.of_nat len) in
          bind (slice_axis a axis b' e' st) (fun a' => apply_items r a' (S axis) sq)
      end
  end.

(* dunder_item.rs:153-156: squeeze those axes, last first *)
Definition squeeze_list (sq : list nat) (a : arr) : arr := fold_left squeeze_axis (rev sq) a.

(* what __getitem__ hands back *)
Inductive got (V : Type) := Scalar (v : V) | View (a : arr).
Arguments Scalar {V} _.  Arguments View {V} _.

(* get_element with usize indices (array/mod.rs:144-152) *)
Fixpoint idx_okZ (idx : list Z) (sh : list nat) : bool :=
  match idx, sh with
  | i :: idx', s :: sh' => (0 <=? i) && (i <? Z.of_nat s) && idx_okZ idx' sh'
  | [], [] => true
  | _, _ => false
  end.
Definition get_elementZ {V} (buf : list V) (a : arr) (idx : list Z) : res V :=
  if idx_okZ idx (a_shape a) then of_load (get buf a (map Z.to_nat idx)) else Panic.

Definition is_int (it : item) : bool := match it with IInt _ => true | _ => false end.
Fixpoint int_indices (items : list item) (sh : list nat) : list Z :=
  match items, sh with
  | IInt i :: r, s :: sh' => normalize_index i s :: int_indices r sh'
  | _, _ => []
  end.

(* dunder_item.rs:83-159: a[tuple] *)
Definition getitem_tuple {V} (buf : list V) (a : arr) (ks : list subscript) : res (got V) :=
  bind (expand_ellipsis ks (ndim a)) (fun items =>
  if Nat.eqb (length items) (ndim a) && forallb is_int items
  then bind (get_elementZ buf a (int_indices items (a_shape a))) (fun v => Ok (Scalar v))
  else bind (apply_items items a 0 []) (fun r => Ok (View (squeeze_list (snd r) (fst r))))).

(* dunder_item.rs:162-167: a[i] with a single integer *)
Definition getitem_int (a : arr) (i : Z) : res arr :=
  match nth_error (a_shape a) 0 with
  | None => Panic                                   (* shape()[0] of a 0-d array *)
  | Some len =>
      let j := to_isize (normalize_index i len) in
      bind (slice_axis a 0 j (j + 1) 1) (fun a' => Ok (squeeze_axis a' 0))
  end.

(* dunder_item.rs:170-174: a[start:stop:step]; PyO3's slice.indices is CPython's *)
Definition getitem_slice (a : arr) (start stop : option Z) (step : Z) : res arr :=
  match nth_error (a_shape a) 0 with
  | None => Panic
  | Some len =>
      if step =? 0 then Err
      else let '(b, e) := py_indices start stop step (Z.of_nat len) in slice_axis a 0 b e step
  end.

(* views.rs:58-70 with the wrapping isize arithmetic of a release build *)
Definition wrap_isize (z : Z) : Z := to_isize (z mod two64).
Definition slice_len_isize (start stop step : Z) : res Z :=
  if step >? 0 then
    Ok (if stop >? start
        then Z.quot (wrap_isize (wrap_isize (wrap_isize (stop - start) + step) - 1)) step else 0)
  else if start >? stop then
    (if step =? 0 then Panic
     else Ok (Z.quot (wrap_isize (wrap_isize (wrap_isize (start - stop) - step) - 1)) (wrap_isize (- step))))
  else Ok 0.

(* ---------------- assignment ---------------- *)
(* a write through a pointer: Fault outside the buffer or misaligned *)
Definition store {V} (buf : list V) (item addr : Z) (v : V) : res (list V) :=
  if (0 <=? addr) && (addr mod item =? 0) && (addr / item <? Z.of_nat (length buf))
  then Ok (upd buf (Z.to_nat (addr / item)) v) else Fault.

(* array/mod.rs:167-178 set_element *)
Definition set_element {V} (buf : list V) (a : arr) (idx : list nat) (v : V) : res (list V) :=
  if idx_ok idx (a_shape a) then store buf (a_item a) (a_off a + byte_offset_for a idx) v else Panic.

(* pyarray/mod.rs:1139-1175 fill_view, scalar branch *)
Fixpoint fill_scalar_loop {V} (idxs : list (list nat)) (buf : list V) (a : arr) (v : V) : res (list V) :=
  match idxs with
  | [] => Ok buf
  | i :: r => bind (set_element buf a i v) (fun buf' => fill_scalar_loop r buf' a v)
  end.
Definition fill_scalar {V} (buf : list V) (a : arr) (v : V) : res (list V) :=
  fill_scalar_loop (odometer (size a) (repeat 0%nat (ndim a)) (a_shape a)) buf a v.

(* fill_view, array branch, source and destination on the same buffer.  conv is
   the round trip of an element through f64 (read_f64 then write_f64). *)
Fixpoint list_eqb (l m : list nat) : bool :=
  match l, m with
  | x :: l', y :: m' => Nat.eqb x y && list_eqb l' m'
  | [], [] => true
  | _, _ => false
  end.
Fixpoint fill_array_loop {V} (conv : V -> V) (idxs : list (list nat)) (buf : list V) (dst src : arr)
  : res (list V) :=
  match idxs with
  | [] => Ok buf
  | i :: r =>
      bind (get_element buf src i) (fun v =>
      bind (set_element buf dst i (conv v)) (fun buf' =>
      fill_array_loop conv r buf' dst src))
  end.
Definition fill_array {V} (conv : V -> V) (buf : list V) (dst src : arr) : res (list V) :=
  if list_eqb (a_shape dst) (a_shape src) then
    fill_array_loop conv (odometer (size dst) (repeat 0%nat (ndim dst)) (a_shape dst)) buf dst src
  else Err.

(* dunder_item.rs:209-233: the view built by x[tuple] = ...; unlike __getitem__
   it uses slice.indices, accepts no ellipsis or None, and keeps integer axes
   with length 1 *)
Fixpoint setitem_view (ks : list subscript) (a : arr) (axis : nat) : res arr :=
  match ks with
  | [] => Ok a
  | k :: r =>
      match nth_error (a_shape a) axis with
      | None => Err
      | Some len =>
          match k with
          | SInt i =>
              if fits_isize i then
                let j := to_isize (normalize_index i len) in
                bind (slice_axis a axis j (j + 1) 1) (fun a' => setitem_view r a' (S axis))
              else Err
          | SSlice b e st =>
              if st =? 0 then Err
              else let '(b', e') := py_indices b e st (Z.of_nat len) in
                   bind (slice_axis a axis b' e' st) (fun a' => setitem_view r a' (S axis))
          | _ => Err
          end
      end
  end.

(* ---------------- reshape arguments and flat iteration ---------------- *)
(* pyarray/mod.rs:76-114 resolve_reshape_shape; the usize product wraps (release
   build).  [d as usize] of the -1 entry is overwritten before it is used. *)
Fixpoint scan_dims (shape : list Z) (i : nat) (neg : option nat) (known : Z) : res (option nat * Z) :=
  match shape with
  | [] => Ok (neg, known)
  | d :: r =>
      if d <? -1 then Err
      else if d =? -1 then
        match neg with Some _ => Err | None => scan_dims r (S i) (Some i) known end
      else scan_dims r (S i) neg (wrap_usize (known * d))
  end.
Definition resolve_reshape_shape (shape : list Z) (size : nat) : res (list nat) :=
  bind (scan_dims shape 0 None 1) (fun s =>
  let '(neg, known) := s in
  match neg with
  | None => Ok (map Z.to_nat shape)
  | Some idx =>
      if known =? 0 then Err
      else if negb (Z.of_nat size mod known =? 0) then Err
      else Ok (upd (map Z.to_nat shape) idx (Z.to_nat (Z.of_nat size / known)))
  end).

(* pyarray/mod.rs:1513-1527 get_flat_element: indices from the last axis down;
   the recursion returns the remaining quotient.  A zero length would divide by
   zero (Rust panic), but the callers check flat_idx < size first. *)
Fixpoint flat_indices (sh : list nat) (k : nat) : list nat * nat :=
  match sh with
  | [] => ([], k)
  | s :: sh' => let '(r, q) := flat_indices sh' k in ((q mod s)%nat :: r, (q / s)%nat)
  end.
(* pyarray/mod.rs:1502-1509 flat[index] *)
Definition flat_getitem {V} (buf : list V) (a : arr) (index : Z) : res V :=
  let n := Z.of_nat (size a) in
  let idx := if index <? 0 then n + index else index in
  if (idx <? 0) || (n <=? idx) then Err
  else get_element buf a (fst (flat_indices (a_shape a) (Z.to_nat idx))).
(* pyarray/mod.rs:1486-1496 repeated __next__ *)
Definition flat_iter {V} (buf : list V) (a : arr) : res (list V) :=
  mapM (fun k => get_element buf a (fst (flat_indices (a_shape a) k))) (seq 0 (size a)).
