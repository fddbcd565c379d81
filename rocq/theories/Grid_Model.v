(* Coordinate grids, index iterators and fill_diagonal: src/array/manipulation.rs,
   src/array/constructors.rs, src/ops/indexing.rs, src/python/indexing.rs. *)
From Coq Require Import SpecFloat.
From Verif Require Import Base Int_Model F64_Model Arr_Model Copy_Model Idx_Model Red_Model Rng_Model Date_Model Gu_Model New_Spec New_Model Span_Model.

Section Grid.
Context {V : Type}.
Local Notation nd := (list V * arr)%type.

(* manipulation.rs:695-696, python/indexing.rs:762-763, 1101-1102: vec![1; n] with one entry set *)
Definition ones_but (n d len : nat) : list nat := upd (repeat 1 n) d len.
(* manipulation.rs:678-684 and 688-693 *)
Definition mesh_shape (xy : bool) (sizes : list nat) : list nat :=
  if xy && (2 <=? length sizes) then match sizes with a :: b :: r => b :: a :: r | _ => sizes end else sizes.
Definition vary_dim (xy : bool) (n d : nat) : nat :=
  if xy && (2 <=? n) then match d with 0 => 1 | 1 => 0 | _ => d end else d.
(* manipulation.rs:695-704: one output; its contents, in a new C-contiguous array *)
Definition mesh_one (typed : bool) (out : list nat) (n v : nat) (x : nd) : res (list nat * list V) :=
  bind (reshape (snd x) (ones_but n v (size (snd x)))) (fun r =>
  bind (broadcast_to r out) (fun b =>
  bind (copy_buf (fst x) b typed) (fun vals => Ok (out, vals)))).
(* manipulation.rs:661-708 meshgrid.  [typed d]: input d is float64 or int64.
   Simplification: all inputs hold values of one type V. *)
Definition meshgrid (typed : nat -> bool) (l : list nd) (xy : bool) : res (list (list nat * list V)) :=
  if existsb (fun x => negb (ndim (snd x) =? 1)) l then Err
  else
    let n := length l in
    let out := mesh_shape xy (map (fun x => size (snd x)) l) in
    mapM (fun p => mesh_one (typed (fst p)) out n (vary_dim xy n (fst p)) (snd p)) (combine (seq 0 n) l).

(* python/indexing.rs:743-771 ix_: views of the inputs; reshape(..).expect panics *)
Definition ix_ (l : list arr) : res (list arr) :=
  mapM (fun p => if negb (ndim (snd p) =? 1) then Err
                 else match reshape (snd p) (ones_but (length l) (fst p) (size (snd p))) with
                      | Ok a => Ok a | _ => Panic
                      end) (combine (seq 0 (length l)) l).

(* python/indexing.rs:776-893 fill_diagonal, after val was brought to the dtype of a.
   val is read item by item from its data pointer, whatever its strides.
   Simplification: val does not share its buffer with a. *)
Definition val_at (val : nd) (k : nat) : res V :=
  if size (snd val) =? 0 then Panic
  else read (fst val) (snd val) (Z.of_nat (k mod size (snd val)) * a_item (snd val)).
(* 843-873: todo rows are left, from row on *)
Fixpoint fill_rows (a : arr) (s0 s1 : Z) (ncols min_dim : nat) (val : nd) (wrap : bool) (todo row vi : nat) (buf : list V) : res (list V) :=
  match todo with
  | 0 => Ok buf
  | S todo' =>
      let col := row mod (ncols + 1) in
      let stop := negb wrap && (min_dim <=? row + 1) in
      if col <? ncols then
        bind (val_at val vi) (fun v =>
        bind (store buf (a_item a) (a_off a + (Z.of_nat row * s0 + Z.of_nat col * s1)) v) (fun buf' =>
        if stop then Ok buf' else fill_rows a s0 s1 ncols min_dim val wrap todo' (row + 1) (vi + 1) buf'))
      else if stop then Ok buf else fill_rows a s0 s1 ncols min_dim val wrap todo' (row + 1) vi buf
  end.
Definition list_min (l : list nat) : nat := match l with [] => 0 | x :: r => fold_left Nat.min r x end.
Definition fill_diagonal (buf : list V) (a : arr) (val : nd) (wrap : bool) : res (list V) :=
  match a_shape a, a_strides a with
  | [], _ | [_], _ => Err
  | [nrows; ncols], [s0; s1] => fill_rows a s0 s1 ncols (Nat.min nrows ncols) val wrap nrows 0 0 buf
  | sh, _ =>
      foldM (fun buf i => bind (val_at val i) (fun v =>
               store buf (a_item a) (a_off a + dot (repeat i (ndim a)) (a_strides a)) v))
            (seq 0 (list_min sh)) buf
  end.

(* constructors.rs:158-174 eye (python eye and identity) *)
Definition eye (zero one : V) (n : nat) : res (list V) :=
  write_all (map (fun i => (i * n + i, one)) (seq 0 n)) (repeat zero (n * n)).

(* ndindex: python/indexing.rs:964-1040; the iterator's fields *)
Record ndi := mkNdi { ni_shape : list nat; ni_idx : list nat; ni_flat : Z; ni_size : Z }.
Definition ndi_next (s : ndi) : option (list nat * ndi) :=
  if (ni_size s <=? ni_flat s)%Z then None
  else Some (ni_idx s, mkNdi (ni_shape s) (increment_indices (ni_idx s) (ni_shape s)) (ni_flat s + 1) (ni_size s)).
Definition ndindex (sh : list nat) : ndi :=
  mkNdi sh (repeat 0 (length sh)) 0 (if length sh =? 0 then 1 else usize_prod sh).
(* calling next() until it stops, at most fuel times *)
Fixpoint collect {S A} (next : S -> option (A * S)) (fuel : nat) (s : S) : list A :=
  match fuel with
  | 0 => []
  | Datatypes.S fuel' => match next s with None => [] | Some (x, s') => x :: collect next fuel' s' end
  end.
End Grid.

(* array/dtype read_f64 for the dtypes of New_Spec: `as f64` *)
Definition read_f64 (d : ldt) (c : cell) : spec_float :=
  match d, c with
  | LInt _, CInt z => f64_int z
  | LBool, CInt z => f64_int (if (z =? 0)%Z then 0 else 1)
  | _, CFlt f => f
  | _, _ => f64_int 0
  end.
(* python/indexing.rs:900-957 ndenumerate: the array is shared, not copied.  A read
   outside the buffer is undefined behaviour: it ends the model's iteration, and no
   theorem relies on it *)
Definition nde_next (d : ldt) (buf : list cell) (a : arr) (s : ndi) : option ((list nat * spec_float) * ndi) :=
  if (ni_size s <=? ni_flat s)%Z then None
  else match get buf a (ni_idx s) with
       | Some c => Some ((ni_idx s, read_f64 d c),
                         mkNdi (ni_shape s) (increment_indices (ni_idx s) (ni_shape s)) (ni_flat s + 1) (ni_size s))
       | None => None
       end.
Definition ndenumerate (a : arr) : ndi :=
  mkNdi (a_shape a) (repeat 0 (ndim a)) 0 (usize_prod (a_shape a)).

(* manipulation.rs:712-788 indices: shape and contents.  Allocation is assumed to
   succeed.  int64 and float64 use the first nest of loops, other dtypes write_f64
   along an odometer. *)
Definition idx_value (d : ldt) (i : nat) : cell :=
  match d with LInt _ => CInt (Z.of_nat i) | _ => CFlt (f64_int (Z.of_nat i)) end.
Definition indices_fast (d : ldt) (dims : list nat) : list (nat * cell) :=
  flat_map (fun dim =>
    let base := dim * prod dims in
    let stride := prod (skipn (dim + 1) dims) in
    let dim_size := nth dim dims 0 in
    flat_map (fun r => flat_map (fun idx => map (fun s =>
        (base + r * dim_size * stride + idx * stride + s, idx_value d idx)) (seq 0 stride))
      (seq 0 dim_size)) (seq 0 (prod (firstn dim dims)))) (seq 0 (length dims)).
Definition indices_slow (d : ldt) (dims : list nat) : list (nat * cell) :=
  flat_map (fun dim => map (fun p => (dim * prod dims + fst p, write_f64 d (f64_int (Z.of_nat (nth dim (snd p) 0)))))
      (combine (seq 0 (prod dims)) (odometer (prod dims) (repeat 0 (length dims)) dims))) (seq 0 (length dims)).
Definition zero_cell (d : ldt) : cell := match d with LF64 => CFlt (f64_int 0) | _ => CInt 0 end.
Definition is_i64 (d : ldt) : bool := match d with LInt t => (bits t =? 64)%Z && signed t | _ => false end.
Definition indices (dims : list nat) (d : ldt) : res (list nat * list cell) :=
  match dims with
  | [] => Ok ([0], [])
  | _ =>
      bind (if prod dims =? 0 then Ok []
            else write_all (if is_i64 d || match d with LF64 => true | _ => false end then indices_fast d dims else indices_slow d dims)
                           (repeat (zero_cell d) (length dims * prod dims)))
           (fun out => Ok (length dims :: dims, out))
  end.

(* ops/indexing.rs:808-820 diag_indices: from_vec through f64 into int64 *)
Definition diag_indices (n ndim : nat) : list (list cell) :=
  repeat (map (fun i => write_f64 (LInt i64_ty) (f64_int (Z.of_nat i))) (seq 0 n)) ndim.

(* python/indexing.rs:1121-1129 GridSlice; the step as the Python object *)
Inductive gstep := GInt (z : Z) | GComplex (im : spec_float).
Record gslice := mkG { g_start : spec_float; g_stop : spec_float; g_step : gstep }.
(* 1131-1164 parse_single_slice: a missing step is 1; a float step is truncated *)
Inductive pystep := SNone | SInt (z : Z) | SFloat (f : spec_float) | SComplex (re im : spec_float).
Definition nonzero_f (x : spec_float) : bool := match x with S754_zero _ => false | _ => true end.
Definition parse_slice (start : option spec_float) (stop : spec_float) (step : pystep) : res gslice :=
  let s := match start with Some x => x | None => f64_int 0 end in
  match step with
  | SNone => Ok (mkG s stop (GInt 1))
  | SInt z => if (i_min i64_ty <=? z)%Z && (z <=? i_max i64_ty)%Z then Ok (mkG s stop (GInt z))
              else match f64_int z with S754_infinity _ => Err | x => Ok (mkG s stop (GInt (as_int i64_ty x))) end
  | SFloat f => Ok (mkG s stop (GInt (as_int i64_ty f)))
  | SComplex _ im => if nonzero_f im then Ok (mkG s stop (GComplex im)) else Err
  end.
(* f.fract() == 0.0: f is finite and integral *)
Definition integral (x : spec_float) : bool :=
  match x with
  | S754_zero _ => true
  | S754_finite _ m e => (0 <=? e)%Z || (Zpos m mod 2 ^ (- e) =? 0)%Z
  | _ => false
  end.
(* 1173-1183: while val < stop { push; val += step }; None: still running after fuel rounds *)
Fixpoint range_loop (fuel : nat) (up : bool) (stop step val : spec_float) : option (list spec_float) :=
  match fuel with
  | 0 => None
  | S fuel' =>
      if (if up then SFltb val stop else SFltb stop val)
      then option_map (cons val) (range_loop fuel' up stop step (fadd64 val step))
      else Some []
  end.
(* num_points as usize *)
Definition f64_usize (x : spec_float) : Z :=
  match x with
  | S754_zero _ | S754_nan => 0%Z
  | S754_infinity s => if s then 0%Z else (2 ^ 64 - 1)%Z
  | S754_finite s m e => if s then 0%Z else Z.min (2 ^ 64 - 1) (sf_trunc x)
  end.
(* 1167-1209 generate_range_array: dtype and contents *)
Definition range_array (fuel : nat) (g : gslice) : option (ldt * list cell) :=
  match g_step g with
  | GInt step =>
      let vals := if (0 <? step)%Z then range_loop fuel true (g_stop g) (f64_int step) (g_start g)
                  else if (step <? 0)%Z then range_loop fuel false (g_stop g) (f64_int step) (g_start g)
                  else Some [] in
      let d := if integral (g_start g) && integral (g_stop g) then LInt i64_ty else LF64 in
      option_map (fun l => (d, map (write_f64 d) l)) vals
  | GComplex im =>
      let n := Z.to_nat (f64_usize im) in
      match n with
      | 0 => Some (LF64, [])
      | 1 => Some (LF64, [CFlt (g_start g)])
      | _ => let step := fdiv64 (fsub64 (g_stop g) (g_start g)) (f64_int (Z.of_nat n - 1)) in
             Some (LF64, map (fun i => CFlt (fadd64 (g_start g) (fmul64 (f64_int (Z.of_nat i)) step))) (seq 0 n))
      end
  end.
(* 1068-1118 parse_grid_key on the arrays of a tuple of slices: the buffers with the
   view of each (mgrid: dense; ogrid: not) *)
Definition grid {V} (dense : bool) (l : list (list V * arr)) : res (list (list V * arr)) :=
  let n := length l in
  let shapes := map (fun x => size (snd x)) l in
  match l with
  | [] => Err
  | [x] => Ok [x]
  | _ =>
      mapM (fun p =>
        match reshape (snd (snd p)) (ones_but n (fst p) (nth (fst p) shapes 0)) with
        | Ok r => if dense then match broadcast_to r shapes with Ok b => Ok (fst (snd p), b) | _ => Panic end
                  else Ok (fst (snd p), r)
        | _ => Panic
        end) (combine (seq 0 n) l)
  end.
