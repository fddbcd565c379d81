(* Element-wise operations: src/ops/{dispatch,ufunc,mod}.rs, src/ops/loops,
   and the temporary-elision logic of src/python/pyarray/mod.rs.

   Kernels are arguments.  A kernel returns a [res] because some integer kernels
   panic.  Every loop writes its output from left to right without gaps, so the
   output buffer is modelled as the list of written values; the result array is
   [fresh out_shape item].  The two operands may live in different buffers and
   have different item types. *)
From Verif Require Import Base Arr_Spec Arr_Model Bcast_Model Copy_Model Idx_Model.
Local Open Scope Z_scope.

(* slice indexing l[i]: panics out of bounds *)
Definition at_ {A} (l : list A) (i : nat) : res A :=
  match nth_error l i with Some x => Ok x | None => Panic end.

Section Binary.
Context {A B W : Type}.
Variable f : A -> B -> res W.
Variables (bufA : list A) (bufB : list B).

(* one iteration: read both operands at byte offsets from their data pointers *)
Definition app2 (a : arr) (oa : Z) (b : arr) (ob : Z) : res W :=
  bind (read bufA a oa) (fun x => bind (read bufB b ob) (fun y => f x y)).

(* loops/contiguous.rs:13-25 map_binary (and 43-55 map_compare) over slices of n
   items starting at the data pointers *)
Definition zip_contig (a b : arr) (n : nat) : res (list W) :=
  mapM (fun k => app2 a (Z.of_nat k * a_item a) b (Z.of_nat k * a_item b)) (seq 0 n).

(* loops/strided.rs:13-29 map_binary_strided (and 126-141 map_compare_strided):
   pointers advance by their byte stride *)
Definition zip_strided (a : arr) (oa sa : Z) (b : arr) (ob sb : Z) (n : nat) : res (list W) :=
  mapM (fun k => app2 a (oa + Z.of_nat k * sa) b (ob + Z.of_nat k * sb)) (seq 0 n).

(* dispatch.rs:345-419 dispatch_binary_typed and 1133-1205 dispatch_compare_typed *)
Definition dispatch_zip (a b : arr) (out_shape : list nat) : res (list W) :=
  if Nat.eqb (prod out_shape) 0 then Ok []
  else if a_c a && list_eqb (a_shape a) out_shape && (a_c b && list_eqb (a_shape b) out_shape)
  then zip_contig a b (prod out_shape)
  else
    let nd := length out_shape in
    if Nat.leb nd 1 then
      bind (if Nat.eqb nd 0 then Ok 0 else at_ (a_strides a) 0) (fun sa =>
      bind (if Nat.eqb nd 0 then Ok 0 else at_ (a_strides b) 0) (fun sb =>
      zip_strided a 0 sa b 0 sb (prod out_shape)))
    else
      let inner := nth (nd - 1) out_shape 0%nat in
      bind (at_ (a_strides a) (nd - 1)) (fun sa =>
      bind (at_ (a_strides b) (nd - 1)) (fun sb =>
      let outer := firstn (nd - 1) out_shape in
      bind (mapM (fun oi => zip_strided a (dot oi (a_strides a)) sa b (dot oi (a_strides b)) sb inner)
                 (odometer (prod outer) (repeat 0%nat (nd - 1)) outer))
           (fun rows => Ok (concat rows)))).

(* ufunc.rs:320-330, 405-458 (trait and mixed-dtype loops): odometer over the
   output shape, byte_offset_for on both operands *)
Definition trait_zip (a b : arr) (out_shape : list nat) : res (list W) :=
  mapM (fun idx => app2 a (byte_offset_for a idx) b (byte_offset_for b idx))
       (odometer (prod out_shape) (repeat 0%nat (length out_shape)) out_shape).

(* ufunc.rs:502-520 fallback comparison through get_element *)
Definition element_zip (a b : arr) (out_shape : list nat) : res (list W) :=
  mapM (fun idx => bind (get_element bufA a idx) (fun x =>
                   bind (get_element bufB b idx) (fun y => f x y)))
       (odometer (prod out_shape) (repeat 0%nat (length out_shape)) out_shape).
End Binary.

Inductive zip_path := PKernel | PTrait | PElement.

(* ufunc.rs:207-209 and the three ways an operation is then executed; [path] is
   chosen by dtype.  Returns the output shape and the output buffer. *)
Definition elementwise2 {A B W} (f : A -> B -> res W) (path : zip_path)
    (bufA : list A) (a : arr) (bufB : list B) (b : arr) : res (list nat * list W) :=
  match broadcast_shapes (a_shape a) (a_shape b) with
  | None => Err
  | Some out_shape =>
      bind (broadcast_to a out_shape) (fun a' =>
      bind (broadcast_to b out_shape) (fun b' =>
      bind (match path with
            | PKernel => dispatch_zip f bufA bufB a' b' out_shape
            | PTrait => trait_zip f bufA bufB a' b' out_shape
            | PElement => element_zip f bufA bufB a' b' out_shape
            end) (fun vals => Ok (out_shape, vals))))
  end.

Section Unary.
Context {A W : Type}.
Variable f : A -> res W.
Variable buf : list A.

Definition app1 (a : arr) (o : Z) : res W := bind (read buf a o) f.

(* loops/strided.rs:36-49 map_unary_strided, 148-160 map_predicate_strided *)
Definition map_strided (a : arr) (o s : Z) (n : nat) : res (list W) :=
  mapM (fun k => app1 a (o + Z.of_nat k * s)) (seq 0 n).

(* dispatch.rs:969-1026 dispatch_unary_typed, 2166-2220 dispatch_predicate_typed *)
Definition dispatch_map (a : arr) : res (list W) :=
  if Nat.eqb (size a) 0 then Ok []
  else if a_c a then mapM (fun k => app1 a (Z.of_nat k * a_item a)) (seq 0 (size a))
  else
    let nd := ndim a in
    if Nat.leb nd 1 then
      bind (if Nat.eqb nd 0 then Ok 0 else at_ (a_strides a) 0) (fun s =>
      map_strided a 0 s (size a))
    else
      let inner := nth (nd - 1) (a_shape a) 0%nat in
      bind (at_ (a_strides a) (nd - 1)) (fun s =>
      let outer := firstn (nd - 1) (a_shape a) in
      bind (mapM (fun oi => map_strided a (dot oi (a_strides a)) s inner)
                 (odometer (prod outer) (repeat 0%nat (nd - 1)) outer))
           (fun rows => Ok (concat rows))).

(* ufunc.rs:141-157 trait fallback over iter_offsets *)
Definition trait_map (a : arr) : res (list W) :=
  if Nat.eqb (size a) 0 then Ok [] else mapM (app1 a) (iter_offsets a).
End Unary.

(* ---- where ---------------------------------------------------------------- *)

(* An item of the condition array is the list of its bytes (little endian). *)
Section Where.
Context {V : Type}.
Variables (cbuf : list (list Z)) (xbuf ybuf : list V).

(* dispatch.rs:1693-1703: contiguous truth test, any byte of the item non-zero *)
Definition truth_contig (bytes : list Z) : bool := existsb (fun x => negb (x =? 0)) bytes.
(* dispatch.rs:1718: strided truth test, only the first byte is looked at *)
Definition truth_strided (bytes : list Z) : bool := negb (nth 0 bytes 0 =? 0).

Definition pick (truth : list Z -> bool) (c : arr) (oc : Z) (x : arr) (ox : Z) (y : arr) (oy : Z) : res V :=
  bind (read cbuf c oc) (fun bytes =>
  if truth bytes then read xbuf x ox else read ybuf y oy).

(* Iterator::zip of the three offset iterators *)
Fixpoint zip3 {X} (l m n : list X) : list (X * X * X) :=
  match l, m, n with
  | x :: l', y :: m', z :: n' => (x, y, z) :: zip3 l' m' n'
  | _, _, _ => []
  end.

(* dispatch.rs:1661-1730 dispatch_where_typed *)
Definition where_typed (c x y : arr) (out_shape : list nat) : res (list V) :=
  let size := prod out_shape in
  if Nat.eqb size 0 then Ok [] else
  bind (broadcast_to c out_shape) (fun c' =>
  bind (broadcast_to x out_shape) (fun x' =>
  bind (broadcast_to y out_shape) (fun y' =>
  if a_c c' && a_c x' && a_c y' then
    mapM (fun k => pick truth_contig c' (Z.of_nat k * a_item c') x' (Z.of_nat k * a_item x')
                        y' (Z.of_nat k * a_item y')) (seq 0 size)
  else
    mapM (fun o => let '(oc, ox, oy) := o in pick truth_strided c' oc x' ox y' oy)
         (zip3 (iter_offsets c') (iter_offsets x') (iter_offsets y'))))).

(* ops/mod.rs:358-401 fallback: odometer, byte_offset_for and the dtype's own
   truth test (is_truthy) *)
Definition where_fallback (truthy : list Z -> bool) (c x y : arr) (out_shape : list nat) : res (list V) :=
  bind (broadcast_to c out_shape) (fun c' =>
  bind (broadcast_to x out_shape) (fun x' =>
  bind (broadcast_to y out_shape) (fun y' =>
  if Nat.eqb (prod out_shape) 0 then Ok [] else
  mapM (fun idx => pick truthy c' (byte_offset_for c' idx) x' (byte_offset_for x' idx)
                        y' (byte_offset_for y' idx))
       (odometer (prod out_shape) (repeat 0%nat (length out_shape)) out_shape)))).

(* ops/mod.rs:323-334 where_select; [typed]: x and y have the same dtype, other
   than int8 and the non-numeric ones *)
Definition where_select (typed : bool) (truthy : list Z -> bool) (c x y : arr)
  : res (list nat * list V) :=
  match broadcast_shapes (a_shape c) (a_shape x) with
  | None => Err
  | Some cx =>
      match broadcast_shapes cx (a_shape y) with
      | None => Err
      | Some out_shape =>
          bind (if typed then where_typed c x y out_shape else where_fallback truthy c x y out_shape)
               (fun vals => Ok (out_shape, vals))
      end
  end.
End Where.

(* ---- shared buffers and temporary elision ---------------------------------- *)

(* an allocation: contents and Arc strong count *)
Record alloc (V : Type) := mkAlloc { al_data : list V; al_strong : nat }.
Arguments mkAlloc {V} _ _.  Arguments al_data {V} _.  Arguments al_strong {V} _.
(* all allocations, named by position *)
Definition heap (V : Type) := list (alloc V).
(* an array object: which allocation, which dtype, which view of it *)
Record obj := mkObj { o_buf : nat; o_dtype : nat; o_arr : arr }.

Section Elision.
Context {V : Type}.
Local Open Scope nat_scope.

Definition data_of (h : heap V) (b : nat) : list V :=
  match nth_error h b with Some x => al_data x | None => [] end.
Definition strong_of (h : heap V) (b : nat) : nat :=
  match nth_error h b with Some x => al_strong x | None => 0 end.
(* Arc::clone / drop *)
Definition retain (h : heap V) (b : nat) : heap V :=
  match nth_error h b with Some x => upd h b (mkAlloc (al_data x) (S (al_strong x))) | None => h end.
Definition release (h : heap V) (b : nat) : heap V :=
  match nth_error h b with Some x => upd h b (mkAlloc (al_data x) (al_strong x - 1)) | None => h end.

(* pyarray/mod.rs:22 *)
Definition elision_threshold : Z := 32768.

(* mod.rs:104-110 can_reuse_for_output and pyarray/mod.rs:1180-1206
   try_elision_candidate (the clone itself is done by the caller below) *)
Definition elision_candidate (h : heap V) (refcount : nat) (x : obj) (out_shape : list nat)
    (out_dtype : nat) : bool :=
  Nat.leb refcount 2
  && negb (Z.of_nat (size (o_arr x)) <? elision_threshold)%Z
  && (list_eqb (a_shape (o_arr x)) out_shape && Nat.eqb (o_dtype x) out_dtype
      && a_c (o_arr x) && (a_off (o_arr x) =? 0)%Z && Nat.eqb (strong_of h (o_buf x)) 1).

(* the trait loop when the output is the operand's own buffer: every iteration
   reads both operands from the current contents and writes item i *)
Fixpoint inplace_loop (f : V -> V -> res V) (x y : obj) (h : heap V) (i : nat)
    (idxs : list (list nat)) : res (heap V) :=
  match idxs with
  | [] => Ok h
  | idx :: rest =>
      bind (app2 f (data_of h (o_buf x)) (data_of h (o_buf y))
                 (o_arr x) (byte_offset_for (o_arr x) idx) (o_arr y) (byte_offset_for (o_arr y) idx))
           (fun v => inplace_loop f x y
              (upd h (o_buf x) (mkAlloc (upd (data_of h (o_buf x)) i v) (strong_of h (o_buf x))))
              (S i) rest)
  end.

(* pyarray/mod.rs:1210-1235 binary_op_dispatch_with_elision on two arrays and
   ufunc.rs:177-458 map_binary_op_inplace (without the int/int true division and
   datetime branches).  [kern] is the kernel used by the kernel dispatch, None
   when that dispatch does not support the dtype; [trait_] the dtype's own
   binary_op, [mixed] the loop body for different dtypes.  [promote] is
   promote_dtype, [isz] the item size of a dtype.  Clones of the shared buffer
   are counted where the code makes them and given back at the end. *)
Definition binary_with_elision
    (kern : option (V -> V -> res V)) (trait_ mixed : V -> V -> res V)
    (promote : nat -> nat -> nat) (isz : nat -> Z)
    (h : heap V) (refcount : nat) (x y : obj) : res (heap V * obj) :=
  match broadcast_shapes (a_shape (o_arr x)) (a_shape (o_arr y)) with
  | None => Err
  | Some out_shape =>
      let out_dtype := promote (o_dtype x) (o_dtype y) in
      (* 1225 try_elision_candidate; 1205 Some(arr.clone()) *)
      let cand := elision_candidate h refcount x out_shape out_dtype in
      let h1 := if cand then retain h (o_buf x) else h in
      (* ufunc.rs:208-209 broadcast_to clones the Arc of each operand *)
      bind (broadcast_to (o_arr x) out_shape) (fun xa =>
      bind (broadcast_to (o_arr y) out_shape) (fun ya =>
      let xb := mkObj (o_buf x) (o_dtype x) xa in
      let yb := mkObj (o_buf y) (o_dtype y) ya in
      let h3 := retain (retain h1 (o_buf x)) (o_buf y) in
      (* temporaries dropped on return *)
      let drop_all (g : heap V) :=
        let g1 := release (release g (o_buf y)) (o_buf x) in
        if cand then release g1 (o_buf x) else g1 in
      let alloc_result (g : heap V) (dt : nat) (vals : list V) :=
        (drop_all g ++ [mkAlloc vals 1], mkObj (length g) dt (fresh out_shape (isz dt))) in
      let same := Nat.eqb (o_dtype x) (o_dtype y) in
      let body := if same && Nat.eqb (o_dtype x) out_dtype then trait_ else mixed in
      match (if negb cand && same then kern else None) with
      | Some k =>
          bind (dispatch_zip k (data_of h3 (o_buf x)) (data_of h3 (o_buf y)) xa ya out_shape)
               (fun vals => Ok (alloc_result h3 (o_dtype x) vals))
      | None =>
          if cand && Nat.eqb (strong_of h3 (o_buf x)) 1 then
            (* ufunc.rs:297-299 Arc::get_mut succeeded: write into the operand *)
            bind (inplace_loop body xb yb h3 0
                    (odometer (prod out_shape) (repeat 0 (length out_shape)) out_shape))
                 (fun h4 => Ok (drop_all h4, x))
          else
            bind (trait_zip body (data_of h3 (o_buf x)) (data_of h3 (o_buf y)) xa ya out_shape)
                 (fun vals => Ok (alloc_result h3 out_dtype vals))
      end))
  end.
End Elision.
