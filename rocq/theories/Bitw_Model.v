(* Bitwise operations and shifts: src/ops/bitwise.rs, src/ops/kernels/bitwise.rs,
   src/ops/dispatch.rs, src/array/dtype/{macros,bool}.rs, src/python/pyarray/mod.rs. *)
From Coq Require Import SpecFloat.
From Verif Require Import Base Int_Model F64_Model Arr_Model Bcast_Model Copy_Model Elem_Spec Elem_Model Rng_Model New_Model Promo_Spec Promo_Model Cast_Spec Cast_Model.
Local Open Scope Z_scope.

Inductive bop := BAnd | BOr | BXor | BShl | BShr.
Definition is_shift (op : bop) : bool := match op with BShl | BShr => true | _ => false end.
(* the machine type behind an integer dtype *)
Definition int_of (k : kind) : option ity :=
  match k with
  | Int8 => Some i8 | Int16 => Some i16 | Int32 => Some i32 | Int64 => Some i64
  | Uint8 => Some u8 | Uint16 => Some u16 | Uint32 => Some u32 | Uint64 => Some u64
  | _ => None
  end.
(* the bit pattern of a machine integer, as a number *)
Definition pattern (t : ity) (z : Z) : Z := z mod 2 ^ bits t.
(* kernels/bitwise.rs:40-80 impl_bitwise_int, and the same in dtype/macros.rs:395-411,
   597-613: &, | and ^ on the patterns; wrapping_shl and wrapping_shr take the count
   `b as u32` modulo the width; >> of a signed type copies the sign *)
Definition int_bit (t : ity) (op : bop) (x y : Z) : Z :=
  let count := (y mod 2 ^ 32) mod bits t in
  match op with
  | BAnd => wrap t (Z.land (pattern t x) (pattern t y))
  | BOr => wrap t (Z.lor (pattern t x) (pattern t y))
  | BXor => wrap t (Z.lxor (pattern t x) (pattern t y))
  | BShl => wrap t (Z.shiftl x count)
  | BShr => Z.shiftr x count
  end.
(* !v: every bit of the pattern turned over *)
Definition int_not (t : ity) (x : Z) : Z := wrap t (2 ^ bits t - 1 - pattern t x).
Definition bit01 (b : bool) : Z := if b then 1 else 0.
(* kernels/bitwise.rs:96-122 for bool; shifts fall back to bool.rs:139-154, where both
   shifts return the left operand *)
Definition bool_bit (op : bop) (x y : Z) : Z :=
  let a := negb (x =? 0) in let b := negb (y =? 0) in
  bit01 (match op with BAnd => a && b | BOr => a || b | BXor => negb (Bool.eqb a b) | BShl | BShr => a end).
(* one element; None where the dtype has no bitwise operations (floats, complex: the
   default bitwise_op and bitwise_not of DTypeOps return false) *)
Definition bit_elem (k : kind) (op : bop) (v w : scalar) : option scalar :=
  match v, w with
  | SInt x, SInt y =>
      match k with
      | Bool => Some (SInt (bool_bit op x y))
      | _ => match int_of k with Some t => Some (SInt (int_bit t op x y)) | None => None end
      end
  | _, _ => None
  end.
Definition not_elem (k : kind) (v : scalar) : option scalar :=
  match v with
  | SInt x =>
      match k with
      | Bool => Some (SInt (bit01 (x =? 0)))
      | _ => match int_of k with Some t => Some (SInt (int_not t x)) | None => None end
      end
  | _ => None
  end.
Definition or_err {A} (o : option A) : res A := match o with Some v => Ok v | None => Err end.

(* memory as bytes: elements of integer dtypes and bool, little endian *)
Fixpoint le (n : nat) (z : Z) : list Z := match n with O => [] | S n' => z mod 256 :: le n' (z / 256) end.
Definition memory (k : kind) (buf : list scalar) : list Z :=
  flat_map (fun v => match v with SInt z => le (Z.to_nat (itemsize k)) z | _ => le (Z.to_nat (itemsize k)) 0 end) buf.
(* a read of dtype k at a byte offset; past the end of the buffer it is a fault *)
Definition read_as (k : kind) (mem : list Z) (o : Z) : res scalar :=
  let n := Z.to_nat (itemsize k) in
  if (o <? 0) || (Z.of_nat (length mem) <? o + itemsize k) then Fault
  else let u := le_value (firstn n (skipn (Z.to_nat o) mem)) in
       Ok (SInt (match int_of k with Some t => wrap t u | None => u end)).
(* bitwise.rs:41-71 map_binary_bitwise_trait: both operands are read as the result's dtype,
   whatever their own *)
Definition bitwise_trait (k : kind) (op : bop) (x y : narr) (a' b' : arr) (sh : list nat) : res (list scalar) :=
  mapM (fun idx =>
    match int_of k, k with
    | None, Bool | Some _, _ =>
        bind (read_as k (memory (n_kind x) (n_buf x)) (a_off a' + byte_offset_for a' idx)) (fun v =>
        bind (read_as k (memory (n_kind y) (n_buf y)) (a_off b' + byte_offset_for b' idx)) (fun w =>
        or_err (bit_elem k op v w)))
    | _, _ => Err
    end) (all_idx sh).
(* bitwise.rs:14-38 map_binary_bitwise, with dispatch.rs:1266-1345: operands of one integer
   dtype, or of bool unless the operation is a shift, have a kernel *)
Definition bitwise (op : bop) (x y : narr) : res narr :=
  let k := promote (n_kind x) (n_kind y) in
  match broadcast_shapes (a_shape (n_arr x)) (a_shape (n_arr y)) with
  | None => Err
  | Some sh =>
      bind (if Nat.eqb (prod sh) 0 then Ok []
            else if kind_eqb (n_kind x) (n_kind y) && match int_of (n_kind x), n_kind x with Some _, _ => true | None, Bool => negb (is_shift op) | _, _ => false end
            then bind (elementwise2 (fun v w => or_err (bit_elem k op v w)) PKernel (n_buf x) (n_arr x) (n_buf y) (n_arr y)) (fun r => Ok (snd r))
            else bind (broadcast_to (n_arr x) sh) (fun a' => bind (broadcast_to (n_arr y) sh) (fun b' => bitwise_trait k op x y a' b' sh)))
           (fun vals => Ok (mkN k vals (fresh sh (itemsize k))))
  end.
(* bitwise.rs:73-109, dispatch.rs:1399-1462 *)
Definition bitwise_not (x : narr) : res narr :=
  bind (trait_map (fun v => or_err (not_elem (n_kind x) v)) (n_buf x) (n_arr x)) (fun vals =>
  Ok (mkN (n_kind x) vals (fresh (a_shape (n_arr x)) (itemsize (n_kind x))))).
(* python/pyarray/mod.rs:1318-1344: a Python integer becomes an int64 array, through f64 *)
Definition py_int (z : Z) : narr := mkN Int64 [SInt (as_int i64 (f64_int z))] (fresh [1%nat] 8).
Definition bitwise_scalar (op : bop) (x : narr) (z : Z) : res narr :=
  if (- 2 ^ 63 <=? z) && (z <? 2 ^ 63) then bitwise op x (py_int z) else Err.
(* python/pyarray/mod.rs:1346-1366 *)
Definition rbitwise_scalar (op : bop) (z : Z) (x : narr) : res narr :=
  if (- 2 ^ 63 <=? z) && (z <? 2 ^ 63) then bitwise op (py_int z) x else Err.
