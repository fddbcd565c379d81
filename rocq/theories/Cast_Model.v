(* Conversion between dtypes, comparisons, isclose and logical operations:
   src/array/mod.rs, src/array/dtype/*.rs, src/ops/{ufunc,comparison,mod}.rs,
   src/ops/kernels/comparison.rs, src/ops/array_methods/logical.rs.
   An array here is a dtype, a buffer of elements and a view of it. *)
From Coq Require Import SpecFloat.
From Verif Require Import Base Int_Model F64_Model Arr_Model Bcast_Model Copy_Model Idx_Model Elem_Model Rng_Model Date_Model New_Model Promo_Spec Promo_Model Cast_Spec.
Local Open Scope Z_scope.

(* `x as f32`, `x as f64`, f16::from_f64: rounding to a format.  (half rounds
   f16::from_f64 slightly differently for inexact values; here to nearest even.) *)
Definition to_format (prec emax : Z) (x : spec_float) : spec_float :=
  match x with S754_finite s m e => binary_round prec emax s m e | _ => x end.

Definition i8 := mkIty 8 true.   Definition u8 := mkIty 8 false.
Definition i16 := mkIty 16 true. Definition u16 := mkIty 16 false.
Definition i32 := mkIty 32 true. Definition u32 := mkIty 32 false.
Definition i64 := mkIty 64 true. Definition u64 := mkIty 64 false.

(* read_f64: dtype/macros.rs:187-189, 369-371, 571-573 (`as f64`), bool.rs:114-116,
   float16.rs:179-181 (to_f64), complex64.rs / complex128.rs (None) *)
Definition read_f64 (v : scalar) : option spec_float :=
  match v with
  | SInt z => Some (f64_int z)
  | SFlt x => Some (to_format 53 1024 x)
  | SCpx _ _ => None
  end.
(* write_f64: dtype/macros.rs:182-185, 364-367, 566-569 (`val as T`), bool.rs:109-112,
   float16.rs:174-177, complex64.rs:403-406, complex128.rs:406-409.
   Strings refuse and leave the zero already there; they are not in this model. *)
Definition write_f64 (k : kind) (x : spec_float) : scalar :=
  match k with
  | Float16 => SFlt (to_format 11 16 x)
  | Float32 => SFlt (to_format 24 128 x)
  | Float64 => SFlt x
  | Int8 => SInt (as_int i8 x) | Int16 => SInt (as_int i16 x)
  | Int32 => SInt (as_int i32 x) | Int64 => SInt (as_int i64 x)
  | Uint8 => SInt (as_int u8 x) | Uint16 => SInt (as_int u16 x)
  | Uint32 => SInt (as_int u32 x) | Uint64 => SInt (as_int u64 x)
  | Bool => SInt (match x with S754_zero _ => 0 | _ => 1 end)
  | Complex64 => SCpx (to_format 24 128 x) (S754_zero false)
  | Complex128 => SCpx x (S754_zero false)
  | DateTime64 _ | TimeDelta64 _ => SInt (as_int i64 x)
  | Str _ | Bytes _ => SInt 0
  end.
(* array/mod.rs:144-152 get_element and 415-417: read_f64(..).unwrap_or(0.0) *)
Definition as_f64 (v : scalar) : spec_float :=
  match read_f64 v with Some x => x | None => S754_zero false end.
(* array/mod.rs:413-420 one element of a conversion between dtypes *)
Definition cast (k' : kind) (v : scalar) : scalar := write_f64 k' (as_f64 v).

Record narr := mkN { n_kind : kind; n_buf : list scalar; n_arr : arr }.
(* array/mod.rs:354-427 astype (datetime units are C57's) *)
Definition astype (x : narr) (k' : kind) : res narr :=
  bind (if kind_eqb (n_kind x) k'
        then copy_buf (n_buf x) (n_arr x) (match k' with Float64 | Int64 => true | _ => false end)
        else astype_conv (cast k') (n_buf x) (n_arr x))
       (fun vals => Ok (mkN k' vals (fresh (a_shape (n_arr x)) (itemsize k')))).

(* ---- comparison ---------------------------------------------------------- *)

(* kernels/comparison.rs:32-63 impl_ord_comparison on floats, IEEE comparison:
   > < >= <= == != *)
Definition float_cmp (op : cop) (x y : spec_float) : bool :=
  match op with
  | CGt => SFltb y x | CLt => SFltb x y
  | CGe => SFleb y x | CLe => SFleb x y
  | CEq => SFeqb x y | CNe => negb (SFeqb x y)
  end.
(* the same macro on integers *)
Definition int_cmp (op : cop) (x y : Z) : bool :=
  match op with
  | CGt => y <? x | CLt => x <? y
  | CGe => y <=? x | CLe => x <=? y
  | CEq => x =? y | CNe => negb (x =? y)
  end.
(* num_complex norm_sqr in the component type *)
Definition norm_sqr (prec emax : Z) (x y : spec_float) : spec_float :=
  SFadd prec emax (SFmul prec emax x x) (SFmul prec emax y y).
(* kernels/comparison.rs:83-110; ufunc.rs:512-525 for bool, through get_element *)
Definition cmp_elem (k : kind) (op : cop) (v w : scalar) : bool :=
  match k, v, w with
  | Bool, _, _ => float_cmp op (as_f64 v) (as_f64 w)
  | _, SInt x, SInt y => int_cmp op x y
  | _, SFlt x, SFlt y => float_cmp op x y
  | _, SCpx a b, SCpx c d =>
      let (prec, emax) := format k in
      match op with
      | CEq => SFeqb a c && SFeqb b d
      | CNe => negb (SFeqb a c && SFeqb b d)
      | _ => float_cmp op (norm_sqr prec emax a b) (norm_sqr prec emax c d)
      end
  | _, _, _ => false
  end.
(* ufunc.rs:468-527 map_compare_op: the shape and the new bool buffer *)
Definition promoted (x : narr) (k : kind) : res narr :=
  if kind_eqb (n_kind x) k then Ok x else astype x k.
Definition compare (op : cop) (x y : narr) : res (list nat * list bool) :=
  match broadcast_shapes (a_shape (n_arr x)) (a_shape (n_arr y)) with
  | None => Err
  | Some _ =>
      let k := promote (n_kind x) (n_kind y) in
      bind (promoted x k) (fun x' => bind (promoted y k) (fun y' =>
      elementwise2 (fun v w => Ok (cmp_elem k op v w)) (match k with Bool => PElement | _ => PKernel end)
                   (n_buf x') (n_arr x') (n_buf y') (n_arr y')))
  end.
(* ops/mod.rs:115-119 compare_scalar, python/pyarray/mod.rs:1297-1318: a Python
   number, already extracted as f64 *)
Definition compare_scalar (op : cop) (x : narr) (s : spec_float) : res (list nat * list bool) :=
  compare op x (mkN Float64 [SFlt s] (fresh [1%nat] 8)).
(* array_methods/logical.rs:27-40 all() of a fresh bool array *)
Definition all_true (l : list bool) : bool := forallb (fun b => b) l.
(* comparison.rs:195-201 array_equal *)
Definition array_equal (x y : narr) : res bool :=
  if list_eqb (a_shape (n_arr x)) (a_shape (n_arr y)) then
    match compare CEq x y with
    | Ok (_, l) => Ok (all_true l)
    | Err => Ok false
    | Panic => Panic
    | Fault => Fault
    end
  else Ok false.

(* ---- isclose -------------------------------------------------------------- *)
Definition is_nan (x : spec_float) : bool := match x with S754_nan => true | _ => false end.
Definition is_inf (x : spec_float) : bool := match x with S754_infinity _ => true | _ => false end.
(* comparison.rs:183-194 the closure of isclose *)
Definition close (rtol atol : spec_float) (equal_nan : bool) (x y : spec_float) : bool :=
  if is_nan x && is_nan y then equal_nan
  else if is_nan x || is_nan y then false
  else if is_inf x || is_inf y then SFeqb x y
  else SFleb (SFabs (SFsub 53 1024 x y)) (SFadd 53 1024 atol (SFmul 53 1024 rtol (SFabs y))).
(* comparison.rs:182-195 isclose through map_binary_to_bool (34-56): get_element on both *)
Definition isclose (rtol atol : spec_float) (equal_nan : bool) (x y : narr) : res (list nat * list bool) :=
  elementwise2 (fun v w => Ok (close rtol atol equal_nan (as_f64 v) (as_f64 w))) PElement
               (n_buf x) (n_arr x) (n_buf y) (n_arr y).
(* comparison.rs:198-201 *)
Definition allclose (rtol atol : spec_float) (equal_nan : bool) (x y : narr) : res bool :=
  bind (isclose rtol atol equal_nan x y) (fun r => Ok (all_true (snd r))).

(* ---- logical operations --------------------------------------------------- *)
(* is_truthy: macros.rs:178-180, 360-362, 562-564, bool.rs:105-107, float16.rs:170-172,
   complex64.rs:398-401, complex128.rs:401-404 *)
Definition truthy (v : scalar) : bool :=
  match v with
  | SInt z => negb (z =? 0)
  | SFlt x => negb (SFeqb x (S754_zero false))
  | SCpx x y => negb (SFeqb x (S754_zero false)) || negb (SFeqb y (S754_zero false))
  end.
Inductive lop := LAnd | LOr | LXor.
(* comparison.rs:119-132 *)
Definition lop_fn (op : lop) (a b : bool) : bool :=
  match op with LAnd => a && b | LOr => a || b | LXor => negb (Bool.eqb a b) end.
(* comparison.rs:64-92 map_binary_logical: byte_offset_for on both operands *)
Definition logical (op : lop) (x y : narr) : res (list nat * list bool) :=
  elementwise2 (fun v w => Ok (lop_fn op (truthy v) (truthy w))) PTrait (n_buf x) (n_arr x) (n_buf y) (n_arr y).
(* comparison.rs:95-117, 134-137 logical_not: over iter_offsets *)
Definition logical_not (x : narr) : res (list bool) :=
  trait_map (fun v => Ok (negb (truthy v))) (n_buf x) (n_arr x).
(* the bool array of a shape and a buffer, as a result and as the next operand *)
Definition bool_arr (sh : list nat) (l : list bool) : narr :=
  mkN Bool (map (fun b : bool => SInt (if b then 1 else 0)) l) (fresh sh 1).
