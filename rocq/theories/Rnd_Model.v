(* floor, ceil, trunc, rint, negative, absolute, sign, round and clip:
   src/ops/kernels/math.rs, src/ops/array_methods/unary.rs, src/ops/ufunc.rs,
   src/ops/dispatch.rs, src/ops/mod.rs, src/array/dtype/{macros,bool}.rs. *)
From Coq Require Import SpecFloat.
From Verif Require Import Base Int_Model F64_Model Arr_Model Bcast_Model Copy_Model Idx_Model Elem_Model Rng_Model Date_Model New_Model Promo_Spec Promo_Model Cast_Spec Cast_Model Bitw_Model.
Local Open Scope Z_scope.

Inductive uop := UFloor | UCeil | UTrunc | URint | UNeg | UAbs | USign | UPositive.

(* f64::floor, ceil, trunc, round (ties away from zero): the magnitude of the result
   for -(or +) m * 2^e with e < 0 *)
Definition round_mag (op : uop) (s : bool) (m e : Z) : Z :=
  let d := 2 ^ (- e) in
  let q := m / d in
  let r := m mod d in
  match op with
  | UFloor => if s && negb (r =? 0) then q + 1 else q
  | UCeil => if negb s && negb (r =? 0) then q + 1 else q
  | URint => if d <=? 2 * r then q + 1 else q
  | _ => q
  end.
(* a whole number with a sign, zero included, as a float *)
Definition float_whole (prec emax : Z) (s : bool) (n : Z) : spec_float :=
  match n with Zpos p => binary_round prec emax s p 0 | _ => S754_zero s end.
Definition round_float (prec emax : Z) (op : uop) (x : spec_float) : spec_float :=
  match x with
  | S754_finite s m e => if 0 <=? e then x else float_whole prec emax s (round_mag op s (Zpos m) e)
  | _ => x
  end.
Definition float_one (prec emax : Z) (s : bool) : spec_float := float_whole prec emax s 1.

(* kernels/math.rs:117-236 impl_float_math, one element *)
Definition float_unary (op : uop) (prec emax : Z) (x : spec_float) : spec_float :=
  match op with
  | UFloor | UCeil | UTrunc | URint => round_float prec emax op x
  | UNeg => SFopp x
  | UAbs => SFabs x
  | USign =>
      if is_nan x then x
      else if SFltb (S754_zero false) x then float_one prec emax false
      else if SFltb x (S754_zero false) then float_one prec emax true
      else S754_zero false
  | UPositive => x
  end.
(* the same macro for f64 and f32; kernels/math.rs:247-388 f16 through f32 and back *)
Definition float_kernel (k : kind) (op : uop) (x : spec_float) : spec_float :=
  match k with
  | Float16 => match op with
               | UPositive => x
               | _ => to_format 11 16 (float_unary op 24 128 (to_format 24 128 x))
               end
  | Float32 | Complex64 => float_unary op 24 128 x
  | _ => float_unary op 53 1024 x
  end.
(* kernels/math.rs:391-450 integers: wrapping_neg, abs (wrapping without overflow checks),
   signum; dtype/macros.rs:275-293, 477-495 floor, ceil, trunc and rint of an integer *)
Definition int_unary (t : ity) (op : uop) (z : Z) : Z :=
  match op with
  | UNeg => wrap t (- z)
  | UAbs => wrap t (Z.abs z)
  | USign => Z.sgn z
  | _ => z
  end.
(* one element.  bool.rs:42-50: only negation does something.  Complex: math.rs:478-694;
   absolute and sign of a complex need a square root and are left out here (Fault). *)
Definition unary_elem (k : kind) (op : uop) (v : scalar) : res scalar :=
  match v with
  | SFlt x => Ok (SFlt (float_kernel k op x))
  | SInt z =>
      match k with
      | Bool => Ok (SInt (match op with UNeg => 1 - z | _ => z end))
      | _ => match int_of k with Some t => Ok (SInt (int_unary t op z)) | None => Ok (SInt z) end
      end
  | SCpx x y =>
      match op with
      | UAbs | USign => Fault
      | _ => Ok (SCpx (float_kernel k op x) (float_kernel k op y))
      end
  end.
(* which path: dispatch.rs:919-967 dispatch_unary_kernel_float / _int *)
Definition is_float_kind (k : kind) : bool := match k with Float16 | Float32 | Float64 | Complex64 | Complex128 => true | _ => false end.
Definition dispatched (k : kind) (op : uop) : bool :=
  is_float_kind k ||
  match op with
  | UNeg | UAbs | USign | UPositive => match int_of k with Some _ => true | None => false end
  | _ => false
  end.
(* ufunc.rs:63-160 map_unary_op; none of these operations is in is_transcendental (45-50) *)
Definition unary (op : uop) (x : narr) : res narr :=
  let k := n_kind x in
  match is_complex_kind k, op with
  | true, (UFloor | UCeil) => Err
  | _, _ =>
      bind (if dispatched k op then dispatch_map (unary_elem k op) (n_buf x) (n_arr x)
            else trait_map (unary_elem k op) (n_buf x) (n_arr x)) (fun vals =>
      Ok (mkN k vals (fresh (a_shape (n_arr x)) (itemsize k))))
  end.

(* ---- clip and round ------------------------------------------------------- *)

(* dispatch.rs:1486-1520, 1552-1577: contiguous slice or iter_offsets *)
Definition slice_map {V W} (f : V -> res W) (buf : list V) (a : arr) : res (list W) :=
  if Nat.eqb (size a) 0 then Ok []
  else if a_c a then mapM (fun k => app1 f buf a (Z.of_nat k * a_item a)) (seq 0 (size a))
  else mapM (app1 f buf a) (iter_offsets a).

(* dispatch.rs:1465-1479: the dtypes with a typed loop *)
Definition clip_typed (k : kind) : bool :=
  match k with
  | Float64 | Float32 | Float16 | Int64 | Int32 | Int16 | Uint64 | Uint32 | Uint16 | Uint8 => true
  | _ => false
  end.
(* dispatch.rs:1500-1507; the bounds were converted with `as` (1467-1476), which is
   what write_f64 does for these dtypes *)
Definition clip_elem (k : kind) (lo hi : option spec_float) (v : scalar) : scalar :=
  let v1 := match lo with
            | Some m => if cmp_elem k CLt v (write_f64 k m) then write_f64 k m else v
            | None => v
            end in
  match hi with
  | Some m => if cmp_elem k CGt v1 (write_f64 k m) then write_f64 k m else v1
  | None => v1
  end.
(* ops/mod.rs:224-237: everything else through f64 *)
Definition clip_f64 (lo hi : option spec_float) (x : spec_float) : spec_float :=
  let x1 := match lo with Some m => if SFltb x m then m else x | None => x end in
  match hi with Some m => if SFltb m x1 then m else x1 | None => x1 end.
(* ops/mod.rs:204-240 clip *)
Definition clip (x : narr) (lo hi : option spec_float) : res narr :=
  let k := n_kind x in
  bind (if clip_typed k then slice_map (fun v => Ok (clip_elem k lo hi v)) (n_buf x) (n_arr x)
        else trait_map (fun v => Ok (write_f64 k (clip_f64 lo hi (as_f64 v)))) (n_buf x) (n_arr x)) (fun vals =>
  Ok (mkN k vals (fresh (a_shape (n_arr x)) (itemsize k)))).

(* f64::powi, compiler-rt __powidf2: repeated squaring *)
Fixpoint powi_loop (prec emax : Z) (a r : spec_float) (n : positive) : spec_float :=
  match n with
  | xH => SFmul prec emax r a
  | xO n' => powi_loop prec emax (SFmul prec emax a a) r n'
  | xI n' => powi_loop prec emax (SFmul prec emax a a) (SFmul prec emax r a) n'
  end.
Definition ten (prec emax : Z) : spec_float := binary_normalize prec emax 10 0 false.
Definition powi10 (prec emax : Z) (n : Z) : spec_float :=
  let f1 := float_one prec emax false in
  match n with
  | Z0 => f1
  | Zpos p => powi_loop prec emax (ten prec emax) f1 p
  | Zneg p => SFdiv prec emax f1 (powi_loop prec emax (ten prec emax) f1 p)
  end.
(* dispatch.rs:1566, 1573; ops/mod.rs:265: (v * scale).round() / scale *)
Definition round_scaled (prec emax : Z) (decimals : Z) (x : spec_float) : spec_float :=
  let s := powi10 prec emax decimals in
  SFdiv prec emax (round_float prec emax URint (SFmul prec emax x s)) s.
(* dispatch.rs:1596 `10i64.pow(-decimals) as T`, wrapping without overflow checks *)
Definition round_scale (t : ity) (decimals : Z) : Z := wrap t (wrap i64 (10 ^ (- decimals))).
(* dispatch.rs:1606, 1613 `(v / scale) * scale`; division by zero panics *)
Definition round_int (t : ity) (decimals : Z) (z : Z) : res Z :=
  let s := round_scale t decimals in
  if s =? 0 then Panic else Ok (wrap t (Z.quot z s * s)).
(* does the result use the memory of the argument, or its own? *)
Inductive memory_of := Shared | Own.
(* ops/mod.rs:243-271 round, dispatch.rs:1526-1548 dispatch_round; int8 has no entry there *)
Definition round (x : narr) (decimals : Z) : res (memory_of * narr) :=
  let k := n_kind x in
  let out vals := Ok (Own, mkN k vals (fresh (a_shape (n_arr x)) (itemsize k))) in
  match k with
  | Float64 => bind (slice_map (fun v => match v with SFlt f => Ok (SFlt (round_scaled 53 1024 decimals f)) | _ => Fault end) (n_buf x) (n_arr x)) out
  | Float32 => bind (slice_map (fun v => match v with SFlt f => Ok (SFlt (round_scaled 24 128 decimals f)) | _ => Fault end) (n_buf x) (n_arr x)) out
  | Int64 | Int32 | Int16 | Uint64 | Uint32 | Uint16 | Uint8 =>
      if 0 <=? decimals then Ok (Shared, x)
      else match int_of k with
           | Some t => bind (slice_map (fun v => match v with SInt z => bind (round_int t decimals z) (fun r => Ok (SInt r)) | _ => Fault end) (n_buf x) (n_arr x)) out
           | None => Fault
           end
  | _ => bind (trait_map (fun v => Ok (write_f64 k (round_scaled 53 1024 decimals (as_f64 v)))) (n_buf x) (n_arr x)) out
  end.
