(* isnan, isinf, isfinite, signbit, isneginf, isposinf, isreal, iscomplex; real, imag,
   conj; nan_to_num; arithmetic, extrema and reductions of complex arrays.
   src/ops/kernels/{math,arithmetic}.rs, src/ops/dispatch.rs, src/ops/ufunc.rs,
   src/ops/array_methods/unary.rs, src/array/dtype/{macros,bool,float16,complex64,complex128}.rs. *)
From Coq Require Import SpecFloat.
From Verif Require Import Base Int_Model F64_Model Arr_Model Bcast_Model Copy_Model Idx_Model Elem_Model Red_Model Rng_Model Date_Model New_Model Promo_Spec Promo_Model Cast_Spec Cast_Model Bitw_Model Rnd_Model Ari_Model.
Local Open Scope Z_scope.

Inductive pred := PNan | PInf | PFinite | PSign | PNegInf | PPosInf.

(* f64::is_nan, is_infinite, is_finite, is_sign_negative, == NEG_INFINITY, == INFINITY.
   The sign of a NaN is not in this model: it counts as positive. *)
Definition is_infinite (x : spec_float) : bool := match x with S754_infinity _ => true | _ => false end.
Definition is_finite (x : spec_float) : bool := match x with S754_zero _ | S754_finite _ _ _ => true | _ => false end.
Definition zero : spec_float := S754_zero false.
(* kernels/math.rs:722-853 *)
Definition pred_elem (p : pred) (v : scalar) : bool :=
  match v with
  | SFlt x =>
      match p with
      | PNan => is_nan x | PInf => is_infinite x | PFinite => is_finite x | PSign => sign_bit x
      | PNegInf => SFeqb x (S754_infinity true) | PPosInf => SFeqb x (S754_infinity false)
      end
  | SInt z => match p with PFinite => true | PSign => z <? 0 | _ => false end
  | SCpx x y =>
      match p with
      | PNan => is_nan x || is_nan y
      | PInf => is_infinite x || is_infinite y
      | PFinite => is_finite x && is_finite y
      | PSign => sign_bit x
      | PNegInf => SFeqb x (S754_infinity true) && SFeqb y zero
      | PPosInf => SFeqb x (S754_infinity false) && SFeqb y zero
      end
  end.
(* ufunc.rs:63-160 with dispatch.rs:2131-2220.  dispatch_predicate_typed has the layout
   cases of dispatch_unary_typed.  A bool array has no kernel: the trait loop runs
   bool.rs:42-50, which copies the element into an array of its own dtype. *)
Definition predicate (p : pred) (x : narr) : res narr :=
  match n_kind x with
  | Bool => bind (trait_map (fun v => Ok v) (n_buf x) (n_arr x)) (fun vals =>
            Ok (mkN Bool vals (fresh (a_shape (n_arr x)) (itemsize Bool))))
  | _ => bind (dispatch_map (fun v => Ok (SInt (bit01 (pred_elem p v)))) (n_buf x) (n_arr x)) (fun vals =>
         Ok (mkN Bool vals (fresh (a_shape (n_arr x)) (itemsize Bool))))
  end.

(* isreal (true) and iscomplex (false): macros.rs:86-87, 300-301, 502-503,
   float16.rs:84-85, complex64.rs:266-267, complex128.rs:269-270, bool.rs:42-50 *)
Definition zero_one (k : kind) (b : bool) : spec_float :=
  if b then float_one (fst (format k)) (snd (format k)) false else zero.
Definition reality_elem (k : kind) (r : bool) (v : scalar) : scalar :=
  match v with
  | SFlt _ => SFlt (zero_one k r)
  | SInt z => match k with Bool => SInt z | _ => SInt (bit01 r) end
  | SCpx _ y => SCpx (zero_one k (Bool.eqb r (SFeqb y zero))) zero
  end.
(* ufunc.rs:133-160: always the trait loop, into the array's own dtype *)
Definition reality (r : bool) (x : narr) : res narr :=
  let k := n_kind x in
  bind (trait_map (fun v => Ok (reality_elem k r v)) (n_buf x) (n_arr x)) (fun vals =>
  Ok (mkN k vals (fresh (a_shape (n_arr x)) (itemsize k)))).

(* ---- parts ------------------------------------------------------------------ *)

(* read_complex: macros.rs:210-212, 392-394, 594-596, bool.rs:137-139, float16.rs:202-204,
   complex64.rs:426-429, complex128.rs:429-431 *)
Definition read_complex (v : scalar) : spec_float * spec_float :=
  match v with
  | SCpx x y => (to_format 53 1024 x, to_format 53 1024 y)
  | _ => (as_f64 v, zero)
  end.
Definition each_offset {W} (f : scalar -> res W) (x : narr) : res (list W) := mapM (app1 f (n_buf x) (n_arr x)) (iter_offsets (n_arr x)).
Definition copy (x : narr) : res narr :=
  bind (copy_buf (n_buf x) (n_arr x) (match n_kind x with Float64 | Int64 => true | _ => false end))
       (fun vals => Ok (mkN (n_kind x) vals (fresh (a_shape (n_arr x)) (itemsize (n_kind x))))).
Definition part (k : kind) : Z * Z := match k with Complex64 => (24, 128) | _ => (53, 1024) end.
Definition float_of (k : kind) : kind := match k with Complex64 => Float32 | _ => Float64 end.
(* a part stored in the result: as it is for complex128, `as f32` for complex64 *)
Definition store (k : kind) (x : spec_float) : spec_float := match k with Complex64 => to_format 24 128 x | _ => x end.
(* array_methods/unary.rs:204-236 real *)
Definition real_part (x : narr) : res narr :=
  let k := n_kind x in
  if is_complex_kind k then
    bind (each_offset (fun v => Ok (SFlt (store k (fst (read_complex v))))) x) (fun vals =>
    Ok (mkN (float_of k) vals (fresh (a_shape (n_arr x)) (itemsize (float_of k)))))
  else copy x.
(* 241-273 imag; real arrays: RumpyArray::zeros *)
Definition zero_item (k : kind) : scalar :=
  match k with Float16 | Float32 | Float64 => SFlt zero | Complex64 | Complex128 => SCpx zero zero | _ => SInt 0 end.
Definition imag_part (x : narr) : res narr :=
  let k := n_kind x in
  if is_complex_kind k then
    bind (each_offset (fun v => Ok (SFlt (store k (snd (read_complex v))))) x) (fun vals =>
    Ok (mkN (float_of k) vals (fresh (a_shape (n_arr x)) (itemsize (float_of k)))))
  else Ok (mkN k (repeat (zero_item k) (size (n_arr x))) (fresh (a_shape (n_arr x)) (itemsize k))).
(* 278-316 conj; `-im as f32` is (-im) as f32 *)
Definition conj (x : narr) : res narr :=
  let k := n_kind x in
  if is_complex_kind k then
    bind (each_offset (fun v => Ok (SCpx (store k (fst (read_complex v))) (store k (SFopp (snd (read_complex v)))))) x) (fun vals =>
    Ok (mkN k vals (fresh (a_shape (n_arr x)) (itemsize k))))
  else copy x.

(* f64::MAX, f32::MAX, f16::MAX and, with true, MIN *)
Definition float_max_of (prec emax : Z) (s : bool) : spec_float := S754_finite s (Z.to_pos (2 ^ prec - 1)) (emax - prec).
(* unary.rs:322-425 one part: custom values converted with `as` or from_f64 *)
Definition replace_part (prec emax : Z) (nan : spec_float) (pos neg : option spec_float) (x : spec_float) : spec_float :=
  let conv := to_format prec emax in
  if is_nan x then conv nan
  else if is_infinite x then
    if SFltb zero x then match pos with Some p => conv p | None => float_max_of prec emax false end
    else match neg with Some p => conv p | None => float_max_of prec emax true end
  else x.
Definition nan_to_num (nan : spec_float) (pos neg : option spec_float) (x : narr) : res narr :=
  let k := n_kind x in
  let rep := replace_part (fst (format k)) (snd (format k)) nan pos neg in
  match k with
  | Float16 | Float32 | Float64 | Complex64 | Complex128 =>
      bind (each_offset (fun v => match v with
                                  | SFlt y => Ok (SFlt (rep y))
                                  | SCpx _ _ => Ok (SCpx (rep (store k (fst (read_complex v)))) (rep (store k (snd (read_complex v)))))
                                  | SInt _ => Fault
                                  end) x) (fun vals =>
      Ok (mkN k vals (fresh (a_shape (n_arr x)) (itemsize k))))
  | _ => copy x
  end.

(* ---- arithmetic -------------------------------------------------------------- *)
Definition cpx := (spec_float * spec_float)%type.
Definition nan_cpx : cpx := (S754_nan, S754_nan).
Definition cpx_nan (a : cpx) : bool := is_nan (fst a) || is_nan (snd a).
(* num_complex norm_sqr, *, / *)
Definition norm_sqr (prec emax : Z) (a : cpx) : spec_float :=
  SFadd prec emax (SFmul prec emax (fst a) (fst a)) (SFmul prec emax (snd a) (snd a)).
Definition cpx_mul (prec emax : Z) (a b : cpx) : cpx :=
  let mul := SFmul prec emax in
  (SFsub prec emax (mul (fst a) (fst b)) (mul (snd a) (snd b)), SFadd prec emax (mul (fst a) (snd b)) (mul (snd a) (fst b))).
Definition cpx_div (prec emax : Z) (a b : cpx) : cpx :=
  let mul := SFmul prec emax in let n := norm_sqr prec emax b in
  (SFdiv prec emax (SFadd prec emax (mul (fst a) (fst b)) (mul (snd a) (snd b))) n,
   SFdiv prec emax (SFsub prec emax (mul (snd a) (fst b)) (mul (fst a) (snd b))) n).
(* arithmetic.rs:537-539, 547-549: the first is kept *)
Definition lex_ge (a b : cpx) : bool := SFltb (fst b) (fst a) || SFeqb (fst a) (fst b) && SFleb (snd b) (snd a).
Definition cpx_le (a b : cpx) : bool := SFltb (fst a) (fst b) || SFeqb (fst a) (fst b) && SFleb (snd a) (snd b).
(* arithmetic.rs:487-608 impl_complex_arithmetic *)
Definition cpx_bin (op : aop) (prec emax : Z) (a b : cpx) : cpx :=
  match op with
  | AAdd => (SFadd prec emax (fst a) (fst b), SFadd prec emax (snd a) (snd b))
  | ASub => (SFsub prec emax (fst a) (fst b), SFsub prec emax (snd a) (snd b))
  | AMul => cpx_mul prec emax a b
  | ADiv => cpx_div prec emax a b
  | AMod | AFloorDiv => nan_cpx
  | AMaximum => if cpx_nan a || cpx_nan b then nan_cpx else if lex_ge a b then a else b
  | AMinimum => if cpx_nan a || cpx_nan b then nan_cpx else if cpx_le a b then a else b
  | AFMax => if cpx_nan a && cpx_nan b then nan_cpx else if cpx_nan a then b else if cpx_nan b then a else if lex_ge a b then a else b
  | AFMin => if cpx_nan a && cpx_nan b then nan_cpx else if cpx_nan a then b else if cpx_nan b then a else if cpx_le a b then a else b
  | ACopysign => (float_copysign (fst a) (fst b), float_copysign (snd a) (snd b))
  | ANextafter => b
  end.
(* one element of operands of one dtype *)
Definition any_same (k : kind) (op : aop) (v w : scalar) : res scalar :=
  match v, w with
  | SCpx a b, SCpx c d => let (r, i) := cpx_bin op (fst (part k)) (snd (part k)) (a, b) (c, d) in Ok (SCpx r i)
  | _, _ => same_elem k op v w
  end.
(* ufunc.rs:341-412 operands of different dtypes, complex result, in f64.  Division: NaN
   when the denominator is zero. *)
Definition cpx_mixed (op : aop) (a b : cpx) : cpx :=
  match op with
  | ADiv => if SFeqb (norm_sqr 53 1024 b) zero then nan_cpx else cpx_div 53 1024 a b
  | _ => cpx_bin op 53 1024 a b
  end.
Definition any_mixed (k : kind) (op : aop) (v w : scalar) : res scalar :=
  if is_complex_kind k then let (r, i) := cpx_mixed op (read_complex v) (read_complex w) in Ok (SCpx (store k r) (store k i))
  else mixed_elem k op v w.
(* ufunc.rs:207-459 as in Ari_Model.binary_plain, complex operands included *)
Definition cbinary_plain (op : aop) (x y : narr) : res narr :=
  let k := promote (n_kind x) (n_kind y) in
  let same := kind_eqb (n_kind x) (n_kind y) in
  bind (elementwise2 (if same then any_same (n_kind x) op else any_mixed k op)
                     (if same && has_kernel (n_kind x) op then PKernel else PTrait)
                     (n_buf x) (n_arr x) (n_buf y) (n_arr y)) (fun '(sh, vals) =>
  Ok (mkN k vals (fresh sh (itemsize k)))).
(* ufunc.rs:182-205 division *)
Definition cbinary (op : aop) (x y : narr) : res narr :=
  match op with
  | ADiv =>
      if integer (n_kind x) && integer (n_kind y) then
        bind (astype x Float64) (fun x' => bind (astype y Float64) (fun y' => cbinary_plain op x' y'))
      else if integer (n_kind x) then bind (astype x (float_for (n_kind x))) (fun x' => cbinary_plain op x' y)
      else if integer (n_kind y) then bind (astype y (float_for (n_kind y))) (fun y' => cbinary_plain op x y')
      else cbinary_plain op x y
  | _ => cbinary_plain op x y
  end.

(* ---- reductions ---------------------------------------------------------------- *)
Inductive red := RSum | RProd | RMax | RMin.
Definition scalar_cpx (v : scalar) : cpx := match v with SCpx x y => (x, y) | SFlt x => (x, zero) | SInt _ => (zero, zero) end.
(* arithmetic.rs:505-515, 612-627 *)
Definition red_init (prec emax : Z) (op : red) : cpx :=
  match op with
  | RSum => (zero, zero)
  | RProd => (float_one prec emax false, zero)
  | RMax => (S754_infinity true, zero)
  | RMin => (S754_infinity false, zero)
  end.
Definition red_comb (prec emax : Z) (op : red) (acc v : cpx) : cpx :=
  match op with
  | RSum => (SFadd prec emax (fst acc) (fst v), SFadd prec emax (snd acc) (snd v))
  | RProd => cpx_mul prec emax acc v
  | RMax => if SFltb (norm_sqr prec emax acc) (norm_sqr prec emax v) then v else acc
  | RMin => if SFltb (norm_sqr prec emax v) (norm_sqr prec emax acc) then v else acc
  end.
(* complex128.rs:352-362, complex64.rs: the trait's initial value; Min starts at -inf too *)
Definition trait_init (prec emax : Z) (op : red) : cpx :=
  match op with RMin => (S754_infinity true, zero) | _ => red_init prec emax op end.
(* complex128.rs:364-384: as the kernels (complex64.rs computes in f32 too) *)
Definition cpx_reduce (op : red) (x : narr) : res cpx :=
  let (p, m) := part (n_kind x) in
  let buf := map scalar_cpx (n_buf x) in
  bind (dispatch_reduce (red_init p m op) (red_comb p m op) buf (n_arr x)) (fun r =>
  match r with
  | Some v => Ok v
  | None => trait_reduce (trait_init p m op) (red_comb p m op) buf (n_arr x)
  end).
(* ufunc.rs:597-600 reduce_all_f64: get_element, read_f64 of a complex is None, so 0.0;
   this is what a.sum(), a.prod(), a.max() and a.min() return *)
Definition cpx_total (op : red) (x : narr) : res spec_float :=
  bind (cpx_reduce op x) (fun v => Ok (as_f64 (SCpx (fst v) (snd v)))).
(* ufunc.rs:607-620 reduce_axis_op *)
Definition cpx_reduce_axis (op : red) (x : narr) (axis : nat) : res (list nat * list cpx) :=
  let (p, m) := part (n_kind x) in
  dispatch_reduce_axis (red_init p m op) (red_comb p m op) (map scalar_cpx (n_buf x)) (n_arr x) axis.
