(* The element-wise functions exp, log, ..., arctanh, and their versions that leave the real
   numbers: src/ops/ufunc.rs, src/ops/dispatch.rs, src/python/emath.rs.  The functions
   themselves, in each float and complex format, are parameters. *)
From Coq Require Import SpecFloat.
From Verif Require Import Base Lists Arr_Model Copy_Model Elem_Model Int_Model F64_Model Rng_Model Promo_Spec Promo_Model New_Model Cast_Spec Cast_Model Bitw_Model Rnd_Model Ari_Model Cpx_Model Tra_Spec.
Local Open Scope Z_scope.

Section Functions.
(* the kernel of a float dtype, and of a complex dtype *)
Variables (ff : kind -> spec_float -> spec_float) (fc : kind -> cpx -> cpx).
(* one element.  Floats and complex numbers: kernels/math.rs.  dtype/macros.rs:260-300, 462-502:
   integers go through f64 and are cut off; bool.rs:41-49: bools are copied *)
Definition fun_elem (k : kind) (v : scalar) : res scalar :=
  match v with
  | SFlt x => Ok (SFlt (ff k x))
  | SCpx a b => Ok (SCpx (fst (fc k (a, b))) (snd (fc k (a, b))))
  | SInt z => match int_of k with Some t => Ok (SInt (as_int t (ff Float64 (as_f64 v)))) | None => Ok v end
  end.
(* ufunc.rs:81-160: the typed loops have floats and complex numbers only (dispatch.rs:919-934) *)
Definition fun_plain (x : narr) : res narr :=
  let k := n_kind x in
  bind (if is_float_kind k then dispatch_map (fun_elem k) (n_buf x) (n_arr x) else trait_map (fun_elem k) (n_buf x) (n_arr x)) (fun vals =>
  Ok (mkN k vals (fresh (a_shape (n_arr x)) (itemsize k)))).
(* ufunc.rs:44-79.  [listed]: the function is in is_transcendental: exp, log, log10, log2, sqrt,
   sin, cos, tan, sinh, cosh, tanh, arcsin, arccos, arctan; not: exp2, expm1, log1p, cbrt,
   arcsinh, arccosh, arctanh *)
Definition fun_map (listed : bool) (x : narr) : res narr :=
  if listed && negb (is_float_kind (n_kind x)) then bind (astype x (float_for (n_kind x))) fun_plain else fun_plain x.

(* emath.rs:15-22 get_complex_dtype *)
Definition complex_dtype (k : kind) : kind :=
  match k with Complex64 => Complex64 | Complex128 => Complex128 | Float32 => Complex64 | _ => Complex128 end.
(* emath.rs:24-85: the test of one element, read as f64 *)
Definition is_outside (d : domain) (v : scalar) : bool :=
  let val := as_f64 v in
  match d with
  | DNonneg => SFltb val (S754_zero false)
  | DUnit => SFltb val (f64_int (-1)) || SFltb (f64_int 1) val
  | DOpenUnit => SFleb val (f64_int (-1)) || SFleb (f64_int 1) val
  end.
(* has_negative_values, has_values_outside_unit, has_values_outside_open_unit; the loops stop at
   the first such element, here all are tested.  Not called for complex arrays. *)
Definition has_outside (d : domain) (x : narr) : res bool :=
  if Nat.eqb (size (n_arr x)) 0 then Ok false
  else bind (mapM (app1 (fun v => Ok (is_outside d v)) (n_buf x) (n_arr x)) (iter_offsets (n_arr x))) (fun l => Ok (existsb (fun b => b) l)).
(* emath.rs:88-172 apply_*_with_complex.  The functions never return an error here. *)
Definition fun_extended (listed : bool) (d : domain) (x : narr) : res narr :=
  bind (if is_complex_kind (n_kind x) then Ok true else has_outside d x) (fun b =>
  if b then bind (astype x (complex_dtype (n_kind x))) (fun_map listed) else fun_map listed x).
End Functions.
