(* Elements of numeric arrays, the numbers they stand for, and how numbers compare.
   Independent of the model. *)
From Coq Require Import SpecFloat.
From Verif Require Import Base Promo_Spec.
Local Open Scope Z_scope.

(* one element: an integer (or bool, 0 or 1), a float, a complex *)
Inductive scalar := SInt (z : Z) | SFlt (x : spec_float) | SCpx (x y : spec_float).

(* an extended number; [Fin x] is x * 2^-1074, as in Promo_Spec *)
Inductive ext := NaN | Inf (negative : bool) | Fin (x : Z).

Definition float_value (x : spec_float) : ext :=
  match x with
  | S754_nan => NaN
  | S754_infinity s => Inf s
  | S754_zero _ => Fin 0
  | S754_finite s m e => Fin (cond_Zopp s (Zpos m) * 2 ^ (e + 1074))
  end.
(* real and imaginary part *)
Definition value (v : scalar) : ext * ext :=
  match v with
  | SInt z => (Fin (z * one), Fin 0)
  | SFlt x => (float_value x, Fin 0)
  | SCpx x y => (float_value x, float_value y)
  end.
Definition real_value (v : scalar) : ext := fst (value v).

(* precision and exponent bound of the binary formats *)
Definition format (k : kind) : Z * Z :=
  match k with Float16 => (11, 16) | Float32 | Complex64 => (24, 128) | _ => (53, 1024) end.
Definition valid_in (k : kind) (x : spec_float) : Prop := valid_binary (fst (format k)) (snd (format k)) x = true.
(* v can be an element of an array of dtype k *)
Definition element (k : kind) (v : scalar) : Prop :=
  match k, v with
  | (Float16 | Float32 | Float64), SFlt x => valid_in k x
  | (Complex64 | Complex128), SCpx x y => valid_in k x /\ valid_in k y
  | (Bool | Int8 | Int16 | Int32 | Int64 | Uint8 | Uint16 | Uint32 | Uint64), SInt z => holds k (z * one, 0)
  | _, _ => False
  end.

Definition ext_in (P : Z -> Prop) (e : ext) : Prop := match e with Fin x => P x | _ => True end.
(* dtype k has an element with this value *)
Definition holds_value (k : kind) (p : ext * ext) : Prop :=
  match k with
  | Float16 => ext_in f16_holds (fst p) /\ snd p = Fin 0
  | Float32 => ext_in f32_holds (fst p) /\ snd p = Fin 0
  | Float64 => ext_in f64_holds (fst p) /\ snd p = Fin 0
  | Complex64 => ext_in f32_holds (fst p) /\ ext_in f32_holds (snd p)
  | Complex128 => ext_in f64_holds (fst p) /\ ext_in f64_holds (snd p)
  | _ => exists x, p = (Fin x, Fin 0) /\ holds k (x, 0)
  end.

(* comparison of extended numbers: nothing compares with NaN *)
Definition ext_compare (a b : ext) : option comparison :=
  match a, b with
  | NaN, _ | _, NaN => None
  | Inf s, Inf t => Some (if s then if t then Eq else Lt else if t then Gt else Eq)
  | Inf s, Fin _ => Some (if s then Lt else Gt)
  | Fin _, Inf t => Some (if t then Gt else Lt)
  | Fin x, Fin y => Some (x ?= y)
  end.

Inductive cop := CGt | CLt | CGe | CLe | CEq | CNe.
Definition says (op : cop) (c : option comparison) : bool :=
  match op, c with
  | CGt, Some Gt | CLt, Some Lt | CEq, Some Eq => true
  | CGe, Some (Gt | Eq) | CLe, Some (Lt | Eq) => true
  | CNe, Some Eq => false
  | CNe, _ => true
  | _, _ => false
  end.

(* least and greatest element of the integer dtypes *)
Definition int_range (k : kind) : Z * Z :=
  match k with
  | Int8 => (- 2 ^ 7, 2 ^ 7 - 1) | Int16 => (- 2 ^ 15, 2 ^ 15 - 1)
  | Int32 => (- 2 ^ 31, 2 ^ 31 - 1) | Int64 => (- 2 ^ 63, 2 ^ 63 - 1)
  | Uint8 => (0, 2 ^ 8 - 1) | Uint16 => (0, 2 ^ 16 - 1)
  | Uint32 => (0, 2 ^ 32 - 1) | Uint64 => (0, 2 ^ 64 - 1)
  | _ => (0, 1)
  end.
(* the integer a number becomes: toward zero, then into the range *)
Definition to_int (k : kind) (e : ext) : Z :=
  let (lo, hi) := int_range k in
  match e with
  | NaN => 0
  | Inf s => if s then lo else hi
  | Fin x => Z.max lo (Z.min hi (Z.quot x one))
  end.
