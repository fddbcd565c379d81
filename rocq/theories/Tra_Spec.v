(* Functions of a real or complex number applied to arrays, and the real domain of some. *)
From Verif Require Import Base Promo_Spec Cast_Spec.
Local Open Scope Z_scope.

(* the numbers x for which a function has a real value: x >= 0; -1 <= x <= 1; -1 < x < 1 *)
Inductive domain := DNonneg | DUnit | DOpenUnit.
Definition outside (d : domain) (e : ext) : Prop :=
  match d with
  | DNonneg => ext_compare e (Fin 0) = Some Lt
  | DUnit => ext_compare e (Fin (- one)) = Some Lt \/ ext_compare e (Fin one) = Some Gt
  | DOpenUnit => ext_compare e (Fin (- one)) = Some Lt \/ ext_compare e (Fin (- one)) = Some Eq \/
                 ext_compare e (Fin one) = Some Gt \/ ext_compare e (Fin one) = Some Eq
  end.
(* numpy's float dtype for functions of integers and bools *)
Definition function_float (k : kind) : kind :=
  match k with
  | Bool | Int8 | Uint8 => Float16
  | Int16 | Uint16 => Float32
  | Float16 | Float32 | Float64 | Complex64 | Complex128 => k
  | _ => Float64
  end.
Definition function_complex (k : kind) : kind := match k with Float32 | Complex64 => Complex64 | _ => Complex128 end.
