(* Which values an array of each dtype can hold. *)
From Verif Require Import Base Date_Spec.
Local Open Scope Z_scope.

Inductive kind :=
| Float16 | Float32 | Float64
| Int8 | Int16 | Int32 | Int64
| Uint8 | Uint16 | Uint32 | Uint64
| Bool
| DateTime64 (u : Date_Spec.unit) | TimeDelta64 (u : Date_Spec.unit)
| Complex64 | Complex128
| Str (n : nat) | Bytes (n : nat).

Definition numeric (k : kind) : bool :=
  match k with DateTime64 _ | TimeDelta64 _ | Str _ | Bytes _ => false | _ => true end.
(* 64-bit integers are the only ones a double cannot hold exactly *)
Definition wide_int (k : kind) : bool := match k with Int64 | Uint64 => true | _ => false end.
Definition integer (k : kind) : bool :=
  match k with Int8 | Int16 | Int32 | Int64 | Uint8 | Uint16 | Uint32 | Uint64 => true | _ => false end.
Definition is_complex_kind (k : kind) : bool := match k with Complex64 | Complex128 => true | _ => false end.

(* A number is an integer x standing for x * 2^-1074, a multiple of the smallest double. *)
Definition one : Z := 2 ^ 1074.
Definition int_holds (lo hi : Z) (x : Z) : Prop := exists z, lo <= z <= hi /\ x = z * one.
(* m * 2^e with |m| < 2^p: finite values of a binary floating-point format *)
Definition float_holds (p emin emax : Z) (x : Z) : Prop :=
  exists m e, - 2 ^ p < m < 2 ^ p /\ emin <= e <= emax /\ x = m * 2 ^ (e + 1074).
Definition f16_holds : Z -> Prop := float_holds 11 (-24) 5.
Definition f32_holds : Z -> Prop := float_holds 24 (-149) 104.
Definition f64_holds : Z -> Prop := float_holds 53 (-1074) 971.
(* the complex number (x, y) is a value of dtype k *)
Definition holds (k : kind) (v : Z * Z) : Prop :=
  let '(x, y) := v in
  match k with
  | Bool => int_holds 0 1 x /\ y = 0
  | Int8 => int_holds (- 2 ^ 7) (2 ^ 7 - 1) x /\ y = 0
  | Int16 => int_holds (- 2 ^ 15) (2 ^ 15 - 1) x /\ y = 0
  | Int32 => int_holds (- 2 ^ 31) (2 ^ 31 - 1) x /\ y = 0
  | Int64 => int_holds (- 2 ^ 63) (2 ^ 63 - 1) x /\ y = 0
  | Uint8 => int_holds 0 (2 ^ 8 - 1) x /\ y = 0
  | Uint16 => int_holds 0 (2 ^ 16 - 1) x /\ y = 0
  | Uint32 => int_holds 0 (2 ^ 32 - 1) x /\ y = 0
  | Uint64 => int_holds 0 (2 ^ 64 - 1) x /\ y = 0
  | Float16 => f16_holds x /\ y = 0
  | Float32 => f32_holds x /\ y = 0
  | Float64 => f64_holds x /\ y = 0
  | Complex64 => f32_holds x /\ f32_holds y
  | Complex128 => f64_holds x /\ f64_holds y
  | _ => False
  end.
(* the lengths of the texts a string dtype can hold *)
Definition holds_text (k : kind) (len : nat) : Prop := match k with Str n | Bytes n => (len <= n)%nat | _ => False end.
(* bool < integer < float < complex *)
Definition class (k : kind) : nat :=
  match k with Bool => 0 | Float16 | Float32 | Float64 => 2 | Complex64 | Complex128 => 3 | _ => 1 end.
