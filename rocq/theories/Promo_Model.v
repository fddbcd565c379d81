(* src/array/dtype/mod.rs promote_dtype; src/python/dtype.rs result_type, can_cast. *)
From Verif Require Import Base Date_Spec Date_Model Promo_Spec.
Local Open Scope Z_scope.

(* dtype/mod.rs:36-58: derived equality of kinds *)
Definition kind_eqb (a b : kind) : bool :=
  match a, b with
  | Float16, Float16 | Float32, Float32 | Float64, Float64
  | Int8, Int8 | Int16, Int16 | Int32, Int32 | Int64, Int64
  | Uint8, Uint8 | Uint16, Uint16 | Uint32, Uint32 | Uint64, Uint64
  | Bool, Bool | Complex64, Complex64 | Complex128, Complex128 => true
  | DateTime64 u, DateTime64 u' | TimeDelta64 u, TimeDelta64 u' => unit_eqb u u'
  | Str n, Str n' | Bytes n, Bytes n' => Nat.eqb n n'
  | _, _ => false
  end.
(* promotion_priority of each dtype: dtype/*.rs *)
Definition priority (k : kind) : Z :=
  match k with
  | Float64 => 100 | Float32 => 90 | Float16 => 80
  | Int64 => 80 | Uint64 => 75 | Int32 => 70 | Uint32 => 65 | Int16 => 60 | Uint16 => 55 | Int8 => 50 | Uint8 => 30
  | Bool => 10 | DateTime64 _ | TimeDelta64 _ => 50
  | Complex64 => 105 | Complex128 => 110 | Str _ | Bytes _ => 0
  end.
Definition itemsize (k : kind) : Z :=
  match k with
  | Bool | Int8 | Uint8 => 1
  | Int16 | Uint16 | Float16 => 2
  | Int32 | Uint32 | Float32 => 4
  | Int64 | Uint64 | Float64 | DateTime64 _ | TimeDelta64 _ | Complex64 => 8
  | Complex128 => 16
  | Str n => 4 * Z.of_nat n | Bytes n => Z.of_nat n
  end.
Definition is_complex (k : kind) : bool := match k with Complex64 | Complex128 => true | _ => false end.
Definition is_float (k : kind) : bool := match k with Float16 | Float32 | Float64 => true | _ => false end.
Definition is_large_int (k : kind) : bool := match k with Int32 | Int64 | Uint32 | Uint64 => true | _ => false end.
Definition is_medium_int (k : kind) : bool := match k with Int16 | Uint16 => true | _ => false end.
Definition is_signed (k : kind) : bool := match k with Int8 | Int16 | Int32 | Int64 => true | _ => false end.
Definition is_unsigned (k : kind) : bool := match k with Uint8 | Uint16 | Uint32 | Uint64 => true | _ => false end.
Definition is_datetime (k : kind) : bool := match k with DateTime64 _ => true | _ => false end.

(* dtype/mod.rs:517-622 promote_dtype *)
Definition promote (a b : kind) : kind :=
  if kind_eqb a b then a
  else if is_complex a || is_complex b then
    if kind_eqb a Complex128 || kind_eqb b Complex128 then Complex128
    else if kind_eqb a Float64 || kind_eqb b Float64 then Complex128
    else if is_large_int a || is_large_int b then Complex128
    else Complex64
  else if is_datetime a || is_datetime b then a
  else
    let after_floats :=
      if (is_signed a && is_unsigned b) || (is_unsigned a && is_signed b) then
        let '(s, u) := if is_signed a then (a, b) else (b, a) in
        if itemsize u <? itemsize s then s
        else let m := Z.max (itemsize s) (itemsize u) in
             if m =? 1 then Int16 else if m =? 2 then Int32 else if m =? 4 then Int64 else Float64
      else if priority b <=? priority a then a else b in
    if is_float a || is_float b then
      let '(f, i) := if is_float a then (a, b) else (b, a) in
      if kind_eqb f Float32 && is_large_int i then Float64
      else if kind_eqb f Float16 && is_large_int i then Float64
      else if kind_eqb f Float16 && is_medium_int i then Float32
      else if kind_eqb f Float64 || kind_eqb i Float64 then Float64
      else if kind_eqb f Float32 || kind_eqb i Float32 then Float32
      else if kind_eqb f Float16 then Float16
      else after_floats
    else after_floats.

(* python/dtype.rs:273-290 result_type, on the dtypes of its arguments; None: no arguments *)
Definition result_type (ks : list kind) : option kind :=
  match ks with [] => None | k :: ks' => Some (fold_left promote ks' k) end.

Definition int_bits (k : kind) : Z :=
  match k with Int8 | Uint8 => 8 | Int16 | Uint16 => 16 | Int32 | Uint32 => 32 | Int64 | Uint64 => 64 | _ => 0 end.
(* python/dtype.rs:358-438 can_cast_safe *)
Definition can_cast_safe (f t : kind) : bool :=
  if kind_eqb f t then true
  else if kind_eqb f Bool then
    match t with Bool | DateTime64 _ | TimeDelta64 _ | Str _ | Bytes _ => false | _ => true end
  else if is_float f && is_float t then itemsize f <=? itemsize t
  else if is_float f && is_complex t then
    match f, t with Float32, Complex64 | Float32, Complex128 | Float64, Complex128 | Float16, _ => true | _, _ => false end
  else if is_complex f && is_complex t then itemsize f <=? itemsize t
  else if (is_signed f || is_unsigned f) && is_float t then
    match t with Float64 => int_bits f <=? 32 | Float32 => int_bits f <=? 16 | Float16 => int_bits f <=? 8 | _ => false end
  else if (is_signed f || is_unsigned f) && is_complex t then true
  else if is_signed f && is_signed t then int_bits f <=? int_bits t
  else if is_unsigned f && is_unsigned t then int_bits f <=? int_bits t
  else if is_unsigned f && is_signed t then int_bits f <? int_bits t
  else false.
(* python/dtype.rs:441-471 can_cast_same_kind *)
Definition is_int (k : kind) : bool := is_signed k || is_unsigned k.
Definition can_cast_same_kind (f t : kind) : bool :=
  can_cast_safe f t || (is_int f && is_int t) || (is_float f && is_float t) || (is_complex f && is_complex t).
