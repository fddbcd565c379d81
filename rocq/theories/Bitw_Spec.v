(* What bitwise operations mean: two's complement integers are unbounded rows of bits, as
   Python's are.  Independent of the model. *)
From Verif Require Import Base Promo_Spec Cast_Spec.
Local Open Scope Z_scope.

Inductive bitop := And | Or | Xor.
Definition on_bits (op : bitop) (a b : bool) : bool :=
  match op with And => a && b | Or => a || b | Xor => xorb a b end.
(* z is the integer whose every bit is the combination of the bits of x and y *)
Definition combines (op : bitop) (x y z : Z) : Prop := forall i, 0 <= i -> Z.testbit z i = on_bits op (Z.testbit x i) (Z.testbit y i).
Definition is_integer (k : kind) : bool :=
  match k with Int8 | Int16 | Int32 | Int64 | Uint8 | Uint16 | Uint32 | Uint64 => true | _ => false end.
Definition is_signed (k : kind) : bool := match k with Int8 | Int16 | Int32 | Int64 => true | _ => false end.
(* number of bits of an element *)
Definition width (k : kind) : Z :=
  match k with Bool => 1 | Int8 | Uint8 => 8 | Int16 | Uint16 => 16 | Int32 | Uint32 => 32 | _ => 64 end.
(* z is x as an element of dtype k, modulo 2^width *)
Definition reduces (k : kind) (x z : Z) : Prop :=
  fst (int_range k) <= z <= snd (int_range k) /\ (z - x) mod 2 ^ width k = 0.
