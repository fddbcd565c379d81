(* What the bytes of an item mean, independently of the code. *)
From Verif Require Import Base.
Local Open Scope Z_scope.

(* value of an unsigned integer stored little endian *)
Fixpoint le_value (bytes : list Z) : Z :=
  match bytes with [] => 0 | b :: bs => b + 256 * le_value bs end.
(* is the IEEE binary64 number with these bytes zero?  Both zeros are: all bits
   except the sign bit are clear *)
Definition f64_is_zero (bytes : list Z) : bool := le_value bytes mod 2 ^ 63 =? 0.
