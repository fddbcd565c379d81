(* Independent specification of bytes as lists of eight bits. *)
From Verif Require Import Base.
Local Open Scope nat_scope.

(* the bits of a byte; big: most significant first *)
Definition bits_of (big : bool) (byte : Z) : list bool :=
  map (fun i => Z.testbit byte (Z.of_nat (if big then 7 - i else i))) (seq 0 8).
Definition is_byte (z : Z) : Prop := (0 <= z < 256)%Z.

(* bytes hold the bits, in order, and are filled up with zeros in the last byte *)
Definition packed (big : bool) (bits : list bool) (bytes : list Z) : Prop :=
  Forall is_byte bytes /\
  exists pad, pad < 8 /\ flat_map (bits_of big) bytes = bits ++ repeat false pad.

(* the first [count] bits (all of them if no count is given) as 0/1 values *)
Definition unpacked (big : bool) (bytes : list Z) (count : option nat) : list Z :=
  let all := map Z.b2z (flat_map (bits_of big) bytes) in
  match count with Some n => firstn n all | None => all end.
