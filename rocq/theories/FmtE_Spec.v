(* Decimal numerals. *)
From Coq Require Import Ascii.
From Verif Require Import Base Promo_Spec Cast_Spec Fmt_Spec.
Local Open Scope list_scope.
Local Open Scope Z_scope.

Definition digit_value (c : ascii) : Z := Z.of_N (N_of_ascii c) - 48.
Definition digits_only (t : text) : Prop := Forall (fun c => 0 <= digit_value c <= 9) t.
Definition decimal (t : text) : Z := fold_left (fun n c => 10 * n + digit_value c) t 0.
(* t is a decimal numeral of z *)
Definition integer_text (t : text) (z : Z) : Prop :=
  exists (minus : bool) ds, t = (if minus then ["-"%char] else []) ++ ds /\ digits_only ds /\ ds <> [] /\ z = if minus then - decimal ds else decimal ds.
(* t is a decimal fraction of at most p places, without trailing zeros, that differs from
   the number z * 2^-1074 by at most half a unit in place p *)
Definition decimal_text (t : text) (p : nat) (minus : bool) (z : Z) : Prop :=
  exists ip fp, t = (if minus then ["-"%char] else []) ++ ip ++ ["."%char] ++ fp /\ digits_only (ip ++ fp) /\ ip <> [] /\ (length fp <= p)%nat /\
    last fp "1"%char <> "0"%char /\
    let n := decimal (ip ++ fp) * 10 ^ Z.of_nat (p - length fp) in
    2 * Z.abs ((if minus then - n else n) * one - z * 10 ^ Z.of_nat p) <= one.
