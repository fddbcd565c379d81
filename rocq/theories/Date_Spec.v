(* The proleptic Gregorian calendar and the meaning of datetime64 values, without
   reference to the code. *)
From Coq Require Import Ascii String.
From Verif Require Import Base.
Local Open Scope Z_scope.

Definition date : Type := (Z * Z * Z)%type. (* year, month, day *)
Definition leap (y : Z) : bool := (y mod 4 =? 0) && (negb (y mod 100 =? 0) || (y mod 400 =? 0)).
Definition month_length (y m : Z) : Z :=
  if m =? 2 then (if leap y then 29 else 28)
  else if (m =? 4) || (m =? 6) || (m =? 9) || (m =? 11) then 30 else 31.
Definition valid (d : date) : Prop :=
  let '(y, m, d) := d in 1 <= m <= 12 /\ 1 <= d <= month_length y m.
Definition tomorrow (d : date) : date :=
  let '(y, m, d) := d in
  if d <? month_length y m then (y, m, d + 1)
  else if m <? 12 then (y, m + 1, 1)
  else (y + 1, 1, 1).
Definition epoch : date := (1970, 1, 1).

(* day number: days elapsed since the epoch, counting whole years and months *)
Fixpoint days_in_months (y : Z) (n : nat) : Z :=
  match n with O => 0 | S n' => days_in_months y n' + month_length y (Z.of_nat n) end.
Definition days_before_year (y : Z) : Z := 365 * (y - 1) + (y - 1) / 4 - (y - 1) / 100 + (y - 1) / 400.
Definition day_number (d : date) : Z :=
  let '(y, m, d) := d in
  days_before_year y - days_before_year 1970 + days_in_months y (Z.to_nat (m - 1)) + (d - 1).

(* the units, and the instant (in nanoseconds since the epoch) at which tick v of a
   unit begins *)
Inductive unit := Years | Months | Weeks | Days | Hours | Minutes | Seconds | Milli | Micro | Nano.
Definition day_ns : Z := 24 * 60 * 60 * 1000000000.
Definition length_ns (u : unit) : Z :=
  match u with
  | Years | Months => 0 (* no fixed length *)
  | Weeks => 7 * day_ns | Days => day_ns
  | Hours => 60 * 60 * 1000000000 | Minutes => 60 * 1000000000 | Seconds => 1000000000
  | Milli => 1000000 | Micro => 1000 | Nano => 1
  end.
Definition instant (u : unit) (v : Z) : Z :=
  match u with
  | Years => day_ns * day_number (1970 + v, 1, 1)
  | Months => day_ns * day_number (1970 + v / 12, v mod 12 + 1, 1)
  | _ => length_ns u * v
  end.
(* tick v' of u' is the one that contains the beginning of tick v of u *)
Definition contains (u' : unit) (v' : Z) (u : unit) (v : Z) : Prop :=
  instant u' v' <= instant u v < instant u' (v' + 1).

Definition i64 (z : Z) : Prop := - 2 ^ 63 <= z < 2 ^ 63.
Definition nat_value : Z := - 2 ^ 63. (* NaT *)

(* weekdays: 0 = Monday; 1970-01-01 was a Thursday *)
Definition weekday (n : Z) : Z := (n + 3) mod 7.
(* how many of the days b, b+1, ..., b+n-1 satisfy p *)
Fixpoint count_days (p : Z -> bool) (b : Z) (n : nat) : Z :=
  match n with O => 0 | S n' => (if p b then 1 else 0) + count_days p (b + 1) n' end.
