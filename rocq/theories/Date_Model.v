(* src/array/dtype/datetime64.rs and src/python/datetime.rs.
   i64 arithmetic wraps around (release build); "/" and "%" truncate. *)
From Coq Require Import Ascii String SpecFloat.
From Verif Require Import Base Int_Model F64_Model Rng_Model Date_Spec.
Local Open Scope Z_scope.

Definition w64 (z : Z) : Z := wrap int64 z.
Notation "a +! b" := (w64 (a + b)) (at level 50, left associativity).
Notation "a -! b" := (w64 (a - b)) (at level 50, left associativity).
Notation "a *! b" := (w64 (a * b)) (at level 40, left associativity).
Notation "a /! b" := (Z.quot a b) (at level 40, left associativity).
Notation "a %! b" := (Z.rem a b) (at level 40, left associativity).

(* datetime64.rs:97 *)
Definition NAT : Z := - 2 ^ 63.

(* ---- calendar ----------------------------------------------------------------- *)

(* datetime64.rs:567-581 days_to_ymd *)
Definition days_to_ymd (days : Z) : Z * Z * Z :=
  let z := days +! 719468 in
  let era := if 0 <=? z then z /! 146097 else (z -! 146096) /! 146097 in
  let doe := z -! era *! 146097 in
  let yoe := (doe -! doe /! 1460 +! doe /! 36524 -! doe /! 146096) /! 365 in
  let y := yoe +! era *! 400 in
  let doy := doe -! (365 *! yoe +! yoe /! 4 -! yoe /! 100) in
  let mp := (5 *! doy +! 2) /! 153 in
  let d := doy -! (153 *! mp +! 2) /! 5 +! 1 in
  let m := if mp <? 10 then mp +! 3 else mp -! 9 in
  let y := if m <=? 2 then y +! 1 else y in
  (y, m, d).
(* datetime64.rs:584-593 ymd_to_days *)
Definition ymd_to_days (year month day : Z) : Z :=
  let y := if month <=? 2 then year -! 1 else year in
  let m := if month <=? 2 then month +! 12 else month in
  let era := if 0 <=? y then y /! 400 else (y -! 399) /! 400 in
  let yoe := y -! era *! 400 in
  let doy := (153 *! (m -! 3) +! 2) /! 5 +! day -! 1 in
  let doe := yoe *! 365 +! yoe /! 4 -! yoe /! 100 +! doy in
  era *! 146097 +! doe -! 719468.

(* ---- units ---------------------------------------------------------------------- *)

(* datetime64.rs:58-70 to_ns_factor *)
Definition to_ns_factor (u : unit) : option Z :=
  match u with
  | Years | Months => None
  | Weeks => Some (7 * 24 * 60 * 60 * 1000000000)
  | Days => Some (24 * 60 * 60 * 1000000000)
  | Hours => Some (60 * 60 * 1000000000)
  | Minutes => Some (60 * 1000000000)
  | Seconds => Some 1000000000
  | Milli => Some 1000000
  | Micro => Some 1000
  | Nano => Some 1
  end.
(* datetime64.rs:729-748 days_to_unit *)
Definition days_to_unit (days : Z) (u : unit) : Z :=
  match u with
  | Years => let '(y, m, _) := days_to_ymd days in y -! 1970
  | Months => let '(y, m, _) := days_to_ymd days in (y -! 1970) *! 12 +! (m -! 1)
  | Weeks => days /! 7
  | Days => days
  | Hours => days *! 24
  | Minutes => days *! 24 *! 60
  | Seconds => days *! 86400
  | Milli => days *! 86400 *! 1000
  | Micro => days *! 86400 *! 1000000
  | Nano => days *! 86400 *! 1000000000
  end.
(* datetime64.rs:750-765 unit_to_days *)
Definition unit_to_days (value : Z) (u : unit) : Z :=
  match u with
  | Years | Months => 0
  | Weeks => value *! 7
  | Days => value
  | Hours => value /! 24
  | Minutes => value /! (24 * 60)
  | Seconds => value /! 86400
  | Milli => value /! (86400 * 1000)
  | Micro => value /! (86400 * 1000000)
  | Nano => value /! (86400 * 1000000000)
  end.
Definition unit_eqb (a b : unit) : bool :=
  match a, b with
  | Years, Years | Months, Months | Weeks, Weeks | Days, Days | Hours, Hours | Minutes, Minutes | Seconds, Seconds | Milli, Milli | Micro, Micro | Nano, Nano => true
  | _, _ => false
  end.
(* datetime64.rs:675-727 convert_datetime64; unwrap() of a missing factor would
   panic, but Years and Months are matched before *)
Definition convert (value : Z) (from to : unit) : Z :=
  if value =? NAT then NAT
  else if unit_eqb from to then value
  else
    match from, to with
    | Years, Months => value *! 12
    | Months, Years => value /! 12
    | Years, _ => days_to_unit (ymd_to_days (1970 +! value) 1 1) to
    | Months, _ =>
        let total_months := 1970 * 12 +! value in
        let year := total_months /! 12 in
        let month := total_months %! 12 +! 1 in
        days_to_unit (ymd_to_days year month 1) to
    | _, Years => let '(year, _, _) := days_to_ymd (unit_to_days value from) in year -! 1970
    | _, Months => let '(year, month, _) := days_to_ymd (unit_to_days value from) in (year -! 1970) *! 12 +! (month -! 1)
    | _, _ =>
        match to_ns_factor from, to_ns_factor to with
        | Some f, Some t => if t <=? f then value *! (f /! t) else value /! (t /! f)
        | _, _ => value (* not reached *)
        end
    end.

(* ---- arithmetic ------------------------------------------------------------------ *)

(* datetime64.rs:173-200 and 352-375: the element operation of the trait (add and
   subtract), used when the result buffer is supplied (ufunc.rs:321-330) *)
Definition trait_op (op : Z -> Z -> Z) (a b : Z) : Z :=
  if (a =? NAT) || (b =? NAT) then NAT else w64 (op a b).
(* dispatch.rs:119-161, 338-339: the i64 kernels used everywhere else *)
Definition fast_op (op : Z -> Z -> Z) (a b : Z) : Z := w64 (op a b).
(* datetime64.rs:202-225 Max/Min over the elements *)
Definition reduce_max (l : list Z) : Z := fold_left Z.max l (- 2 ^ 63).
Definition reduce_min (l : list Z) : Z := fold_left Z.min l (2 ^ 63 - 1).

Inductive dtk := DT (u : unit) | TD (u : unit).
Inductive dop := Add | Sub.
(* ufunc.rs:213-262 and the same-dtype dispatch 265-290: one element of a + b or
   a - b, with the resulting dtype.  None: the operation is refused.  Differing
   units outside the fast paths go through f64 (ufunc.rs:411-418) into the dtype
   promote_dtype picks, the first one (dtype/mod.rs:547-550, 614-619). *)
Definition dt_binop (op : dop) (ta tb : dtk) (a b : Z) : option (dtk * Z) :=
  match op, ta, tb with
  | Add, DT _, DT _ => None
  | Add, DT u, TD _ => Some (DT u, fast_op Z.add a b)
  | Add, TD _, DT u => Some (DT u, fast_op Z.add a b)
  | Sub, DT u, DT u' =>
      if unit_eqb u u' then Some (TD u, fast_op Z.sub a b)
      else Some (DT u, sat int64 (f64_of_int (f64_of_int a - f64_of_int b)))
  | Sub, DT u, TD _ => Some (DT u, fast_op Z.sub a b)
  | Sub, TD u, DT _ => Some (TD u, sat int64 (f64_of_int (f64_of_int a - f64_of_int b)))
  | _, TD u, TD u' =>
      let f := match op with Add => Z.add | Sub => Z.sub end in
      if unit_eqb u u' then Some (TD u, fast_op f a b)
      else Some (TD u, sat int64 (f64_of_int (f (f64_of_int a) (f64_of_int b))))
  end.
(* ufunc.rs:468-493: comparison of two datetimes (or two timedeltas): both to the
   dtype of the first, then the i64 comparison *)
Definition dt_compare (cmp : Z -> Z -> bool) (u u' : unit) (a b : Z) : bool :=
  cmp a (if unit_eqb u u' then b else convert b u' u).

(* ---- text -------------------------------------------------------------------------- *)

Definition digit (d : Z) : ascii := ascii_of_N (Z.to_N (48 + d)).
(* decimal digits of n >= 0, most significant first: Rust's Display for integers *)
Fixpoint digits_fuel (fuel : nat) (n : Z) (acc : list ascii) : list ascii :=
  match fuel with
  | O => acc
  | S f => let acc := digit (n mod 10) :: acc in
                     if n <? 10 then acc else digits_fuel f (n / 10) acc
  end.
Definition digits (n : Z) : list ascii := digits_fuel (S (Z.to_nat (Z.log2 n))) n [].
(* format!("{:0w}"): sign first, then zeros up to width w *)
Definition pad (w : nat) (n : Z) : list ascii :=
  if n <? 0 then "-"%char :: (repeat "0"%char (w - 1 - List.length (digits (- n))) ++ digits (- n))
  else repeat "0"%char (w - List.length (digits n)) ++ digits n.
(* datetime64.rs:559-563 days_to_date_string *)
Definition date_string (days : Z) : list ascii :=
  let '(y, m, d) := days_to_ymd days in pad 4 y ++ "-"%char :: pad 2 m ++ "-"%char :: pad 2 d.
(* datetime64.rs:453-519 format_datetime64 *)
Definition hms (rem hour : Z) : list ascii :=
  let mi := hour / 60 in let s := mi / 60 in
  pad 2 (rem /! hour) ++ ":"%char :: pad 2 ((rem %! hour) /! mi) ++ ":"%char :: pad 2 ((rem %! mi) /! s).
Definition format (value : Z) (u : unit) : list ascii :=
  match u with
  | Years => pad 4 (1970 +! value)
  | Months => let t := 1970 * 12 +! value in pad 4 (t /! 12) ++ "-"%char :: pad 2 (t %! 12 +! 1)
  | Weeks => date_string (value *! 7)
  | Days => date_string value
  | Hours => date_string (value / 24) ++ "T"%char :: pad 2 (value mod 24)
  | Minutes => let rem := value mod (24 * 60) in
          date_string (value / (24 * 60)) ++ "T"%char :: pad 2 (rem /! 60) ++ ":"%char :: pad 2 (rem %! 60)
  | Seconds => let rem := value mod (24 * 60 * 60) in date_string (value / (24 * 60 * 60)) ++ "T"%char :: hms rem 3600
  | Milli => let rem := value mod (24 * 60 * 60 * 1000) in
          date_string (value / (24 * 60 * 60 * 1000)) ++ "T"%char :: hms rem 3600000 ++ "."%char :: pad 3 (rem %! 1000)
  | Micro => let rem := value mod (24 * 60 * 60 * 1000000) in
          date_string (value / (24 * 60 * 60 * 1000000)) ++ "T"%char :: hms rem 3600000000 ++ "."%char :: pad 6 (rem %! 1000000)
  | Nano => let rem := value mod (24 * 60 * 60 * 1000000000) in
          date_string (value / (24 * 60 * 60 * 1000000000)) ++ "T"%char :: hms rem 3600000000000 ++ "."%char :: pad 9 (rem %! 1000000000)
  end.

(* str::split(c): never empty *)
Fixpoint split (c : ascii) (s : list ascii) : list (list ascii) :=
  match s with
  | [] => [[]]
  | x :: s' => if (x =? c)%char then [] :: split c s'
               else match split c s' with [] => [[x]] | p :: ps => (x :: p) :: ps end
  end.
Definition is_digit (c : ascii) : option Z :=
  let n := Z.of_N (N_of_ascii c) in if (48 <=? n)%Z && (n <=? 57)%Z then Some (n - 48)%Z else None.
Fixpoint number (s : list ascii) (acc : Z) : option Z :=
  match s with
  | [] => Some acc
  | c :: s' => match is_digit c with Some d => number s' (10 * acc + d)%Z | None => None end
  end.
(* i64::from_str: optional sign, at least one digit, in range *)
Definition parse_i64 (s : list ascii) : option Z :=
  let in_range z := if (- 2 ^ 63 <=? z)%Z && (z <? 2 ^ 63)%Z then Some z else None in
  match s with
  | [] => None
  | c :: s' =>
      if (c =? "-")%char || (c =? "+")%char then
        match s' with
        | [] => None
        | _ => match number s' 0 with Some z => in_range (if (c =? "-")%char then - z else z)%Z | None => None end
        end
      else match number s 0 with Some z => in_range z | None => None end
  end.
(* f64::from_str("0." ++ s): the nearest double.  For s of at most 15 digits both
   integers are exact doubles and their rounded quotient is that double; anything
   but digits is outside the model (0.0, the value of unwrap_or). *)
Definition parse_frac (s : list ascii) : spec_float :=
  match number s 0 with
  | Some z => SFdiv f64_prec f64_emax (f64_int z) (f64_int (10 ^ Z.of_nat (List.length s)))
  | None => f64_int 0
  end.
(* (subseconds * k) as i64: truncation of a finite double *)
Definition sf_trunc (x : spec_float) : Z :=
  match x with
  | S754_finite s m e => let a := if (0 <=? e)%Z then Z.shiftl (Zpos m) e else Z.shiftr (Zpos m) (- e) in
                         if s then (- a)%Z else a
  | _ => 0%Z
  end.
Definition scaled (sub : spec_float) (k : Z) : Z := sf_trunc (SFmul f64_prec f64_emax sub (f64_int k)).
(* find('.') *)
Fixpoint find_dot (s : list ascii) : option (list ascii * list ascii) :=
  match s with
  | [] => None
  | x :: s' => if (x =? "."%char)%char then Some ([], s')
               else match find_dot s' with Some (p, q) => Some (x :: p, q) | None => None end
  end.
Definition opt_or (o : option Z) (d : Z) : Z := match o with Some z => z | None => d end.
Definition field (ps : list (list ascii)) (k : nat) (d : Z) : Z :=
  match nth_error ps k with Some s => opt_or (parse_i64 s) d | None => d end.
(* datetime64.rs:648-671 parse_time_part *)
Definition parse_time (s : list ascii) : Z * Z * Z * spec_float :=
  let ps := split ":"%char s in
  let '(sec, sub) :=
    match nth_error ps 2 with
    | Some t => match find_dot t with
                | Some (p, q) => (opt_or (parse_i64 p) 0, parse_frac q)
                | None => (opt_or (parse_i64 t) 0, f64_int 0)
                end
    | None => (0%Z, f64_int 0)
    end in
  (field ps 0 0, field ps 1 0, sec, sub).
Local Open Scope Z_scope.
Definition chars (s : string) : list ascii := list_ascii_of_string s.
Definition list_ascii_eqb (a b : list ascii) : bool :=
  if list_eq_dec ascii_dec a b then true else false.
(* datetime64.rs:597-645 parse_datetime64 *)
Definition parse (s : list ascii) (u : unit) : Z :=
  if list_ascii_eqb s (chars "NaT") || list_ascii_eqb s (chars "nat") then NAT
  else
    let parts := split "T"%char s in
    let date_parts := split "-"%char (hd [] parts) in
    match parse_i64 (hd [] date_parts) with
    | None => NAT
    | Some year =>
        let month := field date_parts 1 1 in
        let day := field date_parts 2 1 in
        let days := ymd_to_days year month day in
        let '(hours, minutes, seconds, sub) :=
          match nth_error parts 1 with Some t => parse_time t | None => (0, 0, 0, f64_int 0) end in
        let secs := days *! 86400 +! hours *! 3600 +! minutes *! 60 +! seconds in
        match u with
        | Years => year -! 1970
        | Months => (year -! 1970) *! 12 +! (month -! 1)
        | Weeks => days /! 7
        | Days => days
        | Hours => days *! 24 +! hours
        | Minutes => days *! 24 *! 60 +! hours *! 60 +! minutes
        | Seconds => secs
        | Milli => secs *! 1000 +! scaled sub 1000
        | Micro => secs *! 1000000 +! scaled sub 1000000
        | Nano => secs *! 1000000000 +! scaled sub 1000000000
        end
    end.
(* python/datetime.rs:77-94 datetime_as_string: one element *)
Definition as_string (value : Z) (source target : unit) : list ascii :=
  let v := if unit_eqb source target then value else convert value source target in
  if v =? NAT then chars "NaT" else format v target.

(* ---- business days -------------------------------------------------------------------- *)

(* python/datetime.rs:120-125 BusDayCalendar: mask (Monday first) and holidays *)
Record calendar := mkCal { c_mask : list bool; c_holidays : list Z }.
(* python/datetime.rs:246-262 is_business_day *)
Definition is_business_day (days : Z) (cal : calendar) : bool :=
  if days =? NAT then false
  else if existsb (Z.eqb days) (c_holidays cal) then false
  else nth (Z.to_nat ((days %! 7 + 7 + 3) %! 7)) (c_mask cal) false.
(* python/datetime.rs:297-320 busday_offset_single; Err: fuel exhausted *)
Fixpoint offset_loop (fuel : nat) (current remaining step : Z) (cal : calendar) : res Z :=
  if 0 <? remaining then
    match fuel with
    | O => Err
    | S f =>
        let current := current +! step in
        offset_loop f current (if is_business_day current cal then remaining - 1 else remaining) step cal
    end
  else Ok current.
Definition busday_offset (fuel : nat) (date offset : Z) (cal : calendar) : res Z :=
  if date =? NAT then Ok NAT
  else offset_loop fuel date (w64 (Z.abs offset)) (if 0 <=? offset then 1 else -1) cal.
(* python/datetime.rs:343-361 busday_count_single *)
Definition busday_count (start stop : Z) (cal : calendar) : Z :=
  if (start =? NAT) || (stop =? NAT) then 0
  else if stop <=? start then 0
  else fold_left (fun count k => if is_business_day (start + Z.of_nat k) cal then count +! 1 else count) (seq 0 (Z.to_nat (stop - start))) 0.
