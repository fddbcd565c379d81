(* src/random/pcg64.rs, src/random/generator.rs (random, integers,
   bounded_uint64, permutation, shuffle_data, multinomial) and
   src/python/random.rs (permutation, shuffle, choice).
   u64, u128 and i64 are integers with explicit wrap-around.  A loop that may
   run for ever takes fuel; Err means that the fuel ran out. *)
From Coq Require Import SpecFloat.
From Verif Require Import Base Arr_Spec Arr_Model Copy_Model Idx_Model Int_Model F64_Model.
Local Open Scope Z_scope.

(* ---- PCG64 DXSM -------------------------------------------------------------- *)

(* pcg64.rs:10-13 *)
Record pcg := mkPcg { g_state : Z; g_inc : Z }.
(* pcg64.rs:16 *)
Definition multiplier : Z := 0xda942042e4dd58b5.
(* pcg64.rs:30-35 step *)
Definition step (g : pcg) : pcg :=
  mkPcg (((g_state g * multiplier) mod 2 ^ 128 + g_inc g) mod 2 ^ 128) (g_inc g).
(* pcg64.rs:41-50 output *)
Definition output (state : Z) : Z :=
  let hi := Z.shiftr state 64 in
  let lo := Z.lor (state mod 2 ^ 64) 1 in
  let hi := Z.lxor hi (Z.shiftr hi 32) in
  let hi := (hi * multiplier) mod 2 ^ 64 in
  let hi := Z.lxor hi (Z.shiftr hi 48) in
  (hi * lo) mod 2 ^ 64.
(* pcg64.rs:53-58 next_u64 *)
Definition next_u64 (g : pcg) : Z * pcg := (output (g_state g), step g).

(* ---- Generator ------------------------------------------------------------------ *)

(* generator.rs:81-84 next_f64, 93-95: (u >> 11) as f64 * SCALE in binary64.
   binary_normalize is the rounding of an integer to binary64, SFmul the rounded
   product (Coq.Floats.SpecFloat). *)
Definition f64_prec : Z := 53.
Definition f64_emax : Z := 1024.
Definition f64_int (z : Z) : spec_float := binary_normalize f64_prec f64_emax z 0 false.
Definition scale : spec_float := SFdiv f64_prec f64_emax (f64_int 1) (f64_int (2 ^ 53)).
Definition unit_f64 (u : Z) : spec_float := SFmul f64_prec f64_emax (f64_int (Z.shiftr u 11)) scale.

Section Generator.
(* The bit source: rand_pcg's generator or the one above, both used only through
   next_u64 (generator.rs:46-51). *)
Context {G : Type}.
Variable next : G -> Z * G.

(* generator.rs:87-96 random: the data of the result *)
Fixpoint random (n : nat) (g : G) : list spec_float * G :=
  match n with
  | O => ([], g)
  | S n' => let '(u, g1) := next g in
            let '(l, g2) := random n' g1 in
            (unit_f64 u :: l, g2)
  end.

(* generator.rs:123-127: the rejection loop *)
Fixpoint redraw (fuel : nat) (range t m l : Z) (g : G) : res (Z * G) :=
  if l <? t then
    match fuel with
    | O => Err
    | S f => let '(x, g') := next g in redraw f range t (x * range) ((x * range) mod 2 ^ 64) g'
    end
  else Ok (m, g).
(* generator.rs:113-130 bounded_uint64 *)
Definition bounded (fuel : nat) (range : Z) (g : G) : res (Z * G) :=
  if range =? 0 then Ok (0, g)
  else
    let '(x, g1) := next g in
    let m := x * range in
    let l := m mod 2 ^ 64 in
    bind (if l <? range then redraw fuel range (((- range) mod 2 ^ 64) mod range) m l g1 else Ok (m, g1)) (fun p =>
    Ok (Z.shiftr (fst p) 64, snd p)).

(* generator.rs:98-110 integers: one entry of the int64 result.  The value is
   collected as f64 and written back by write_f64. *)
Definition int64 : ity := mkIty 64 true.
Definition integer (fuel : nat) (low high : Z) (g : G) : res (Z * G) :=
  bind (bounded fuel ((high - low) mod 2 ^ 64) g) (fun p =>
  Ok (through_f64 int64 (wrap int64 (low + wrap int64 (fst p))), snd p)).
Fixpoint integers (fuel : nat) (low high : Z) (n : nat) (g : G) : res (list Z * G) :=
  match n with
  | O => Ok ([], g)
  | S n' => bind (integer fuel low high g) (fun p =>
            bind (integers fuel low high n' (snd p)) (fun q => Ok (fst p :: fst q, snd q)))
  end.
End Generator.

(* ---- shuffling --------------------------------------------------------------------- *)

(* <[T]>::swap *)
Definition swap {A} (l : list A) (i j : nat) : res (list A) :=
  match nth_error l i, nth_error l j with
  | Some x, Some y => Ok (upd (upd l i y) j x)
  | _, _ => Panic
  end.

Section Shuffle.
Context {D : Type}.
(* draw r d: bounded_uint64(r) as usize *)
Variable draw : nat -> D -> res (nat * D).

(* "for i in (1..n).rev() { j = draw(i + 1); swap rows i and j }"
   with exch the exchange of rows i and j *)
Fixpoint shuffle_loop {A} (exch : A -> nat -> nat -> res A) (is : list nat) (data : A) (d : D) : res (A * D) :=
  match is with
  | [] => Ok (data, d)
  | i :: is' =>
      bind (draw (i + 1)%nat d) (fun p =>
      bind (exch data i (fst p)) (fun data' => shuffle_loop exch is' data' (snd p)))
  end.
(* generator.rs:202-208 shuffle_data *)
Definition shuffle_data {A} (data : list A) (d : D) : res (list A * D) :=
  shuffle_loop swap (rev (seq 1 (length data - 1))) data d.
(* generator.rs:190-198 permutation (of 0..n-1, as f64) *)
Definition permutation (n : nat) (d : D) : res (list Z * D) :=
  shuffle_data (map (fun i => f64_of_int (Z.of_nat i)) (seq 0 n)) d.
(* python/random.rs:230-243 permutation of an array: its values as f64, flattened *)
Definition permutation_of {V K} (rd : V -> K) (buf : list V) (a : arr) (d : D) : res (list K * D) :=
  bind (mapM (read buf a) (iter_offsets a)) (fun vs => shuffle_data (map rd vs) d).

(* python/random.rs:279-282: rows i and j of the slice, item by item *)
Fixpoint swap_rows {A} (ks : list nat) (row : nat) (data : list A) (i j : nat) : res (list A) :=
  match ks with
  | [] => Ok data
  | k :: ks' => bind (swap data (i * row + k) (j * row + k)) (fun data' => swap_rows ks' row data' i j)
  end.
(* python/random.rs:251-287 shuffle: the buffer afterwards.  The code takes
   size(a) consecutive f64 from the first element on, whatever the strides and
   the dtype; this is the model for dtypes of 8 bytes. *)
Definition shuffle {V} (buf : list V) (a : arr) (d : D) : res (list V * D) :=
  match a_shape a with
  | [] => Panic (* shape()[0] *)
  | n :: rest =>
      if (n <=? 1)%nat then Ok (buf, d)
      else
        let start := Z.to_nat (a_off a / 8) in
        if (length buf <? start + size a)%nat then Fault
        else
          let data := firstn (size a) (skipn start buf) in
          bind (shuffle_loop (match rest with [] => swap | _ => swap_rows (seq 0 (prod rest)) (prod rest) end)
                             (rev (seq 1 (n - 1))) data d) (fun p =>
          Ok (firstn start buf ++ fst p ++ skipn (start + size a) buf, snd p))
  end.

(* Vec::swap_remove *)
Definition swap_remove {A} (l : list A) (j : nat) : res (A * list A) :=
  match nth_error l j with
  | Some x => Ok (x, firstn (length l - 1) (upd l j (last l x)))
  | None => Panic
  end.
(* python/random.rs:916-923 choice without replacement: the chosen positions *)
Fixpoint choice_loop (is : list nat) (n : nat) (available : list nat) (d : D) : res (list nat * D) :=
  match is with
  | [] => Ok ([], d)
  | i :: is' =>
      bind (draw (n - i)%nat d) (fun p =>
      bind (swap_remove available (fst p)) (fun q =>
      bind (choice_loop is' n (snd q) (snd p)) (fun r => Ok (fst q :: fst r, snd r))))
  end.
(* python/random.rs:904-923: [replace] as given, k samples out of n *)
Fixpoint choice_with (k n : nat) (d : D) : res (list nat * D) :=
  match k with
  | O => Ok ([], d)
  | S k' => bind (draw n d) (fun p => bind (choice_with k' n (snd p)) (fun r => Ok (fst p :: fst r, snd r)))
  end.
Definition choice (replace : bool) (n k : nat) (d : D) : res (list nat * D) :=
  if (n =? 0)%nat then Err
  else if negb replace && (n <? k)%nat then Err
  else if replace then choice_with k n d
  else choice_loop (seq 0 k) n (seq 0 n) d.
End Shuffle.

(* bounded_uint64(r) as usize of a generator *)
Definition draw_u64 {G} (next : G -> Z * G) (fuel : nat) (r : nat) (g : G) : res (nat * G) :=
  bind (bounded next fuel (Z.of_nat r) g) (fun p => Ok (Z.to_nat (fst p), snd p)).

(* ---- multinomial ---------------------------------------------------------------------- *)
Section Multinomial.
Context {G P : Type}.
(* rand_distr::Binomial::new(n, p).unwrap().sample: None when the parameters are
   rejected; positive p: p > 0.0; the rest is f64 arithmetic *)
Variable binomial : Z -> P -> G -> option (Z * G).
Variables (positive : P -> bool) (pdiv psub : P -> P -> P) (one : P).

(* generator.rs:381-389: the columns 0..k-2 *)
Fixpoint multi_row (pvals : list P) (remaining : Z) (p_remaining : P) (g : G) : res (list Z * Z * G) :=
  match pvals with
  | [] => Ok ([], remaining, g)
  | p :: ps =>
      if positive p_remaining then
        match binomial remaining (pdiv p p_remaining) g with
        | None => Panic
        | Some (c, g1) =>
            bind (multi_row ps ((remaining - c) mod 2 ^ 64) (psub p_remaining p) g1) (fun '(row, r, g2) =>
            Ok (c :: row, r, g2))
        end
      else bind (multi_row ps remaining p_remaining g) (fun '(row, r, g2) => Ok (0 :: row, r, g2))
  end.
(* generator.rs:375-394: one row; 0..k - 1 with k = 0 wraps and panics.  Counts
   are kept as f64. *)
Definition multinomial (n : Z) (pvals : list P) (g : G) : res (list Z * G) :=
  match pvals with
  | [] => Panic
  | _ => bind (multi_row (removelast pvals) n one g) (fun '(row, r, g1) =>
         Ok (map f64_of_int (row ++ [r]), g1))
  end.
End Multinomial.
