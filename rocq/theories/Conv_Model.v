(* convolve (src/array/manipulation.rs:794-874) and correlate
   (src/ops/numerical.rs:400-453) of one-dimensional arrays.  f64 addition and
   multiplication are arguments; the theorems take them from a commutative ring.
   The FFT path (rustfft), taken when n*m > 500_000, is a function argument. *)
From Verif Require Import Base Arr_Spec Arr_Model Copy_Model Idx_Model.
Local Open Scope nat_scope.

Inductive cmode := Full | Same | Valid | OtherMode.

Section Conv.
Context {V R : Type}.
Variables (zero : R) (add mul : R -> R -> R).
Variable rd : V -> R.                              (* read_f64(..).unwrap_or(0.0) *)
Variable fft : list R -> list R -> list R.         (* convolve_fft *)

(* a[i]: out of range panics *)
Definition at_ (l : list R) (i : nat) : res R := match nth_error l i with Some x => Ok x | None => Panic end.

(* manipulation.rs:865-874 convolve_direct; nat subtraction is saturating *)
Definition convolve_direct (a v : list R) : res (list R) :=
  let n := length a in let m := length v in
  mapM (fun k =>
    let lo := k - (n - 1) in let hi := Nat.min m (k + 1) in
    bind (mapM (fun j => bind (at_ a (k - j)) (fun x => bind (at_ v j) (fun y => Ok (mul x y)))) (seq lo (hi - lo)))
         (fun ps => Ok (fold_left add ps zero)))
    (seq 0 (n + m - 1)).

(* manipulation.rs:843-858: cut the requested part out of the full result *)
Definition cut (n m : nat) (mode : cmode) (full : list R) : res (list R) :=
  let part start len := mapM (fun i => at_ full (start + i)) (seq 0 len) in
  match mode with
  | Full => part 0 (n + m - 1)
  | Same => part ((m - 1) / 2) n
  | Valid => part (m - 1) (Nat.max (n - (m - 1)) 1)
  | OtherMode => Err
  end.

Definition conv_core (a v : list R) (mode : cmode) : res (list R) :=
  let n := length a in let m := length v in
  bind (if (500000 <? Z.of_nat n * Z.of_nat m)%Z then Ok (fft a v) else convolve_direct a v) (fun full =>
  cut n m mode full).

Definition read_all (x : list V * arr) : res (list R) :=
  bind (mapM (read (fst x) (snd x)) (iter_offsets (snd x))) (fun vs => Ok (map rd vs)).

(* manipulation.rs:794-862 convolve.  Empty operands: n + m - 1 with n = m = 0 wraps
   to 2^64 - 1 elements, which zeros() cannot allocate (panic); m - 1 with m = 0 in
   "valid" wraps and the saturating subtraction gives 0. *)
Definition convolve (x y : list V * arr) (mode : cmode) : res (list R) :=
  if negb ((ndim (snd x) =? 1) && (ndim (snd y) =? 1)) then Err
  else
    let n := size (snd x) in let m := size (snd y) in
    if (n =? 0) || (m =? 0) then
      match mode with
      | Full => if n + m =? 0 then Panic else Ok (repeat zero (n + m - 1))
      | Same => Ok (repeat zero n)
      | Valid => Ok (repeat zero (if m =? 0 then 0 else n - (m - 1)))
      | OtherMode => Err
      end
    else bind (read_all x) (fun a => bind (read_all y) (fun v => conv_core a v mode)).

(* numerical.rs:400-442 correlate: the kernel is reversed; saturating subtractions *)
Definition correlate (x y : list V * arr) (mode : cmode) : res (list R) :=
  if negb ((ndim (snd x) =? 1) && (ndim (snd y) =? 1)) then Err
  else
    let n := size (snd x) in let m := size (snd y) in
    if (n =? 0) || (m =? 0) then
      match mode with
      | Full => Ok (repeat zero (n + m - 1))
      | Same => Ok (repeat zero n)
      | Valid => Ok (repeat zero (n - (m - 1)))
      | OtherMode => Err
      end
    else bind (read_all x) (fun a => bind (read_all y) (fun v => conv_core a (rev v) mode)).
End Conv.
