(* polyval, polyder, polyint and the closed-form part of roots
   (src/ops/poly.rs:11-117, 219-273).  The f64 operations are arguments; the theorems
   take them from a commutative ring or a field.  Not modelled: polyfit, roots of
   degree 3 and more (QR iteration). *)
From Verif Require Import Base Arr_Spec Arr_Model Copy_Model Idx_Model Conv_Model.
Local Open Scope nat_scope.

Section Poly.
Context {V R : Type}.
Variables (zero : R) (add mul div : R -> R -> R) (opp : R -> R).
Variable nat_f : nat -> R.                 (* usize as f64 *)
Variable rd : V -> R.                      (* read_f64(..).unwrap_or(0.0) *)

(* poly.rs:11-25 array_to_vec *)
Definition array_to_vec (p : list V * arr) : res (list R) :=
  if size (snd p) =? 0 then Ok [] else read_all rd p.

(* poly.rs:47-53: Horner's scheme at one point *)
Definition horner (coeffs : list R) (x : R) : R :=
  match coeffs with
  | [] => zero
  | c0 :: cs => fold_left (fun acc c => add (mul acc x) c) cs c0
  end.

(* poly.rs:30-58 polyval: shape and elements (C order) of the fresh result *)
Definition polyval (p x : list V * arr) : res (list nat * list R) :=
  bind (array_to_vec p) (fun coeffs =>
  if length coeffs =? 0 then Ok (a_shape (snd x), repeat zero (size (snd x)))
  else bind (mapM (read (fst x) (snd x)) (iter_offsets (snd x))) (fun xs =>
       Ok (a_shape (snd x), map (fun v => horner coeffs (rd v)) xs))).

(* poly.rs:77-84: one derivative *)
Definition der1 (cs : list R) : list R :=
  let n := length cs in
  map (fun ic => mul (snd ic) (nat_f (n - 1 - fst ic))) (combine (seq 0 (n - 1)) (firstn (n - 1) cs)).

(* poly.rs:71-85 *)
Fixpoint der_loop (m : nat) (cs : list R) : list R :=
  match m with
  | 0 => cs
  | S m' => if length cs <=? 1 then [] else der_loop m' (der1 cs)
  end.

(* poly.rs:64-88 polyder.  m = 0 copies the input, dtype included; the model returns
   the values read as f64. *)
Definition polyder (p : list V * arr) (m : nat) : res (list R) :=
  bind (array_to_vec p) (fun cs => Ok (der_loop m cs)).

(* poly.rs:103-112: one integral with the given constant *)
Definition int1 (k : R) (cs : list R) : list R :=
  let n := length cs in
  map (fun jc => div (snd jc) (nat_f (n - fst jc))) (combine (seq 0 n) cs) ++ [k].

(* poly.rs:102-114; rem is m - i, so the constant is k_values[m-1-i] = k_values[rem-1] *)
Fixpoint int_loop (ks : list R) (rem : nat) (cs : list R) : list R :=
  match rem with
  | 0 => cs
  | S r => int_loop ks r (int1 (nth r ks zero) cs)
  end.

(* poly.rs:94-117 polyint *)
Definition polyint (p : list V * arr) (m : nat) (k : option (list V * arr)) : res (list R) :=
  bind (array_to_vec p) (fun cs =>
  bind (match k with None => Ok [] | Some k => array_to_vec k end) (fun ks =>
  Ok (int_loop ks m cs))).

(* poly.rs:219-268 roots.  tiny is |c| < 1e-15, nonneg is 0 <= d, smaller a b is
   |a| < |b|; higher stands for roots_via_companion. *)
Variables (sqrt : R -> R) (tiny nonneg : R -> bool) (smaller : R -> R -> bool).
Variable higher : list R -> option (list R).

Fixpoint strip (cs : list R) : list R :=
  match cs with
  | [] => []
  | c :: cs' => if tiny c then strip cs' else cs
  end.

Definition roots (p : list V * arr) : res (option (list R)) :=
  bind (array_to_vec p) (fun cs0 =>
  Ok (match strip cs0 with
      | [] => Some []
      | [_] => Some []
      | (lead :: _) as cs =>
          match map (fun c => div c lead) cs with
          | [_; a0] => Some [opp a0]
          | [_; b; c] =>
              let disc := add (mul b b) (opp (mul (nat_f 4) c)) in
              if nonneg disc then
                let s := sqrt disc in
                let r1 := div (add (opp b) s) (nat_f 2) in
                let r2 := div (add (opp b) (opp s)) (nat_f 2) in
                Some (if smaller r1 r2 then [r2; r1] else [r1; r2])
              else Some []
          | monic => higher monic
          end
      end)).
End Poly.
