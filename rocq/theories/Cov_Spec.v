(* Covariance and correlation. *)
From Coq Require Import QArith Qcanon.
From Verif Require Import Base Stat_Spec.
Local Open Scope nat_scope.

(* the covariance of two samples of the same length *)
Definition qcov (ddof : nat) (xs ys : list Qc) : Qc :=
  (qsum (map (fun p => (fst p - qmean xs) * (snd p - qmean ys))%Qc (combine xs ys)) / qn (length xs - ddof))%Qc.
(* row i of a matrix given by its entries, as a list of n values *)
Definition row (f : list nat -> Qc) (n i : nat) : list Qc := map (fun k => f [i; k]) (seq 0 n).
