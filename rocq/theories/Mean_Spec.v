(* What mean, variance, weighted average, covariance and reductions over several axes mean. *)
From Coq Require Import QArith Qcanon.
From Verif Require Import Base Arr_Spec Arr_Model Arr_Wf Red_Spec Stat_Spec.
Local Open Scope nat_scope.

(* x is an array of doubles of shape sh with element f idx at idx *)
Definition is_nda {K} (x : list K * arr) (sh : list nat) (f : list nat -> K) : Prop :=
  wf (fst x) (snd x) /\ a_shape (snd x) = sh /\ a_item (snd x) = 8%Z /\ forall idx, inb idx sh -> get (fst x) (snd x) idx = Some (f idx).
Definition small (sh : list nat) : Prop := (Z.of_nat (prod sh) * 8 < 2 ^ 63)%Z.
(* the elements of the lane of x that ends up at idx *)
Definition lane_of {K} (f : list nat -> K) (sh : list nat) (axis n : nat) (idx : list nat) : list K :=
  map (fun k => f (insert_at axis k (outer_of sh idx))) (seq 0 n).
(* sum of w x over the sum of w *)
Definition qaverage (xs ws : list Qc) : Qc := (qsum (map (fun p => fst p * snd p)%Qc (combine xs ws)) / qsum ws)%Qc.
