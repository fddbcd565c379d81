(* What median, percentile, mean, variance and covariance mean. *)
From Coq Require Import Permutation Sorted QArith Qcanon Qround.
From Verif Require Import Base Arr_Model Sort_Spec.
Local Open Scope nat_scope.

(* m is the middle of l in ascending order, or the mid-point of its two middle elements *)
Definition is_median {K} (leb : K -> K -> bool) (mid : K -> K -> K) (l : list K) (m : K) : Prop :=
  let n := length l in
  if Nat.even n
  then exists x y, kth_smallest leb (n / 2 - 1) l x /\ kth_smallest leb (n / 2) l y /\ m = mid x y
  else kth_smallest leb (n / 2) l m.

(* bot is below every element of l, and mx picks a larger one of two values *)
Definition max_from {K} (leb : K -> K -> bool) (bot : K) (mx : K -> K -> K) (l : list K) : Prop :=
  (forall x, In x l -> leb bot x = true /\ (leb x bot = true -> x = bot)) /\
  (forall x y, In x (bot :: l) -> In y (bot :: l) ->
     (mx x y = x \/ mx x y = y) /\ leb x (mx x y) = true /\ leb y (mx x y) = true).

(* exact rational arithmetic *)
Definition qleb (x y : Qc) : bool := Qle_bool x y.
Definition qn (k : nat) : Qc := Q2Qc (inject_Z (Z.of_nat k)).
Definition qmid (x y : Qc) : Qc := ((x + y) / qn 2)%Qc.

(* v is the value at t of the polygon through the points (k, s_k) *)
Definition polygon (s : list Qc) (t v : Qc) : Prop :=
  exists k x, nth_error s k = Some x /\
    ((t = qn k /\ v = x) \/
     exists y, nth_error s (S k) = Some y /\ (qn k < t)%Qc /\ (t < qn (S k))%Qc /\ v = (x + (t - qn k) * (y - x))%Qc).
(* v is the q-th percentile of l *)
Definition is_percentile (l : list Qc) (q v : Qc) : Prop :=
  exists s, sorts qleb l s /\ polygon s (q / qn 100 * (qn (length l - 1)))%Qc v.

(* sum, mean and central moments of rationals *)
Definition qsum (l : list Qc) : Qc := fold_right Qcplus (Q2Qc 0) l.
Definition qmean (l : list Qc) : Qc := (qsum l / qn (length l))%Qc.
Definition qvar (l : list Qc) : Qc := qmean (map (fun x => (x - qmean l) * (x - qmean l))%Qc l).
