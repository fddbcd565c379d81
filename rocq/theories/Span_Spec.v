(* What arange and linspace promise, in exact integer arithmetic. *)
From Coq Require Import SpecFloat.
From Verif Require Import Base New_Spec.
Local Open Scope Z_scope.

(* x lies before stop when walking with the given step *)
Definition before (step stop x : Z) : Prop := (0 < step /\ x < stop) \/ (step < 0 /\ stop < x).

(* l holds the progression start, start + step, ... : all its terms before stop,
   each stored exactly in dtype d, and nothing else *)
Definition progression (d : ldt) (start stop step : Z) (l : list cell) : Prop :=
  (forall i : nat, (i < length l)%nat <-> before step stop (start + Z.of_nat i * step)) /\
  (forall (i : nat) c, nth_error l i = Some c -> stores d (PInt (start + Z.of_nat i * step)) c).

(* l holds num equally spaced numbers from start to stop, each stored exactly:
   (num - 1) * l_i = (num - 1) * start + i * (stop - start) *)
Definition spaced (d : ldt) (start stop : Z) (num : nat) (l : list cell) : Prop :=
  length l = num /\
  forall (i : nat) c, nth_error l i = Some c ->
    exists v, stores d (PInt v) c /\ (Z.of_nat num - 1) * v = (Z.of_nat num - 1) * start + Z.of_nat i * (stop - start).
