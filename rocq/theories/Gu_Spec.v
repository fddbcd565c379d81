(* What it means for operand shapes to fit a signature such as "(m,n),(n,p)->(m,p)":
   there is one size for each name, every operand's shape is loop axes followed by its
   named axes, and the loop axes are broadcast together. *)
From Verif Require Import Base Arr_Spec.
Local Open Scope nat_scope.

(* the smallest shape all of the given ones can be broadcast to *)
Definition joint (shs : list (list nat)) (r : list nat) : Prop :=
  (forall s, In s shs -> broadcastable s r) /\
  forall c, (forall s, In s shs -> broadcastable s c) -> broadcastable r c.

Section Fit.
Context {N : Type}.
(* sizes of the names, loop axes of each operand, and their broadcast *)
Definition fits (ins : list (list N)) (shapes : list (list nat))
           (sizes : N -> nat) (loops : list (list nat)) (loop : list nat) : Prop :=
  shapes = zip_with (fun l dims => l ++ map sizes dims) loops ins /\
  length loops = length ins /\ joint loops loop.
End Fit.
