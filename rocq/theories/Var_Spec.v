(* What a variance is: a specification that does not mention the code. *)
From Verif Require Import Base Promo_Spec Cast_Spec.
Local Open Scope Z_scope.

(* the squares of the distances of the whole numbers zs from m, added *)
Definition squares_sum (m : Z) (zs : list Z) : Z := fold_right Z.add 0 (map (fun z => (z - m) * (z - m)) zs).
Definition whole_sum (zs : list Z) : Z := fold_right Z.add 0 zs.
Definition size_sum (zs : list Z) : Z := fold_right Z.add 0 (map Z.abs zs).
(* NaN, infinity or a number that is not below zero *)
Definition at_least_zero (e : ext) : Prop := match e with NaN => True | Inf neg => neg = false | Fin z => 0 <= z end.
