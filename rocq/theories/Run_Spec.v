(* Running totals of numbers.  Numbers are as in Cast_Spec: [Fin x] is x * 2^-1074. *)
From Verif Require Import Base Promo_Spec Cast_Spec Fred_Spec.
Local Open Scope Z_scope.

(* sums and products; [one] stands for 1 *)
Inductive cum := CumSum | CumProd.
Definition result (op : cum) (l : list ext) : Z := match op with CumSum => total l | CumProd => times l * one end.
(* the numbers of l can be added (multiplied) with prec bits without rounding *)
Definition computable (op : cum) (prec U : Z) (l : list ext) : Prop :=
  match op with CumSum => summable prec U l | CumProd => multipliable prec l end.
