(* Elements that are numbers: a specification that does not mention the code. *)
From Verif Require Import Base Promo_Spec Cast_Spec.
Local Open Scope Z_scope.

Definition is_a_number (v : scalar) : bool := match real_value v with NaN => false | _ => true end.
