(* What sums, extrema and their NaN-skipping variants of lists of numbers are.  Numbers are as
   in Cast_Spec: [Fin x] is x * 2^-1074.  Independent of the model. *)
From Verif Require Import Base Promo_Spec Cast_Spec Rnd_Spec.
Local Open Scope Z_scope.

(* a finite number; 0 stands for the others *)
Definition fin (e : ext) : Z := match e with Fin x => x | _ => 0 end.
Definition total (l : list ext) : Z := fold_right Z.add 0 (map fin l).
Definition weight (l : list ext) : Z := fold_right Z.add 0 (map (fun e => Z.abs (fin e)) l).
(* all are finite multiples of the unit U, and their sizes add up to less than 2^prec units:
   a sum of such numbers needs no more than prec bits, in whatever order it is taken *)
Definition summable (prec U : Z) (l : list ext) : Prop :=
  Forall (fun e => exists m, e = Fin (m * U)) l /\ weight l < 2 ^ prec * U.
(* units of a dtype: 2^e for the exponents it has *)
Definition unit_of (k : kind) (U : Z) : Prop :=
  exists e, 3 - snd (format k) - fst (format k) <= e <= snd (format k) - fst (format k) /\ U = 2 ^ (e + 1074).

Definition numbers (l : list ext) : list ext := filter (fun e => match e with NaN => false | _ => true end) l.
(* the greatest (least) of l *)
Definition greatest (l : list ext) (r : ext) : Prop := In r l /\ Forall (fun e => ext_le e r) l.
Definition least (l : list ext) (r : ext) : Prop := In r l /\ Forall (fun e => ext_le r e) l.

(* all are whole numbers, and the product of the sizes of those above one is below 2^prec *)
Definition times (l : list ext) : Z := fold_right Z.mul 1 (map (fun e => fin e / one) l).
Definition sizes (l : list ext) : Z := fold_right Z.mul 1 (map (fun e => Z.max 1 (Z.abs (fin e / one))) l).
Definition multipliable (prec : Z) (l : list ext) : Prop :=
  Forall (fun e => exists m, e = Fin (m * one)) l /\ sizes l < 2 ^ prec.
