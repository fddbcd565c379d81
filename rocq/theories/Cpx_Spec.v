(* What the tests for NaN, infinity, sign and reality say of a number, what the parts and
   the conjugate of a complex number are, how complex numbers are added, multiplied,
   divided and ordered.  A number is a pair of extended numbers, as in Cast_Spec.
   Independent of the model. *)
From Coq Require Import SpecFloat.
From Verif Require Import Base Promo_Spec Cast_Spec Rnd_Spec Ari_Spec.
Local Open Scope Z_scope.

Definition number := (ext * ext)%type.
Definition infinite (e : ext) : Prop := exists s, e = Inf s.
Definition finite (e : ext) : Prop := exists x, e = Fin x.
Inductive test := TNan | TInf | TFinite | TNegInf | TPosInf.
Definition test_holds (t : test) (p : number) : Prop :=
  match t with
  | TNan => fst p = NaN \/ snd p = NaN
  | TInf => infinite (fst p) \/ infinite (snd p)
  | TFinite => finite (fst p) /\ finite (snd p)
  | TNegInf => p = (Inf true, Fin 0)
  | TPosInf => p = (Inf false, Fin 0)
  end.
(* the real part is below zero, or is the zero written -0 *)
Definition negative_zero (v : scalar) : Prop :=
  match v with SFlt (S754_zero true) | SCpx (S754_zero true) _ => True | _ => False end.
Definition sign_set (v : scalar) : Prop := ext_lt (real_value v) (Fin 0) \/ negative_zero v.

(* the dtype of the parts of dtype k *)
Definition part_kind (k : kind) : kind :=
  match k with Complex64 => Float32 | Complex128 => Float64 | _ => k end.
Definition conjugate (p : number) : number := (fst p, ext_opp (snd p)).

(* nan_to_num: the replacement of one part; R e r: r is e in the dtype *)
Definition greatest (k : kind) : Z := let (p, emax) := format k in (2 ^ p - 1) * 2 ^ (emax - p + 1074).
Definition replaced (R : ext -> ext -> Prop) (k : kind) (nan : ext) (pos neg : option ext) (e r : ext) : Prop :=
  match e with
  | NaN => R nan r
  | Inf false => match pos with Some p => R p r | None => r = Fin (greatest k) end
  | Inf true => match neg with Some p => R p r | None => r = Fin (- greatest k) end
  | Fin x => r = Fin x
  end.
(* r is e rounded to dtype k *)
Definition converted_to (k : kind) (e r : ext) : Prop :=
  match e with Fin x => rounded k x 1 r | _ => r = e end.

(* the lexicographic order of complex numbers *)
Definition lex_le (p q : number) : Prop := ext_lt (fst p) (fst q) \/ fst p = fst q /\ ext_le (snd p) (snd q).
Definition has_nan (p : number) : Prop := fst p = NaN \/ snd p = NaN.
