(* Layout and conversion of arrays: what array(a), ascontiguousarray, asfortranarray,
   require, copyto and the array interface promise.  Independent of the model. *)
From Coq Require Import SpecFloat.
From Verif Require Import Base Int_Model SF_Proofs Arr_Spec Arr_Model Idx_Wf New_Spec Io_Spec.

(* an element of dtype d holding c is the integer z *)
Definition is_int (d : ldt) (c : cell) (z : Z) : Prop :=
  match d, c with
  | LInt _, CInt x => x = z
  | LBool, CInt x => x = z /\ (z = 0%Z \/ z = 1%Z)
  | LF64, CFlt f => sf_is f z 0
  | _, _ => False
  end.
(* dtype d can hold the integer z *)
Definition holds (d : ldt) (z : Z) : Prop :=
  match d with LInt t => representable t z | LBool => z = 0%Z \/ z = 1%Z | LF64 => True end.
(* c' in dtype d' is what converting c from dtype d should give: the same thing in the
   same dtype, and every integer both dtypes hold exactly *)
Definition converts (d : ldt) (c : cell) (d' : ldt) (c' : cell) : Prop :=
  (d = d' -> c' = c) /\ (forall z, is_int d c z -> (Z.abs z < 2 ^ 53)%Z -> holds d' z -> is_int d' c' z).

(* elements lie without gaps in row-major / column-major order *)
Definition row_major (a : arr) : Prop := forall idx, inb idx (a_shape a) -> addr a idx = (a_off a + a_item a * Z.of_nat (rm_rank (a_shape a) idx))%Z.
Definition col_major (a : arr) : Prop := forall idx, inb idx (a_shape a) -> addr a idx = (a_off a + a_item a * Z.of_nat (cm_rank (a_shape a) idx))%Z.

(* truth of a mask element *)
Definition truth (d : ldt) (c : cell) : Prop :=
  match d, c with
  | LF64, CFlt f => match f with S754_zero _ => False | _ => True end
  | _, CInt z => z <> 0%Z
  | _, _ => False
  end.
