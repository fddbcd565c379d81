(* Python values handed to array() and returned by tolist(), and what it means
   for a nested list to describe an array.  Independent of the model. *)
From Coq Require Import SpecFloat.
From Verif Require Import Base Int_Model SF_Proofs.

(* a Python object: int, bool, float, anything that is not a number, or list *)
Inductive py := PInt (z : Z) | PBool (b : bool) | PFloat (f : spec_float) | POther | PList (l : list py).

Definition is_leaf (o : py) : Prop := match o with PList _ => False | _ => True end.

(* the object found by indexing o[i0][i1]... *)
Fixpoint at_ (o : py) (idx : list nat) : option py :=
  match idx, o with
  | [], _ => Some o
  | i :: idx', PList l => match nth_error l i with Some x => at_ x idx' | None => None end
  | _ :: _, _ => None
  end.

(* o is nested as deep as sh is long, with sh_k items at level k *)
Fixpoint nests (sh : list nat) (o : py) : Prop :=
  match sh with
  | [] => is_leaf o
  | n :: sh' => exists l, o = PList l /\ length l = n /\ Forall (nests sh') l
  end.

(* the shape of a rectangular nested list: as above, and an empty list is not
   given further axes *)
Inductive rect : py -> list nat -> Prop :=
| R_leaf o : is_leaf o -> rect o []
| R_nil : rect (PList []) [0]
| R_list l sh : l <> [] -> Forall (fun x => rect x sh) l -> rect (PList l) (length l :: sh).

(* the dtypes of this part: fixed-width integers, bool, float64 *)
Inductive ldt := LInt (t : ity) | LBool | LF64.
Definition std_int (t : ity) : Prop := bits t = 8%Z \/ bits t = 16%Z \/ bits t = 32%Z \/ bits t = 64%Z.
Definition std (d : ldt) : Prop := match d with LInt t => std_int t | _ => True end.

(* the value stored in one element *)
Inductive cell := CInt (z : Z) | CFlt (f : spec_float).

(* an element of dtype d with stored value c is the Python number v *)
Definition stores (d : ldt) (v : py) (c : cell) : Prop :=
  match d, v, c with
  | LInt t, PInt z, CInt x => representable t z /\ x = z
  | LBool, PBool b, CInt x => x = if b then 1%Z else 0%Z
  | LF64, PFloat f, CFlt g => g = f
  | LF64, PInt z, CFlt g => sf_is g z 0
  | _, _, _ => False
  end.

Definition i64_ty : ity := mkIty 64 true.
(* the dtype NumPy gives a Python number *)
Definition natural (v : py) (d : ldt) : Prop :=
  match v with
  | PInt z => representable i64_ty z /\ d = LInt i64_ty
  | PBool _ => d = LBool
  | PFloat _ => d = LF64
  | _ => False
  end.
(* v can be stored in an element of dtype d without loss *)
Definition fits (d : ldt) (v : py) : Prop :=
  match d, v with
  | LInt t, PInt z => representable t z
  | LBool, PBool _ => True
  | LF64, PFloat _ => True
  | LF64, PInt z => (Z.abs z < 2 ^ 53)%Z
  | _, _ => False
  end.

(* c is a possible stored value of an element of dtype d *)
Definition cell_ok (d : ldt) (c : cell) : Prop :=
  match d, c with
  | LInt t, CInt z => representable t z
  | LBool, CInt z => z = 0%Z \/ z = 1%Z
  | LF64, CFlt _ => True
  | _, _ => False
  end.
