(* Small specifications for text files. *)
From Coq Require Import Ascii String SpecFloat.
From Verif Require Import Base Int_Model F64_Model Arr_Spec Arr_Model Io_Spec New_Spec.
Local Open Scope nat_scope.
Local Open Scope list_scope.

Definition newline : ascii := ascii_of_nat 10.
(* the characters savetxt writes numbers with: digits, sign, point, e, inf, NaN *)
Definition plain (c : ascii) : bool := existsb (Ascii.eqb c) (txt "0123456789-.einfNa").
(* white space *)
Definition white (c : ascii) : bool := match nat_of_ascii c with 9 | 10 | 11 | 12 | 13 | 32 => true | _ => false end.
Definition spaces (t : bytes) : Prop := Forall (fun c => white c = true) t.
Definition solid (t : bytes) : Prop := Forall (fun c => white c = false) t.
(* not the beginning of a number *)
Definition splits (sep : bytes) : Prop := match sep with c :: _ => plain c = false | [] => False end.
(* the separator sep of a line is read as the delimiter, or as white space *)
Definition read_as (sep : bytes) (delimiter : option bytes) : Prop :=
  ~ In newline sep /\ (delimiter = Some sep /\ splits sep \/ delimiter = None /\ spaces sep /\ sep <> []).
(* a comment mark: no white space, not the beginning of a number *)
Definition mark (c : bytes) : Prop := solid c /\ splits c.

(* a file of lines *)
Definition file_of (ls : list bytes) : bytes := flat_map (fun l => l ++ [newline]) ls.
Definition one_line (l : bytes) : Prop := ~ In newline l.
(* nothing but white space, or a comment after white space *)
Definition no_data (comments l : bytes) : Prop :=
  spaces l \/ exists s t, l = s ++ comments ++ t /\ spaces s.

(* element values that are what their dtype can hold; integers below 2^53 in size *)
Definition sound (d : ldt) (c : cell) : Prop :=
  match d, c with
  | LF64, CFlt x => valid_binary 53 1024 x = true
  | LInt t, CInt z => representable t z /\ (Z.abs z < 2 ^ 53)%Z
  | LBool, CInt z => z = 0%Z \/ z = 1%Z
  | _, _ => False
  end.
Definition array_of (d : ldt) (buf : list cell) (a : arr) : Prop :=
  forall idx c, inb idx (a_shape a) -> get buf a idx = Some c -> sound d c.
(* the same shape and the same elements, in row-major order *)
Definition table_of (r : list nat * list cell) (buf : list cell) (a : arr) : Prop :=
  fst r = a_shape a /\ length (snd r) = size a /\
  forall idx, inb idx (a_shape a) -> nth_error (snd r) (rm_rank (a_shape a) idx) = get buf a idx.
