(* The NPY file format (NumPy enhancement proposal 1) and raw element streams, without
   reference to the code.  A file is a list of bytes; an element is the list of its bytes. *)
From Coq Require Import Ascii String.
From Verif Require Import Base Arr_Spec.
Local Open Scope nat_scope.
Local Open Scope list_scope.

Definition bytes := list ascii.
Definition txt (s : string) : bytes := list_ascii_of_string s.
Definition byte (n : Z) : ascii := ascii_of_N (Z.to_N (n mod 256)).
Definition value (c : ascii) : Z := Z.of_N (N_of_ascii c).

(* the number a little-endian byte string stands for *)
Fixpoint le_value (b : bytes) : Z :=
  match b with [] => 0 | c :: b' => (value c + 256 * le_value b')%Z end.
(* the number a decimal numeral stands for *)
Definition denotes (s : bytes) (n : nat) : Prop :=
  s <> [] /\ Forall (fun c => (48 <= value c <= 57)%Z) s /\
  fold_left (fun z c => (10 * z + (value c - 48))%Z) s 0%Z = Z.of_nat n.

(* a Python tuple of numerals: "()", "(3,)", "(3, 4)", ... *)
Fixpoint commas (l : list bytes) : bytes :=
  match l with [] => [] | [x] => x | x :: l' => x ++ txt ", " ++ commas l' end.
Definition tuple_text (l : list bytes) : bytes :=
  match l with [x] => txt "(" ++ x ++ txt ",)" | _ => txt "(" ++ commas l ++ txt ")" end.

(* [text] is the header dictionary for the given dtype code, order and shape (NumPy writes
   a comma before the closing brace) *)
Definition dictionary (text descr : bytes) (fortran : bool) (sh : list nat) : Prop :=
  exists nums close, Forall2 denotes nums sh /\ (close = txt "}" \/ close = txt ", }") /\
    text = txt "{'descr': '" ++ descr ++ txt "', 'fortran_order': " ++ (if fortran then txt "True" else txt "False")
           ++ txt ", 'shape': " ++ tuple_text nums ++ close.

Definition magic : bytes := byte 147 :: txt "NUMPY".
Definition blank (c : ascii) : Prop := c = " "%char \/ c = byte 10.
(* version 1.0 has a two-byte header length, version 2.0 a four-byte one; the header is
   the dictionary followed by blanks *)
Definition preamble_ok (p descr : bytes) (fortran : bool) (sh : list nat) : Prop :=
  exists len text pad, dictionary text descr fortran sh /\ Forall blank pad /\
    ((p = magic ++ [byte 1; byte 0] ++ len ++ text ++ pad /\ List.length len = 2) \/
     (p = magic ++ [byte 2; byte 0] ++ len ++ text ++ pad /\ List.length len = 4)) /\
    le_value len = Z.of_nat (List.length (text ++ pad)).

(* column-major position of an index tuple *)
Fixpoint cm_rank (sh idx : list nat) : nat :=
  match sh, idx with
  | s :: sh', i :: idx' => i + s * cm_rank sh' idx'
  | _, _ => 0
  end.
(* the data block holds element idx at the position the order says *)
Definition data_ok (data : bytes) (item : nat) (fortran : bool) (sh : list nat) (elem : list nat -> option bytes) : Prop :=
  List.length data = item * prod sh /\
  forall idx, inb idx sh ->
    elem idx = Some (firstn item (skipn (item * (if fortran then cm_rank sh idx else rm_rank sh idx)) data)).

(* [file] is an NPY file for the array with these elements, up to what follows the
   preamble's alignment *)
Definition npy_file (file descr : bytes) (item : nat) (sh : list nat) (elem : list nat -> option bytes) : Prop :=
  exists p data fortran, file = p ++ data /\ preamble_ok p descr fortran sh /\ data_ok data item fortran sh elem.
