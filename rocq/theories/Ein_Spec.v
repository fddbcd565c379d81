(* What an Einstein summation expression means. *)
From Coq Require Import Ascii.
From Verif Require Import Base.
Local Open Scope nat_scope.

Definition letters := list ascii.
Definition is_in (c : ascii) (l : letters) : bool := existsb (Ascii.eqb c) l.
Definition alphabet : letters := map ascii_of_nat (seq 97 26).
Definition occurrences (c : ascii) (l : letters) : nat := length (filter (Ascii.eqb c) l).

(* without "->": the letters that occur exactly once, in alphabetical order *)
Definition implicit (subs : list letters) : letters := filter (fun c => occurrences c (concat subs) =? 1) alphabet.
(* the letters that are summed over *)
Definition summed (subs : list letters) (out : letters) : letters :=
  filter (fun c => is_in c (concat subs) && negb (is_in c out)) alphabet.

(* the value of letter c when the letters ls have the values idx *)
Fixpoint at_letter (ls : letters) (idx : list nat) (c : ascii) : nat :=
  match ls, idx with
  | d :: ls', i :: idx' => if Ascii.eqb d c then i else at_letter ls' idx' c
  | _, _ => 0
  end.

Section Ein.
Context {R : Type}.
Variables (zero : R) (add mul : R -> R -> R).
(* an operand with its letters, at given values of the letters *)
Definition operand_at (ls : letters) (idx : list nat) (x : letters * (list nat -> R)) : R :=
  snd x (map (at_letter ls idx) (fst x)).
Definition product_of (l : list R) : R := match l with [] => zero | v :: l' => fold_left mul l' v end.
Definition sum_of (l : list R) : R := fold_left add l zero.
(* element idx of the result: out letters fixed by idx, the sum over all values of
   the other letters of the product of the operands *)
Definition einstein (size : ascii -> nat) (xs : list (letters * (list nat -> R))) (out : letters) (idx : list nat) : R :=
  let s := summed (map fst xs) out in
  sum_of (map (fun c => product_of (map (operand_at (out ++ s) (idx ++ c)) xs)) (all_idx (map size s))).
End Ein.

(* subscripts as text *)
Fixpoint commas (subs : list letters) : letters :=
  match subs with
  | [] => []
  | [s] => s
  | s :: subs' => s ++ ","%char :: commas subs'
  end.
Definition arrow (subs : list letters) (out : letters) : letters := commas subs ++ "-"%char :: ">"%char :: out.
Definition blank (c : ascii) : bool := match nat_of_ascii c with 9 | 10 | 11 | 12 | 13 | 32 => true | _ => false end.
Definition unspaced (s : letters) : letters := filter (fun c => negb (blank c)) s.
Definition lowercase (s : letters) : Prop := Forall (fun c => 97 <= nat_of_ascii c <= 122) s.

(* s says: operands with the letters ins, result with the letters out *)
Definition says (s : letters) (ins : list letters) (out : letters) : Prop :=
  ins <> [] /\ Forall lowercase ins /\ lowercase out /\
  (unspaced s = arrow ins out \/ (unspaced s = commas ins /\ out = implicit ins)).
(* the letters have sizes that agree with the shapes, and the result uses letters of the operands *)
Definition agrees (size : ascii -> nat) (ins : list letters) (out : letters) (shapes : list (list nat)) : Prop :=
  shapes = map (map size) ins /\ incl out (concat ins).
(* s without the letter j; the axes of a chain of matrices: ab, bc, cd, ... *)
Definition without (j : ascii) (s : letters) : letters := filter (fun c => negb (Ascii.eqb c j)) s.
Fixpoint links (l : letters) : list letters :=
  match l with
  | a :: l' => match l' with b :: _ => [a; b] :: links l' | [] => [] end
  | [] => []
  end.
