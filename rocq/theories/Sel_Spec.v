(* Independent specification of element selection: Python index values, masks,
   positions of non-zero elements, and replacing elements of a list. *)
From Verif Require Import Base.
Local Open Scope Z_scope.

(* the position Python's index i means in a sequence of length n *)
Definition py_index (i : Z) (n : nat) : option nat :=
  if (0 <=? i) && (i <? Z.of_nat n) then Some (Z.to_nat i)
  else if (- Z.of_nat n <=? i) && (i <? 0) then Some (Z.to_nat (Z.of_nat n + i))
  else None.

(* the elements of l whose mask entry is true *)
Fixpoint keep {A} (mask : list bool) (l : list A) : list A :=
  match mask, l with
  | b :: mask', x :: l' => if b then x :: keep mask' l' else keep mask' l'
  | _, _ => []
  end.

(* the positions at which a mask is true, in increasing order *)
Fixpoint true_positions (k : nat) (mask : list bool) : list nat :=
  match mask with
  | [] => []
  | b :: mask' => if b then k :: true_positions (S k) mask' else true_positions (S k) mask'
  end.

(* replace one element after the other: later entries win *)
Definition put_list {A} (ws : list (nat * A)) (l : list A) : list A :=
  fold_left (fun l w => upd l (fst w) (snd w)) ws l.

(* element i of the endless repetition of v *)
Definition cycled {A} (v : list A) (i : nat) : option A := nth_error v (i mod length v)%nat.
