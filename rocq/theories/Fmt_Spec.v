(* What the printed form of an array shows. *)
From Coq Require Import Ascii String.
From Verif Require Import Base.
Local Open Scope nat_scope.
Local Open Scope list_scope.

Definition text := list ascii.
(* a bracket, the three dots of an abbreviated axis, or the text of an element *)
Inductive token := Open | Close | Dots | Item (t : text).

(* reading a text: brackets stand for themselves; commas, blanks and line ends separate *)
Definition newline : ascii := ascii_of_nat 10.
Definition separator (c : ascii) : bool := Ascii.eqb c "," || Ascii.eqb c " " || Ascii.eqb c newline.
Definition bracket (c : ascii) : option token := if Ascii.eqb c "[" then Some Open else if Ascii.eqb c "]" then Some Close else None.
Definition dots : text := ["."; "."; "."]%char.
Definition text_eqb (t u : text) : bool := if list_eq_dec ascii_dec t u then true else false.
Definition word (t : text) : list token := match t with [] => [] | _ => if text_eqb t dots then [Dots] else [Item t] end.
Fixpoint scan (cur t : text) : list token :=
  match t with
  | [] => word cur
  | c :: t' =>
      match bracket c with
      | Some b => word cur ++ b :: scan [] t'
      | None => if separator c then word cur ++ scan [] t' else scan (cur ++ [c]) t'
      end
  end.
Definition tokens (t : text) : list token := scan [] t.
(* texts that are one word *)
Definition plain (t : text) : Prop := t <> [] /\ t <> dots /\ Forall (fun c => separator c = false /\ bracket c = None) t.

(* the nested list of the elements at all indices of a shape; with short, an axis of more
   than six shows its first and last three *)
Fixpoint nested (short : bool) (sh : list nat) (elem : list nat -> text) : list token :=
  match sh with
  | [] => [Item (elem [])]
  | d :: sh' =>
      let row i := nested short sh' (fun idx => elem (i :: idx)) in
      if short && (6 <? d) then [Open] ++ flat_map row [0; 1; 2] ++ [Dots] ++ flat_map row [d - 3; d - 2; d - 1] ++ [Close]
      else [Open] ++ flat_map row (seq 0 d) ++ [Close]
  end.
