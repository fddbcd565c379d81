(* Vocabulary for the random generator's properties. *)
From Verif Require Import Base.

(* the first n results of a source, and the source afterwards *)
Fixpoint stream {G A} (next : G -> A * G) (n : nat) (g : G) : list A * G :=
  match n with
  | O => ([], g)
  | S n' => let '(x, g1) := next g in let '(l, g2) := stream next n' g1 in (x :: l, g2)
  end.

(* a source of draws that follows a given list: the argument (the bound) is ignored *)
Definition pop (bound : nat) (js : list nat) : res (nat * list nat) :=
  match js with j :: js' => Ok (j, js') | [] => Err end.

(* js can be drawn when a list of n is shuffled: one of n, one of n-1, ..., one of 2 *)
Definition shuffle_draws (n : nat) (js : list nat) : Prop := Forall2 lt js (rev (seq 2 (n - 1))).
(* ... when k out of n are chosen without replacement: one of n, ..., one of n-k+1 *)
Definition choice_draws (n k : nat) (js : list nat) : Prop := Forall2 lt js (map (fun i => n - i) (seq 0 k)).
