(* Independent vocabulary for masked assignment, selection between alternatives,
   trimming, differences, blocks and phase unwrapping. *)
From Verif Require Import Base.
Local Open Scope nat_scope.

(* a byte counts as true when it is not zero *)
Definition truth (b : Z) : bool := negb (b =? 0)%Z.

(* how many true entries a mask has before position k *)
Definition trues_before (k : nat) (mask : list bool) : nat := length (filter (fun b => b) (firstn k mask)).

(* what is left of l once the leading (front) and trailing (back) elements
   satisfying z are gone *)
Definition trimmed {A} (z : A -> bool) (front back : bool) (l r : list A) : Prop :=
  exists pre post, l = pre ++ r ++ post /\
    Forall (fun x => z x = true) pre /\ Forall (fun x => z x = true) post /\
    (front = false -> pre = []) /\ (back = false -> post = []) /\
    (front = true -> r = [] \/ exists x r', r = x :: r' /\ z x = false) /\
    (back = true -> r = [] \/ exists x r', r = r' ++ [x] /\ z x = false) /\
    (* a list of such elements only disappears entirely *)
    (front = true \/ back = true -> Forall (fun x => z x = true) l -> r = []).

(* differences of consecutive elements *)
Fixpoint consecutive {A} (sub : A -> A -> A) (l : list A) : list A :=
  match l with
  | x :: ((y :: _) as l') => sub y x :: consecutive sub l'
  | _ => []
  end.

(* the first true condition in a list of conditions *)
Definition first_true (cs : list bool) (p : nat) : Prop :=
  nth_error cs p = Some true /\ forall q, q < p -> nth_error cs q = Some false.
Definition last_true (cs : list bool) (p : nat) : Prop :=
  nth_error cs p = Some true /\ forall q, p < q -> nth_error cs q <> Some true.

(* start of piece q when pieces of the given lengths are laid end to end *)
Definition start (lens : list nat) (q : nat) : nat := list_sum (firstn q lens).

(* r is l with multiples of the period added so that no step is longer than the
   limit: the first element stays, a step of l that is at most discont stays, any
   other step becomes one of length at most half a period *)
Definition unwrapped (half discont : Z) (l r : list Z) : Prop :=
  length r = length l /\
  (forall x, nth_error l 0 = Some x -> nth_error r 0 = Some x) /\
  (forall k x y, nth_error l k = Some x -> nth_error r k = Some y -> exists m, (y = x + m * (2 * half))%Z) /\
  (forall k x x' y y', nth_error l k = Some x -> nth_error l (k + 1) = Some x' ->
     nth_error r k = Some y -> nth_error r (k + 1) = Some y' ->
     ((Z.abs (x' - x) <= discont /\ y' - y = x' - x) \/ (discont < Z.abs (x' - x) /\ Z.abs (y' - y) <= half))%Z).
