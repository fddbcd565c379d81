(* What sorting, searching and set routines mean, independently of the code. *)
From Coq Require Import Permutation Sorted.
From Verif Require Import Base.
Local Open Scope nat_scope.

(* a total preorder given by its test "x <= y" *)
Definition total_preorder {K} (leb : K -> K -> bool) : Prop :=
  (forall x y, leb x y = true \/ leb y x = true) /\
  (forall x y z, leb x y = true -> leb y z = true -> leb x z = true).
(* ... on the elements of a list *)
Definition preorder_on {K} (leb : K -> K -> bool) (l : list K) : Prop :=
  (forall x y, In x l -> In y l -> leb x y = true \/ leb y x = true) /\
  (forall x y z, In x l -> In y l -> In z l -> leb x y = true -> leb y z = true -> leb x z = true).
(* a total preorder in which only equal elements are equivalent *)
Definition total_order {K} (leb : K -> K -> bool) : Prop :=
  total_preorder leb /\ forall x y, leb x y = true -> leb y x = true -> x = y.

(* non-decreasing: every element is <= every later one *)
Definition ascending {K} (leb : K -> K -> bool) (l : list K) : Prop :=
  StronglySorted (fun x y => leb x y = true) l.
(* strictly increasing *)
Definition strictly_ascending {K} (leb : K -> K -> bool) (l : list K) : Prop :=
  StronglySorted (fun x y => leb y x = false) l.

(* r is a sorted rearrangement of l *)
Definition sorts {K} (leb : K -> K -> bool) (l r : list K) : Prop :=
  Permutation l r /\ ascending leb r.

(* p lists the positions 0 .. length l - 1 in the order that sorts l stably:
   by key, and by position where the keys are equivalent *)
Definition stable_order {K} (leb : K -> K -> bool) (l : list K) (p : list nat) : Prop :=
  Permutation p (seq 0 (length l)) /\
  forall i j pi pj x y, i < j -> nth_error p i = Some pi -> nth_error p j = Some pj ->
    nth_error l pi = Some x -> nth_error l pj = Some y ->
    leb x y = true /\ (leb y x = true -> pi < pj).

(* r is a rearrangement of l with its k-th smallest element in place *)
Definition partitioned {K} (leb : K -> K -> bool) (k : nat) (l r : list K) : Prop :=
  Permutation l r /\
  exists v, nth_error r k = Some v /\
    (forall i x, i < k -> nth_error r i = Some x -> leb x v = true) /\
    (forall i x, k < i -> nth_error r i = Some x -> leb v x = true).
(* v is the k-th smallest element of l *)
Definition kth_smallest {K} (leb : K -> K -> bool) (k : nat) (l : list K) (v : K) : Prop :=
  exists s w, sorts leb l s /\ nth_error s k = Some w /\ leb v w = true /\ leb w v = true /\ In v l.

(* the contract of the standard library's select_nth_unstable_by *)
Definition select_contract {K} (sel : (K -> K -> bool) -> list K -> nat -> list K) : Prop :=
  forall leb l k, preorder_on leb l -> k < length l -> partitioned leb k l (sel leb l k).

(* i is the insertion point of v in the ascending list l *)
Definition insertion_left {K} (leb : K -> K -> bool) (l : list K) (v : K) (i : nat) : Prop :=
  i <= length l /\
  (forall j x, j < i -> nth_error l j = Some x -> leb v x = false) /\
  (forall j x, i <= j -> nth_error l j = Some x -> leb v x = true).
Definition insertion_right {K} (leb : K -> K -> bool) (l : list K) (v : K) (i : nat) : Prop :=
  i <= length l /\
  (forall j x, j < i -> nth_error l j = Some x -> leb x v = true) /\
  (forall j x, i <= j -> nth_error l j = Some x -> leb x v = false).

(* x lies in bin i of the edges l: between edge i-1 and edge i; [above e x]: e is
   on the far side of x *)
Definition in_bin {K} (below above : K -> Prop) (l : list K) (i : nat) : Prop :=
  i <= length l /\
  (forall j e, j < i -> nth_error l j = Some e -> below e) /\
  (forall j e, i <= j -> nth_error l j = Some e -> above e).

(* number of occurrences *)
Fixpoint count {K} (eqb : K -> K -> bool) (x : K) (l : list K) : nat :=
  match l with [] => 0 | y :: l' => (if eqb x y then 1 else 0) + count eqb x l' end.

(* order of two positions by several keys, most significant first; ties by position *)
Fixpoint lex_before (keys : list (nat -> nat -> comparison)) (i j : nat) : Prop :=
  match keys with
  | [] => i < j
  | k :: keys' => match k i j with Lt => True | Gt => False | Eq => lex_before keys' i j end
  end.

(* comparison of two positions of a list of key values *)
Definition compare_at {K} (leb : K -> K -> bool) (vals : list K) (i j : nat) : comparison :=
  match nth_error vals i, nth_error vals j with
  | Some x, Some y => if leb x y then if leb y x then Eq else Lt else Gt
  | _, _ => Eq
  end.
