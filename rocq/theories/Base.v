(* Shared vocabulary: results with explicit error values, shapes, indices,
   memory.  Nothing in this file models a particular piece of /repo. *)
From Coq Require Export List Arith ZArith Lia Bool.
From Coq Require Export ZifyBool ZifyNat.
Export ListNotations.

(* Result of running a piece of Rust code.
   Err   : the function returned None / Err, reported to the user as an exception
   Panic : Rust panic (assert!, slice bounds check, unwrap, arithmetic in debug)
   Fault : access outside an allocation or of a misaligned item (undefined behaviour) *)
Inductive res (A : Type) : Type :=
| Ok (a : A) | Err | Panic | Fault.
Arguments Ok {A} _.  Arguments Err {A}.  Arguments Panic {A}.  Arguments Fault {A}.

Definition bind {A B} (r : res A) (f : A -> res B) : res B :=
  match r with Ok a => f a | Err => Err | Panic => Panic | Fault => Fault end.

Definition of_load {A} (o : option A) : res A :=
  match o with Some a => Ok a | None => Fault end.

Fixpoint mapM {A B} (f : A -> res B) (l : list A) : res (list B) :=
  match l with
  | [] => Ok []
  | x :: l' => bind (f x) (fun y => bind (mapM f l') (fun ys => Ok (y :: ys)))
  end.

(* number of elements of a shape *)
Fixpoint prod (sh : list nat) : nat :=
  match sh with [] => 1 | s :: sh' => s * prod sh' end.

(* idx is a valid index tuple for the shape *)
Definition inb (idx sh : list nat) : Prop := Forall2 lt idx sh.

(* all index tuples of a shape, in row-major order *)
Fixpoint all_idx (sh : list nat) : list (list nat) :=
  match sh with
  | [] => [[]]
  | s :: sh' => flat_map (fun i => map (cons i) (all_idx sh')) (seq 0 s)
  end.

(* sum of coordinates times strides *)
Fixpoint dot (idx : list nat) (st : list Z) : Z :=
  match idx, st with
  | i :: idx', s :: st' => (Z.of_nat i * s + dot idx' st')%Z
  | _, _ => 0%Z
  end.

(* A buffer is a list of items of [item] bytes each; [load] reads the item at a
   byte address, None when the address is outside the buffer or misaligned. *)
Definition load {V} (buf : list V) (item addr : Z) : option V :=
  if (addr <? 0)%Z then None
  else if (addr mod item =? 0)%Z then nth_error buf (Z.to_nat (addr / item))
  else None.

(* replace position n of a list (no effect outside) *)
Fixpoint upd {A} (l : list A) (n : nat) (v : A) : list A :=
  match l, n with
  | [], _ => []
  | _ :: l', 0 => v :: l'
  | x :: l', S n' => x :: upd l' n' v
  end.

(* remove position n *)
Fixpoint remove_at {A} (n : nat) (l : list A) : list A :=
  match n, l with
  | _, [] => []
  | 0, _ :: l' => l'
  | S n', x :: l' => x :: remove_at n' l'
  end.

(* insert before position n *)
Fixpoint insert_at {A} (n : nat) (v : A) (l : list A) : list A :=
  match n, l with
  | 0, _ => v :: l
  | S n', x :: l' => x :: insert_at n' v l'
  | S _, [] => [v]
  end.

Fixpoint zip_with {A B C} (f : A -> B -> C) (l : list A) (m : list B) : list C :=
  match l, m with
  | x :: l', y :: m' => f x y :: zip_with f l' m'
  | _, _ => []
  end.
