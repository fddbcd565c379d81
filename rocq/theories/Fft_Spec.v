(* What a discrete Fourier transform is, over any ring of "complex numbers" in which
   the needed roots of unity exist. *)
From Verif Require Import Base Arr_Model.
Local Open Scope nat_scope.

Section Spec.
Context {C : Type}.
Variables (zero one : C) (add mul : C -> C -> C).

(* f 0 + f 1 + ... + f (n-1) *)
Fixpoint csum (n : nat) (f : nat -> C) : C :=
  match n with O => zero | S m => add (csum m f) (f m) end.
Fixpoint cpow (x : C) (k : nat) : C := match k with O => one | S m => mul x (cpow x m) end.
(* the number n *)
Definition cnat (n : nat) : C := csum n (fun _ => one).

(* entry k of the transform of f 0, ..., f (n-1): sum of f j * r^(j k); with
   r = e^(-2 pi i / n) this is the forward transform, with the conjugate the inverse *)
Definition dft_at (r : C) (n : nat) (f : nat -> C) (k : nat) : C :=
  csum n (fun j => mul (f j) (cpow r (j * k))).

(* the transform of an array, given as a function of the index, along one axis *)
Definition dft_axis (r : C) (n axis : nat) (f : list nat -> C) (idx : list nat) : C :=
  dft_at r n (fun j => f (upd idx axis j)) (nth axis idx 0).

(* one transform per listed axis, [w n] being the root for length n *)
Definition dft_axes (w : nat -> C) (sh axes : list nat) (f : list nat -> C) : list nat -> C :=
  fold_left (fun g axis => dft_axis (w (nth axis sh 0)) (nth axis sh 0) axis g) axes f.

(* r and r' are inverse primitive n-th roots of unity *)
Definition roots (n : nat) (r r' : C) : Prop :=
  mul r r' = one /\ cpow r n = one /\ forall m, 0 < m < n -> csum n (fun j => cpow r (j * m)) = zero.

(* conj is complex conjugation, a ring morphism; re leaves numbers equal to their
   conjugate alone *)
Definition conjugation (conj re : C -> C) : Prop :=
  (forall x y, conj (add x y) = add (conj x) (conj y)) /\ (forall x y, conj (mul x y) = mul (conj x) (conj y)) /\
  conj one = one /\ conj zero = zero /\ (forall x, conj x = x -> re x = x).

(* the length-n spectrum with entries F 0 .. F (m-1) and conjugates above *)
Definition hext (conj : C -> C) (n m : nat) (F : nat -> C) (j : nat) : C :=
  if j <? m then F j else conj (F (n - j)).
End Spec.

(* the element of a view as a complex number *)
Definition cvalue {V C} (zero : C) (rdc : V -> C) (buf : list V) (a : arr) (idx : list nat) : C :=
  match get buf a idx with Some v => rdc v | None => zero end.

(* the listed axes, or all of them *)
Definition axes_of (axes : option (list nat)) (nd : nat) : list nat := match axes with Some l => l | None => seq 0 nd end.
Definition valid_axes (axes : option (list nat)) (nd : nat) : Prop :=
  axes_of axes nd <> [] /\ forall x, In x (axes_of axes nd) -> x < nd.

(* every index rotated by [by n] places along its axis of length n *)
Fixpoint rotate (by_ : nat -> nat) (sh idx : list nat) : list nat :=
  match sh, idx with n :: sh', i :: idx' => (i + by_ n) mod n :: rotate by_ sh' idx' | _, _ => [] end.
