(* Independent specification of the view operations: each one is a new shape
   together with a map from new index tuples to old index tuples.  Nothing here
   mentions offsets, strides or flags. *)
From Verif Require Import Base.
Local Open Scope Z_scope.

(* row-major rank and its inverse *)
Fixpoint rm_rank (sh idx : list nat) : nat :=
  match sh, idx with
  | _ :: sh', i :: idx' => (i * prod sh' + rm_rank sh' idx')%nat
  | _, _ => 0%nat
  end.
Fixpoint rm_unrank (sh : list nat) (k : nat) : list nat :=
  match sh with
  | [] => []
  | _ :: sh' => (k / prod sh')%nat :: rm_unrank sh' (k mod prod sh')%nat
  end.

(* Python: position j is selected by start:stop:step *)
Definition in_slice (start stop step : Z) (j : nat) : Prop :=
  (0 < step /\ start + Z.of_nat j * step < stop) \/
  (step < 0 /\ stop < start + Z.of_nat j * step).

(* (start, stop, step) is something Python's slice.indices(len) can return *)
Definition py_slice (len : nat) (start stop step : Z) : Prop :=
  (0 < step /\ 0 <= start <= Z.of_nat len /\ 0 <= stop <= Z.of_nat len) \/
  (step < 0 /\ -1 <= start < Z.of_nat len /\ -1 <= stop < Z.of_nat len).

(* position of k in l *)
Fixpoint index_of (k : nat) (l : list nat) : nat :=
  match l with
  | [] => 0%nat
  | x :: l' => if Nat.eqb x k then 0%nat else S (index_of k l')
  end.

(* old index tuple of a permuted view: its axes[d]-th coordinate is idx[d] *)
Definition unpermute (axes idx : list nat) : list nat :=
  map (fun k => nth (index_of k axes) idx 0%nat) (seq 0 (length axes)).

(* right-aligned broadcast: coordinate 0 on stretched axes *)
Fixpoint unstretch (sh idx : list nat) : list nat :=
  match sh, idx with
  | s :: sh', i :: idx' => (if Nat.eqb s 1 then 0%nat else i) :: unstretch sh' idx'
  | _, _ => []
  end.
Definition unbroadcast (sh idx : list nat) : list nat :=
  unstretch sh (skipn (length idx - length sh) idx).

(* sh can be stretched to nsh (same rank) *)
Definition stretchable (sh nsh : list nat) : Prop := Forall2 (fun s n => s = n \/ s = 1%nat) sh nsh.
Definition broadcastable (sh nsh : list nat) : Prop :=
  (length sh <= length nsh)%nat /\ stretchable sh (skipn (length nsh - length sh) nsh).

(* put a zero coordinate back wherever a length-1 axis was dropped *)
Fixpoint unsqueeze (sh idx : list nat) : list nat :=
  match sh with
  | [] => []
  | s :: sh' =>
      if Nat.eqb s 1 then 0%nat :: unsqueeze sh' idx
      else match idx with
           | i :: idx' => i :: unsqueeze sh' idx'
           | [] => 0%nat :: unsqueeze sh' []
           end
  end.

(* exchange two coordinates *)
Definition swap_at (i j : nat) (l : list nat) : list nat :=
  upd (upd l i (nth j l 0%nat)) j (nth i l 0%nat).

(* the old index tuple of element idx of a slice along one axis *)
Definition slice_idx (axis : nat) (start step : Z) (idx : list nat) : list nat :=
  upd idx axis (Z.to_nat (start + Z.of_nat (nth axis idx 0%nat) * step)).
(* ... of a view reversed along one axis of length len *)
Definition flip_idx (axis len : nat) (idx : list nat) : list nat :=
  upd idx axis (len - 1 - nth axis idx 0)%nat.
(* squeeze drops every length-1 axis, except that an array all of whose axes
   have length 1 becomes one-dimensional of length 1 (the behaviour of the
   code; numpy gives a 0-d array there) *)
Definition squeeze_shape (sh : list nat) : list nat :=
  match filter (fun d => negb (Nat.eqb d 1)) sh with [] => [1%nat] | r => r end.

(* the view-producing operations of the API *)
Inductive vop :=
| VTranspose
| VPermute (axes : list nat)
| VSwap (i j : nat)
| VSlice (axis : nat) (start stop step : Z)
| VFlip (axis : nat)
| VReshape (sh : list nat)
| VBroadcast (sh : list nat)
| VExpand (axis : nat)
| VSqueezeAxis (axis : nat)
| VSqueeze
| VDiagonal.

(* what each operation means: old shape, new shape, new index -> old index *)
Inductive denotes : vop -> list nat -> list nat -> (list nat -> list nat) -> Prop :=
| D_transpose sh : denotes VTranspose sh (rev sh) (@rev nat)
| D_permute axes sh :
    NoDup axes -> (forall k, In k axes <-> (k < length sh)%nat) ->
    denotes (VPermute axes) sh (map (fun i => nth i sh 0%nat) axes) (unpermute axes)
| D_swap i j sh : i <> j -> (i < length sh)%nat -> (j < length sh)%nat ->
    denotes (VSwap i j) sh (swap_at i j sh) (swap_at i j)
| D_slice axis start stop step sh len n :
    nth_error sh axis = Some len -> py_slice len start stop step ->
    (forall j, (j < n)%nat <-> in_slice start stop step j) ->
    denotes (VSlice axis start stop step) sh (upd sh axis n) (slice_idx axis start step)
| D_flip axis sh len : nth_error sh axis = Some len ->
    denotes (VFlip axis) sh sh (flip_idx axis len)
| D_reshape sh nsh : prod sh = prod nsh ->
    denotes (VReshape nsh) sh nsh (fun idx => rm_unrank sh (rm_rank nsh idx))
| D_broadcast sh nsh : broadcastable sh nsh ->
    denotes (VBroadcast nsh) sh nsh (unbroadcast sh)
| D_expand axis sh : (axis <= length sh)%nat ->
    denotes (VExpand axis) sh (insert_at axis 1%nat sh) (remove_at axis)
| D_squeeze_axis axis sh : nth_error sh axis = Some 1%nat ->
    denotes (VSqueezeAxis axis) sh (remove_at axis sh) (insert_at axis 0%nat)
| D_squeeze sh : denotes VSqueeze sh (squeeze_shape sh) (unsqueeze sh)
| D_diagonal d0 d1 :
    denotes VDiagonal [d0; d1] [Nat.min d0 d1]
            (fun idx => match idx with [i] => [i; i] | _ => [] end).

(* what a history of operations means *)
Inductive history : list vop -> list nat -> list nat -> (list nat -> list nat) -> Prop :=
| H_nil sh : history [] sh sh (fun idx => idx)
| H_cons op ops sh sh1 sh2 f g :
    denotes op sh sh1 f -> history ops sh1 sh2 g ->
    history (op :: ops) sh sh2 (fun idx => f (g idx)).
