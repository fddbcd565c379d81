(* Broadcasting of shapes: src/array/manipulation.rs:166-186. *)
From Verif Require Import Base.

(* one aligned pair of lengths: manipulation.rs:175-183 *)
Definition bdim (x y : nat) : option nat :=
  if Nat.eqb x y then Some x
  else if Nat.eqb x 1 then Some y
  else if Nat.eqb y 1 then Some x
  else None.

(* "for i in 0..max_ndim { ... return None }" collecting one value per round *)
Fixpoint collect (f : nat -> option nat) (is : list nat) : option (list nat) :=
  match is with
  | [] => Some []
  | i :: is' => match f i with
                | None => None
                | Some d => option_map (cons d) (collect f is')
                end
  end.

(* manipulation.rs:166-186 broadcast_shapes: round i handles the i-th length
   from the right (1 when absent) and stores it at position max_ndim-1-i *)
Definition broadcast_shapes (a b : list nat) : option (list nat) :=
  option_map (@rev nat)
    (collect (fun i => bdim (nth i (rev a) 1) (nth i (rev b) 1))
             (seq 0 (Nat.max (length a) (length b)))).

(* ops/gufunc/dims.rs:117-126 broadcast_multi_shapes (also the loop of
   python/shape.rs:841 broadcast_shapes) *)
Fixpoint broadcast_fold (acc : list nat) (shs : list (list nat)) : option (list nat) :=
  match shs with
  | [] => Some acc
  | s :: shs' => match broadcast_shapes acc s with
                 | Some r => broadcast_fold r shs'
                 | None => None
                 end
  end.
Definition broadcast_multi_shapes (shs : list (list nat)) : option (list nat) :=
  match shs with
  | [] => Some []
  | s :: shs' => broadcast_fold s shs'
  end.
