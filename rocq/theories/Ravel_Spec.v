(* Independent specification of flat positions in row-major and column-major
   order, over integers (shape entries and coordinates come from the user). *)
From Verif Require Import Base.
Local Open Scope Z_scope.

Fixpoint zsize (sh : list Z) : Z := match sh with [] => 1 | d :: sh' => d * zsize sh' end.

(* coordinates inside the shape *)
Definition inside (idx sh : list Z) : Prop := Forall2 (fun i d => 0 <= i < d) idx sh.

(* row-major: the last coordinate runs fastest *)
Fixpoint c_pos (sh idx : list Z) : Z :=
  match sh, idx with d :: sh', i :: idx' => i * zsize sh' + c_pos sh' idx' | _, _ => 0 end.
(* column-major: the first coordinate runs fastest *)
Fixpoint f_pos (sh idx : list Z) : Z :=
  match sh, idx with d :: sh', i :: idx' => i + d * f_pos sh' idx' | _, _ => 0 end.
Definition pos (fortran : bool) := if fortran then f_pos else c_pos.

(* the i-th tuple of a list of coordinate columns *)
Definition tuple (cols : list (list Z)) (i : nat) : list Z := map (fun c => nth i c 0) cols.

(* coordinates brought into range *)
Definition clip_to (i d : Z) : Z := Z.max 0 (Z.min i (d - 1)).
