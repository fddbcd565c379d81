(* src/python/shape.rs: moveaxis, rollaxis, matrix_transpose, atleast_1d/2d/3d,
   vstack, hstack, column_stack, dstack, hsplit, vsplit, dsplit, flip, flipud,
   fliplr, broadcast_arrays, broadcast_shapes.  Conversions of the Python
   arguments (to_rumpy_array, lists of integers) are not modelled. *)
From Verif Require Import Base Arr_Spec Arr_Model Bcast_Model Copy_Model Man_Model.
Local Open Scope nat_scope.

(* "if x < 0 { (ndim as isize + x) as usize } else { x as usize }":
   shape.rs:138-143, reductions.rs:22-28 resolve_axis.  A usize is a Z in
   [0, 2^64). *)
Definition to_axis (n : nat) (x : Z) : Z :=
  wrap_usize (if (x <? 0)%Z then Z.of_nat n + x else x)%Z.

(* transpose_axes of a list of usize values: an entry that is not an axis panics *)
Definition transpose_usize (a : arr) (order : list Z) : res arr :=
  if negb (length order =? ndim a) then Panic
  else bind (mapM (fun z => if (z <? Z.of_nat (ndim a))%Z then Ok (Z.to_nat z) else Panic) order)
            (fun axes => transpose_axes a axes).

(* Vec::insert at a usize position: panics beyond the end *)
Definition vec_insert (pos v : Z) (l : list Z) : res (list Z) :=
  if (Z.of_nat (length l) <? pos)%Z then Panic else Ok (insert_at (Z.to_nat pos) v l).

(* shape.rs:119-161 moveaxis *)
Definition move_insert (order : list Z) (p : Z * Z) : list Z :=
  insert_at (Z.to_nat (Z.min (snd p) (Z.of_nat (length order)))) (fst p) order.
Definition moveaxis (a : arr) (source destination : list Z) : res arr :=
  let n := ndim a in
  let src := map (to_axis n) source in
  let dst := map (to_axis n) destination in
  if negb (length src =? length dst) then Err
  else
    let order := filter (fun x => negb (existsb (Z.eqb x) src)) (map Z.of_nat (seq 0 n)) in
    transpose_usize a (fold_left move_insert (combine src dst) order).

(* shape.rs:164-186 rollaxis.  start - 1 is computed only for axis < start. *)
Definition rollaxis (a : arr) (axis start : Z) : res arr :=
  let n := ndim a in
  let ax := to_axis n axis in
  let st := if (start <? 0)%Z then to_axis n start else Z.min start (Z.of_nat n) in
  if (Z.of_nat n <=? ax)%Z then Err
  else
    let order := remove_at (Z.to_nat ax) (map Z.of_nat (seq 0 n)) in
    let pos := if (ax <? st)%Z then (st - 1)%Z else st in
    bind (vec_insert pos ax order) (fun o => transpose_usize a o).

(* shape.rs:894-908 matrix_transpose *)
Definition matrix_transpose (a : arr) : res arr :=
  let n := ndim a in
  if n <? 2 then Err
  else transpose_axes a (swap_axes_list n (n - 2) (n - 1)).

(* "a.reshape(..).unwrap_or_else(|| a.clone())" *)
Definition reshape_or_same (a : arr) (sh : list nat) : arr :=
  match reshape a sh with Ok r => r | _ => a end.

(* shape.rs:193-200 atleast_1d *)
Definition atleast_1d (a : arr) : arr :=
  match a_shape a with [] => reshape_or_same a [1] | _ => a end.
(* shape.rs:203-210 atleast_2d *)
Definition atleast_2d (a : arr) : arr :=
  match a_shape a with
  | [] => reshape_or_same a [1; 1]
  | [_] => reshape_or_same a [1; size a]
  | _ => a
  end.
(* shape.rs:213-226 atleast_3d *)
Definition atleast_3d (a : arr) : arr :=
  match a_shape a with
  | [] => reshape_or_same a [1; 1; 1]
  | [_] => reshape_or_same a [1; size a; 1]
  | [m; n] => reshape_or_same a [m; n; 1]
  | _ => a
  end.

(* Option::unwrap *)
Definition unwrap {A} (r : res A) : res A := match r with Err => Panic | r => r end.

(* shape.rs:308-337 flip *)
Definition flip_all (a : arr) : res arr :=
  fold_left (fun r ax => bind r (fun x => unwrap (flip x ax))) (seq 0 (ndim a)) (Ok a).
Definition py_flip (a : arr) (axis : option Z) : res arr :=
  match axis with
  | None => flip_all a
  | Some ax => match norm_axis (ndim a) ax with Some k => flip a k | None => Err end
  end.
(* shape.rs:340-348 flipud, 351-359 fliplr *)
Definition flipud (a : arr) : res arr := if ndim a <? 1 then Err else unwrap (flip a 0).
Definition fliplr (a : arr) : res arr := if ndim a <? 2 then Err else unwrap (flip a 1).

(* shape.rs:270-303 broadcast_arrays *)
Definition broadcast_arrays (l : list arr) : res (list arr) :=
  match l with
  | [] => Ok []
  | _ => match broadcast_multi_shapes (map a_shape l) with
         | None => Err
         | Some sh => mapM (fun a => broadcast_to a sh) l
         end
  end.

(* shape.rs:839-876 broadcast_shapes: the running result is replaced, not
   combined, while it is empty *)
Definition py_broadcast_shapes (shs : list (list nat)) : option (list nat) :=
  fold_left (fun acc sh => match acc with
                           | None => None
                           | Some [] => Some sh
                           | Some r => broadcast_shapes r sh
                           end) shs (Some []).

Section Stack.
Context {V : Type}.
Variable zero : V.

(* shape.rs:399-421 vstack *)
Definition as_row (x : @nd V) : nd :=
  match a_shape (snd x) with [_] => (fst x, reshape_or_same (snd x) [1; size (snd x)]) | _ => x end.
Definition vstack (l : list nd) : res (list nat * list V) :=
  match l with [] => Err | _ => concat_nd zero (map as_row l) 0 end.

(* shape.rs:424-443 hstack *)
Definition hstack (l : list nd) : res (list nat * list V) :=
  match l with
  | [] => Err
  | x :: _ => concat_nd zero l (if ndim (snd x) =? 1 then 0 else 1)
  end.

(* shape.rs:446-469 column_stack *)
Definition as_column (x : @nd V) : nd :=
  match a_shape (snd x) with [_] => (fst x, reshape_or_same (snd x) [size (snd x); 1]) | _ => x end.
Definition column_stack (l : list nd) : res (list nat * list V) :=
  match l with [] => Err | _ => concat_nd zero (map as_column l) 1 end.

(* shape.rs:487-518 dstack *)
Definition as_sheet (x : @nd V) : nd :=
  match a_shape (snd x) with
  | [_] => (fst x, reshape_or_same (snd x) [1; size (snd x); 1])
  | [m; n] => (fst x, reshape_or_same (snd x) [m; n; 1])
  | _ => x
  end.
Definition dstack (l : list nd) : res (list nat * list V) :=
  match l with [] => Err | _ => concat_nd zero (map as_sheet l) 2 end.
End Stack.

(* shape.rs:547-555 hsplit, 558-570 vsplit, 573-585 dsplit *)
Definition hsplit (a : arr) (k : nat) : res (list arr) := Man_Model.split a k (if ndim a =? 1 then 0 else 1).
Definition vsplit (a : arr) (k : nat) : res (list arr) := if ndim a <? 2 then Err else Man_Model.split a k 0.
Definition dsplit (a : arr) (k : nat) : res (list arr) := if ndim a <? 3 then Err else Man_Model.split a k 2.
