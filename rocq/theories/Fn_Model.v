(* src/python/functional.rs: apply_along_axis, apply_over_axes, vectorize, frompyfunc.
   The Python function is a parameter that may carry state (S), so that the number
   and the order of its calls can be observed; None stands for a raised exception.
   The sum of the lengths and products stay below 2^64 (not modelled here: the arrays
   exist in memory). *)
From Verif Require Import Base Lists Arr_Model Copy_Model Idx_Model Red_Model Elem_Model Man_Model Gu_Model.
Local Open Scope nat_scope.

(* functional.rs:680-707 broadcast_shapes: one shape against the tail of the result *)
Fixpoint fn_merge (r s : list nat) : res (list nat) :=
  match r, s with
  | x :: r', y :: s' =>
      if x =? 1 then bind (fn_merge r' s') (fun t => Ok (y :: t))
      else if negb (y =? 1) && negb (y =? x) then Err
      else bind (fn_merge r' s') (fun t => Ok (x :: t))
  | _, _ => Ok []
  end.
Definition fn_merge_at (r s : list nat) : res (list nat) :=
  let off := length r - length s in
  bind (fn_merge (skipn off r) s) (fun t => Ok (firstn off r ++ t)).
Definition fn_broadcast (shs : list (list nat)) : res (list nat) :=
  foldM fn_merge_at shs (repeat 1 (list_max (map (@length nat) shs))).

(* functional.rs:11-19 flat_to_indices: the same loop as get_flat_element; a length 0
   makes the remainder panic *)
Definition flat_to_indices (k : nat) (sh : list nat) : res (list nat) :=
  if existsb (Nat.eqb 0) sh then Panic else Ok (fst (flat_indices sh k)).

(* array/mod.rs:196-223 get_slice_along_axis: other_indices[idx_pos] panics when there
   are too few; the loop over the axis reads through raw pointers *)
Definition slice_along {V} (buf : list V) (a : arr) (axis : nat) (other : list nat) : res (list V) :=
  bind (at_ (a_shape a) axis) (fun n =>
  bind (at_ (a_strides a) axis) (fun st =>
  let rest := remove_at axis (a_strides a) in
  if length other <? length rest then Panic
  else read_run buf a (dot other rest) st n)).

Section Along.
Context {V F S : Type}.
Variable rd : V -> F.                 (* DTypeOps::read_f64 *)
Variable wr : F -> V.                 (* from_vec with the input's dtype *)
Variable zero : V.

(* What the function returned: a Python number, or an array given by its shape and its
   elements as to_vec yields them.  Lists and NumPy arrays go through asarray and are
   not distinguished from arrays. *)
Inductive pyres := PNum (x : F) | PArr (sh : list nat) (xs : list F).
(* extract::<f64>(): numbers, and through __float__ (pyarray/dunder_ops.rs:117) every
   array with exactly one element *)
Definition as_number (r : pyres) : option F :=
  match r with PNum x => Some x | PArr _ [x] => Some x | PArr _ _ => None end.

Definition pyfun := S -> list V -> S * option pyres.

(* functional.rs:66-92: one call per outer index *)
Definition along_step (f : pyfun) (buf : list V) (a : arr) (axis : nat)
           (acc : S * list pyres) (oi : list nat) : res (S * list pyres) :=
  bind (slice_along buf a axis oi) (fun lv =>
  match f (fst acc) (map (fun v => wr (rd v)) lv) with
  | (s, Some r) => Ok (s, snd acc ++ [r])
  | (_, None) => Err
  end).

(* functional.rs:94-157: assemble the results; the first decides the kind *)
Definition along_assemble (osh : list nat) (rs : list pyres) : res (list nat * list V) :=
  match rs with
  | [] => Panic
  | r0 :: _ =>
      match as_number r0, r0 with
      | Some _, _ =>
          bind (mapM (fun r => match as_number r with Some x => Ok (wr x) | None => Err end) rs) (fun out =>
          if length out =? prod osh then Ok (osh, out) else Err)
      | None, PArr rsh _ =>
          bind (mapM (fun r => match r with PArr _ xs => Ok xs | PNum _ => Err end) rs) (fun xss =>
          let data := map wr (concat xss) in
          if length data =? prod (osh ++ rsh) then Ok (osh ++ rsh, data) else Err)
      | None, PNum _ => Err
      end
  end.

(* functional.rs:26-158 apply_along_axis: final state of the function, and the
   resulting array as its shape and its elements in row-major order *)
Definition apply_along_axis (f : pyfun) (s : S) (ax : Z) (buf : list V) (a : arr)
  : res (S * (list nat * list V)) :=
  match norm_axis (ndim a) ax with
  | None => Err
  | Some axis =>
      let osh := remove_at axis (a_shape a) in
      if prod osh =? 0 then Ok (s, (osh, repeat zero (prod osh)))
      else
        bind (foldM (along_step f buf a axis) (odometer (prod osh) (repeat 0 (length osh)) osh) (s, []))
             (fun '(s', rs) => bind (along_assemble osh rs) (fun out => Ok (s', out)))
  end.
End Along.
Arguments PNum {F} _. Arguments PArr {F} _ _.

(* ---- apply_over_axes -------------------------------------------------------------- *)
Section Over.
Context {A : Type}.                   (* array contents; the function reads and makes them *)

(* functional.rs:206-213: insert lengths 1 until the rank is restored *)
Fixpoint pad_ones (k axis : nat) (sh : list nat) : list nat :=
  match k with
  | O => sh
  | S k' => pad_ones k' axis (if axis <? length sh then insert_at axis 1 sh else sh ++ [1])
  end.

(* functional.rs:167-242; an array is its shape with its contents.  reshape to the
   padded shape keeps the number of elements, so it does not fail. *)
Definition apply_over_axes (f : list nat * A -> nat -> res (list nat * A)) (axes : list Z)
           (x : list nat * A) : res (list nat * A) :=
  let nd := length (fst x) in
  foldM (fun cur ax =>
    match norm_axis nd ax with
    | None => Err
    | Some axis =>
        bind (f cur axis) (fun r =>
        if length (fst r) =? nd then Ok r
        else Ok (pad_ones (nd - length (fst r)) axis (fst r), snd r))
    end) axes x.
End Over.

(* ---- vectorize and frompyfunc ----------------------------------------------------- *)
Section Vec.
Context {F P W S : Type}.             (* numbers, other Python objects, output elements, state *)
Variable wr : F -> W.                 (* from_vec into the output dtype *)

(* an argument: an array (elements as get_element converts them) or another object *)
Definition varg : Type := ((list F * arr) + P)%type.
(* a value handed to the Python function *)
Inductive pyval := VNum (x : F) | VObj (o : P).
(* functional.rs:320-337 *)
Definition arrays_of (args : list varg) : list (list F * arr) :=
  flat_map (fun g => match g with inl x => [x] | inr _ => [] end) args.
Definition scalars_of (args : list varg) : list (nat * P) :=
  flat_map (fun '(i, g) => match g with inl _ => [] | inr o => [(i, o)] end)
           (combine (seq 0 (length args)) args).

(* functional.rs:369-380: positions j in order, taking the next scalar when its
   position is j and the next array otherwise *)
Fixpoint call_args (js : list nat) (arrs : list (list F * arr)) (scals : list (nat * P)) (idx : list nat)
  : res (list pyval) :=
  match js with
  | [] => Ok []
  | j :: js' =>
      let from_array :=
        match arrs with
        | (b, a) :: arrs' =>
            bind (get_element b a idx) (fun x =>
            bind (call_args js' arrs' scals idx) (fun r => Ok (VNum x :: r)))
        | [] => call_args js' arrs scals idx
        end in
      match scals with
      | (i, o) :: scals' =>
          if i =? j then bind (call_args js' arrs scals' idx) (fun r => Ok (VObj o :: r)) else from_array
      | [] => from_array
      end
  end.

Inductive vout := VScalar (x : F) | VArray (sh : list nat) (data : list W).

Definition broadcast_all (shape : list nat) (arrs : list (list F * arr)) : res (list (list F * arr)) :=
  mapM (fun '(b, a) => bind (broadcast_to a shape) (fun a' => Ok (b, a'))) arrs.

(* functional.rs:308-404 vectorize.__call__ without a signature; the results must be
   numbers.  [has_otype] is false for an empty otypes list, where otypes[0] panics. *)
Definition vectorize_call (has_otype : bool) (f : S -> list pyval -> S * option F) (s : S) (args : list varg)
  : res (S * vout) :=
  match arrays_of args with
  | [] =>
      match f s (map VObj (map snd (scalars_of args))) with
      | (s', Some x) => Ok (s', VScalar x)
      | (_, None) => Err
      end
  | arrs =>
      bind (fn_broadcast (map (fun x => a_shape (snd x)) arrs)) (fun shape =>
      bind (broadcast_all shape arrs) (fun bs =>
      bind (foldM (fun acc i =>
              bind (flat_to_indices i shape) (fun idx =>
              bind (call_args (seq 0 (length args)) bs (scalars_of args) idx) (fun vals =>
              match f (fst acc) vals with
              | (s', Some x) => Ok (s', snd acc ++ [x])
              | (_, None) => Err
              end))) (seq 0 (prod shape)) (s, [])) (fun '(s', xs) =>
      if has_otype then
        if length xs =? prod shape then Ok (s', VArray shape (map wr xs)) else Err
      else Panic)))
  end.

(* functional.rs:406-515 call_with_signature for an output "()": the loop shape is the
   first array's shape without its last axis, and nothing is broadcast.  [out_size] is
   at least 1.  Slices keep their array's dtype, so their values come back unchanged. *)
Definition vectorize_sig (f : S -> list (list F) -> S * option F) (s : S) (arrs : list (list F * arr))
  : res (S * vout) :=
  match arrs with
  | [] => match f s [] with (s', Some x) => Ok (s', VScalar x) | (_, None) => Err end
  | (_, a0) :: _ =>
      let osh := if 1 <? ndim a0 then firstn (ndim a0 - 1) (a_shape a0) else [] in
      bind (foldM (fun acc i =>
              bind (match osh with [] => Ok [] | _ => flat_to_indices i osh end) (fun other =>
              bind (mapM (fun '(b, a) =>
                     match other with
                     | [] => mapM (read b a) (iter_offsets a)
                     | _ => slice_along b a (ndim a - 1) other
                     end) arrs) (fun lanes =>
              match f (fst acc) lanes with
              | (s', Some x) => Ok (s', snd acc ++ [x])
              | (_, None) => Err
              end))) (seq 0 (Nat.max (prod osh) 1)) (s, [])) (fun '(s', xs) =>
      match osh with
      | [] => match xs with x :: _ => Ok (s', VScalar x) | [] => Panic end
      | _ => if length xs =? prod osh then Ok (s', VArray osh (map wr xs)) else Err
      end)
  end.

(* functional.rs:582-600: element of an array, or the original argument *)
Definition frompy_args (bs : list varg) (idx : list nat) : res (list pyval) :=
  mapM (fun g => match g with
                 | inl (b, a) => bind (get_element b a idx) (fun x => Ok (VNum x))
                 | inr o => Ok (VObj o)
                 end) bs.
(* functional.rs:601-612: push the items of one result onto their columns.  With
   nout = 1 the whole result is one item: it is modelled as a list of one. *)
Fixpoint push_items (cols : list (list F)) (items : list F) : list (list F) :=
  match cols, items with
  | c :: cols', x :: items' => (c ++ [x]) :: push_items cols' items'
  | _, _ => cols
  end.
(* functional.rs:614-643: numpy.array(list), reshaped only when the rank exceeds 1 *)
Definition frompy_out (shape : list nat) (col : list F) : res (list nat * list F) :=
  if 1 <? length shape then
    if length col =? prod shape then Ok (shape, col) else Err
  else Ok ([length col], col).

(* functional.rs:529-645 frompyfunc.__call__: an inl result is the
   direct call on scalars.  (A failing broadcast_to would pass the array itself; it
   cannot fail, because every array fits the joint shape.) *)
Definition frompyfunc_call (nin nout : nat) (f : S -> list pyval -> S * option (list F)) (s : S)
           (args : list varg) : res (S * (list F + list (list nat * list F))) :=
  if negb (length args =? nin) then Err
  else
    match arrays_of args with
    | [] => match f s (map VObj (map snd (scalars_of args))) with
            | (s', Some xs) => Ok (s', inl xs)
            | (_, None) => Err
            end
    | arrs =>
        bind (fn_broadcast (map (fun x => a_shape (snd x)) arrs)) (fun shape =>
        bind (mapM (fun g : varg =>
                match g with
                | inl (b, a) => bind (broadcast_to a shape) (fun a' => Ok (inl (b, a') : varg))
                | inr o => Ok (inr o)
                end) args) (fun bs =>
        bind (foldM (fun acc i =>
                bind (flat_to_indices i shape) (fun idx =>
                bind (frompy_args bs idx) (fun vals =>
                match f (fst acc) vals with
                | (s', Some items) => Ok (s', push_items (snd acc) items)
                | (_, None) => Err
                end))) (seq 0 (prod shape)) (s, repeat [] nout)) (fun '(s', cols) =>
        bind (mapM (frompy_out shape) cols) (fun outs => Ok (s', inr outs)))))
    end.
End Vec.
Arguments VNum {F P} _. Arguments VObj {F P} _.
Arguments VScalar {F W} _. Arguments VArray {F W} _ _.
