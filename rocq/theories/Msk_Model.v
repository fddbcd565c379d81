(* src/python/misc.rs: resize, unstack, block, trim_zeros, extract, place, putmask,
   select, piecewise, ediff1d, unwrap.

   The code reads every mask and condition as bytes, whatever its dtype: a condition
   is a byte memory (list Z) and an array part.  [typed]: the dtype is one of the
   eleven numeric and bool kinds of the match; the other kinds (complex, float16,
   datetime, string) take the last arm, which passes each element through an f64
   ([via]; for complex elements read_f64 is None and the result is 0). *)
From Verif Require Import Base Arr_Spec Arr_Model Copy_Model Idx_Model Int_Model F64_Model Elem_Model Red_Model Gu_Model Man_Model Msk_Spec.
Local Open Scope nat_scope.

Section Msk.
Context {V : Type}.
Variable zero : V.          (* the zero byte pattern of RumpyArray::zeros *)

(* misc.rs:52-124 resize (after parsing new_shape) *)
Definition resize (buf : list V) (a : arr) (sh : list nat) : res (list V) :=
  let n := size a in let m := prod sh in
  if (m =? 0) || (n =? 0) then Ok (repeat zero m)
  else if a_c a then
    bind (mapM (fun k => read buf a (Z.of_nat k * a_item a)) (seq 0 n)) (fun tile =>
    bind (mapM (fun k => read buf a (Z.of_nat k * a_item a)) (seq 0 (m mod n))) (fun rest =>
    Ok (concat (repeat tile (m / n)) ++ rest)))
  else mapM (fun i => bind (at_ (iter_offsets a) (i mod n)) (read buf a)) (seq 0 m).

(* misc.rs:133-156 unstack *)
Definition unstack (a : arr) (ax : Z) : res (list arr) :=
  if ndim a =? 0 then Err else
  match norm_axis (ndim a) ax with
  | None => Err
  | Some axis =>
      bind (at_ (a_shape a) axis) (fun n =>
      mapM (fun i => bind (slice_axis a axis (Z.of_nat i) (Z.of_nat i + 1) 1) (fun s => Ok (squeeze_axis s axis))) (seq 0 n))
  end.

(* misc.rs:164-213 block and process_block: nested lists with arrays at the leaves
   (other leaves go through to_rumpy_array first) *)
Inductive blk := BArr (x : @nd V) | BList (l : list blk).
Definition join_blocks (depth : nat) (bs : list (@nd V)) : res (@nd V) :=
  match bs with
  | [] => Err
  | [x] => Ok x
  | x :: _ =>
      let max_ndim := list_max (map (fun b => ndim (snd b)) bs) in
      bind (if depth <? max_ndim then Ok depth else if max_ndim =? 0 then Panic else Ok (max_ndim - 1)) (fun axis =>
      bind (concatenate zero (map operand_of bs) axis) (fun r =>
      Ok (snd r, fresh (fst r) (a_item (snd x)))))
  end.
Fixpoint process_block (b : blk) (depth : nat) : res (@nd V) :=
  match b with
  | BArr x => Ok x
  | BList l =>
      bind ((fix go (l : list blk) : res (list (@nd V)) :=
               match l with
               | [] => Ok []
               | b :: l' => bind (process_block b (S depth)) (fun y => bind (go l') (fun ys => Ok (y :: ys)))
               end) l) (join_blocks depth)
  end.
Definition block (b : blk) : res (@nd V) := process_block b 0.

(* misc.rs:222-341 trim_zeros.  [nonzero]: the test val != 0 of the dtype.
   front, back: whether the trim string contains f or F, b or B; [word]: the dtype is
   float64 or int64 (see copy_buf). *)
Fixpoint find_nonzero (nonzero : nat -> res bool) (is : list nat) : res (option nat) :=
  match is with
  | [] => Ok None
  | i :: is' => bind (nonzero i) (fun b => if b then Ok (Some i) else find_nonzero nonzero is')
  end.
Definition trim_zeros (nonzero : V -> bool) (typed word front back : bool) (buf : list V) (a : arr) : res (@nd V) :=
  if negb (ndim a =? 1) then Err else
  let n := size a in
  if n =? 0 then Ok (buf, a) else
  let test i := bind (if a_c a && typed then Ok (Z.of_nat i * a_item a)%Z else at_ (iter_offsets a) i) (fun o =>
                bind (read buf a o) (fun v => Ok (nonzero v))) in
  bind (if front then bind (find_nonzero test (seq 0 n)) (fun r => Ok (match r with Some i => i | None => n end)) else Ok 0) (fun first =>
  bind (if back then bind (find_nonzero test (rev (seq 0 n))) (fun r => Ok (match r with Some i => i + 1 | None => first end)) else Ok n) (fun last =>
  if last <=? first then Ok ([], fresh [0] (a_item a)) else
  bind (slice_axis a 0 (Z.of_nat first) (Z.of_nat last) 1) (fun s =>
  bind (copy_buf buf s word) (fun b => Ok (b, fresh (a_shape s) (a_item s)))))).

(* ---- masks ---- *)
(* one byte of a condition, at a byte offset from its data pointer *)
Definition mask_byte (cb : list Z) (m : arr) (o : Z) : res Z := of_load (load cb 1 (a_off m + o)).

(* misc.rs:349-491 extract.  The fast path takes byte i of the condition, the
   strided path the byte at each element's offset. *)
Definition extract (typed : bool) (via : V -> V) (cb : list Z) (c : arr) (buf : list V) (a : arr) : res (list V) :=
  if negb (size c =? size a) then Err else
  let fast := a_c c && a_c a in
  let co := if fast then map Z.of_nat (seq 0 (size a)) else iter_offsets c in
  let ao := if fast then map (fun i => Z.of_nat i * a_item a)%Z (seq 0 (size a)) else iter_offsets a in
  bind (mapM (mask_byte cb c) co) (fun bytes =>
  mapM (fun p => bind (read buf a (snd p)) (fun v => Ok (if typed then v else via v)))
       (filter (fun p => negb (fst p =? 0)%Z) (combine bytes ao))).

(* The values operand of place and putmask: its array part, whether its dtype is the
   destination's, and what is read at an absolute byte address of its buffer with the
   DESTINATION's item type, given the current contents of the destination's buffer. *)
Record source := mkSrc { s_arr : arr; s_same : bool; s_load : list V -> Z -> option V }.
Definition own (vb : list V) (v : arr) : source := mkSrc v true (fun _ => load vb (a_item v)).
Definition sharing (v : arr) : source := mkSrc v true (fun b => load b (a_item v)).

(* the assignment loop shared by misc.rs:527-538, 566-577, 591-604 (place: counted)
   and 644-653, 681-689, 703-715 (putmask: by position) *)
Definition mask_step (counted : bool) (conv : V -> V) (cb : list Z) (m a : arr) (s : source) (n : nat) (mo ao vo : list Z)
    (st : list V * nat) (i : nat) : res (list V * nat) :=
  let '(b, k) := st in
  bind (at_ mo i) (fun o => bind (mask_byte cb m o) (fun c =>
  if (c =? 0)%Z then Ok (b, k) else
  bind (at_ vo ((if counted then k else i) mod n)) (fun w =>
  bind (of_load (s_load s b (a_off (s_arr s) + w))) (fun v =>
  bind (at_ ao i) (fun d =>
  bind (store b (a_item a) (a_off a + d) (conv v)) (fun b' => Ok (b', S k))))))).

(* misc.rs:500-608 place and 617-719 putmask.  On the fast path a dtype outside the
   match does nothing at all ("_ => {}" followed by return). *)
Definition masked_assign (counted typed : bool) (via : V -> V) (buf : list V) (a : arr) (cb : list Z) (m : arr) (s : source) : res (list V) :=
  if negb (size m =? size a) then Err
  else if size (s_arr s) =? 0 then Ok buf else
  let n := size (s_arr s) in
  let run conv mo ao vo :=
    bind (foldM (mask_step counted conv cb m a s n mo ao vo) (seq 0 (size a)) (buf, 0)) (fun st => Ok (fst st)) in
  if a_c m && a_c a && a_c (s_arr s) && s_same s then
    if typed then
      run (fun v => v) (map Z.of_nat (seq 0 (size a))) (map (fun i => Z.of_nat i * a_item a)%Z (seq 0 (size a)))
          (map (fun i => Z.of_nat i * a_item a)%Z (seq 0 n))
    else Ok buf
  else run (fun v => if typed then v else via v) (iter_offsets m) (iter_offsets a) (iter_offsets (s_arr s)).
Definition place := masked_assign true.
Definition putmask := masked_assign false.

(* misc.rs:728-817 select.  The choices are operands as for concatenate: read with
   the first choice's item type.  [dflt]: the default as an item of that dtype. *)
Fixpoint select_at (typed : bool) (via : V -> V) (dflt : V) (i : nat) (l : list ((list Z * arr) * @operand V)) : res V :=
  match l with
  | [] => Ok dflt
  | ((cb, c), o) :: l' =>
      bind (at_ (iter_offsets c) i) (fun co => bind (mask_byte cb c co) (fun b =>
      if (b =? 0)%Z then select_at typed via dflt i l' else
      bind (at_ (iter_offsets (o_arr o)) i) (fun oo =>
      bind (of_load (o_read o (a_off (o_arr o) + oo))) (fun v => Ok (if typed then v else via v)))))
  end.
Definition select (typed : bool) (via : V -> V) (dflt : V) (conds : list (list Z * arr)) (choices : list (@operand V)) : res (list nat * list V) :=
  match conds with
  | [] => Err
  | c0 :: _ =>
      if negb (length conds =? length choices) then Err else
      bind (mapM (fun i => select_at typed via dflt i (combine conds choices)) (seq 0 (size (snd c0)))) (fun out =>
      Ok (a_shape (snd c0), out))
  end.

(* misc.rs:827-941 piecewise.  A function list entry is the effect of one call on one
   element (a constant ignores it), including the passage through f64.  State: the
   result and the assigned flags. *)
Definition piece_step (cb : list Z) (c : arr) (f : V -> V) (buf : list V) (a : arr) (st : list V * list bool) (i : nat)
    : res (list V * list bool) :=
  let '(out, assigned) := st in
  bind (at_ assigned i) (fun done => if done then Ok st else
  bind (at_ (iter_offsets c) i) (fun co => bind (mask_byte cb c co) (fun b =>
  if (b =? 0)%Z then Ok st else
  bind (at_ (iter_offsets a) i) (fun o => bind (read buf a o) (fun v =>
  Ok (upd out i (f v), upd assigned i true)))))).
Definition default_step (f : V -> V) (buf : list V) (a : arr) (assigned : list bool) (out : list V) (i : nat) : res (list V) :=
  bind (at_ assigned i) (fun done => if done then Ok out else
  bind (at_ (iter_offsets a) i) (fun o => bind (read buf a o) (fun v => Ok (upd out i (f v))))).
Definition piecewise (buf : list V) (a : arr) (conds : list (list Z * arr)) (funs : list (V -> V)) : res (list nat * list V) :=
  match conds with
  | [] => Err
  | _ =>
      let has_default := length funs =? length conds + 1 in
      if negb has_default && negb (length funs =? length conds) then Err else
      bind (foldM (fun st p => foldM (piece_step (fst (fst p)) (snd (fst p)) (snd p) buf a) (seq 0 (size a)) st)
                  (combine conds funs) (repeat zero (size a), repeat false (size a))) (fun st =>
      bind (if has_default then bind (at_ funs (length conds)) (fun f => foldM (default_step f buf a (snd st)) (seq 0 (size a)) (fst st))
            else Ok (fst st)) (fun out =>
      Ok (a_shape a, out)))
  end.

(* misc.rs:950-1087 ediff1d, the arms of the match (bool is not among them).
   to_begin / to_end: absent, an array read with the item type of [a], or a scalar *)
Inductive edge := NoEdge | EdgeArr (o : @operand V) | EdgeVal (v : V).
Definition edge_vals (e : edge) : res (list V) :=
  match e with
  | NoEdge => Ok []
  | EdgeArr o => mapM (fun w => of_load (o_read o (a_off (o_arr o) + w))) (iter_offsets (o_arr o))
  | EdgeVal v => Ok [v]
  end.
Definition ediff1d (sub : V -> V -> V) (buf : list V) (a : arr) (begin_ end_ : edge) : res (list V) :=
  bind (edge_vals begin_) (fun bs =>
  bind (if 1 <? size a then
          mapM (fun i =>
            bind (if a_c a then Ok (Z.of_nat i * a_item a)%Z else at_ (iter_offsets a) i) (fun o =>
            bind (if a_c a then Ok (Z.of_nat (i - 1) * a_item a)%Z else at_ (iter_offsets a) (i - 1)) (fun o' =>
            bind (read buf a o) (fun cur => bind (read buf a o') (fun prev => Ok (sub cur prev))))))
            (seq 1 (size a - 1))
        else Ok []) (fun ds =>
  bind (edge_vals end_) (fun es => Ok (bs ++ ds ++ es)))).
End Msk.

(* misc.rs:1096-1163 unwrap over exact numbers: the f64 operations are modelled by
   integer operations (any values that are multiples of a common unit), period = 2 half.
   The lane is read before it is written: each element is read once, before its own
   position is overwritten.  Position 0 of a lane is rewritten with its own value. *)
Fixpoint unwrap_from (half discont prev corr : Z) (l : list Z) : list Z :=
  match l with
  | [] => []
  | x :: l' =>
      let diff := (x - prev)%Z in
      let corr' := (if discont <? Z.abs diff then corr - (diff + half) / (2 * half) * (2 * half) else corr)%Z in
      (x + corr')%Z :: unwrap_from half discont x corr' l'
  end.
Definition unwrap_lane (half discont : Z) (l : list Z) : list Z :=
  match l with [] => [] | x :: l' => x :: unwrap_from half discont x 0 l' end.
Definition unwrap_one (half discont : Z) (n : nat) (stride : Z) (out : list Z) (base : Z) : res (list Z) :=
  bind (mapM (fun k => of_load (load out 8 (base + Z.of_nat k * stride))) (seq 0 n)) (fun vals =>
  write_all (combine (map (fun k => Z.to_nat ((base + Z.of_nat k * stride) / 8)) (seq 0 n)) (unwrap_lane half discont vals)) out).
Definition unwrap (half discont : Z) (buf : list Z) (a : arr) (ax : Z) : res (list Z) :=
  if ndim a =? 0 then mapM (read buf a) (iter_offsets a) else
  match norm_axis (ndim a) ax with
  | None => Err
  | Some axis =>
      bind (at_ (a_shape a) axis) (fun n =>
      bind (mapM (read buf a) (iter_offsets a)) (fun out0 =>
      if n <=? 1 then Ok out0 else
      let r := fresh (a_shape a) 8 in
      bind (at_ (a_strides r) axis) (fun stride =>
      foldM (unwrap_one half discont n stride) (axis_offsets r axis) out0)))
  end.
