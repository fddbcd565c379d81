(* Sorting, searching and set routines: src/ops/array_methods/sorting.rs,
   src/ops/indexing.rs (searchsorted, digitize), src/ops/set_ops.rs,
   src/python/pyarray/mod.rs (partition, argpartition).

   V is the type of stored items, K the type the code compares (f64 for most of
   these routines): rd models ops.read_f64, wr models ops.write_f64, leb x y the
   test x <= y on K.  Keys are assumed comparable (no NaN); what the standard
   library's sorts do with an inconsistent order is unspecified and not modelled. *)
From Verif Require Import Base Arr_Spec Arr_Model Copy_Model Idx_Model Elem_Model Red_Model Int_Model F64_Model.
Local Open Scope nat_scope.

(* ---- standard library -------------------------------------------------------- *)

(* <[T]>::sort_by: a stable sort.  For a total preorder its result is determined
   by that contract; it is computed here by insertion. *)
Fixpoint insert_sorted {K} (leb : K -> K -> bool) (x : K) (l : list K) : list K :=
  match l with
  | [] => [x]
  | y :: l' => if leb x y then x :: y :: l' else y :: insert_sorted leb x l'
  end.
Definition stable_sort {K} (leb : K -> K -> bool) (l : list K) : list K :=
  fold_right (insert_sorted leb) [] l.

(* Vec::dedup_by(|a, b| same a b): removes each element that is "same" as the last
   one kept *)
Fixpoint dedup_from {K} (same : K -> K -> bool) (kept : K) (l : list K) : list K :=
  match l with
  | [] => []
  | x :: l' => if same x kept then dedup_from same kept l' else x :: dedup_from same x l'
  end.
Definition dedup_by {K} (same : K -> K -> bool) (l : list K) : list K :=
  match l with [] => [] | x :: l' => x :: dedup_from same x l' end.

(* "while lo < hi { mid = lo + (hi - lo) / 2; if go_right(mid) { lo = mid + 1 }
   else { hi = mid } }" (indexing.rs:380-395; also slice::partition_point) *)
Fixpoint bsearch (go_right : nat -> res bool) (fuel lo hi : nat) : res nat :=
  if lo <? hi then
    match fuel with
    | 0 => Panic
    | S f =>
        let mid := lo + (hi - lo) / 2 in
        bind (go_right mid) (fun b =>
        if b then bsearch go_right f (mid + 1) hi else bsearch go_right f lo mid)
    end
  else Ok lo.
Definition partition_point {K} (p : K -> bool) (l : list K) : res nat :=
  bsearch (fun m => bind (at_ l m) (fun x => Ok (p x))) (length l) 0 (length l).

(* ---- sort / argsort ----------------------------------------------------------- *)

(* sorting.rs:166-171, 180-184, 231-236, 245-249: the index of position k of the
   lane out_indices *)
Definition lane_index (nd axis : nat) (oi : list nat) (k : nat) : list nat :=
  firstn (Nat.min axis (length oi)) oi ++ [k] ++ (if axis <? nd - 1 then skipn axis oi else []).

(* the loop over all lanes: out_indices from zeros, increment_indices *)
Definition outer_shape (axis : nat) (sh : list nat) : list nat :=
  match remove_at axis sh with [] => [1] | r => r end.
Definition outer_indices (axis : nat) (sh : list nat) : list (list nat) :=
  odometer (prod (outer_shape axis sh)) (repeat 0 (length (outer_shape axis sh))) (outer_shape axis sh).

Section SortAxis.
Context {V K : Type}.
Variables (rd : V -> K) (wr : K -> V) (leb : K -> K -> bool).
Variable buf : list V.

(* sorting.rs:164-174: the (value, position) pairs of a lane, sorted by value *)
Definition sorted_lane (a : arr) (axis n : nat) (oi : list nat) : res (list (K * nat)) :=
  bind (mapM (fun k => bind (get_element buf a (lane_index (ndim a) axis oi k)) (fun v => Ok (rd v, k))) (seq 0 n))
       (fun vals => Ok (stable_sort (fun p q => leb (fst p) (fst q)) vals)).

(* sorting.rs:176-187, 241-252: results written back, entry k at the linear index
   byte_offset_for(..) / itemsize of the new array of shape sh and item size item *)
Definition write_lanes {W} (val : K * nat -> W) (a : arr) (axis n : nat) (sh : list nat) (item : Z) (out0 : list W)
  : res (list W) :=
  bind (mapM (fun oi => bind (sorted_lane a axis n oi) (fun vals =>
          Ok (combine (map (fun k => Z.to_nat (byte_offset_for (fresh sh item) (lane_index (ndim a) axis oi k) / item)) (seq 0 n))
                      (map val vals))))
        (outer_indices axis sh))
       (fun ws => write_all (concat ws) out0).

(* sorting.rs:132-195 sort with an axis; [typed] as in copy_buf *)
Definition sort_axis (typed : bool) (a : arr) (axis : nat) : res (list nat * list V) :=
  if axis <? ndim a then
    bind (at_ (a_shape a) axis) (fun n =>
    bind (copy_buf buf a typed) (fun out0 =>
    if n <=? 1 then Ok (a_shape a, out0)
    else bind (write_lanes (fun p => wr (fst p)) a axis n (a_shape a) (a_item a) out0)
              (fun out => Ok (a_shape a, out))))
  else Panic.
(* sorting.rs:198-259 argsort with an axis: int64 positions *)
Definition argsort_axis (a : arr) (axis : nat) : res (list nat * list Z) :=
  if axis <? ndim a then
    bind (at_ (a_shape a) axis) (fun n =>
    if n <=? 1 then Ok (a_shape a, repeat 0%Z (size a))
    else bind (write_lanes (fun p => Z.of_nat (snd p)) a axis n (a_shape a) 8 (repeat 0%Z (size a)))
              (fun out => Ok (a_shape a, out)))
  else Panic.
(* sorting.rs:134-140, 200-206: axis None flattens with reshape(..).expect(..) *)
Definition flattened (a : arr) : res arr :=
  match reshape a [size a] with Ok f => Ok f | Err => Panic | Panic => Panic | Fault => Fault end.
Definition sort (typed : bool) (a : arr) (axis : option nat) : res (list nat * list V) :=
  match axis with
  | None => bind (flattened a) (fun f => sort_axis typed f 0)
  | Some ax => sort_axis typed a ax
  end.
Definition argsort (a : arr) (axis : option nat) : res (list nat * list Z) :=
  match axis with
  | None => bind (flattened a) (fun f => argsort_axis f 0)
  | Some ax => argsort_axis a ax
  end.

(* sorting.rs:9-31 to_vec: [f64]: the dtype is float64 *)
Definition to_vec (f64 : bool) (a : arr) : res (list K) :=
  if size a =? 0 then Ok []
  else if a_c a && f64 then bind (read_run buf a 0 (a_item a) (size a)) (fun d => Ok (map rd d))
  else bind (mapM (read buf a) (iter_offsets a)) (fun d => Ok (map rd d)).

(* ---- unique --------------------------------------------------------------------- *)
Variable close : K -> K -> bool.   (* |x - y| < f64::EPSILON *)

(* sorting.rs:34-39 unique *)
Definition unique (f64 : bool) (a : arr) : res (list V) :=
  bind (to_vec f64 a) (fun vals => Ok (map wr (dedup_by close (stable_sort leb vals)))).

(* sorting.rs:94-117: the loop of unique_all.  Output lists are built in order;
   inverse is an array updated in place. *)
Record uniq := mkUniq { u_vals : list K; u_first : list nat; u_counts : list nat; u_inv : list nat }.
Fixpoint unique_loop (l : list (K * nat)) (prev : K) (uidx first cnt : nat) (vals : list K) (firsts counts inv : list nat)
  : res uniq :=
  match l with
  | [] => Ok (mkUniq (vals ++ [prev]) (firsts ++ [first]) (counts ++ [cnt]) inv)
  | (v, orig) :: l' =>
      if orig <? length inv then
        if close v prev then
          unique_loop l' prev uidx (if orig <? first then orig else first) (cnt + 1) vals firsts counts (upd inv orig uidx)
        else
          unique_loop l' v (uidx + 1) orig 1 (vals ++ [prev]) (firsts ++ [first]) (counts ++ [cnt]) (upd inv orig (uidx + 1))
      else Panic
  end.
(* sorting.rs:67-129 unique_all: values, first indices, inverse, counts *)
Definition unique_all (f64 : bool) (a : arr) : res (list V * list nat * list nat * list nat) :=
  bind (to_vec f64 a) (fun vals =>
  match stable_sort (fun p q => leb (fst p) (fst q)) (combine vals (seq 0 (length vals))) with
  | [] => Ok ([], [], [], [])
  | (v, i) :: l =>
      if i <? length vals then
        bind (unique_loop l v 0 i 1 [] [] [] (upd (repeat 0 (length vals)) i 0)) (fun u =>
        Ok (map wr (u_vals u), u_first u, u_inv u, u_counts u))
      else Panic
  end).
End SortAxis.

(* ---- partition -------------------------------------------------------------------- *)
Section Partition.
Context {K : Type}.
Variable ltb : K -> K -> bool.

(* <[T]>::swap *)
Definition swap (l : list K) (i j : nat) : res (list K) :=
  bind (at_ l i) (fun x => bind (at_ l j) (fun y => Ok (upd (upd l i y) j x))).

(* pyarray/mod.rs:1388-1393: for i in left..right { if arr[i] < pivot { swap; store += 1 } } *)
Fixpoint part_loop (pivot : K) (is : list nat) (store : nat) (l : list K) : res (nat * list K) :=
  match is with
  | [] => Ok (store, l)
  | i :: is' =>
      bind (at_ l i) (fun x =>
      if ltb x pivot then bind (swap l i store) (fun l' => part_loop pivot is' (store + 1) l')
      else part_loop pivot is' store l)
  end.
(* pyarray/mod.rs:1369-1402 partition_select (and 1405-1436 with pairs) *)
Fixpoint select_loop (fuel : nat) (l : list K) (kth left right : nat) : res (list K) :=
  if left <? right then
    match fuel with
    | 0 => Panic
    | S f =>
        let pivot_idx := (left + right) / 2 in
        bind (at_ l pivot_idx) (fun pivot =>
        bind (swap l pivot_idx right) (fun l1 =>
        bind (part_loop pivot (seq left (right - left)) left l1) (fun p =>
        let '(store, l2) := p in
        bind (swap l2 store right) (fun l3 =>
        if store =? kth then Ok l3
        else if store <? kth then select_loop f l3 kth (store + 1) right
        else select_loop f l3 kth left (store - 1)))))
    end
  else Ok l.
Definition partition_select (l : list K) (kth : nat) : res (list K) :=
  if length l <=? 1 then Ok l else select_loop (length l) l kth 0 (length l - 1).
End Partition.

Section PyPartition.
Context {V K : Type}.
Variables (rd : V -> K) (wr : K -> V) (ltb : K -> K -> bool).

(* pyarray/mod.rs:898-905: values written back one by one with set_element *)
Fixpoint set_all (a : arr) (l : list (list nat * K)) (buf : list V) : res (list V) :=
  match l with
  | [] => Ok buf
  | (idx, v) :: l' =>
      bind (set_element buf a idx (wr v)) (set_all a l')
  end.
(* pyarray/mod.rs:871-906 ndarray.partition: the buffer afterwards.  The float64
   path (876-881) works on the buffer directly, with the same effect. *)
Definition py_partition (buf : list V) (a : arr) (kth : nat) : res (list V) :=
  if size a <=? kth then Err
  else bind (mapM (read buf a) (iter_offsets a)) (fun vs =>
       bind (partition_select ltb (map rd vs) kth) (fun r =>
       set_all a (combine (odometer (size a) (repeat 0 (ndim a)) (a_shape a)) r) buf)).
(* pyarray/mod.rs:908-929 ndarray.argpartition *)
Definition py_argpartition (buf : list V) (a : arr) (kth : nat) : res (list nat) :=
  if size a <=? kth then Err
  else bind (mapM (read buf a) (iter_offsets a)) (fun vs =>
       bind (partition_select (fun p q => ltb (fst p) (fst q)) (combine (map rd vs) (seq 0 (size a))) kth) (fun r =>
       Ok (map snd r))).
End PyPartition.

(* sorting.rs:264-454 numpy-level partition / argpartition.  <[T]>::select_nth_unstable_by
   is an argument [sel] (its contract is a hypothesis of the theorems); the typed
   branches (one per dtype) compare the stored values themselves. *)
Section Select.
Context {V : Type}.
Variable sel : (V -> V -> bool) -> list V -> nat -> list V.
Variable selI : (nat -> nat -> bool) -> list nat -> nat -> list nat.
Variable leb : V -> V -> bool.
Variable buf : list V.

(* comparison of two positions of a list of values (the closures of 425-429, 484-560) *)
Definition pos_leb (vals : list V) (i j : nat) : bool :=
  match nth_error vals i, nth_error vals j with Some x, Some y => leb x y | _, _ => false end.

(* sorting.rs:410-454 partition_lane_typed on the buffer of the copied array:
   gather the selected order into temp, then copy back *)
Definition partition_lane (item : Z) (out : list V) (base stride : Z) (n kth : nat) : res (list V) :=
  bind (mapM (fun k => of_load (load out item (base + Z.of_nat k * stride))) (seq 0 n)) (fun vals =>
  bind (mapM (fun i => at_ vals i) (selI (pos_leb vals) (seq 0 n) kth)) (fun temp =>
  write_all (combine (map (fun k => Z.to_nat ((base + Z.of_nat k * stride) / item)) (seq 0 n)) temp) out)).
Fixpoint partition_lanes (item : Z) (bases : list Z) (stride : Z) (n kth : nat) (out : list V) : res (list V) :=
  match bases with
  | [] => Ok out
  | b :: bases' => bind (partition_lane item out b stride n kth) (partition_lanes item bases' stride n kth)
  end.
(* sorting.rs:264-287 partition + 317-407 partition_inplace.  [listed]: the dtype
   has its own branch of the match *)
Definition partition_axis (typed listed : bool) (a : arr) (kth axis : nat) : res (list nat * list V) :=
  if axis <? ndim a then
    bind (at_ (a_shape a) axis) (fun n =>
    if kth <? n then
      bind (copy_buf buf a typed) (fun out0 =>
      if n <=? 1 then Ok (a_shape a, out0) else
      let r := fresh (a_shape a) (a_item a) in
      bind (if (ndim a =? 1) && a_c r then
              if listed then Ok (sel leb out0 kth) else partition_lane (a_item a) out0 0 (a_item a) n kth
            else bind (at_ (a_strides r) axis) (fun stride =>
                 partition_lanes (a_item a) (map (fun oi => dot oi (remove_at axis (a_strides r))) (outer_indices axis (a_shape a)))
                                 stride n kth out0))
           (fun out => Ok (a_shape a, out)))
    else Panic)
  else Panic.
(* sorting.rs:291-312 argpartition + 457-610 argpartition_impl *)
Definition argpartition_axis (a : arr) (kth axis : nat) : res (list nat * list Z) :=
  if axis <? ndim a then
    bind (at_ (a_shape a) axis) (fun n =>
    if kth <? n then
      if n <=? 1 then Ok (a_shape a, repeat 0%Z (size a)) else
      if size a =? 0 then Ok (a_shape a, []) else
      let r := fresh (a_shape a) 8 in
      if (ndim a =? 1) && a_c a then
        bind (read_run buf a 0 (a_item a) n) (fun vals =>
        Ok (a_shape a, map Z.of_nat (selI (pos_leb vals) (seq 0 n) kth)))
      else
        bind (at_ (a_strides a) axis) (fun stride =>
        bind (at_ (a_strides r) axis) (fun rstride =>
        bind (mapM (fun oi =>
                bind (read_run buf a (dot oi (remove_at axis (a_strides a))) stride n) (fun vals =>
                Ok (combine (map (fun k => Z.to_nat (Z.quot (dot oi (remove_at axis (a_strides r)) + Z.of_nat k * rstride) 8)) (seq 0 n))
                            (map Z.of_nat (selI (pos_leb vals) (seq 0 n) kth)))))
              (outer_indices axis (a_shape a))) (fun ws =>
        bind (write_all (concat ws) (repeat 0%Z (size a))) (fun out => Ok (a_shape a, out)))))
    else Panic)
  else Panic.
(* sorting.rs:266-271, 293-298: axis None flattens *)
Definition partition (typed listed : bool) (a : arr) (kth : nat) (axis : option nat) : res (list nat * list V) :=
  match axis with
  | None => bind (flattened a) (fun f => partition_axis typed listed f kth 0)
  | Some ax => partition_axis typed listed a kth ax
  end.
Definition argpartition (a : arr) (kth : nat) (axis : option nat) : res (list nat * list Z) :=
  match axis with
  | None => bind (flattened a) (fun f => argpartition_axis f kth 0)
  | Some ax => argpartition_axis a kth ax
  end.
End Select.

(* ---- lexsort ------------------------------------------------------------------------ *)

(* A key: its buffer, its array and the comparison of its dtype. *)
Record lkey (V : Type) := mkKey { k_buf : list V; k_arr : arr; k_cmp : V -> V -> comparison }.
Arguments k_buf {V} _.  Arguments k_arr {V} _.  Arguments k_cmp {V} _.

(* sorting.rs:662-722: byte step of a key, its value at each position.  The code
   reads inside the comparison; here every position is read once beforehand. *)
Definition key_vals {V} (n : nat) (k : lkey V) : res (list V) :=
  bind (at_ (a_strides (k_arr k)) 0) (fun stride =>
  let step := if a_c (k_arr k) then a_item (k_arr k) else stride in
  read_run (k_buf k) (k_arr k) 0 step n).
Definition key_cmp {V} (k : lkey V) (vals : list V) (i j : nat) : comparison :=
  match nth_error vals i, nth_error vals j with Some x, Some y => k_cmp k x y | _, _ => Eq end.
(* for info in key_infos.iter().rev() { if ord != Equal { return ord } } Equal *)
Fixpoint first_diff (cs : list (nat -> nat -> comparison)) (i j : nat) : comparison :=
  match cs with
  | [] => Eq
  | c :: cs' => match c i j with Eq => first_diff cs' i j | o => o end
  end.
(* sorting.rs:616-735 lexsort *)
Definition lexsort {V} (keys : list (lkey V)) : res (list nat) :=
  match keys with
  | [] => Err
  | k0 :: _ =>
      if forallb (fun k => ndim (k_arr k) =? 1) keys then
        let n := size (k_arr k0) in
        if forallb (fun k => size (k_arr k) =? n) keys then
          if n =? 0 then Ok [] else
          bind (mapM (fun k => bind (key_vals n k) (fun vals => Ok (key_cmp k vals))) keys) (fun cs =>
          Ok (stable_sort (fun i j => match first_diff (rev cs) i j with Gt => false | _ => true end) (seq 0 n)))
        else Err
      else Err
  end.

(* ---- searchsorted / digitize ---------------------------------------------------------- *)

Definition cmp_of {K} (leb : K -> K -> bool) (x y : K) : comparison :=
  if leb x y then if leb y x then Eq else Lt else Gt.

(* indexing.rs:365-369: a or its conversion to the common dtype.  [conv] = None
   when the dtype is already the common one. *)
Definition converted {V} (conv : option (V -> V)) (buf : list V) (a : arr) (item : Z) : res (list V * arr) :=
  match conv with
  | None => Ok (buf, a)
  | Some f => bind (astype_conv f buf a) (fun b => Ok (b, fresh (a_shape a) item))
  end.
(* indexing.rs:344-401 searchsorted on values of the common dtype, compared by cmp.
   [item]: item size of the common dtype. *)
Definition searchsorted {V} (cmp : V -> V -> comparison) (convA convV : option (V -> V)) (item : Z) (use_left : bool)
    (abuf : list V) (a : arr) (vbuf : list V) (v : arr) : res (list nat * list nat) :=
  if ndim a =? 1 then
    if size v =? 0 then Ok (a_shape v, [])
    else
      bind (converted convA abuf a item) (fun '(abuf', a') =>
      bind (converted convV vbuf v item) (fun '(vbuf', v') =>
      bind (if a_c a' then Ok (a_item a') else at_ (a_strides a') 0) (fun stride =>
      bind (mapM (fun o =>
              bind (read vbuf' v' o) (fun x =>
              bsearch (fun mid => bind (read abuf' a' (Z.of_nat mid * stride)) (fun y =>
                         Ok (match cmp y x with Lt => true | Eq => negb use_left | Gt => false end)))
                      (size a) 0 (size a)))
            (iter_offsets v')) (fun out => Ok (a_shape v, out)))))
  else Err.

(* indexing.rs:876-944 digitize.  read_f64(..).unwrap_or(0.0) is rd. *)
Definition digitize {V W K} (rdx : V -> K) (rdb : W -> K) (leb : K -> K -> bool) (right : bool)
    (xbuf : list V) (x : arr) (bbuf : list W) (b : arr) : res (list nat * list nat) :=
  if size x =? 0 then Ok (a_shape x, [])
  else
    let n := size b in
    let ltb p q := negb (leb q p) in
    bind (if 2 <=? n then
            bind (at_ (a_strides b) 0) (fun s0 =>
            bind (read bbuf b 0) (fun f => bind (read bbuf b (Z.of_nat (n - 1) * s0)) (fun l =>
            Ok (ltb (rdb l) (rdb f)))))
          else Ok false) (fun is_decreasing =>
    bind (mapM (read bbuf b) (iter_offsets b)) (fun bs =>
    let bins := map rdb bs in
    bind (mapM (fun o =>
            bind (read xbuf x o) (fun xv =>
            let val := rdx xv in
            if is_decreasing then
              bind (partition_point (fun e => if right then leb e val else ltb e val) (rev bins)) (fun i =>
              if i <=? n then Ok (n - i) else Panic)
            else partition_point (fun e => if right then ltb e val else leb e val) bins))
          (iter_offsets x)) (fun out => Ok (a_shape x, out)))).

(* ---- set_ops.rs ------------------------------------------------------------------------ *)
Section Sets.
Context {K : Type}.
Variables (leb : K -> K -> bool).
Local Notation ltb x y := (negb (leb y x)).
Variable eqb : K -> K -> bool.     (* == of f64 *)
Variable biteq : K -> K -> bool.   (* equality of to_bits *)

(* set_ops.rs:54-59 collect_sorted_unique *)
Definition sorted_unique (l : list K) : list K := dedup_by eqb (stable_sort leb l).

(* set_ops.rs:108-119; the two-pointer loops as recursion on the remaining lists,
   with fuel for the total number of steps *)
Fixpoint merge_inter (fuel : nat) (l m : list K) : list K :=
  match fuel, l, m with
  | S f, x :: l', y :: m' =>
      if ltb x y then merge_inter f l' m else if ltb y x then merge_inter f l m'
      else x :: merge_inter f l' m'
  | _, _, _ => []
  end.
(* set_ops.rs:133-148 *)
Fixpoint merge_union (fuel : nat) (l m : list K) : list K :=
  match fuel, l, m with
  | S f, x :: l', y :: m' =>
      if ltb x y then x :: merge_union f l' m else if ltb y x then y :: merge_union f l m'
      else x :: merge_union f l' m'
  | _, _, _ => l ++ m
  end.
(* set_ops.rs:161-174 *)
Fixpoint merge_diff (fuel : nat) (l m : list K) : list K :=
  match fuel, l, m with
  | S f, x :: l', y :: m' =>
      if ltb x y then x :: merge_diff f l' m else if ltb y x then merge_diff f l m'
      else merge_diff f l' m'
  | S f, x :: l', [] => x :: merge_diff f l' []
  | _, _, _ => []
  end.
(* set_ops.rs:187-202 *)
Fixpoint merge_xor (fuel : nat) (l m : list K) : list K :=
  match fuel, l, m with
  | S f, x :: l', y :: m' =>
      if ltb x y then x :: merge_xor f l' m else if ltb y x then y :: merge_xor f l m'
      else merge_xor f l' m'
  | _, _, _ => l ++ m
  end.
Inductive setop := SInter | SUnion | SDiff | SXor.
Definition merge (op : setop) (l m : list K) : list K :=
  (match op with SInter => merge_inter | SUnion => merge_union | SDiff => merge_diff | SXor => merge_xor end)
    (length l + length m) l m.

Context {V W R : Type}.
Variables (rd1 : V -> K) (rd2 : W -> K) (wr : K -> R).
Variables (buf1 : list V) (buf2 : list W).

(* set_ops.rs:14-51 collect_values; [listed]: float64, int64, int32, float32 *)
Definition collect_values {X} (rd : X -> K) (listed : bool) (buf : list X) (a : arr) : res (list K) :=
  if a_c a && listed then bind (read_run buf a 0 (a_item a) (size a)) (fun d => Ok (map rd d))
  else bind (mapM (read buf a) (iter_offsets a)) (fun d => Ok (map rd d)).
(* set_ops.rs:102-206: the 1-D result, written with write_f64 of the result dtype *)
Definition set_op (op : setop) (p1 p2 : bool) (a1 a2 : arr) : res (list R) :=
  bind (collect_values rd1 p1 buf1 a1) (fun v1 =>
  bind (collect_values rd2 p2 buf2 a2) (fun v2 =>
  Ok (map wr (merge op (sorted_unique v1) (sorted_unique v2))))).
(* set_ops.rs:70-91 isin: HashSet membership of the bit patterns *)
Definition isin (invert : bool) (p1 p2 : bool) (el test : arr) : res (list nat * list bool) :=
  bind (collect_values rd2 p2 buf2 test) (fun tv =>
  bind (collect_values rd1 p1 buf1 el) (fun vals =>
  Ok (a_shape el, map (fun v => xorb (existsb (biteq v) tv) invert) vals))).
End Sets.
