(* median, nanmedian: src/ops/statistics.rs; percentile, nanpercentile:
   src/array/manipulation.rs; their wrappers in src/python/reductions.rs.

   rd is read_f64(..).unwrap_or(0.0) of the dtype; double arithmetic is an argument.
   leb x y: x.partial_cmp(y).unwrap_or(Equal) is not Greater.  sel is the standard
   library's select_nth_unstable_by, stable_sort its sort_by (which Rust leaves
   unspecified where leb is not a total preorder, that is with NaN). *)
From Verif Require Import Base Arr_Spec Arr_Model Copy_Model Elem_Model Red_Spec Red_Model Sort_Model.
Local Open Scope nat_scope.

Section Order.
Context {V K : Type}.
Variables (rd : V -> K) (leb : K -> K -> bool) (isnan : K -> bool).
Variables (zero one two hundred nan : K) (add sub mul div : K -> K -> K).

(* ---- median ------------------------------------------------------------------- *)
Section Select.
Variables (sel : (K -> K -> bool) -> list K -> nat -> list K) (ninf : K) (fmax : K -> K -> K).
(* statistics.rs:409-423, 541-553: the selection and, for an even number of values, the
   largest one to its left *)
Definition median_sel (values : list K) : res K :=
  let n := length values in
  let mid := n / 2 in
  let v := sel leb values mid in
  bind (at_ v mid) (fun m =>
  if Nat.even n then Ok (div (add (fold_left fmax (firstn mid v) ninf) m) two) else Ok m).
(* statistics.rs:404-424 median; [f64]: the dtype is float64 *)
Definition median (f64 : bool) (buf : list V) (a : arr) : res K :=
  if size a =? 0 then Ok nan else bind (to_vec rd buf f64 a) median_sel.
(* statistics.rs:528-554 nanmedian *)
Definition nanmedian (f64 : bool) (buf : list V) (a : arr) : res K :=
  if size a =? 0 then Ok nan
  else bind (to_vec rd buf f64 a) (fun vs =>
       let values := filter (fun v => negb (isnan v)) vs in
       if length values =? 0 then Ok nan else median_sel values).
End Select.

(* statistics.rs:461-466, 599-605: the middle of the sorted values *)
Definition median_sorted (values : list K) : res K :=
  let s := stable_sort leb values in
  let n := length values in
  if Nat.even n
  then bind (at_ s (n / 2 - 1)) (fun x => bind (at_ s (n / 2)) (fun y => Ok (div (add x y) two)))
  else at_ s (n / 2).
(* statistics.rs:427-472 median_axis: in_indices is outer[..axis] ++ [k] ++ outer[axis..],
   where outer indexes the output shape, [1] for a one-dimensional array *)
Definition median_axis (buf : list V) (a : arr) (axis : nat) : res (list nat * list K) :=
  bind (at_ (a_shape a) axis) (fun n =>
  let out_shape := match remove_at axis (a_shape a) with [] => [1] | r => r end in
  if (prod out_shape =? 0) || (n =? 0) then Ok (out_shape, repeat zero (prod out_shape))
  else bind (mapM (fun oi =>
               bind (mapM (fun k => bind (get_element buf a (firstn axis oi ++ k :: skipn axis oi)) (fun v => Ok (rd v)))
                          (seq 0 n)) median_sorted)
             (odometer (prod out_shape) (repeat 0 (length out_shape)) out_shape))
       (fun out => Ok (out_shape, out))).
(* statistics.rs:557-610 nanmedian_axis *)
Definition nanmedian_axis (buf : list V) (a : arr) (axis : nat) : res (list nat * list K) :=
  bind (at_ (a_shape a) axis) (fun n =>
  bind (at_ (a_strides a) axis) (fun st =>
  let out_shape := match remove_at axis (a_shape a) with [] => [1] | r => r end in
  if (prod out_shape =? 0) || (n =? 0) then Ok (out_shape, repeat zero (prod out_shape))
  else bind (mapM (fun base => bind (read_run buf a base st n) (fun d =>
               let values := filter (fun v => negb (isnan v)) (map rd d) in
               if length values =? 0 then Ok nan else median_sorted values))
             (axis_offsets a axis))
       (fun out => Ok (out_shape, out)))).

(* ---- percentile ----------------------------------------------------------------- *)
Variables (of_nat : nat -> K) (floor_us ceil_us : K -> nat).   (* x.floor() as usize, x.ceil() as usize *)
(* manipulation.rs:346-366 interpolate_percentile *)
Definition interpolate (s : list K) (pct : K) : res K :=
  let n := length s in
  if n =? 0 then Ok nan
  else if n =? 1 then at_ s 0
  else
    let idx := mul (div pct hundred) (of_nat (n - 1)) in
    let lo := floor_us idx in
    let hi := ceil_us idx in
    if (lo =? hi) || (n <=? hi) then at_ s (Nat.min lo (n - 1))
    else
      let frac := sub idx (of_nat lo) in
      bind (at_ s lo) (fun x => bind (at_ s hi) (fun y => Ok (add (mul x (sub one frac)) (mul y frac)))).

(* manipulation.rs:251-278 percentile_flat *)
Definition percentile_flat (buf : list V) (a : arr) (q : list K) : res (list nat * list K) :=
  if size a =? 0 then Ok ([length q], repeat zero (length q))
  else bind (mapM (read buf a) (iter_offsets a)) (fun d =>
       bind (mapM (interpolate (stable_sort leb (map rd d))) q) (fun out => Ok ([length q], out))).
(* manipulation.rs:286-299: the shape of the result of percentile_axis *)
Definition percentile_shape (nq : nat) (sh : list nat) (axis : nat) : list nat :=
  let reduced := match remove_at axis sh with [] => [1] | r => r end in
  if nq =? 1 then reduced else nq :: reduced.
(* manipulation.rs:281-343 percentile_axis, 412-478 nanpercentile_axis: [value] turns the
   lane and a percentile into the result; entry qi * reduced_size + i is lane i at q[qi] *)
Definition percentile_lanes (value : list K -> K -> res K) (buf : list V) (a : arr) (q : list K) (axis : nat)
  : res (list nat * list K) :=
  if axis <? ndim a then
    bind (at_ (a_shape a) axis) (fun n =>
    bind (at_ (a_strides a) axis) (fun st =>
    let reduced := match remove_at axis (a_shape a) with [] => [1] | r => r end in
    let out_shape := percentile_shape (length q) (a_shape a) axis in
    if (n =? 0) || (prod reduced =? 0) then Ok (out_shape, repeat zero (prod out_shape))
    else bind (mapM (fun base => bind (read_run buf a base st n) (fun d => Ok (map rd d))) (axis_offsets a axis)) (fun ls =>
         bind (mapM (fun pct => mapM (fun l => value l pct) ls) q) (fun out => Ok (out_shape, concat out)))))
  else Err.
Definition percentile_axis : list V -> arr -> list K -> nat -> res (list nat * list K) :=
  percentile_lanes (fun l pct => interpolate (stable_sort leb l) pct).
(* manipulation.rs:383-410 nanpercentile_flat *)
Definition nanpercentile_flat (f64 : bool) (buf : list V) (a : arr) (q : list K) : res (list nat * list K) :=
  bind (to_vec rd buf f64 a) (fun vs =>
  let values := filter (fun v => negb (isnan v)) vs in
  if length values =? 0 then Ok ([length q], repeat nan (length q))
  else bind (mapM (interpolate (stable_sort leb values)) q) (fun out => Ok ([length q], out))).
Definition nanpercentile_axis : list V -> arr -> list K -> nat -> res (list nat * list K) :=
  percentile_lanes (fun l pct =>
    let values := filter (fun v => negb (isnan v)) l in
    if length values =? 0 then Ok nan else interpolate (stable_sort leb values) pct).

(* manipulation.rs:243-248, 374-379 *)
Definition percentile (buf : list V) (a : arr) (q : list K) (axis : option nat) : res (list nat * list K) :=
  match axis with None => percentile_flat buf a q | Some ax => percentile_axis buf a q ax end.
Definition nanpercentile (f64 : bool) (buf : list V) (a : arr) (q : list K) (axis : option nat) : res (list nat * list K) :=
  match axis with None => nanpercentile_flat f64 buf a q | Some ax => nanpercentile_axis buf a q ax end.
(* python/reductions.rs:731-751, 834-854: q is a number or a list (both become a list);
   [le]: the comparison of (0.0..=100.0).contains, false with NaN *)
Variable le : K -> K -> bool.
Definition in_range (lo hi x : K) : bool := le lo x && le x hi.
Definition py_percentile (buf : list V) (a : arr) (q : list K) (axis : option nat) : res (list nat * list K) :=
  if forallb (in_range zero hundred) q then percentile buf a q axis else Err.
Definition py_nanpercentile (f64 : bool) (buf : list V) (a : arr) (q : list K) (axis : option nat) : res (list nat * list K) :=
  if forallb (in_range zero hundred) q then nanpercentile f64 buf a q axis else Err.
(* python/reductions.rs:756-779, 859-882 *)
Definition py_quantile (buf : list V) (a : arr) (q : list K) (axis : option nat) : res (list nat * list K) :=
  if forallb (in_range zero one) q then percentile buf a (map (fun x => mul x hundred) q) axis else Err.
Definition py_nanquantile (f64 : bool) (buf : list V) (a : arr) (q : list K) (axis : option nat) : res (list nat * list K) :=
  if forallb (in_range zero one) q then nanpercentile f64 buf a (map (fun x => mul x hundred) q) axis else Err.
End Order.
