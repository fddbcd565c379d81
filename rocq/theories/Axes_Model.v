(* Reductions over several axes: src/python/reductions.rs. *)
From Verif Require Import Base Arr_Model Man_Model Elem_Model Gu_Model Int_Model Red_Model Sort_Model.
Local Open Scope nat_scope.

(* reductions.rs:32-78 parse_axis of a tuple or list *)
Definition parse_axes (nd : nat) (axes : list Z) : res (list nat) :=
  bind (mapM (fun ax => match norm_axis nd ax with Some k => Ok k | None => Err end) axes) (fun l =>
  match l with [] => Err | _ => Ok l end).
(* reductions.rs:84-93 reduce_multi_axis: highest axis first *)
Definition reduce_multi_axis {X} (reduce : X -> nat -> res X) (x : X) (axes : list nat) : res X :=
  foldM reduce (stable_sort (fun a b => b <=? a) axes) x.
(* reductions.rs:102-115 sum (117-132 prod, 134-149 mean, ...): one axis directly, several
   with reduce_multi_axis, which for one axis is the same *)
Definition py_reduce {X} (nd_of : X -> nat) (reduce : X -> nat -> res X) (x : X) (axes : list Z) : res X :=
  bind (parse_axes (nd_of x) axes) (fun l => match l with [a] => reduce x a | _ => reduce_multi_axis reduce x l end).
(* ufunc.rs:607-622 reduce_axis_op with the array it returns *)
Definition axis_step {T} (init : T) (comb : T -> T -> T) (x : list T * arr) (axis : nat) : res (list T * arr) :=
  bind (dispatch_reduce_axis init comb (fst x) (snd x) axis) (fun '(sh, out) => Ok (out, fresh sh (a_item (snd x)))).
(* statistics.rs:484-488 ptp_axis of an integer array *)
Definition ptp_axis (t : ity) (x : list Z * arr) (axis : nat) : res (list Z * arr) :=
  bind (axis_step (int_red_init t RMax) (int_red_comb t RMax) x axis) (fun hi =>
  bind (axis_step (int_red_init t RMin) (int_red_comb t RMin) x axis) (fun lo =>
  bind (elementwise2 (fun u v => Ok (wrap t (u - v)%Z)) PKernel (fst hi) (snd hi) (fst lo) (snd lo)) (fun '(sh, out) =>
  Ok (out, fresh sh (a_item (snd x)))))).
