(* mean, var and central moments (src/ops/array_methods/reductions.rs, src/ops/ufunc.rs) and
   average (src/ops/statistics.rs) for float64 arrays; the arithmetic is an argument. *)
From Verif Require Import Base Arr_Spec Arr_Model Bcast_Model Copy_Model Elem_Model Red_Model.
Local Open Scope nat_scope.

Section Mean.
Context {K : Type}.
Variables (zero one nan : K) (add sub mul div : K -> K -> K) (of_nat : nat -> K).
(* buffer and view *)
Definition nda : Type := list K * arr.
Definition sh_of (x : nda) : list nat := a_shape (snd x).

(* ufunc.rs:529-600 reduce_all_op, Sum, of a float64 array *)
Definition sum_all (x : nda) : res K :=
  bind (dispatch_reduce zero add (fst x) (snd x)) (fun r =>
  match r with Some v => Ok v | None => trait_reduce zero add (fst x) (snd x) end).
(* ufunc.rs:607-622 reduce_axis_op, Sum *)
Definition sum_axis (x : nda) (axis : nat) : res nda :=
  bind (dispatch_reduce_axis zero add (fst x) (snd x) axis) (fun '(sh, out) => Ok (out, fresh sh 8)).
(* .unwrap() and .expect(..) of a Result *)
Definition expect {A} (r : res A) : res A := match r with Err => Panic | _ => r end.
(* ufunc.rs map_binary_op of two float64 arrays, .expect("broadcast works") at every call here *)
Definition binop (f : K -> K -> K) (x y : nda) : res nda :=
  bind (expect (elementwise2 (fun u v => Ok (f u v)) PKernel (fst x) (snd x) (fst y) (snd y))) (fun '(sh, out) => Ok (out, fresh sh 8)).
Definition const1 (v : K) : nda := ([v], fresh [1] 8).

(* reductions.rs:62-67 mean *)
Definition mean (x : nda) : res K :=
  if size (snd x) =? 0 then Ok nan else bind (sum_all x) (fun s => Ok (div s (of_nat (size (snd x))))).
(* reductions.rs:70-75 mean_axis *)
Definition mean_axis (x : nda) (axis : nat) : res nda :=
  bind (sum_axis x axis) (fun s => bind (at_ (sh_of x) axis) (fun n => binop div s (const1 (of_nat n)))).
(* ufunc.rs:26-44 variance_f64_contiguous *)
Definition sum_loop (l : list K) : K := fold_left add l zero.
Definition variance_contig (l : list K) : K :=
  let n := of_nat (length l) in
  let m := div (sum_loop l) n in
  div (fold_left (fun s x => add s (mul (sub x m) (sub x m))) l zero) n.
(* reductions.rs:79-106 var *)
Definition var (x : nda) : res K :=
  let n := size (snd x) in
  if n =? 0 then Ok nan
  else if a_c (snd x) then
    bind (read_run (fst x) (snd x) 0 (a_item (snd x)) n) (fun l => Ok (variance_contig l))
  else bind (mean x) (fun m =>
       bind (mapM (read (fst x) (snd x)) (iter_offsets (snd x))) (fun l =>
       Ok (div (fold_left (fun s v => add s (mul (sub v m) (sub v m))) l zero) (of_nat n)))).
(* (..).powi(k): repeated multiplication *)
Fixpoint powi (x : K) (k : nat) : K := match k with O => one | S k' => mul x (powi x k') end.
(* reductions.rs:115-132 moment *)
Definition moment (k : nat) (x : nda) : res K :=
  let n := size (snd x) in
  if n =? 0 then Ok nan
  else bind (mean x) (fun m =>
       bind (mapM (read (fst x) (snd x)) (iter_offsets (snd x))) (fun l =>
       Ok (div (fold_left (fun s v => add s (powi (sub v m) k)) l zero) (of_nat n)))).
(* reductions.rs:136-168 moment_axis with k = 2, which is var_axis (109-111) *)
Definition var_axis (x : nda) (axis : nat) : res nda :=
  bind (at_ (sh_of x) axis) (fun n =>
  if n =? 0 then
    let out := match remove_at axis (sh_of x) with [] => [1] | r => r end in Ok (repeat zero (prod out), fresh out 8)
  else
    bind (mean_axis x axis) (fun m =>
    bind (expand_dims (snd m) axis) (fun m' =>
    bind (binop sub x (fst m, m')) (fun d =>
    bind (binop mul d d) (fun p =>
    bind (sum_axis p axis) (fun s => binop div s (const1 (of_nat n)))))))).
(* statistics.rs:492-507 average *)
Variable is_zero : K -> bool.
Definition average (x : nda) (w : option nda) : res K :=
  match w with
  | None => mean x
  | Some w =>
      bind (binop mul x w) (fun p => bind (sum_all p) (fun s => bind (sum_all w) (fun t =>
      Ok (if is_zero t then nan else div s t))))
  end.
(* reductions.rs:192-200 kurtosis *)
Definition kurtosis (x : nda) : res K :=
  bind (moment 2 x) (fun m2 => bind (moment 4 x) (fun m4 =>
  Ok (if is_zero m2 then zero else sub (div m4 (mul m2 m2)) (of_nat 3)))).
(* statistics.rs:510-521 average_axis *)
Definition average_axis (x : nda) (axis : nat) (w : option nda) : res nda :=
  match w with
  | None => mean_axis x axis
  | Some w =>
      bind (binop mul x w) (fun p => bind (sum_axis p axis) (fun s => bind (sum_axis w axis) (fun t => binop div s t)))
  end.
End Mean.
