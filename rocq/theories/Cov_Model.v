(* cov and corrcoef of float64 arrays: src/ops/statistics.rs. *)
From Verif Require Import Base Arr_Spec Arr_Model Elem_Model Sort_Model Promo_Spec Mat_Model Mean_Model.
Local Open Scope nat_scope.

Section Cov.
Context {K : Type}.
Variables (zero one nan : K) (add sub mul div : K -> K -> K) (of_nat : nat -> K) (is_zero : K -> bool) (sqrt : K -> K).
Local Notation nda := (list K * arr)%type.

(* matmul.rs:354-369 of two float64 arrays *)
Definition matmul_f64 (x y : nda) : res nda :=
  bind (expect (matmul zero (fun _ => true) (fun _ => zero) (fun _ => add) (fun _ => mul) add mul (Float64, x) (Float64, y))) (fun o => Ok (snd o)).
(* statistics.rs:319-356 cov; arr.mean(), to_vec() for one dimension; matmul as in Mat_Model *)
Definition cov (x : nda) (ddof : nat) : res nda :=
  if ndim (snd x) =? 1 then
    let n := size (snd x) in
    if n <=? ddof then Ok ([nan], fresh [1] 8)
    else bind (mean zero nan add div of_nat x) (fun m =>
         bind (to_vec (fun v => v) (fst x) true (snd x)) (fun l =>
         Ok ([div (fold_left add (map (fun v => mul (sub v m) (sub v m)) l) zero) (of_nat (n - ddof))], fresh [1] 8)))
  else
    bind (at_ (a_shape (snd x)) 0) (fun nvars => bind (at_ (a_shape (snd x)) 1) (fun nobs =>
    if nobs <=? ddof then Ok (repeat nan (nvars * nvars), fresh [nvars; nvars] 8)
    else
      bind (mean_axis zero add div of_nat x 1) (fun m =>
      bind (expect (reshape (snd m) [nvars; 1])) (fun m' =>
      bind (binop sub x (fst m, m')) (fun c =>
      bind (matmul_f64 c (fst c, transpose (snd c))) (fun p =>
      binop div p (const1 (of_nat (nobs - ddof))))))))).
(* statistics.rs:360-393 corrcoef; element (i, j) is written to cell i * nvars + j of a new
   buffer, in this order *)
Definition corrcoef (x : nda) : res nda :=
  if ndim (snd x) =? 1 then Ok ([one], fresh [1; 1] 8)
  else
    bind (cov x 1) (fun c =>
    bind (at_ (a_shape (snd c)) 0) (fun nvars =>
    bind (diagonal (snd c)) (fun d =>
    bind (mapM (fun i =>
      bind (get_element (fst c) d [i]) (fun vi =>
      mapM (fun j =>
        bind (get_element (fst c) d [j]) (fun vj =>
        bind (get_element (fst c) (snd c) [i; j]) (fun cij =>
        Ok (if is_zero (sqrt vi) || is_zero (sqrt vj) then (if i =? j then one else nan)
            else div cij (mul (sqrt vi) (sqrt vj)))))) (seq 0 nvars))) (seq 0 nvars)) (fun rows =>
    Ok (concat rows, fresh [nvars; nvars] 8))))).
End Cov.
