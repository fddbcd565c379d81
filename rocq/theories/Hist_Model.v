(* bincount (src/array/manipulation.rs:190-238) and the histograms
   (src/ops/statistics.rs:15-78, 82-168, 172-300).  f64 operations are arguments, so
   the theorems can be instantiated with exact arithmetic and with IEEE doubles.
   Counts (i64 or f64 incremented by one) are natural numbers: they stay below the
   number of samples.  The density option is not modelled. *)
From Verif Require Import Base Arr_Spec Arr_Model Copy_Model Idx_Model Int_Model F64_Model Sort_Model.
Local Open Scope nat_scope.

Section Counts.
Context {V : Type}.

(* counts[i] += 1: out of range panics *)
Definition bump (counts : list nat) (i : nat) : res (list nat) :=
  match nth_error counts i with Some c => Ok (upd counts i (S c)) | None => Panic end.

Fixpoint bump_all (counts : list nat) (is : list nat) : res (list nat) :=
  match is with
  | [] => Ok counts
  | i :: is' => bind (bump counts i) (fun c => bump_all c is')
  end.

(* manipulation.rs:190-238 bincount.  rd is the double read from an element, kept as
   the integer it holds (integer dtypes); max_len is the largest vector the allocator
   can provide, beyond it vec! aborts *)
Variables (rd : V -> Z) (max_len : Z).

(* lines 205-218: the largest value, None on the first negative one *)
Fixpoint max_loop (m : Z) (vs : list V) : option Z :=
  match vs with
  | [] => Some m
  | v :: vs' => let i := sat (mkIty 64 true) (rd v) in
                if (i <? 0)%Z then None else max_loop (if (m <? i)%Z then i else m) vs'
  end.

Definition bincount (buf : list V) (a : arr) (minlength : nat) : res (list nat) :=
  if negb (ndim a =? 1) then Err
  else if size a =? 0 then Ok (repeat 0 (Nat.max minlength 0))
  else bind (mapM (read buf a) (iter_offsets a)) (fun vs =>
       match max_loop 0 vs with
       | None => Err
       | Some m =>
           let out_len := Z.max (m + 1) (Z.of_nat minlength) in
           if (max_len <? out_len)%Z then Panic
           else bump_all (repeat 0 (Z.to_nat out_len)) (map (fun v => Z.to_nat (sat (mkIty 64 false) (rd v))) vs)
       end).
End Counts.

Section Hist.
Context {V R : Type}.
Variables (add sub mul div : R -> R -> R) (le : R -> R -> bool) (fmin fmax : R -> R -> R).
Variables (zero one pinf ninf : R).
Variable of_nat : nat -> R.               (* usize as f64 *)
Variable trunc : R -> Z.                  (* f64 as usize: truncating, saturating, NaN to 0 *)
Variable rd : V -> R.

(* statistics.rs:18-26, 60-68 *)
Definition range_of (values : list R) (range : option (R * R)) : R * R :=
  match range with
  | Some r => r
  | None => match values with
            | [] => (zero, one)
            | _ => (fold_left fmin values pinf, fold_left fmax values ninf)
            end
  end.

(* statistics.rs:29-33, 70-74 *)
Definition width (lo hi : R) (bins : nat) : R := div (sub hi lo) (of_nat bins).
Definition edges (lo w : R) (bins : nat) : list R := map (fun i => add lo (mul (of_nat i) w)) (seq 0 (S bins)).

(* statistics.rs:39-43: bins - 1 with bins = 0 wraps (or panics) and the index is out
   of range *)
Definition bin_of (lo w : R) (bins : nat) (v : R) : res nat :=
  let b := trunc (div (sub v lo) w) in
  if (Z.of_nat bins <=? b)%Z then (if bins =? 0 then Panic else Ok (bins - 1)) else Ok (Z.to_nat b).

(* statistics.rs:36-46 *)
Fixpoint hist_loop (lo hi w : R) (bins : nat) (counts : list nat) (vs : list R) : res (list nat) :=
  match vs with
  | [] => Ok counts
  | v :: vs' =>
      if le lo v && le v hi
      then bind (bin_of lo w bins v) (fun b => bind (bump counts b) (fun c => hist_loop lo hi w bins c vs'))
      else hist_loop lo hi w bins counts vs'
  end.

(* statistics.rs:15-53 histogram *)
Definition histogram (buf : list V) (f64 : bool) (a : arr) (bins : nat) (range : option (R * R)) : res (list nat * list R) :=
  bind (to_vec rd buf f64 a) (fun values =>
  let '(lo, hi) := range_of values range in
  let w := width lo hi bins in
  bind (hist_loop lo hi w bins (repeat 0 bins) values) (fun counts => Ok (counts, edges lo w bins))).

(* statistics.rs:57-78 histogram_bin_edges *)
Definition histogram_bin_edges (buf : list V) (f64 : bool) (a : arr) (bins : nat) (range : option (R * R)) : res (list R) :=
  bind (to_vec rd buf f64 a) (fun values =>
  let '(lo, hi) := range_of values range in Ok (edges lo (width lo hi bins) bins)).

(* statistics.rs:110-131: the loop of histogram2d over pairs of values *)
Definition inside (r : R * R) (v : R) : bool := le (fst r) v && le v (snd r).
Fixpoint hist2d_loop (rx ry : R * R) (bx by_ : nat) (counts : list nat) (ps : list (R * R)) : res (list nat) :=
  match ps with
  | [] => Ok counts
  | (x, y) :: ps' =>
      if inside rx x && inside ry y
      then bind (bin_of (fst rx) (width (fst rx) (snd rx) bx) bx x) (fun i =>
           bind (bin_of (fst ry) (width (fst ry) (snd ry) by_) by_ y) (fun j =>
           bind (bump counts (i * by_ + j)) (fun c => hist2d_loop rx ry bx by_ c ps')))
      else hist2d_loop rx ry bx by_ counts ps'
  end.

(* statistics.rs:82-168 histogram2d without density *)
Definition histogram2d (bufx bufy : list V) (f64x f64y : bool) (x y : arr) (bx by_ : nat) (range : option ((R * R) * (R * R))) :
  res (list nat * list R * list R) :=
  bind (to_vec rd bufx f64x x) (fun xs => bind (to_vec rd bufy f64y y) (fun ys =>
  if negb (length xs =? length ys) then Err
  else
    let '(rx, ry) := match range with
                     | Some r => r
                     | None => (range_of xs None, range_of ys None)
                     end in
    bind (hist2d_loop rx ry bx by_ (repeat 0 (bx * by_)) (combine xs ys)) (fun counts =>
    Ok (counts, edges (fst rx) (width (fst rx) (snd rx) bx) bx, edges (fst ry) (width (fst ry) (snd ry) by_) by_)))).

(* statistics.rs:249-265: the bins of one sample of histogramdd, None to skip it.  The
   test is val < lo || val > hi, false for NaN *)
Variable lt : R -> R -> bool.
Fixpoint sample_bins (ranges : list (R * R)) (bins : list nat) (row : list R) : res (option (list nat)) :=
  match ranges, bins, row with
  | (lo, hi) :: ranges', b :: bins', v :: row' =>
      if lt v lo || lt hi v then Ok None
      else bind (bin_of lo (width lo hi b) b v) (fun i =>
           bind (sample_bins ranges' bins' row') (fun r =>
           Ok (option_map (cons i) r)))
  | _, _, _ => Ok (Some [])
  end.

(* statistics.rs:268-273: flat row-major position, from the last dimension *)
Definition flat_bin (bins idx : list nat) : nat :=
  fst (fold_left (fun '(flat, stride) '(i, b) => (flat + i * stride, stride * b)) (rev (combine idx bins)) (0, 1)).

(* statistics.rs:247-276 *)
Fixpoint histdd_loop (ranges : list (R * R)) (bins : list nat) (counts : list nat) (rows : list (list R)) : res (list nat) :=
  match rows with
  | [] => Ok counts
  | row :: rows' =>
      bind (sample_bins ranges bins row) (fun r =>
      match r with
      | None => histdd_loop ranges bins counts rows'
      | Some idx => bind (bump counts (flat_bin bins idx)) (fun c => histdd_loop ranges bins c rows')
      end)
  end.

(* statistics.rs:172-293 histogramdd of a non-empty list of samples with given ranges *)
Definition histogramdd (bins : list nat) (ranges : list (R * R)) (rows : list (list R)) : res (list nat) :=
  histdd_loop ranges bins (repeat 0 (prod bins)) rows.
End Hist.
