(* C60: bincount and histograms. *)
From Coq Require Import QArith Qround SpecFloat.
From Verif Require Import Base Lists Arr_Spec Arr_Model Arr_Wf Wf_Check Copy_Model Copy_Proofs Idx_Model Int_Model F64_Model F64_Proofs Sort_Model Sort_Api
  Man_Props Rng_Model Date_Model Hist_Model Hist_Proofs.
Local Open Scope nat_scope.

(* ---- bincount ------------------------------------------------------------------ *)

(* non-negative integers whose largest is m: the result has max(m + 1, minlength)
   entries, entry k is the number of elements equal to k, and they add up to len(x).
   max_len is the largest vector the machine can allocate *)
Theorem C60_bincount : forall buf a vs m minlength max_len, vector (buf, a) vs -> In m vs -> Forall (fun v => (0 <= v <= m)%Z) vs ->
  (max_len <= 2 ^ 53)%Z -> (Z.max (m + 1) (Z.of_nat minlength) <= max_len)%Z ->
  exists counts, bincount f64_of_int max_len buf a minlength = Ok counts /\
    Z.of_nat (length counts) = Z.max (m + 1) (Z.of_nat minlength) /\ list_sum counts = length vs /\
    forall k, nth k counts 0 = count (fun v => (v =? Z.of_nat k)%Z) vs.
Proof.
  intros buf a vs m minlength max_len HV Hm HA HL HF. pose proof (vector_size _ _ HV) as SZ. destruct HV as (W & SH & E). cbn [fst snd] in *.
  unfold bincount, ndim. rewrite SH. cbn [length Nat.eqb negb]. rewrite SZ.
  destruct (Nat.eqb_spec (length vs) 0) as [L0|L0]; [destruct vs; [destruct Hm|discriminate]|].
  rewrite (read_offsets buf a vs W E). cbn [bind].
  assert (F : forall v, In v vs -> f64_of_int v = v).
  { intros v Hv. rewrite Forall_forall in HA. specialize (HA v Hv). apply f64_of_int_small. lia. }
  assert (F' : map f64_of_int vs = vs) by (rewrite <- (map_id vs) at 2; apply map_ext_in; exact F).
  rewrite Forall_forall in HA.
  rewrite (proj1 (max_loop_spec f64_of_int vs 0%Z (Z.le_refl 0))).
  2:{ apply Forall_forall. intros v Hv. rewrite (F v Hv). specialize (HA v Hv). lia. }
  rewrite F'. assert (M : fold_left Z.max vs 0%Z = m).
  { apply Z.le_antisymm; [|apply fold_max_ge; left; exact Hm]. destruct (fold_max_in vs 0%Z) as [->|H]; [specialize (HA m Hm); lia|apply (HA _ H)]. }
  rewrite M. set (out := Z.max (m + 1) (Z.of_nat minlength)) in *. destruct (Z.ltb_spec max_len out); [lia|].
  assert (IX : map (fun v => Z.to_nat (sat (mkIty 64 false) (f64_of_int v))) vs = map Z.to_nat vs).
  { apply map_ext_in. intros v Hv. rewrite (F v Hv). specialize (HA v Hv). f_equal. unfold sat, i_min, i_max. cbn [bits signed]. lia. }
  rewrite IX. destruct (bump_all_ok (map Z.to_nat vs) (repeat 0 (Z.to_nat out))) as (c & EC & LC & SC & NC).
  { apply Forall_map, Forall_forall. intros v Hv. rewrite repeat_length. specialize (HA v Hv). lia. }
  exists c. split; [exact EC|]. rewrite repeat_length in LC. split; [specialize (HA m Hm); lia|]. split; [rewrite SC, list_sum_repeat0, map_length; lia|].
  intros k. rewrite NC, nth_repeat0, Nat.add_0_r, count_map. apply count_ext. intros v Hv. specialize (HA v Hv).
  destruct (Nat.eqb_spec (Z.to_nat v) k), (Z.eqb_spec v (Z.of_nat k)); lia || reflexivity.
Qed.

(* the remaining calls: an empty array gives minlength zeros, a negative element or an
   array that is not one-dimensional is refused *)
Theorem C60_bincount_other : forall buf a minlength max_len,
  (vector (buf, a) [] -> bincount f64_of_int max_len buf a minlength = Ok (repeat 0 minlength)) /\
  (forall vs v, vector (buf, a) vs -> In v vs -> (v < 0)%Z -> bincount f64_of_int max_len buf a minlength = Err) /\
  (length (a_shape a) <> 1 -> bincount f64_of_int max_len buf a minlength = Err).
Proof.
  intros buf a minlength max_len. split; [|split].
  - intros HV. pose proof (vector_size _ _ HV) as SZ. destruct HV as (W & SH & E). cbn [fst snd] in *.
    unfold bincount, ndim. rewrite SH, SZ. cbn [length Nat.eqb negb]. f_equal. f_equal. lia.
  - intros vs v HV Hv Hneg. pose proof (vector_size _ _ HV) as SZ. destruct HV as (W & SH & E). cbn [fst snd] in *.
    unfold bincount, ndim. rewrite SH. cbn [length Nat.eqb negb]. rewrite SZ.
    destruct (Nat.eqb_spec (length vs) 0) as [L0|L0]; [destruct vs; [destruct Hv|discriminate]|].
    rewrite (read_offsets buf a vs W E). cbn [bind].
    rewrite (proj2 (max_loop_spec f64_of_int vs 0%Z (Z.le_refl 0))); [reflexivity|]. exists v. split; [exact Hv|].
    unfold f64_of_int. destruct (Z.ltb_spec v 0) as [_|]; [|lia].
    enough (0 < f64_of_nonneg (- v))%Z by lia. unfold f64_of_nonneg. destruct (Z.ltb_spec (- v) (2 ^ 53)); [lia|]. cbv zeta.
    assert (LG : (53 <= Z.log2 (- v))%Z) by (apply Z.log2_le_pow2; lia).
    assert (MP : (0 < 2 ^ (Z.log2 (- v) - 52))%Z) by (apply Z.pow_pos_nonneg; lia).
    apply Z.mul_pos_pos; [|exact MP]. unfold rne. cbv zeta.
    assert (Q : (1 <= - v / 2 ^ (Z.log2 (- v) - 52))%Z).
    { apply Z.div_le_lower_bound; [exact MP|]. rewrite Z.mul_1_r. transitivity (2 ^ Z.log2 (- v))%Z; [apply Z.pow_le_mono_r; lia|]. apply Z.log2_spec. lia. }
    destruct (_ <? _)%Z; [lia|]. destruct (_ <? _)%Z; [lia|]. destruct (Z.even _); lia.
  - intros H. unfold bincount, ndim. destruct (Nat.eqb_spec (length (a_shape a)) 1); [contradiction|reflexivity].
Qed.

Example C60_bincount_nonvacuous :
  let a := mkArr 8 [4] [16]%Z 8 false false in let buf := [9; 3; 9; 0; 9; 3; 9; 1]%Z in
  vector (buf, a) [3; 0; 3; 1]%Z /\ bincount f64_of_int 1000 buf a 6 = Ok [1; 1; 0; 2; 0; 0] /\
  bincount f64_of_int 1000 [2; -1]%Z (fresh [2] 8) 0 = Err.
Proof. split; [split; [wfc|split; vm_compute; reflexivity]|]. split; vm_compute; reflexivity. Qed.

(* ---- histogram ------------------------------------------------------------------- *)

Section AnyArithmetic.
Context {V R : Type}.
Variables (add sub mul div : R -> R -> R) (le lt : R -> R -> bool) (fmin fmax : R -> R -> R) (zero one pinf ninf : R).
Variables (of_nat : nat -> R) (trunc : R -> Z) (rd : V -> R).
Local Notation histogram := (histogram add sub mul div le fmin fmax zero one pinf ninf of_nat trunc rd).

(* whatever the rounding: the counts add up to the number of samples in the closed
   range, no sample is lost or counted twice *)
Theorem C60_histogram_total : forall buf f64 a vs bins lo hi, wf buf a -> elems buf a = map Some vs -> 0 < bins ->
  exists counts edges, histogram buf f64 a bins (Some (lo, hi)) = Ok (counts, edges) /\
    length counts = bins /\ length edges = S bins /\
    list_sum counts = count (fun v => le lo v && le v hi) (map rd vs).
Proof.
  intros buf f64 a vs bins lo hi W E HB. unfold Hist_Model.histogram. rewrite (to_vec_spec rd buf f64 a vs W E). cbn [bind range_of].
  destruct (hist_loop_ok sub div trunc le lo hi (width sub div of_nat lo hi bins) bins (map rd vs) HB) as (c & -> & L & SM & _). cbn [bind].
  exists c. eexists. split; [reflexivity|]. split; [exact L|]. split; [unfold edges; rewrite map_length, seq_length; reflexivity|exact SM].
Qed.

(* without a range every sample is counted (total order, no NaN) *)
Theorem C60_histogram_auto : forall buf f64 a vs bins, wf buf a -> elems buf a = map Some vs -> 0 < bins ->
  (forall x y z, le x y = true -> le y z = true -> le x z = true) ->
  (forall x y, le (fmin x y) x = true /\ le (fmin x y) y = true) -> (forall x y, le x (fmax x y) = true /\ le y (fmax x y) = true) ->
  exists counts edges, histogram buf f64 a bins None = Ok (counts, edges) /\ list_sum counts = length vs.
Proof.
  intros buf f64 a vs bins W E HB TR MN MX. unfold Hist_Model.histogram. rewrite (to_vec_spec rd buf f64 a vs W E). cbn [bind].
  assert (LO : forall l m x, In x l \/ le m x = true -> le (fold_left fmin l m) x = true).
  { induction l as [|y l IH]; intros m x H; cbn [fold_left]; [destruct H as [[]|H]; exact H|]. apply IH.
    destruct H as [[->|H]|H]; [right; exact (proj2 (MN _ _))|left; exact H|right]. exact (TR _ _ _ (proj1 (MN _ _)) H). }
  assert (HI : forall l m x, In x l \/ le x m = true -> le x (fold_left fmax l m) = true).
  { induction l as [|y l IH]; intros m x H; cbn [fold_left]; [destruct H as [[]|H]; exact H|]. apply IH.
    destruct H as [[->|H]|H]; [right; exact (proj2 (MX _ _))|left; exact H|right]. exact (TR _ _ _ H (proj1 (MX _ _))). }
  destruct (range_of fmin fmax zero one pinf ninf (map rd vs) None) as [lo hi] eqn:RG.
  destruct (hist_loop_ok sub div trunc le lo hi (width sub div of_nat lo hi bins) bins (map rd vs) HB) as (c & -> & L & SM & _). cbn [bind].
  exists c. eexists. split; [reflexivity|]. rewrite SM, count_all; [apply map_length|]. intros x Hx.
  unfold range_of in RG. destruct (map rd vs) as [|y l] eqn:EL; [destruct Hx|]. 
  replace lo with (fold_left fmin (y :: l) pinf) by congruence. replace hi with (fold_left fmax (y :: l) ninf) by congruence.
  rewrite (LO (y :: l) pinf x) by (left; exact Hx). rewrite (HI (y :: l) ninf x) by (left; exact Hx). reflexivity.
Qed.

(* histogram_bin_edges returns the edges of histogram *)
Theorem C60_bin_edges : forall buf f64 a bins range counts edges, histogram buf f64 a bins range = Ok (counts, edges) ->
  histogram_bin_edges add sub mul div fmin fmax zero one pinf ninf of_nat rd buf f64 a bins range = Ok edges.
Proof.
  intros buf f64 a bins range counts es. unfold Hist_Model.histogram, histogram_bin_edges. destruct (to_vec rd buf f64 a); cbn [bind]; try discriminate.
  destruct (range_of _ _ _ _ _ _ _ range) as [lo hi]. destruct (hist_loop _ _ _ _ _ _ _ _ _ _); cbn [bind]; try discriminate.
  intros H. injection H as _ <-. reflexivity.
Qed.

(* histogram2d and histogramdd: entry idx counts the samples that fall in bin idx on
   every axis, where the bin on an axis is the one histogram uses for that axis *)
Theorem C60_histogram2d : forall bufx bufy f64x f64y x y xs ys bx by_ rx ry,
  wf bufx x -> elems bufx x = map Some xs -> wf bufy y -> elems bufy y = map Some ys -> length xs = length ys -> 0 < bx -> 0 < by_ ->
  exists counts ex ey,
    histogram2d add sub mul div le fmin fmax zero one pinf ninf of_nat trunc rd bufx bufy f64x f64y x y bx by_ (Some (rx, ry)) = Ok (counts, ex, ey) /\
    length counts = bx * by_ /\
    list_sum counts = count (fun p => inside le rx (fst p) && inside le ry (snd p)) (combine (map rd xs) (map rd ys)) /\
    (exists c1, histogram bufx f64x x bx (Some rx) = Ok (c1, ex)) /\ (exists c2, histogram bufy f64y y by_ (Some ry) = Ok (c2, ey)) /\
    forall i j, i < bx -> j < by_ ->
      nth (i * by_ + j) counts 0 =
      count (fun p => (inside le rx (fst p) && inside le ry (snd p)) &&
                      ((axis_bin sub div of_nat trunc rx bx (fst p) =? i) && (axis_bin sub div of_nat trunc ry by_ (snd p) =? j)))
            (combine (map rd xs) (map rd ys)).
Proof.
  intros bufx bufy f64x f64y x y xs ys bx by_ rx ry WX EX WY EY L HX HY. unfold Hist_Model.histogram2d.
  rewrite (to_vec_spec rd bufx f64x x xs WX EX), (to_vec_spec rd bufy f64y y ys WY EY). cbn [bind]. rewrite !map_length, L, Nat.eqb_refl. cbn [negb].
  rewrite hist2d_loop_bump by (rewrite ?repeat_length; auto).
  set (ps := combine (map rd xs) (map rd ys)). set (ok := fun p => inside le rx (fst p) && inside le ry (snd p)).
  set (ax := axis_bin sub div of_nat trunc rx bx). set (ay := axis_bin sub div of_nat trunc ry by_).
  assert (BX : forall v, ax v < bx) by (intros v; apply (bin_of_ok sub div trunc _ _ bx v HX)).
  assert (BY : forall v, ay v < by_) by (intros v; apply (bin_of_ok sub div trunc _ _ by_ v HY)).
  destruct (bump_all_ok (map (fun p => ax (fst p) * by_ + ay (snd p)) (filter ok ps)) (repeat 0 (bx * by_))) as (c & -> & LC & SC & NC).
  { apply Forall_map, Forall_forall. intros p _. rewrite repeat_length. specialize (BX (fst p)). specialize (BY (snd p)). nia. }
  cbn [bind]. do 3 eexists. split; [reflexivity|]. rewrite repeat_length in LC. split; [exact LC|]. split; [|split; [|split]].
  - rewrite SC, list_sum_repeat0, map_length. unfold count. lia.
  - unfold Hist_Model.histogram. rewrite (to_vec_spec rd bufx f64x x xs WX EX). cbn [bind range_of]. destruct rx as [lo hi].
    destruct (hist_loop_ok sub div trunc le lo hi (width sub div of_nat lo hi bx) bx (map rd xs) HX) as (c1 & -> & _). exists c1. reflexivity.
  - unfold Hist_Model.histogram. rewrite (to_vec_spec rd bufy f64y y ys WY EY). cbn [bind range_of]. destruct ry as [lo hi].
    destruct (hist_loop_ok sub div trunc le lo hi (width sub div of_nat lo hi by_) by_ (map rd ys) HY) as (c1 & -> & _). exists c1. reflexivity.
  - intros i j Hi Hj. rewrite NC, nth_repeat0, Nat.add_0_r, count_map, count_filter. apply count_ext. intros p _. f_equal.
    specialize (BX (fst p)). specialize (BY (snd p)).
    destruct (Nat.eqb_spec (ax (fst p) * by_ + ay (snd p)) (i * by_ + j)) as [E|N]; destruct (Nat.eqb_spec (ax (fst p)) i) as [E1|N1]; destruct (Nat.eqb_spec (ay (snd p)) j) as [E2|N2]; cbn [andb]; try reflexivity; exfalso; nia.
Qed.

Theorem C60_histogramdd_partial : forall ranges bins rows, length ranges = length bins ->
  Forall (fun row => length row = length bins) rows -> Forall (fun b => 0 < b) bins ->
  exists counts, histogramdd sub div of_nat trunc lt bins ranges rows = Ok counts /\ length counts = prod bins /\
    list_sum counts = count (not_outside lt ranges) rows /\
    forall idx, inb idx bins ->
      nth (rank bins idx) counts 0 =
      count (fun row => not_outside lt ranges row && (if list_eq_dec Nat.eq_dec (row_bins sub div of_nat trunc ranges bins row) idx then true else false)) rows.
Proof.
  intros ranges bins rows LR HR HB. unfold histogramdd. rewrite histdd_loop_bump by (rewrite ?repeat_length; auto).
  assert (IB : forall row, In row rows -> inb (row_bins sub div of_nat trunc ranges bins row) bins).
  { intros row Hr. rewrite Forall_forall in HR. apply (sample_bins_ok sub div lt of_nat trunc ranges bins row LR (HR row Hr) HB). }
  destruct (bump_all_ok (map (fun row => rank bins (row_bins sub div of_nat trunc ranges bins row)) (filter (not_outside lt ranges) rows)) (repeat 0 (prod bins))) as (c & -> & LC & SC & NC).
  { apply Forall_map, Forall_forall. intros row Hr. apply filter_In in Hr. rewrite repeat_length. apply rank_lt, IB, Hr. }
  rewrite repeat_length in LC. exists c. split; [reflexivity|]. split; [exact LC|]. split.
  - rewrite SC, list_sum_repeat0, map_length. unfold count. lia.
  - intros idx Hi. rewrite NC, nth_repeat0, Nat.add_0_r, count_map, count_filter. apply count_ext. intros row Hr. f_equal. specialize (IB row Hr).
    destruct (list_eq_dec Nat.eq_dec (row_bins sub div of_nat trunc ranges bins row) idx) as [->|N]; [apply Nat.eqb_refl|].
    apply Nat.eqb_neq. intros E. apply N. rewrite <- (unrank_rank bins _ IB), E. apply unrank_rank. exact Hi.
Qed.
End AnyArithmetic.

(* exact (rational) arithmetic: truncation of the quotient, saturating *)
Definition q_trunc (x : Q) : Z := Z.max 0 (Z.min (Qfloor x) (2 ^ 64 - 1)).
Definition q_of_nat (n : nat) : Q := inject_Z (Z.of_nat n).
Definition q_min (x y : Q) : Q := if Qle_bool x y then x else y.
Definition q_max (x y : Q) : Q := if Qle_bool x y then y else x.

Lemma q_bin_le lo hi bins v i : (lo < hi)%Q -> 0 < bins -> (lo <= v)%Q ->
  (Z.of_nat i <= Qfloor ((v - lo) / ((hi - lo) / q_of_nat bins)))%Z <-> (lo + q_of_nat i * ((hi - lo) / q_of_nat bins) <= v)%Q.
Proof.
  intros HLH HB HV. set (w := ((hi - lo) / q_of_nat bins)%Q).
  assert (WP : (0 < w)%Q).
  { unfold w, Qdiv. apply Qmult_lt_0_compat; [|apply Qinv_lt_0_compat].
    - apply Qplus_lt_l with lo. ring_simplify. exact HLH.
    - unfold q_of_nat, Qlt, inject_Z. cbn [Qnum Qden]. lia. }
  assert (WN : ~ (w == 0)%Q) by (intros E; rewrite E in WP; discriminate WP).
  assert (IF : (q_of_nat i <= (v - lo) / w)%Q <-> (lo + q_of_nat i * w <= v)%Q).
  { split; intros H.
    - setoid_replace v with (lo + (v - lo) / w * w)%Q by (field; exact WN). apply Qplus_le_r. apply Qmult_le_compat_r; [exact H|apply Qlt_le_weak, WP].
    - apply Qmult_lt_0_le_reg_r with w; [exact WP|]. setoid_replace ((v - lo) / w * w)%Q with (v - lo)%Q by (field; exact WN).
      apply Qplus_le_r with lo. setoid_replace (lo + (v - lo))%Q with v by ring. exact H. }
  rewrite <- IF. unfold q_of_nat. split; intros H.
  - eapply Qle_trans; [|apply Qfloor_le]. rewrite <- Zle_Qle. exact H.
  - rewrite <- (Qfloor_Z (Z.of_nat i)). apply Qfloor_resp_le. exact H.
Qed.

(* with exact arithmetic: bin i holds the samples with edge i <= v < edge i+1, the
   last bin also its right end; the edges are evenly spaced from lo to hi.  What is
   missing is that this is so in double precision, which is false: see below *)
Theorem C60_histogram_bins_partial : forall {V} (rd : V -> Q) buf f64 a vs bins lo hi pinf ninf, wf buf a -> elems buf a = map Some vs ->
  0 < bins -> (Z.of_nat bins < 2 ^ 64)%Z -> (lo < hi)%Q ->
  exists counts es,
    histogram Qplus Qminus Qmult Qdiv Qle_bool q_min q_max 0%Q 1%Q pinf ninf q_of_nat q_trunc rd buf f64 a bins (Some (lo, hi)) = Ok (counts, es) /\
    length counts = bins /\ length es = S bins /\
    (forall i, i <= bins -> (nth i es 0%Q == lo + q_of_nat i * ((hi - lo) / q_of_nat bins))%Q) /\ (nth bins es 0 == hi)%Q /\
    forall i, i < bins ->
      nth i counts 0 = count (fun v => Qle_bool (nth i es 0%Q) v &&
        (if S i =? bins then Qle_bool v hi else negb (Qle_bool (nth (S i) es 0%Q) v))) (map rd vs).
Proof.
  intros V rd buf f64 a vs bins lo hi pinf ninf W E HB HB64 HLH. unfold histogram. rewrite (to_vec_spec rd buf f64 a vs W E). cbn [bind range_of].
  set (w := width Qminus Qdiv q_of_nat lo hi bins).
  destruct (hist_loop_ok Qminus Qdiv q_trunc Qle_bool lo hi w bins (map rd vs) HB) as (c & -> & L & _ & N). cbn [bind].
  assert (NE : forall i, i <= bins -> nth i (edges Qplus Qmult q_of_nat lo w bins) 0%Q = (lo + q_of_nat i * w)%Q).
  { intros i Hi. unfold edges. rewrite (nth_indep _ _ (lo + q_of_nat 0 * w)%Q) by (rewrite map_length, seq_length; lia).
    rewrite (map_nth (fun i => lo + q_of_nat i * w)%Q), seq_nth by lia. reflexivity. }
  assert (BP : ~ (q_of_nat bins == 0)%Q) by (unfold q_of_nat, Qeq, inject_Z; cbn [Qnum Qden]; lia).
  assert (LAST : (lo + q_of_nat bins * w == hi)%Q) by (unfold w, width; field; exact BP).
  exists c. eexists. split; [reflexivity|]. split; [exact L|]. split; [unfold edges; rewrite map_length, seq_length; reflexivity|].
  split; [intros i Hi; rewrite NE by exact Hi; reflexivity|]. split; [rewrite NE by lia; exact LAST|].
  intros i Hi. rewrite N. apply count_ext. intros v _. rewrite !NE by lia.
  apply Bool.eq_iff_eq_true. rewrite !andb_true_iff, Nat.eqb_eq, !Qle_bool_iff.
  assert (W0 : (0 <= w)%Q).
  { unfold w, width, Qdiv. apply Qmult_le_0_compat.
    - apply Qplus_le_r with lo. ring_simplify. apply Qlt_le_weak, HLH.
    - apply Qlt_le_weak, Qinv_lt_0_compat. unfold q_of_nat, Qlt, inject_Z. cbn [Qnum Qden]. lia. }
  assert (LI : (lo <= lo + q_of_nat i * w)%Q).
  { setoid_replace lo with (lo + 0)%Q at 1 by ring. apply Qplus_le_r. apply Qmult_le_0_compat; [|exact W0]. unfold q_of_nat, Qle, inject_Z. cbn [Qnum Qden]. lia. }
  assert (ST : forall j, (lo <= v)%Q -> (Z.of_nat j <= Qfloor ((v - lo) / w))%Z <-> (lo + q_of_nat j * w <= v)%Q)
    by (intros j Hv; exact (q_bin_le lo hi bins v j HLH HB Hv)).
  assert (MID : S i <= bins -> (lo + q_of_nat (S i) * w <= hi)%Q).
  { intros HS. rewrite <- LAST. apply Qplus_le_r. apply Qmult_le_compat_r; [|exact W0]. unfold q_of_nat, Qle, inject_Z. cbn [Qnum Qden]. lia. }
  assert (FL0 : (lo <= v)%Q -> (0 <= Qfloor ((v - lo) / w))%Z).
  { intros Hv. apply (ST 0 Hv). unfold q_of_nat. change (inject_Z (Z.of_nat 0)) with 0%Q. ring_simplify. exact Hv. }
  unfold bin_val, q_trunc. cbv zeta. set (fl := Qfloor ((v - lo) / w)) in *.
  destruct (Nat.eqb_spec (S i) bins) as [EQ|NQ].
  - rewrite Qle_bool_iff. split.
    + intros ([Hlo Hhi] & HB'). split; [|exact Hhi]. apply (ST i Hlo). specialize (FL0 Hlo).
      destruct (Z.leb_spec (Z.of_nat bins) (Z.max 0 (Z.min fl (2 ^ 64 - 1)))); lia.
    + intros [Hi1 Hhi]. assert (Hlo : (lo <= v)%Q) by (eapply Qle_trans; eassumption). split; [split; assumption|].
      apply (ST i Hlo) in Hi1. destruct (Z.leb_spec (Z.of_nat bins) (Z.max 0 (Z.min fl (2 ^ 64 - 1)))); lia.
  - rewrite negb_true_iff. split.
    + intros ([Hlo Hhi] & HB'). specialize (FL0 Hlo). split.
      * apply (ST i Hlo). destruct (Z.leb_spec (Z.of_nat bins) (Z.max 0 (Z.min fl (2 ^ 64 - 1)))); lia.
      * apply not_true_iff_false. rewrite Qle_bool_iff. intros H. apply (ST (S i) Hlo) in H.
        destruct (Z.leb_spec (Z.of_nat bins) (Z.max 0 (Z.min fl (2 ^ 64 - 1)))); lia.
    + intros [Hi1 Hn]. assert (Hlo : (lo <= v)%Q) by (eapply Qle_trans; eassumption). specialize (FL0 Hlo).
      assert (LT : ~ (lo + q_of_nat (S i) * w <= v)%Q) by (rewrite <- Qle_bool_iff, Hn; discriminate).
      split; [split; [exact Hlo|]|].
      * apply Qnot_le_lt in LT. apply Qlt_le_weak. eapply Qlt_le_trans; [exact LT|]. apply MID. lia.
      * apply (ST i Hlo) in Hi1. rewrite <- (ST (S i) Hlo) in LT. destruct (Z.leb_spec (Z.of_nat bins) (Z.max 0 (Z.min fl (2 ^ 64 - 1)))); lia.
Qed.

Example C60_histogram_nonvacuous :
  let a := mkArr 0 [2; 3] [24; 8]%Z 8 true false in let buf := [0; 1; 4; 10; 5; 12]%Z in
  wf buf a /\ elems buf a = map Some buf /\ (0 < 10)%Q /\
  (forall x y z, Qle_bool x y = true -> Qle_bool y z = true -> Qle_bool x z = true) /\
  (forall x y, Qle_bool (q_min x y) x = true /\ Qle_bool (q_min x y) y = true) /\
  histogram Qplus Qminus Qmult Qdiv Qle_bool q_min q_max 0%Q 1%Q 0%Q 0%Q q_of_nat q_trunc inject_Z buf false a 2 (Some (0, 10)%Q)
    = Ok ([3; 2], [0 # 2; 10 # 2; 20 # 2]%Q) /\
  histogramdd Qminus Qdiv q_of_nat q_trunc (fun x y => negb (Qle_bool y x)) [2; 3] [(0, 2); (0, 3)]%Q
    [[0; 0]; [1; 2]; [2; 3]; [2; 4]; [1 # 2; 1]]%Q = Ok [1; 1; 0; 0; 0; 2].
Proof.
  split; [wfc|]. split; [vm_compute; reflexivity|]. split; [reflexivity|]. split.
  - intros x y z. rewrite !Qle_bool_iff. apply Qle_trans.
  - split; [|split; vm_compute; reflexivity].
    intros x y. unfold q_min. destruct (Qle_bool x y) eqn:E.
    + split; [rewrite Qle_bool_iff; apply Qle_refl|exact E].
    + split; rewrite Qle_bool_iff; [|apply Qle_refl]. destruct (Qlt_le_dec y x) as [H|H]; [apply Qlt_le_weak; exact H|].
      rewrite <- Qle_bool_iff in H. congruence.
Qed.

(* doubles: x as usize *)
Definition sf_usize (x : spec_float) : Z :=
  match x with S754_infinity false => 2 ^ 64 - 1 | _ => Z.max 0 (Z.min (sf_trunc x) (2 ^ 64 - 1)) end.
Definition sf_nat (n : nat) : spec_float := f64_int (Z.of_nat n).
Definition sf_histogram (buf : list spec_float) (bins : nat) (range : option (spec_float * spec_float)) : res (list nat * list spec_float) :=
  histogram (SFadd 53 1024) (SFsub 53 1024) (SFmul 53 1024) (SFdiv 53 1024) SFleb
    (fun x y => if SFleb x y then x else y) (fun x y => if SFleb x y then y else x)
    (f64_int 0) (f64_int 1) (S754_infinity false) (S754_infinity true) sf_nat sf_usize id buf true (fresh [length buf] 8) bins range.

(* histogram([0., 5., 10.], bins=58): edge 29 is exactly 5.0, yet the sample 5.0 is
   counted in bin 28 = [edge 28, edge 29), because 5.0 / (10.0 / 58) rounds below 29 *)
Theorem C60_edge_refuted : exists counts es,
  sf_histogram [f64_int 0; f64_int 5; f64_int 10] 58 None = Ok (counts, es) /\
  nth 29 es (f64_int 0) = f64_int 5 /\ nth 28 counts 0 = 1 /\ nth 29 counts 0 = 0.
Proof. do 2 eexists. split; [vm_compute; reflexivity|]. vm_compute. repeat split. Qed.

(* constant data: all edges coincide (numpy widens the range to [4.5, 5.5]); and no
   bins at all panics *)
Theorem C60_constant_refuted :
  sf_histogram [f64_int 5; f64_int 5] 2 None = Ok ([2; 0], [f64_int 5; f64_int 5; f64_int 5]) /\
  sf_histogram [f64_int 5] 0 None = Panic.
Proof. vm_compute. split; reflexivity. Qed.

(* histogramdd counts NaN samples, in bin 0; histogram does not *)
Theorem C60_nan_refuted :
  histogramdd (SFsub 53 1024) (SFdiv 53 1024) sf_nat sf_usize SFltb [2] [(f64_int 0, f64_int 1)] [[S754_nan]] = Ok [1; 0] /\
  exists es, sf_histogram [S754_nan] 2 (Some (f64_int 0, f64_int 1)) = Ok ([0; 0], es).
Proof. split; [vm_compute; reflexivity|]. eexists. vm_compute. reflexivity. Qed.

Print Assumptions C60_bincount.
Print Assumptions C60_bincount_other.
Print Assumptions C60_histogram_total.
Print Assumptions C60_histogram_auto.
Print Assumptions C60_bin_edges.
Print Assumptions C60_histogram2d.
Print Assumptions C60_histogramdd_partial.
Print Assumptions C60_histogram_bins_partial.
Print Assumptions C60_edge_refuted.
Print Assumptions C60_constant_refuted.
Print Assumptions C60_nan_refuted.
