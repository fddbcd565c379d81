(* median, percentile, quantile: C127, C128. *)
From Coq Require Import Permutation Sorted QArith Qcanon SpecFloat.
From Verif Require Import Base Lists Arr_Spec Arr_Model Arr_Wf Arr_Proofs Wf_Check Copy_Model Copy_Proofs Elem_Model Red_Spec Red_Model Red_Proofs
  Sort_Spec Sort_Model Sort_Proofs Sort_Select Sort_Api Rng_Model Stat_Spec Stat_Model Stat_Proofs Stat_Lanes Stat_Qc.
From Verif Require Msk_Proofs.
Local Open Scope nat_scope.

(* double arithmetic *)
Definition dadd := SFadd f64_prec f64_emax.
Definition dsub := SFsub f64_prec f64_emax.
Definition dmul := SFmul f64_prec f64_emax.
Definition ddiv := SFdiv f64_prec f64_emax.
(* partial_cmp(..).unwrap_or(Equal) is not Greater *)
Definition dleb (x y : spec_float) : bool := match SFcompare x y with Some Gt => false | _ => true end.
Definition dnan (x : spec_float) : bool := match x with S754_nan => true | _ => false end.
Definition dmax (x y : spec_float) : spec_float := if dnan x then y else if dnan y then x else if dleb x y then y else x.
Definition dn (k : nat) : spec_float := f64_int (Z.of_nat k).
(* floor and ceiling of a non-negative double as usize *)
Definition dfloor (x : spec_float) : nat :=
  match x with S754_finite false m e => Z.to_nat (Z.shiftl (Zpos m) e) | _ => 0 end.
Definition dceil (x : spec_float) : nat :=
  match x with S754_finite false m e => Z.to_nat (- Z.shiftl (Zneg m) e) | _ => 0 end.

(* the values of [l] that are not marked as missing *)
Definition present {K} (isnan : K -> bool) (l : list K) : list K := filter (fun v => negb (isnan v)) l.

(* ---- C127: the median ---- *)
Section Median.
Context {V K : Type}.
Variables (rd : V -> K) (leb : K -> K -> bool) (isnan : K -> bool) (zero two nan : K) (add div : K -> K -> K).
Variables (sel : (K -> K -> bool) -> list K -> nat -> list K) (ninf : K) (fmax : K -> K -> K).
Notation mid := (fun x y => div (add x y) two).

Theorem C127_median : forall f64 buf a vals, select_contract sel -> wf buf a -> elems buf a = map Some vals -> vals <> [] ->
  preorder_on leb (ninf :: map rd vals) -> max_from leb ninf fmax (map rd vals) ->
  exists m, median rd leb two nan add div sel ninf fmax f64 buf a = Ok m /\ is_median leb mid (map rd vals) m.
Proof. intros. apply (median_ok rd leb (fun _ => false)); assumption. Qed.
Theorem C127_nanmedian : forall f64 buf a vals, select_contract sel -> wf buf a -> elems buf a = map Some vals ->
  preorder_on leb (ninf :: present isnan (map rd vals)) -> max_from leb ninf fmax (present isnan (map rd vals)) ->
  exists m, nanmedian rd leb isnan two nan add div sel ninf fmax f64 buf a = Ok m /\
    (present isnan (map rd vals) <> [] -> is_median leb mid (present isnan (map rd vals)) m) /\
    (present isnan (map rd vals) = [] -> m = nan).
Proof. intros. apply nanmedian_ok; assumption. Qed.
(* along an axis of an array of two or more dimensions *)
Theorem C127_median_axis_partial : forall buf a axis n item, (0 < item)%Z -> wf buf a -> nth_error (a_shape a) axis = Some n -> 0 < n -> 2 <= ndim a ->
  (forall oi lv, lane buf a axis oi = map Some lv -> preorder_on leb (map rd lv)) ->
  exists out, median_axis rd leb zero two add div buf a axis = Ok (remove_at axis (a_shape a), out) /\ length out = prod (remove_at axis (a_shape a)) /\
    forall oi lv, inb oi (remove_at axis (a_shape a)) -> lane buf a axis oi = map Some lv ->
      exists m, get out (fresh (remove_at axis (a_shape a)) item) oi = Some m /\ is_median leb mid (map rd lv) m.
Proof. intros. apply (median_axis_ok rd leb (fun _ => false) zero two add div zero (fun x _ => x) buf a axis n item); assumption. Qed.
Theorem C127_nanmedian_axis : forall buf a axis n item, (0 < item)%Z -> wf buf a -> nth_error (a_shape a) axis = Some n -> 0 < n ->
  (forall oi lv, lane buf a axis oi = map Some lv -> preorder_on leb (present isnan (map rd lv))) ->
  exists out, nanmedian_axis rd leb isnan zero two nan add div buf a axis = Ok (reduced_shape axis (a_shape a), out) /\
    length out = prod (reduced_shape axis (a_shape a)) /\
    forall idx lv, inb idx (reduced_shape axis (a_shape a)) -> lane buf a axis (outer_of (a_shape a) idx) = map Some lv ->
      exists m, get out (fresh (reduced_shape axis (a_shape a)) item) idx = Some m /\
        (present isnan (map rd lv) <> [] -> is_median leb mid (present isnan (map rd lv)) m) /\ (present isnan (map rd lv) = [] -> m = nan).
Proof. intros. apply (nanmedian_axis_ok rd leb isnan zero two nan add div zero (fun x _ => x) buf a axis n item); assumption. Qed.
(* the median along the axis of a one-dimensional array panics *)
Theorem C127_axis_1d_refuted : forall buf a n, a_shape a = [S n] -> median_axis rd leb zero two add div buf a 0 = Panic.
Proof.
  intros buf a n E. unfold median_axis, at_. rewrite E. cbn [nth_error bind remove_at prod Nat.mul Nat.add Nat.eqb orb repeat length odometer mapM firstn skipn app seq].
  unfold get_element at 1. rewrite E. cbn [idx_ok]. rewrite andb_comm. reflexivity.
Qed.
End Median.
(* at most half of the values are below the median and at most half above *)
Theorem C127_halves : forall {K} (leb : K -> K -> bool) mid l m, total_preorder leb ->
  (forall x y, leb x y = true -> leb x (mid x y) = true /\ leb (mid x y) y = true) -> l <> [] -> is_median leb mid l m ->
  2 * length (filter (fun x => negb (leb m x)) l) <= length l /\ 2 * length (filter (fun x => negb (leb x m)) l) <= length l.
Proof. intros K leb mid l m TP MID NE IM. apply (median_halves leb TP mid l m); assumption. Qed.



Example C127_nonvacuous :
  median (fun z => z) Z.leb 2%Z 0%Z Z.add Z.div (fun leb l k => stable_sort leb l) (-100)%Z Z.max true [8; 1; 4; 3]%Z (fresh [4] 8) = Ok 3%Z /\
  median_axis (fun z => z) Z.leb 0%Z 2%Z Z.add Z.div [8; 1; 4; 3; 9; 5]%Z (fresh [2; 3] 8) 1 = Ok ([2], [4; 5]%Z) /\
  nanmedian_axis (fun z => z) Z.leb (Z.eqb 9) 0%Z 2%Z 77%Z Z.add Z.div [8; 1; 4; 3; 9; 5; 9; 9; 9]%Z (fresh [3; 3] 8) 1 = Ok ([3], [4; 4; 77]%Z).
Proof. split; [|split]; vm_compute; reflexivity. Qed.
(* a selection exists: sorting *)
Example C127_select_nonvacuous : forall {K} (leb : K -> K -> bool) l k, preorder_on leb l -> k < length l -> partitioned leb k l (stable_sort leb l).
Proof.
  intros K leb l k PO HK. pose proof (sorts_on leb l PO) as [P A]. split; [exact P|].
  destruct (nth_error (stable_sort leb l) k) as [v|] eqn:E; [|apply nth_error_None in E; rewrite stable_sort_length in E; lia].
  exists v. split; [reflexivity|]. split; intros i x Hi Ei.
  - exact (proj1 (SSorted_nth _ _) A i k x v Hi Ei E).
  - exact (proj1 (SSorted_nth _ _) A k i v x Hi E Ei).
Qed.
(* a NaN in the lane does not make the median NaN *)
Theorem C127_nan_refuted :
  median_axis (fun z => z) dleb (f64_int 0) (f64_int 2) dadd ddiv [S754_nan; f64_int 1; f64_int 2] (fresh [1; 3] 8) 1 = Ok ([1], [f64_int 1]).
Proof. vm_compute. reflexivity. Qed.
(* the median of no values along an axis is 0 *)
Theorem C127_empty_refuted :
  median_axis (fun z => z) dleb (f64_int 0) (f64_int 2) dadd ddiv [] (fresh [2; 0] 8) 1 = Ok ([2], [f64_int 0; f64_int 0]).
Proof. vm_compute. reflexivity. Qed.
(* the mid-point of two large finite doubles overflows *)
Definition large : spec_float := f64_int (2 ^ 1023).
Theorem C127_overflow_refuted :
  SFltb large (S754_infinity false) = true /\
  median_axis (fun z => z) dleb (f64_int 0) (f64_int 2) dadd ddiv [large; large] (fresh [1; 2] 8) 1 = Ok ([1], [S754_infinity false]).
Proof. split; vm_compute; reflexivity. Qed.

(* ---- C128: percentiles ---- *)
Section Exact.
Context {V : Type}.
Variables (rd : V -> Qc) (isnan : Qc -> bool) (nan : Qc).
Notation pct buf a q ax := (py_percentile rd qleb (qn 0) 1%Qc (qn 100) nan Qcplus Qcminus Qcmult Qcdiv qn qfloor qceil qleb buf a q ax).
Notation nanpct f64 buf a q ax := (py_nanpercentile rd qleb isnan (qn 0) 1%Qc (qn 100) nan Qcplus Qcminus Qcmult Qcdiv qn qfloor qceil qleb f64 buf a q ax).
Notation quant buf a q ax := (py_quantile rd qleb (qn 0) 1%Qc (qn 100) nan Qcplus Qcminus Qcmult Qcdiv qn qfloor qceil qleb buf a q ax).

Definition pct_ok (q : list Qc) : Prop := Forall (fun x => (0 <= x)%Qc /\ (x <= qn 100)%Qc) q.
Lemma pct_range q : forallb (in_range qleb (qn 0) (qn 100)) q = true <-> pct_ok q.
Proof.
  unfold pct_ok. rewrite forallb_forall, Forall_forall. split; intros H x Hx; specialize (H x Hx); unfold in_range in *.
  - apply andb_prop in H as [A B]. apply qleb_le in A, B. split; assumption.
  - destruct H as [A B]. apply qleb_le in A, B. change (qn 0) with 0%Qc. rewrite A, B. reflexivity.
Qed.
(* outside 0..100 there is an error *)
Theorem C128_range : forall buf a q ax, ~ pct_ok q -> pct buf a q ax = Err.
Proof.
  intros buf a q ax H. unfold py_percentile. destruct (forallb _ q) eqn:E; [|reflexivity]. apply pct_range in E. easy.
Qed.
(* over the whole array *)
Theorem C128_flat : forall buf a vals q, wf buf a -> elems buf a = map Some vals -> vals <> [] -> pct_ok q ->
  exists out, pct buf a q None = Ok ([length q], out) /\ length out = length q /\
    forall i x, nth_error q i = Some x -> exists v, nth_error out i = Some v /\ is_percentile (map rd vals) x v.
Proof.
  intros buf a vals q W E NE HQ. unfold py_percentile. rewrite (proj2 (pct_range q) HQ). unfold percentile, percentile_flat.
  pose proof (Msk_Proofs.elems_len buf a vals E) as S. destruct (Nat.eqb_spec (size a) 0) as [Z|Z]; [destruct vals; [easy|cbn in S; lia]|].
  rewrite (read_offsets buf a vals W E). cbn [bind].
  destruct (mapM_all2 (interpolate 1%Qc (qn 100) nan Qcplus Qcminus Qcmult Qcdiv qn qfloor qceil (stable_sort qleb (map rd vals))) (fun x v => is_percentile (map rd vals) x v) q) as (out & EO & F2).
  { intros x Hx. unfold pct_ok in HQ. rewrite Forall_forall in HQ. destruct (HQ x Hx). apply percentile_value; [|assumption|assumption]. destruct vals; [easy|discriminate]. }
  rewrite EO. cbn [bind]. exists out. split; [reflexivity|]. split; [apply (Forall2_len _ _ _ F2)|]. intros i x Hi. apply (Forall2_nth_l _ _ _ _ _ F2 Hi).
Qed.
(* along an axis: the qi-th percentile of the lane at idx *)
Theorem C128_axis_partial : forall buf a axis n q item, (0 < item)%Z -> wf buf a -> nth_error (a_shape a) axis = Some n -> 0 < n -> pct_ok q ->
  exists out, pct buf a q (Some axis) = Ok (percentile_shape (length q) (a_shape a) axis, out) /\
    length out = prod (percentile_shape (length q) (a_shape a) axis) /\
    forall qi x idx lv, nth_error q qi = Some x -> inb idx (reduced_shape axis (a_shape a)) -> lane buf a axis (outer_of (a_shape a) idx) = map Some lv ->
      exists v, get out (fresh (percentile_shape (length q) (a_shape a) axis) item) (if length q =? 1 then idx else qi :: idx) = Some v /\
        is_percentile (map rd lv) x v.
Proof.
  intros buf a axis n q item HI W Hn Hp HQ. unfold py_percentile. rewrite (proj2 (pct_range q) HQ). unfold percentile, percentile_axis.
  apply (percentile_lanes_ok rd (qn 0) _ (fun x l v => is_percentile l x v) buf a q axis n item HI W Hn Hp).
  intros oi lv x HL _ Hx. unfold pct_ok in HQ. rewrite Forall_forall in HQ. destruct (HQ x Hx). apply percentile_value; [|assumption|assumption].
  destruct lv; [cbn in HL; lia|discriminate].
Qed.
(* the values marked as missing do not count *)
Theorem C128_nan_flat : forall f64 buf a vals q, wf buf a -> elems buf a = map Some vals -> present isnan (map rd vals) <> [] -> pct_ok q ->
  exists out, nanpct f64 buf a q None = Ok ([length q], out) /\ length out = length q /\
    forall i x, nth_error q i = Some x -> exists v, nth_error out i = Some v /\ is_percentile (present isnan (map rd vals)) x v.
Proof.
  intros f64 buf a vals q W E NE HQ. unfold py_nanpercentile. rewrite (proj2 (pct_range q) HQ). unfold nanpercentile, nanpercentile_flat.
  rewrite (to_vec_spec rd buf f64 a vals W E). cbn [bind]. fold (present isnan (map rd vals)).
  destruct (Nat.eqb_spec (length (present isnan (map rd vals))) 0) as [Z|Z]; [apply length_zero_iff_nil in Z; congruence|].
  destruct (mapM_all2 (interpolate 1%Qc (qn 100) nan Qcplus Qcminus Qcmult Qcdiv qn qfloor qceil (stable_sort qleb (present isnan (map rd vals))))
    (fun x v => is_percentile (present isnan (map rd vals)) x v) q) as (out & EO & F2).
  { intros x Hx. unfold pct_ok in HQ. rewrite Forall_forall in HQ. destruct (HQ x Hx). apply percentile_value; assumption. }
  rewrite EO. cbn [bind]. exists out. split; [reflexivity|]. split; [apply (Forall2_len _ _ _ F2)|]. intros i x Hi. apply (Forall2_nth_l _ _ _ _ _ F2 Hi).
Qed.
Theorem C128_nan_axis_partial : forall f64 buf a axis n q item, (0 < item)%Z -> wf buf a -> nth_error (a_shape a) axis = Some n -> 0 < n -> pct_ok q ->
  exists out, nanpct f64 buf a q (Some axis) = Ok (percentile_shape (length q) (a_shape a) axis, out) /\
    forall qi x idx lv, nth_error q qi = Some x -> inb idx (reduced_shape axis (a_shape a)) -> lane buf a axis (outer_of (a_shape a) idx) = map Some lv ->
      exists v, get out (fresh (percentile_shape (length q) (a_shape a) axis) item) (if length q =? 1 then idx else qi :: idx) = Some v /\
        (present isnan (map rd lv) <> [] -> is_percentile (present isnan (map rd lv)) x v) /\ (present isnan (map rd lv) = [] -> v = nan).
Proof.
  intros f64 buf a axis n q item HI W Hn Hp HQ. unfold py_nanpercentile. rewrite (proj2 (pct_range q) HQ). unfold nanpercentile, nanpercentile_axis.
  destruct (percentile_lanes_ok rd (qn 0)
    (fun l x => let values := filter (fun v => negb (isnan v)) l in
      if length values =? 0 then Ok nan else interpolate 1%Qc (qn 100) nan Qcplus Qcminus Qcmult Qcdiv qn qfloor qceil (stable_sort qleb values) x)
    (fun x l v => (present isnan l <> [] -> is_percentile (present isnan l) x v) /\ (present isnan l = [] -> v = nan)) buf a q axis n item HI W Hn Hp)
    as (out & EO & _ & HO).
  { intros oi lv x HL _ Hx. cbv zeta. fold (present isnan (map rd lv)). destruct (Nat.eqb_spec (length (present isnan (map rd lv))) 0) as [Z|Z].
    - apply length_zero_iff_nil in Z. exists nan. rewrite Z. split; [reflexivity|]. split; [easy|reflexivity].
    - assert (present isnan (map rd lv) <> []) as NE by (intro Y; rewrite Y in Z; cbn in Z; lia).
      unfold pct_ok in HQ. rewrite Forall_forall in HQ. destruct (HQ x Hx) as [Q0 Q1].
      destruct (percentile_value nan _ x NE Q0 Q1) as (v & Ev & HV). exists v. split; [exact Ev|]. split; [intros _; exact HV|easy]. }
  exists out. split; [exact EO|exact HO].
Qed.
(* quantile(q) is percentile(100 q) *)
Theorem C128_quantile : forall buf a q ax, Forall (fun x => (0 <= x)%Qc /\ (x <= 1)%Qc) q ->
  quant buf a q ax = pct buf a (map (fun x => x * qn 100)%Qc q) ax.
Proof.
  intros buf a q ax H. unfold py_quantile, py_percentile.
  assert (forallb (in_range qleb (qn 0) 1%Qc) q = true) as ->.
  { apply forallb_forall. intros x Hx. rewrite Forall_forall in H. destruct (H x Hx) as [A B]. apply qleb_le in A, B. unfold in_range.
    change (qn 0) with 0%Qc. rewrite A, B. reflexivity. }
  assert (pct_ok (map (fun x => x * qn 100)%Qc q)) as R.
  { unfold pct_ok. rewrite Forall_map. eapply Forall_impl; [|exact H]. intros x [A B]. cbv beta.
    assert (0 <= qn 100)%Qc as P by (change 0%Qc with (qn 0); apply qn_le; lia). split.
    - replace 0%Qc with (0 * qn 100)%Qc by ring. apply Qcmult_le_compat_r; assumption.
    - replace (qn 100) with (1 * qn 100)%Qc at 2 by ring. apply Qcmult_le_compat_r; assumption. }
  rewrite (proj2 (pct_range _) R). reflexivity.
Qed.

(* the laws of percentiles, for the values over the whole array *)
Lemma flat_value buf a vals q out i x v : wf buf a -> elems buf a = map Some vals -> vals <> [] -> pct_ok q ->
  pct buf a q None = Ok ([length q], out) -> nth_error q i = Some x -> nth_error out i = Some v -> is_percentile (map rd vals) x v.
Proof.
  intros W E NE HQ EO Hx Hv. destruct (C128_flat buf a vals q W E NE HQ) as (out' & EO' & _ & HO). rewrite EO in EO'. injection EO' as <-.
  destruct (HO i x Hx) as (v' & Hv' & HP). rewrite Hv in Hv'. injection Hv' as <-. exact HP.
Qed.
Theorem C128_monotone : forall buf a vals q out i j x y v w, wf buf a -> elems buf a = map Some vals -> vals <> [] -> pct_ok q ->
  pct buf a q None = Ok ([length q], out) -> nth_error q i = Some x -> nth_error q j = Some y -> nth_error out i = Some v -> nth_error out j = Some w ->
  (x <= y)%Qc -> (v <= w)%Qc.
Proof.
  intros buf a vals q out i j x y v w W E NE HQ EO Hx Hy Hv Hw. apply (is_percentile_mono (map rd vals)).
  - apply (flat_value buf a vals q out i x v); assumption.
  - apply (flat_value buf a vals q out j y w); assumption.
Qed.
Theorem C128_between : forall buf a vals q out i v lo hi, wf buf a -> elems buf a = map Some vals -> vals <> [] -> pct_ok q ->
  pct buf a q None = Ok ([length q], out) -> nth_error out i = Some v -> i < length q ->
  (forall z, In z vals -> (lo <= rd z)%Qc /\ (rd z <= hi)%Qc) -> (lo <= v)%Qc /\ (v <= hi)%Qc.
Proof.
  intros buf a vals q out i v lo hi W E NE HQ EO Hv Hi B. destruct (nth_error q i) as [x|] eqn:Hx; [|apply nth_error_None in Hx; lia].
  apply (is_percentile_between (map rd vals) x); [apply (flat_value buf a vals q out i x v); assumption|].
  intros z Hz. apply in_map_iff in Hz as (u & <- & Hu). apply B. exact Hu.
Qed.
(* 0 is the smallest value, 100 the largest, 50 the median, 100 k / (n-1) the k-th smallest *)
Theorem C128_endpoints : forall buf a vals q out i x v, wf buf a -> elems buf a = map Some vals -> vals <> [] -> pct_ok q ->
  pct buf a q None = Ok ([length q], out) -> nth_error q i = Some x -> nth_error out i = Some v ->
  (x = 0%Qc -> kth_smallest qleb 0 (map rd vals) v) /\
  (x = qn 100 -> kth_smallest qleb (length vals - 1) (map rd vals) v) /\
  (x = qn 50 -> is_median qleb qmid (map rd vals) v) /\
  forall k, k < length vals -> 0 < length vals - 1 -> x = (qn (100 * k) / qn (length vals - 1))%Qc -> kth_smallest qleb k (map rd vals) v.
Proof.
  intros buf a vals q out i x v W E NE HQ EO Hx Hv. pose proof (flat_value buf a vals q out i x v W E NE HQ EO Hx Hv) as HP.
  assert (map rd vals <> []) as NM by (destruct vals; [easy|discriminate]). split; [|split; [|split]].
  - intros ->. apply is_percentile_0; assumption.
  - intros ->. rewrite <- (map_length rd vals). apply is_percentile_100; assumption.
  - intros ->. apply is_percentile_50; assumption.
  - intros k HK HN ->. apply is_percentile_knot; rewrite map_length; assumption.
Qed.
(* no other value is the percentile *)
Theorem C128_unique : forall l x v w, is_percentile l x v -> is_percentile l x w -> v = w.
Proof. exact is_percentile_fun. Qed.
End Exact.

Example C128_nonvacuous : exists u v,
  py_percentile (fun z => z) qleb (qn 0) 1%Qc (qn 100) (qn 0) Qcplus Qcminus Qcmult Qcdiv qn qfloor qceil qleb [qn 7; qn 1; qn 4; qn 2] (fresh [4] 8) [qn 50; qn 100; qn 10] None
    = Ok ([3], [u; qn 7; v]) /\ this u = 3%Q /\ this v = (13 # 10)%Q /\ wf [qn 7; qn 1; qn 4; qn 2] (fresh [4] 8).
Proof. eexists _, _. split; [vm_compute; reflexivity|]. split; [reflexivity|]. split; [reflexivity|]. apply wf_check_sound. vm_compute. reflexivity. Qed.
Example C128_axis_nonvacuous : exists out,
  py_percentile (fun z => z) qleb (qn 0) 1%Qc (qn 100) (qn 0) Qcplus Qcminus Qcmult Qcdiv qn qfloor qceil qleb
    [qn 7; qn 1; qn 4; qn 2; qn 9; qn 3] (fresh [2; 3] 8) [qn 50; qn 100] (Some 1) = Ok ([2; 2], out) /\ map this out = [4%Q; 3%Q; 7%Q; 9%Q].
Proof. eexists. split; vm_compute; reflexivity. Qed.

(* in doubles *)
Notation dpct buf a q ax := (py_percentile (fun z => z) dleb (f64_int 0) (f64_int 1) (f64_int 100) S754_nan dadd dsub dmul ddiv dn dfloor dceil SFleb buf a q ax).
(* a percentile of equal values can be larger than all of them *)
Theorem C128_bound_refuted : exists v, dpct [f64_int 3; f64_int 3] (fresh [2] 8) [f64_int 20] None = Ok ([1], [v]) /\ SFltb (f64_int 3) v = true.
Proof. eexists. split; vm_compute; reflexivity. Qed.
(* and a higher percentile lower *)
Theorem C128_monotone_refuted : exists v w, SFltb (ddiv (f64_int 3) (f64_int 4)) (f64_int 1) = true /\
  dpct [f64_int 3; f64_int 3] (fresh [2] 8) [ddiv (f64_int 3) (f64_int 4); f64_int 1] None = Ok ([2], [v; w]) /\ SFltb w v = true.
Proof. eexists _, _. split; [vm_compute; reflexivity|]. split; vm_compute; reflexivity. Qed.
(* a list of one percentile loses its axis; with several, a one-dimensional array keeps one of length 1 *)
Theorem C128_shape_refuted : exists out out',
  dpct [f64_int 3; f64_int 4] (fresh [1; 2] 8) [f64_int 50] (Some 1) = Ok ([1], out) /\
  dpct [f64_int 3; f64_int 4] (fresh [2] 8) [f64_int 0; f64_int 100] (Some 0) = Ok ([2; 1], out').
Proof. eexists _, _. split; vm_compute; reflexivity. Qed.
(* the percentile of no values is 0 *)
Theorem C128_empty_refuted : dpct [] (fresh [0] 8) [f64_int 50] None = Ok ([1], [f64_int 0]).
Proof. vm_compute. reflexivity. Qed.

Print Assumptions C127_median.
Print Assumptions C127_nanmedian.
Print Assumptions C127_median_axis_partial.
Print Assumptions C127_nanmedian_axis.
Print Assumptions C127_axis_1d_refuted.
Print Assumptions C127_halves.
Print Assumptions C127_nan_refuted.
Print Assumptions C127_empty_refuted.
Print Assumptions C127_overflow_refuted.
Print Assumptions C128_range.
Print Assumptions C128_flat.
Print Assumptions C128_axis_partial.
Print Assumptions C128_nan_flat.
Print Assumptions C128_nan_axis_partial.
Print Assumptions C128_quantile.
Print Assumptions C128_monotone.
Print Assumptions C128_between.
Print Assumptions C128_endpoints.
Print Assumptions C128_unique.
Print Assumptions C128_bound_refuted.
Print Assumptions C128_monotone_refuted.
Print Assumptions C128_shape_refuted.
Print Assumptions C128_empty_refuted.
