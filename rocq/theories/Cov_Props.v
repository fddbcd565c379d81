(* Covariance and correlation: C131. *)
From Coq Require Import QArith Qcanon Lqa.
From Verif Require Import Base Lists Arr_Spec Arr_Model Arr_Wf Arr_Proofs Arr_Hist Bcast_Model Bcast_Proofs Copy_Model Copy_Proofs Elem_Model Elem_Proofs
  Sort_Model Sort_Api Red_Spec Red_Proofs Promo_Spec Promo_Model Conv_Spec Mat_Model Mat_Spec Mat_Batch Mat_Laws Stat_Spec Stat_Qc Stat_Lanes Mean_Spec Mean_Model Mean_Proofs Mean_Props Cov_Spec Cov_Model.
Local Open Scope nat_scope.

Lemma qc_ring : ring_theory 0%Qc 1%Qc Qcplus Qcmult Qcminus Qcopp eq.
Proof. constructor; intros; ring. Qed.
Lemma qsum_cons x l : qsum (x :: l) = (x + qsum l)%Qc.
Proof. reflexivity. Qed.
Lemma big_qsum n g : big 0%Qc Qcplus n g = qsum (map g (seq 0 n)).
Proof.
  rewrite <- fold_qsum. induction n as [|n IH]; [reflexivity|]. rewrite seq_S, map_app, fold_left_app, <- IH. reflexivity.
Qed.
Lemma mean_axis_fresh x axis z : mean_axis 0%Qc Qcplus Qcdiv qn x axis = Ok z -> a_c (snd z) = true.
Proof.
  unfold mean_axis, binop. intros E. destruct (sum_axis _ _ _ _) as [s| | |]; [|discriminate..]. cbn [bind] in E. destruct (at_ _ _); [|discriminate..]. cbn [bind] in E.
  destruct (expect _) as [[sh out]| | |]; [|discriminate..]. cbn [bind] in E. injection E as <-. reflexivity.
Qed.
Lemma inb2 idx m n : inb idx [m; n] -> exists i j, idx = [i; j] /\ i < m /\ j < n.
Proof. intros H. inversion H as [|i ? r ? Hi Hr]; subst. inversion Hr as [|j ? r' ? Hj Hr']; subst. inversion Hr'; subst. eauto. Qed.
(* a column of m values as an m x 1 matrix *)
Lemma column_is {K} (x : list K * arr) m f : is_nda x [m] f -> a_c (snd x) = true ->
  exists a', reshape (snd x) [m; 1] = Ok a' /\ is_nda (fst x, a') [m; 1] (fun idx => f [nth 0 idx 0]).
Proof.
  intros (W & SX & IX & G) HC. destruct (reshape_c_is_view (fst x) (snd x) [m; 1] W HC) as (a' & E & S' & W' & G').
  { rewrite SX. cbn. lia. }
  exists a'. split; [exact E|]. split; [exact W'|]. split; [exact S'|]. split.
  - unfold reshape in E. destruct (negb _); [discriminate|]. destruct (_ && _); [discriminate|]. injection E as <-. exact IX.
  - intros idx Hi. cbn [fst snd]. destruct (G' idx Hi) as [Hr ->]. rewrite SX in *. destruct (inb2 idx m 1 Hi) as (i & j & -> & H1 & H2).
    assert (rm_unrank [m] (rm_rank [m; 1] [i; j]) = [i]) as ER.
    { rewrite rm_unrank_eq, rm_rank_eq. cbn [rank prod unrank nth]. rewrite Nat.div_1_r. f_equal. lia. }
    rewrite ER in *. apply G. exact Hr.
Qed.
Lemma row_mean f m n i : lane_of f [m; n] 1 n [i] = row f n i.
Proof. reflexivity. Qed.

Section Exact.
Variable nan : Qc.
Notation qcov_f x d := (cov 0%Qc nan Qcplus Qcminus Qcmult Qcdiv qn x d).

(* entry (i, j) of cov(x, ddof) is the covariance of rows i and j *)
Theorem C131_cov : forall x m n f ddof, is_nda x [m; n] f -> ddof < n -> small [m; n] -> small [m; m] ->
  exists z, qcov_f x ddof = Ok z /\ is_nda z [m; m] (fun idx => qcov ddof (row f n (nth 0 idx 0)) (row f n (nth 1 idx 0))).
Proof.
  intros x m n f ddof X HD S S2. pose proof X as (_ & SX & _). unfold cov. unfold ndim. rewrite SX. cbn [length Nat.eqb at_ nth_error bind]. unfold at_. cbn [nth_error bind].
  destruct (Nat.leb_spec n ddof); [lia|].
  destruct (C129_mean_axis x [m; n] f 1 n X eq_refl) as (mu & EM & HM); [lia|exact S|]. pose proof (mean_axis_fresh _ _ _ EM) as HC. rewrite EM. cbn [bind].
  change (reduced_shape 1 [m; n]) with [m] in HM. destruct (column_is mu m _ HM HC) as (m' & -> & HM'). cbn [expect bind].
  assert (BS : broadcast_shapes [m; n] [m; 1] = Some [m; n]) by (apply bshape_ones; repeat constructor; auto).
  destruct (binop_is Qcminus x (fst mu, m') _ _ _ _ _ X HM' BS S) as (c & -> & HCC). cbn [bind].
  assert (HC2 : is_nda c [m; n] (fun idx => Qcminus (f [nth 0 idx 0; nth 1 idx 0]) (qmean (row f n (nth 0 idx 0))))).
  { eapply is_nda_ext; [|exact HCC]. intros idx Hi. cbv beta. rewrite Lay_Copy.unbroadcast_same by exact Hi. destruct (inb2 idx m n Hi) as (i & j & -> & Hi1 & Hj1).
    rewrite <- (row_mean f m n). unfold unbroadcast. cbn [length Nat.sub skipn unstretch nth]. f_equal. f_equal. f_equal. f_equal. destruct (Nat.eqb_spec m 1); lia. }
  clear HCC. apply nda_operand in HC2.
  assert (M1 : matrix_of (Float64, c) Float64 m n (fun i k => f [i; k] - qmean (row f n i))%Qc) by exact HC2.
  pose proof (transpose_matrix _ _ _ _ _ M1) as M2.
  assert (BZ : (Z.of_nat (m * m) * itemsize Float64 < 2 ^ 63)%Z) by (unfold small in S2; cbn [prod itemsize] in *; replace (m * m) with (m * (m * 1)) by lia; exact S2).
  destruct (ring_product 0%Qc 1%Qc Qcplus Qcmult Qcminus Qcopp qc_ring (fun _ => true) (fun _ => 0%Qc) (fun _ => Qcplus) (fun _ => Qcmult) Float64
              (Float64, c) (with_arr (Float64, c) (transpose (snd c))) m n m _ _ (or_introl eq_refl) M1 M2 BZ) as (out & EO & HO).
  assert (matmul_f64 0%Qc Qcplus Qcmult c (fst c, transpose (snd c)) = Ok (snd out)) as ->.
  { transitivity (bind (expect (Ok out)) (fun o => Ok (snd o))); [rewrite <- EO; reflexivity|reflexivity]. }
  cbn [bind].
  destruct out as [k p]. pose proof HO as (HK & _). cbn in HK. subst k. cbn [snd]. unfold matrix_of in HO. apply nda_operand in HO.
  destruct (binop_const Qcdiv p _ _ (qn (n - ddof)) HO) as (z & EZ & Z); [discriminate|exact S2|]. exists z. split; [exact EZ|].
  eapply is_nda_ext; [|exact Z]. intros idx Hi. cbv beta. unfold product, flip2. rewrite big_qsum. unfold qcov.
  assert (forall i j, combine (row f n i) (row f n j) = map (fun k => (f [i; k], f [j; k])) (seq 0 n)) as EC.
  { intros i j. unfold row. apply combine_map. }
  rewrite EC, map_map. assert (forall i, length (row f n i) = n) as -> by (intros; unfold row; rewrite map_length; apply seq_length). cbn [fst snd]. reflexivity.
Qed.
(* one dimension: the variance with n - ddof in the denominator, as an array of one element *)
Theorem C131_cov_1d : forall x n f ddof, is_nda x [n] f -> ddof < n ->
  qcov_f x ddof = Ok ([let l := map (fun k => f [k]) (seq 0 n) in qcov ddof l l], fresh [1] 8).
Proof.
  intros x n f ddof X HD. pose proof X as (W & SX & _). unfold cov, ndim, size. rewrite SX. cbn [length Nat.eqb prod]. cbv zeta. rewrite Nat.mul_1_r.
  destruct (Nat.leb_spec n ddof); [lia|]. rewrite (C129_mean nan x [n] f X) by (cbn; lia). cbn [bind].
  rewrite (to_vec_spec (fun v => v) _ true _ _ W (is_nda_elems x _ f X)). cbn [bind]. rewrite map_id.
  assert (EA : map f (all_idx [n]) = map (fun k => f [k]) (seq 0 n)).
  { cbn [all_idx]. rewrite flat_map_concat_map, concat_map, map_map. cbn [map]. clear. generalize (seq 0 n). induction l as [|k l IH]; [reflexivity|]. cbn. f_equal. exact IH. }
  rewrite EA. set (l := map (fun k => f [k]) (seq 0 n)). rewrite fold_qsum. unfold qcov.
  assert (combine l l = map (fun v => (v, v)) l) as -> by (clear; induction l as [|v l IH]; cbn; congruence). rewrite map_map. cbn [fst snd].
  assert (length l = n) as -> by (unfold l; rewrite map_length; apply seq_length). reflexivity.
Qed.
End Exact.

(* ---- the laws of covariances ---- *)
Theorem C131_symmetric : forall ddof xs ys, length xs = length ys -> qcov ddof xs ys = qcov ddof ys xs.
Proof.
  intros ddof xs ys HL. unfold qcov. rewrite HL. f_equal. f_equal. generalize (qmean xs), (qmean ys). intros a b. revert ys HL.
  induction xs as [|x xs IH]; intros [|y ys] HL; try discriminate; [reflexivity|]. cbn. f_equal; [ring|]. apply IH. injection HL as HL. exact HL.
Qed.
Lemma qsum_scale c l : qsum (map (fun v => c * v)%Qc l) = (c * qsum l)%Qc.
Proof. rewrite (map_ext _ (fun v => c * v + 0)%Qc) by (intros; ring). rewrite qsum_affine. ring. Qed.
Lemma qsum_map_add {A} (f g : A -> Qc) l : qsum (map (fun x => f x + g x)%Qc l) = (qsum (map f l) + qsum (map g l))%Qc.
Proof.
  induction l as [|x l IH]; cbn [map]; [change (qsum []) with 0%Qc; ring|]. 
  change (qsum ((f x + g x)%Qc :: map (fun x => f x + g x)%Qc l)) with (f x + g x + qsum (map (fun x => f x + g x)%Qc l))%Qc.
  change (qsum (f x :: map f l)) with (f x + qsum (map f l))%Qc. change (qsum (g x :: map g l)) with (g x + qsum (map g l))%Qc. rewrite IH. ring.
Qed.
Lemma qsum_map_scale {A} c (f : A -> Qc) l : qsum (map (fun x => c * f x)%Qc l) = (c * qsum (map f l))%Qc.
Proof. rewrite <- (map_map f (fun v => c * v)%Qc). apply qsum_scale. Qed.
(* Cauchy and Schwarz *)
Lemma cauchy l : let A := qsum (map (fun p => fst p * fst p)%Qc l) in let B := qsum (map (fun p => snd p * snd p)%Qc l) in
  let C := qsum (map (fun p => fst p * snd p)%Qc l) in (C * C <= A * B)%Qc.
Proof.
  cbv zeta. set (A := qsum (map (fun p => fst p * fst p)%Qc l)). set (B := qsum (map (fun p => snd p * snd p)%Qc l)). set (C := qsum (map (fun p => fst p * snd p)%Qc l)).
  assert (0 <= B)%Qc as HB by (apply qsum_nonneg; intros x Hx; apply in_map_iff in Hx as (p & <- & _); apply qsq_nonneg).
  assert (0 <= B * (A * B - C * C))%Qc as HS.
  { replace (B * (A * B - C * C))%Qc with (qsum (map (fun p => (B * fst p - C * snd p) * (B * fst p - C * snd p))%Qc l)).
    - apply qsum_nonneg. intros x Hx. apply in_map_iff in Hx as (p & <- & _). apply qsq_nonneg.
    - rewrite (map_ext _ (fun p => (B * B) * (fst p * fst p) + ((- (B * C) - B * C) * (fst p * snd p) + (C * C) * (snd p * snd p)))%Qc) by (intros; ring).
      rewrite !qsum_map_add, !qsum_map_scale. fold A B C. ring. }
  destruct (Qc_eq_dec B 0) as [E|NE].
  - assert (C = 0)%Qc as ->.
    { unfold C. assert (forall p, In p l -> snd p = 0%Qc) as Z.
      { intros p Hp. assert (snd p * snd p = 0)%Qc as Q.
        { apply (qsum_zero (map (fun p => snd p * snd p)%Qc l)); [|exact E|apply (in_map (fun p => snd p * snd p)%Qc); exact Hp].
          intros x Hx. apply in_map_iff in Hx as (q & <- & _). apply qsq_nonneg. }
        apply Qcmult_integral in Q as [Q|Q]; exact Q. }
      rewrite (map_ext_in _ (fun _ => 0 * 0)%Qc) by (intros p Hp; rewrite (Z p Hp); ring). clear. induction l as [|x l IH]; [reflexivity|].
      change (0 * 0 + qsum (map (fun _ : Qc * Qc => 0 * 0) l) = 0)%Qc. rewrite IH. ring. }
    rewrite E. qlra.
  - assert (0 < B)%Qc as PB. { apply Qcle_lt_or_eq in HB as [H|H]; [exact H|congruence]. }
    clearbody A B C. qnra.
Qed.
Lemma qcov_self_nonneg ddof xs : ddof < length xs -> (0 <= qcov ddof xs xs)%Qc.
Proof.
  intros H. unfold qcov. apply qdiv_nonneg; [|lia]. apply qsum_nonneg. intros v Hv. apply in_map_iff in Hv as ([a b] & <- & Hp).
  assert (a = b) as ->; [|apply qsq_nonneg]. clear - Hp. induction xs as [|x xs IH]; [easy|]. destruct Hp as [E|Hp]; [congruence|apply IH, Hp].
Qed.
Lemma combine_diag {A} (l : list A) : combine l l = map (fun v => (v, v)) l.
Proof. induction l as [|v l IH]; cbn; congruence. Qed.
Lemma combine_fst {A B C} (g : A -> C) (l : list A) : forall m : list B, length l = length m -> map (fun p => g (fst p)) (combine l m) = map g l.
Proof. induction l as [|x l IH]; intros [|y m] H; try discriminate; [reflexivity|]. cbn. f_equal. apply IH. injection H as H. exact H. Qed.
Lemma combine_snd {A B C} (g : B -> C) (l : list A) : forall m : list B, length l = length m -> map (fun p => g (snd p)) (combine l m) = map g m.
Proof. induction l as [|x l IH]; intros [|y m] H; try discriminate; [reflexivity|]. cbn. f_equal. apply IH. injection H as H. exact H. Qed.
Theorem C131_cauchy_schwarz : forall ddof xs ys, length xs = length ys -> ddof < length xs ->
  (0 <= qcov ddof xs xs)%Qc /\ (qcov ddof xs ys * qcov ddof xs ys <= qcov ddof xs xs * qcov ddof ys ys)%Qc.
Proof.
  intros ddof xs ys HL HD. split; [apply qcov_self_nonneg; exact HD|].
  unfold qcov. rewrite <- HL, !combine_diag, !map_map. cbn [fst snd]. set (mx := qmean xs). set (my := qmean ys).
  pose proof (cauchy (map (fun p => (fst p - mx, snd p - my)%Qc) (combine xs ys))) as C. cbv zeta in C. rewrite !map_map in C. cbn [fst snd] in C.
  rewrite (combine_fst (fun v => (v - mx) * (v - mx))%Qc xs ys HL), (combine_snd (fun v => (v - my) * (v - my))%Qc xs ys HL) in C.
  set (A := qsum (map (fun v => (v - mx) * (v - mx))%Qc xs)) in *. set (B := qsum (map (fun v => (v - my) * (v - my))%Qc ys)) in *.
  set (D := qsum (map (fun p => (fst p - mx) * (snd p - my))%Qc (combine xs ys))) in *. assert (0 < length xs - ddof) as HN by lia. pose proof (qn_nz _ HN) as NZ.
  set (N := qn (length xs - ddof)) in *. assert (0 <= (/ N) * (/ N))%Qc as HI by apply qsq_nonneg. unfold Qcdiv.
  replace (D * / N * (D * / N))%Qc with (D * D * (/ N * / N))%Qc by ring. replace (A * / N * (B * / N))%Qc with (A * B * (/ N * / N))%Qc by ring.
  apply Qcmult_le_compat_r; assumption.
Qed.
(* the covariance of a row with a sum of rows: bilinear, hence no combination of the rows has a negative variance *)
Theorem C131_bilinear : forall ddof (u v w : list Qc) a b, length u = length w -> length v = length w -> w <> [] ->
  qcov ddof (map (fun p => a * fst p + b * snd p)%Qc (combine u v)) w = (a * qcov ddof u w + b * qcov ddof v w)%Qc.
Proof.
  intros ddof u v w a b HU HV NE. assert (HUV : length u = length v) by congruence.
  assert (qmean (map (fun p => a * fst p + b * snd p)%Qc (combine u v)) = a * qmean u + b * qmean v)%Qc as EM.
  { unfold qmean. rewrite map_length, combine_length, <- HUV, Nat.min_id. rewrite qsum_map_add.
    rewrite (qsum_map_scale a (fun p => fst p)), (qsum_map_scale b (fun p => snd p)), (combine_fst (fun v => v) u v HUV), (combine_snd (fun v => v) u v HUV), !map_id.
    unfold Qcdiv. ring. }
  unfold qcov. rewrite EM, map_length, combine_length, <- HUV, Nat.min_id. rewrite HUV. clear EM.
  generalize (qmean u), (qmean v), (qmean w), (qn (length v - ddof)). intros mu mv mw N. unfold Qcdiv.
  rewrite Qcmult_assoc, (Qcmult_assoc b). rewrite <- Qcmult_plus_distr_l. f_equal. clear NE.
  revert v w HU HV HUV. induction u as [|x u IH]; intros [|y v] [|z w] HU HV HUV; try discriminate; [change (qsum (map ?f (combine [] []))) with 0%Qc; cbn; ring|].
  injection HU as HU. injection HV as HV. injection HUV as HUV. specialize (IH v w HU HV HUV). cbn [combine map fst snd].
  rewrite !qsum_cons, IH. ring.
Qed.

(* ---- correlation ---- *)
(* corr(i, j) = cov(i, j) / sqrt(cov(i, i) cov(j, j)), and 1 on the diagonal; for arrays
   whose standard deviations are rational *)
Section Corr.
Variables (nan : Qc) (sqrt : Qc -> Qc).
Notation qcorr x := (corrcoef 0%Qc 1%Qc nan Qcplus Qcminus Qcmult Qcdiv qn qzero sqrt x).
Definition qcorrelation (u v : list Qc) (same : bool) : Qc :=
  let su := sqrt (qcov 1 u u) in let sv := sqrt (qcov 1 v v) in
  if qzero su || qzero sv then (if same then 1%Qc else nan) else (qcov 1 u v / (su * sv))%Qc.
Theorem C131_corrcoef : forall x m n f, is_nda x [m; n] f -> 1 < n -> small [m; n] -> small [m; m] ->
  exists z, qcorr x = Ok z /\ is_nda z [m; m] (fun idx => qcorrelation (row f n (nth 0 idx 0)) (row f n (nth 1 idx 0)) (nth 0 idx 0 =? nth 1 idx 0)).
Proof.
  intros x m n f X HD S S2. pose proof X as (_ & SX & _). unfold corrcoef. unfold ndim. rewrite SX. cbn [length Nat.eqb].
  destruct (C131_cov nan x m n f 1 X HD S S2) as (c & -> & HC). cbn [bind]. pose proof HC as (WC & SC & IC & GC). rewrite SC. unfold at_. cbn [nth_error bind].
  destruct (diagonal_is_view (fst c) (snd c) m m WC SC) as (d & -> & SD & WD & GD). rewrite Nat.min_id in *. cbn [bind].
  assert (forall i, i < m -> get_element (fst c) d [i] = Ok (qcov 1 (row f n i) (row f n i))) as ED.
  { intros i Hi. assert (inb [i] [m]) as HI by (repeat constructor; exact Hi). destruct (GD [i] HI) as [HI' E]. unfold get_element. rewrite SD, (proj2 (Idx_Assign.idx_ok_iff _ _) HI), E.
    rewrite SC in HI'. rewrite (GC _ HI'). reflexivity. }
  assert (forall i j, i < m -> j < m -> get_element (fst c) (snd c) [i; j] = Ok (qcov 1 (row f n i) (row f n j))) as EE.
  { intros i j Hi Hj. assert (inb [i; j] [m; m]) as HI by (repeat constructor; assumption). unfold get_element. rewrite SC, (proj2 (Idx_Assign.idx_ok_iff _ _) HI), (GC _ HI). reflexivity. }
  rewrite (mapM_ok _ (fun i => map (fun j => qcorrelation (row f n i) (row f n j) (i =? j)) (seq 0 m))).
  - cbn [bind]. eexists. split; [reflexivity|].
    assert (concat (map (fun i => map (fun j => qcorrelation (row f n i) (row f n j) (i =? j)) (seq 0 m)) (seq 0 m)) =
            map (fun idx => qcorrelation (row f n (nth 0 idx 0)) (row f n (nth 1 idx 0)) (nth 0 idx 0 =? nth 1 idx 0)) (all_idx [m; m])) as ->.
    { cbn [all_idx]. rewrite flat_map_concat_map, concat_map, map_map. f_equal. apply map_ext. intros i. rewrite map_map, flat_map_concat_map. cbn [map].
      rewrite <- (map_map (fun j => [j]) (fun l => qcorrelation (row f n i) (row f n (nth 0 l 0)) (i =? nth 0 l 0))). 
      change (fun l => qcorrelation (row f n i) (row f n (nth 0 l 0)) (i =? nth 0 l 0)) with (fun l => qcorrelation (row f n i) (row f n (nth 1 (i :: l) 0)) (i =? nth 1 (i :: l) 0)).
      cbn [nth]. f_equal. generalize (seq 0 m). induction l as [|k l IH]; [reflexivity|]. cbn. f_equal. exact IH. }
    apply fresh_is. exact S2.
  - intros i Hi. apply in_seq in Hi. rewrite ED by lia. cbn [bind]. apply mapM_ok. intros j Hj. apply in_seq in Hj. rewrite ED by lia. cbn [bind]. rewrite EE by lia. cbn [bind]. reflexivity.
Qed.
(* with exact roots the entries lie between -1 and 1, the diagonal is 1 and the matrix is symmetric *)
Theorem C131_corr_range : forall u v same, length u = length v -> 1 < length u ->
  (forall w, w = u \/ w = v -> 0 <= sqrt (qcov 1 w w) /\ sqrt (qcov 1 w w) * sqrt (qcov 1 w w) = qcov 1 w w)%Qc ->
  (qcorrelation u u true = 1)%Qc /\ qcorrelation u v same = qcorrelation v u same /\
  (sqrt (qcov 1 u u) <> 0 -> sqrt (qcov 1 v v) <> 0 -> - (1) <= qcorrelation u v same /\ qcorrelation u v same <= 1)%Qc.
Proof.
  intros u v same HL HN HS. destruct (HS u (or_introl eq_refl)) as [U0 U1]. destruct (HS v (or_intror eq_refl)) as [V0 V1].
  split; [|split].
  - unfold qcorrelation, qzero. destruct (Qc_eq_dec _ _) as [E|NE]; [reflexivity|]. cbn [orb]. rewrite <- U1 at 1. field. exact NE.
  - unfold qcorrelation. cbv zeta. rewrite (C131_symmetric 1 u v HL), orb_comm. destruct (_ || _); [reflexivity|]. f_equal. ring.
  - intros NU NV. unfold qcorrelation, qzero. cbv zeta. destruct (Qc_eq_dec _ _); [contradiction|]. destruct (Qc_eq_dec _ _); [contradiction|]. cbn [orb].
    destruct (C131_cauchy_schwarz 1 u v HL HN) as [_ CS]. rewrite <- U1, <- V1 in CS. set (a := sqrt (qcov 1 u u)) in *. set (b := sqrt (qcov 1 v v)) in *. set (c := qcov 1 u v) in *.
    assert (0 < a * b)%Qc as P. { apply Qcle_lt_or_eq in U0 as [U0|U0]; [|congruence]. apply Qcle_lt_or_eq in V0 as [V0|V0]; [|congruence]. clear - U0 V0. qnra. }
    assert (c / (a * b) * (a * b) = c)%Qc as EQ by (field; split; assumption). set (r := (c / (a * b))%Qc) in *. set (q := (a * b)%Qc) in *.
    replace (a * a * (b * b))%Qc with (q * q)%Qc in CS by (unfold q; ring). rewrite <- EQ in CS. clearbody r q. clear - CS P.
    assert (r * r <= 1)%Qc as RR.
    { apply Qcnot_lt_le. intro H. assert (0 < q * q)%Qc by (clear - P; qnra). assert (q * q < r * r * (q * q))%Qc by (set (k := (q * q)%Qc) in *; set (s := (r * r)%Qc) in *; clearbody k s; clear - H H0; qnra).
      replace (r * q * (r * q))%Qc with (r * r * (q * q))%Qc in CS by ring. exact (Qclt_not_le _ _ H1 CS). }
    clear - RR. split; qnra.
Qed.
End Corr.

Definition c23 : list Qc * arr := ([qn 1; qn 2; qn 3; qn 6; qn 4; qn 2], fresh [2; 3] 8).
Definition root (x : Qc) : Qc := if Qc_eq_dec x (qn 4) then qn 2 else x.
Example C131_nonvacuous : exists z w, cov 0%Qc 0%Qc Qcplus Qcminus Qcmult Qcdiv qn c23 1 = Ok z /\ map this (fst z) = [1; - (2); - (2); 4]%Q /\
  corrcoef 0%Qc 1%Qc 0%Qc Qcplus Qcminus Qcmult Qcdiv qn qzero root c23 = Ok w /\ map this (fst w) = [1; - (1); - (1); 1]%Q.
Proof. eexists _, _. split; [vm_compute; reflexivity|]. split; [vm_compute; reflexivity|]. split; vm_compute; reflexivity. Qed.
(* a scalar has no axis to index, three dimensions cannot be reshaped: cov panics *)
Theorem C131_ndim_refuted :
  cov 0%Qc 0%Qc Qcplus Qcminus Qcmult Qcdiv qn ([qn 5], fresh [] 8) 1 = Panic /\
  cov 0%Qc 0%Qc Qcplus Qcminus Qcmult Qcdiv qn (map qn (seq 0 12), fresh [2; 3; 2] 8) 1 = Panic.
Proof. split; vm_compute; reflexivity. Qed.
(* one-dimensional input is not looked at: a constant or empty sample, whose correlation is
   undefined (0/0), gives 1 as well *)
Theorem C131_corr_1d_refuted : forall zero one nan add sub mul div (of_nat : nat -> Qc) is_zero sqrt (x : list Qc * arr), ndim (snd x) = 1 ->
  corrcoef zero one nan add sub mul div of_nat is_zero sqrt x = Ok ([one], fresh [1; 1] 8).
Proof. intros. unfold corrcoef. rewrite H. reflexivity. Qed.

Print Assumptions C131_cov.
Print Assumptions C131_cov_1d.
Print Assumptions C131_symmetric.
Print Assumptions C131_cauchy_schwarz.
Print Assumptions C131_bilinear.
Print Assumptions C131_corrcoef.
Print Assumptions C131_corr_range.
Print Assumptions C131_ndim_refuted.
Print Assumptions C131_corr_1d_refuted.
