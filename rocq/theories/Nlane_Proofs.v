(* Proofs about nanmean and nanvar along an axis. *)
From Coq Require Import SpecFloat.
From Verif Require Import Base Lists Int_Model Int_Proofs F64_Model Arr_Spec Arr_Model Arr_Wf Arr_Proofs Wf_Check Bcast_Model Bcast_Proofs Copy_Model Copy_Proofs Idx_Model Idx_Assign Elem_Model Elem_Proofs Rng_Model Date_Model New_Model Promo_Spec Promo_Model Promo_Proofs Promo_Props SF_Proofs SF_Arith SF_Cmp Cast_Spec Cast_Model Cast_SF Cast_Proofs Cast_Laws Cast_Props Close_Proofs Bitw_Spec Bitw_Model Bitw_Proofs Rnd_Spec Rnd_Model Rnd_Proofs Rnd_Round Rnd_Props Ari_Spec SF_Round Ari_Model Ari_Proofs Ari_Ord Ari_Next Ari_Props Red_Spec Red_Model Red_Proofs Cpx_Spec Cpx_Model Cpx_Proofs CpxA_Spec CpxA_Proofs Fred_Spec Fred_Model Fred_Proofs Fred_Props Sqrt_Spec Sqrt_Model Sqrt_Proofs Sqrt_Half Var_Spec Var_Model Var_Proofs Nmean_Spec Nmean_Model Nmean_Proofs Nlane_Model.
From Verif Require Cum_Proofs Bits_Proofs Axes_Proofs.
Local Open Scope nat_scope.

Lemma insert_split {A} axis (v : A) l : axis <= length l -> insert_at axis v l = firstn axis l ++ v :: skipn axis l.
Proof. revert axis. induction l as [|x l IH]; intros [|axis] H; cbn in *; try lia; try reflexivity. rewrite IH by lia. reflexivity. Qed.
Lemma lane_start_at sh axis n idx j : nth_error sh axis = Some n -> inb idx (reduced_shape axis sh) -> upd (lane_start (length sh) axis idx) axis j = insert_at axis j (outer_of sh idx).
Proof.
  intros Hn HI. assert (axis < length sh) as HA by (apply nth_error_Some; rewrite Hn; discriminate). unfold lane_start.
  destruct sh as [|s [|s' sh]]; [cbn in HA; lia| |].
  - cbn [length] in *. assert (axis = 0) as -> by lia. reflexivity.
  - assert (length idx = length (s :: s' :: sh) - 1) as HL.
    { rewrite <- (remove_at_length axis) by exact HA. assert (reduced_shape axis (s :: s' :: sh) = remove_at axis (s :: s' :: sh)) as ER.
      { unfold reduced_shape. pose proof (remove_at_length axis (s :: s' :: sh) HA) as L. destruct (remove_at axis (s :: s' :: sh)); [cbn in L; lia|reflexivity]. }
      rewrite ER in HI. apply inb_length. exact HI. }
    cbn [outer_of]. set (m := length (s :: s' :: sh)) in *. rewrite Nat.min_l by lia. rewrite insert_split by lia.
    rewrite upd_app_r by (rewrite firstn_length; lia). rewrite firstn_length, Nat.min_l, Nat.sub_diag by lia. cbn [app upd]. f_equal. f_equal.
    destruct (Nat.ltb_spec axis (m - 1)); [reflexivity|]. symmetry. apply skipn_all2. lia.
Qed.
Lemma lane_f64_spec x axis n idx lv : good x -> nth_error (shape_of x) axis = Some n -> inb idx (reduced_shape axis (shape_of x)) ->
  Red_Spec.lane (n_buf x) (n_arr x) axis (outer_of (shape_of x) idx) = map Some lv -> lane_f64 x axis n (lane_start (length (shape_of x)) axis idx) = Ok (map as_f64 lv).
Proof.
  intros G Hn HI EL. pose proof G as (_ & W & _). pose proof (wf_map as_f64 _ _ W) as W'. pose proof (lane_map as_f64 _ _ _ _ _ EL) as EM. destruct (outer_of_inb axis _ n idx Hn HI) as [HO _].
  unfold lane_f64, Red_Spec.lane in *. unfold shape_of in *. rewrite (nth_error_nth _ _ 0 Hn) in EM. clear EL.
  assert (forall js l, (forall j, In j js -> j < n) -> map (fun j => get (map as_f64 (n_buf x)) (n_arr x) (insert_at axis j (outer_of (a_shape (n_arr x)) idx))) js = map Some l ->
          mapM (fun j => get_element (map as_f64 (n_buf x)) (n_arr x) (upd (lane_start (length (a_shape (n_arr x))) axis idx) axis j)) js = Ok l) as H.
  { induction js as [|j js IH]; intros [|v l] HJ E; try discriminate E; [reflexivity|]. cbn [map] in E. injection E as E1 E2. cbn [mapM]. rewrite (lane_start_at _ _ n) by assumption.
    destruct (get_element_ok (map as_f64 (n_buf x)) (n_arr x) (insert_at axis j (outer_of (a_shape (n_arr x)) idx)) W') as (w & EW & GW).
    { apply (lane_inb _ _ _ _ n); [exact Hn|exact HO|apply HJ; left; reflexivity]. }
    rewrite EW. cbn [bind]. rewrite (IH l (fun k Hk => HJ k (or_intror Hk)) E2). cbn [bind]. congruence. }
  apply H; [|exact EM]. intros j Hj. apply in_seq in Hj. lia.
Qed.
(* the result, lane by lane *)
Lemma nan_lanes_spec k x axis n f : numeric k = true -> good x -> nth_error (shape_of x) axis = Some n -> n <> 0 ->
  exists z, nan_reduce_lanes k x axis f = Ok z /\ n_kind z = k /\ shape_of z = reduced_shape axis (shape_of x) /\
    forall idx, inb idx (shape_of z) -> exists lv, Red_Spec.lane (n_buf x) (n_arr x) axis (outer_of (shape_of x) idx) = map Some lv /\ length lv = n /\
      item_at z idx = Some (write_f64 k (f (map as_f64 lv))).
Proof.
  intros NK G Hn N0. pose proof G as (_ & W & _). unfold nan_reduce_lanes. unfold shape_of in Hn. rewrite Hn. fold (reduced_shape axis (a_shape (n_arr x))). set (osh := reduced_shape axis (a_shape (n_arr x))).
  destruct (Nat.eqb_spec n 0) as [|_]; [contradiction|]. rewrite orb_false_r. destruct (Nat.eqb_spec (prod osh) 0) as [P0|P0].
  - eexists. split; [reflexivity|]. split; [reflexivity|]. split; [reflexivity|]. intros idx HI. exfalso. cbn [shape_of n_arr a_shape fresh] in HI. pose proof (rank_lt _ _ HI). lia.
  - rewrite odometer_all.
    assert (HL : forall idx, inb idx osh -> exists lv, Red_Spec.lane (n_buf x) (n_arr x) axis (outer_of (a_shape (n_arr x)) idx) = map Some lv /\ length lv = n).
    { intros idx HI. destruct (outer_of_inb axis _ n idx Hn HI) as [HO _]. apply Red_Proofs.lane_vals; assumption. }
    set (h := fun out => bind (lane_f64 x axis n (lane_start (length (a_shape (n_arr x))) axis out)) (fun d => Ok (write_f64 k (f d)))).
    destruct (mapM_all_ok h (all_idx osh)) as [ys EY].
    { intros idx HI. apply in_all_idx in HI. destruct (HL idx HI) as (lv & EL & _). unfold h. pose proof (lane_f64_spec x axis n idx lv G Hn HI EL) as LS. unfold shape_of in LS. rewrite LS. eexists. reflexivity. }
    rewrite EY. cbn [bind]. eexists. split; [reflexivity|]. split; [reflexivity|]. split; [reflexivity|]. intros idx HI. cbn [shape_of n_arr a_shape fresh] in HI.
    destruct (HL idx HI) as (lv & EL & LN). exists lv. split; [exact EL|]. split; [exact LN|].
    destruct (mapM_all_idx_get h osh ys (itemsize k) idx (item_pos k NK) EY HI) as (w & EW & GW). unfold h in GW. pose proof (lane_f64_spec x axis n idx lv G Hn HI EL) as LS. unfold shape_of in LS. rewrite LS in GW. cbn [bind] in GW. injection GW as <-. exact EW.
Qed.
Lemma lane_mean_is d : lane_mean d = mean_of (filter (fun v => negb (is_nan v)) d).
Proof. unfold lane_mean. rewrite nan_add_fold. reflexivity. Qed.
Lemma deviation_nan_mean l s : l <> [] -> fold_left (deviation S754_nan) l s = S754_nan.
Proof.
  intros NE. destruct l as [|v l]; [contradiction|]. cbn [fold_left]. assert (deviation S754_nan s v = S754_nan) as -> by (unfold deviation; destruct v; cbn [SFsub SFmul]; destruct s; reflexivity).
  clear. induction l as [|v l IH]; [reflexivity|exact IH].
Qed.
Lemma lane_var_is d : lane_var d = var_of (filter (fun v => negb (is_nan v)) d).
Proof.
  unfold lane_var. rewrite nan_add_fold. cbn [Nat.add]. set (l := filter _ d).
  assert (forall m s, fold_left (fun s v => if is_nan v then s else deviation m s v) d s = fold_left (deviation m) l s) as HF.
  { intros m. unfold l. clear l. induction d as [|v d IH]; intros s; [reflexivity|]. cbn [fold_left filter]. destruct (is_nan v); cbn [negb]; [apply IH|]. cbn [fold_left]. apply IH. }
  unfold var_of, mean_of. destruct (Nat.eqb_spec (length l) 0) as [H0|H0]; [reflexivity|]. cbv zeta. rewrite HF.
  set (m := SFdiv 53 1024 (fold_left (SFadd 53 1024) l (S754_zero false)) (f64_int (Z.of_nat (length l)))). clearbody m. destruct (is_nan m) eqn:HN; [|reflexivity]. destruct m; try discriminate HN. rewrite deviation_nan_mean; [reflexivity|]. destruct l; [contradiction|discriminate].
Qed.
(* every lane is the elements of some array *)
Lemma lane_array x axis n idx lv : real_array x -> nth_error (shape_of x) axis = Some n -> inb idx (reduced_shape axis (shape_of x)) ->
  Red_Spec.lane (n_buf x) (n_arr x) axis (outer_of (shape_of x) idx) = map Some lv -> length lv = n ->
  real_array (row (n_kind x) lv) /\ listed (row (n_kind x) lv) lv.
Proof.
  intros [G R] Hn HI EL LN. pose proof G as (N & W & HE & HB). destruct (outer_of_inb axis _ n idx Hn HI) as [HO _]. pose proof (rank_lt _ _ HO) as HP.
  pose proof (prod_remove_at axis (shape_of x) n Hn) as PR. unfold shape_of in *.
  assert (prod [length lv] = length lv) as P1 by (cbn [prod]; lia).
  split; [split; [|exact R]|].
  - apply Cum_Proofs.fresh_good; [exact N|symmetry; exact P1| |].
    + rewrite P1, LN. assert (n <= prod (a_shape (n_arr x))) by nia. lia.
    + apply Forall_forall. intros v Hv. rewrite Forall_forall in HE. apply HE. assert (In (Some v) (map Some lv)) as HS by (apply in_map; exact Hv). rewrite <- EL in HS.
      unfold Red_Spec.lane in HS. apply in_map_iff in HS as (j & EJ & _). exact (load_in _ _ _ _ EJ).
  - unfold listed, row. cbn [n_buf n_arr]. apply Bits_Proofs.elems_fresh; [apply item_pos; exact N|symmetry; exact P1].
Qed.
Lemma nan_full_spec op y vals : real_array y -> listed y vals -> n_kind y <> Float64 -> n_kind y <> Float32 -> nan_total op y = Ok (lane_red op (map as_f64 vals)).
Proof.
  intros [G R] E K1 K2. unfold nan_total. assert (nan_dispatch op y = Ok None) as -> by (unfold nan_dispatch; destruct (n_kind y); try reflexivity; contradiction). cbn [bind]. unfold nan_reduce_full.
  assert (size (n_arr y) = length vals) as SZ by (unfold listed, elems in E; apply (f_equal (@length _)) in E; rewrite !map_length, all_idx_length in E; exact E). rewrite SZ.
  destruct (Nat.eqb_spec (length vals) 0) as [H0|H0]; [destruct vals; [reflexivity|discriminate H0]|]. fold (all_f64 y). rewrite (all_f64_spec y vals G E). reflexivity.
Qed.
Lemma red_axis_other op x axis : n_kind x <> Float64 -> n_kind x <> Float32 -> nan_red_axis op x axis = nan_reduce_lanes (n_kind x) x axis (lane_red op).
Proof. intros H1 H2. unfold nan_red_axis. destruct (n_kind x); try reflexivity; contradiction. Qed.
(* sums of whole numbers *)
Lemma lane_sum_whole zs l : Forall2 is_whole zs l -> (size_sum zs < 2 ^ 53)%Z -> is_whole (whole_sum zs) (lane_red RSum l).
Proof.
  intros HF HS. assert (forall l s b, Forall (fun v => is_nan v = false) l -> fst (fold_left (full_step RSum) l (s, b)) = fold_left (SFadd 53 1024) l s) as H.
  { clear. induction l as [|v l IH]; intros s b HN; [reflexivity|]. inversion HN as [|? ? H1 H2]; subst. cbn [fold_left]. unfold full_step at 2. rewrite H1. cbn [fst full_comb]. apply IH. exact H2. }
  unfold lane_red. rewrite H; [apply sum_whole; assumption|]. clear - HF. induction HF as [|z v zs l [_ HV] HF IH]; constructor; [destruct v; try reflexivity; discriminate HV|exact IH].
Qed.
(* the greatest and the least of whole numbers *)
Lemma ints_whole zs : Forall (fun z => Z.abs z < 2 ^ 53)%Z zs -> Forall2 is_whole zs (map as_f64 (map SInt zs)).
Proof. induction 1 as [|z zs H HF IH]; cbn [map]; constructor; [apply count_whole; exact H|exact IH]. Qed.
Lemma lane_best_whole up zs l : Forall2 is_whole zs l -> zs <> [] ->
  exists m, is_whole m (lane_red (red_of up) l) /\ In m zs /\ Forall (fun z => if up then z <= m else m <= z)%Z zs.
Proof.
  intros HF HN. assert (Forall (valid_in Float64) l /\ map float_value l = map (fun z => Fin (z * one)) zs) as [FV EV].
  { clear HN. induction HF as [|z v zs l [H1 H2] HF [IH1 IH2]]; [split; constructor|]. split; [constructor; [exact H1|exact IH1]|]. cbn [map]. f_equal; assumption. }
  destruct (best_init Float64 up f64_kind) as [BI BQ].
  destruct (inv_fold Float64 (best_inv up) _ (fun acc v => if is_nan v then acc else full_comb (red_of up) acc v) BI BQ) with (l := l) as [A B]; [apply best_stable; intros; apply full_pick; assumption|exact FV|].
  set (w := fold_left _ _ _) in *. rewrite EV in B.
  assert (lane_red (red_of up) l = w) as ->.
  { unfold lane_red. rewrite full_fold. cbn [fst snd orb]. fold w.
    assert (existsb (fun v => negb (is_nan v)) l = true) as ->; [|destruct up; reflexivity]. apply found_numbers. rewrite EV. destruct zs; [contradiction|]. discriminate. }
  destruct B as (B1 & B2 & B3). assert (In (float_value w) (map (fun z => Fin (z * one)) zs)) as HI.
  { destruct B3 as [B3|B3]; [|exact B3]. exfalso. destruct zs as [|z zs]; [contradiction|]. specialize (B2 (Fin (z * one)) (or_introl eq_refl) ltac:(discriminate)). rewrite B3 in B2. destruct up; cbn in B2; contradiction || discriminate || (destruct B2; fail) || idtac. }
  apply in_map_iff in HI as (m & EM & HI). exists m. split; [split; [exact A|symmetry; exact EM]|]. split; [exact HI|]. apply Forall_forall. intros z HZ.
  specialize (B2 (Fin (z * one)) (in_map _ _ _ HZ) ltac:(discriminate)). rewrite <- EM in B2. assert (0 < one)%Z as P1 by reflexivity. destruct up; cbn [ahead] in B2; apply fin_le in B2; (apply (Zmult_le_reg_r _ _ one); [lia|exact B2]).
Qed.
