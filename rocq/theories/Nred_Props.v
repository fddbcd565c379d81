(* C177: nansum, nanprod, nanmin and nanmax along an axis, for dtypes other than float64 and float32. *)
From Coq Require Import SpecFloat.
From Verif Require Import Base Lists Int_Model Int_Proofs F64_Model Arr_Spec Arr_Model Arr_Wf Arr_Proofs Wf_Check Bcast_Model Bcast_Proofs Copy_Model Copy_Proofs Idx_Model Idx_Assign Elem_Model Elem_Proofs Rng_Model Date_Model New_Model Promo_Spec Promo_Model Promo_Proofs Promo_Props SF_Proofs SF_Arith SF_Cmp Cast_Spec Cast_Model Cast_SF Cast_Proofs Cast_Laws Cast_Props Close_Proofs Bitw_Spec Bitw_Model Bitw_Proofs Rnd_Spec Rnd_Model Rnd_Proofs Rnd_Round Rnd_Props Ari_Spec SF_Round Ari_Model Ari_Proofs Ari_Ord Ari_Next Ari_Props Red_Spec Red_Model Red_Proofs Cpx_Spec Cpx_Model Cpx_Proofs CpxA_Spec CpxA_Proofs Fred_Spec Fred_Model Fred_Proofs Fred_Props Sqrt_Spec Sqrt_Model Sqrt_Proofs Sqrt_Half Var_Spec Var_Model Var_Proofs Nmean_Spec Nmean_Model Nmean_Proofs Nlane_Model Nlane_Proofs.
Local Open Scope Z_scope.

(* every entry is the number the whole-array reduction gives for the lane, converted to the dtype *)
Theorem C177_lanes : forall op x axis n, real_array x -> n_kind x <> Float64 -> n_kind x <> Float32 ->
  nth_error (shape_of x) axis = Some n -> n <> 0%nat ->
  exists z, nan_red_axis op x axis = Ok z /\ n_kind z = n_kind x /\ shape_of z = reduced_shape axis (shape_of x) /\
  forall idx, inb idx (shape_of z) -> exists lv r,
    lane (n_buf x) (n_arr x) axis (outer_of (shape_of x) idx) = map Some lv /\ item_at z idx = Some (write_f64 (n_kind x) r) /\
    real_array (row (n_kind x) lv) /\ listed (row (n_kind x) lv) lv /\
    forall y, real_array y -> n_kind y = n_kind x -> listed y lv -> nan_total op y = Ok r.
Proof.
  intros op x axis n [G R] K1 K2 Hn N0. rewrite red_axis_other by assumption. assert (numeric (n_kind x) = true) as NK by (apply andb_true_iff in R; apply R).
  destruct (nan_lanes_spec (n_kind x) x axis n (lane_red op) NK G Hn N0) as (z & EZ & KZ & SZ & HZ). exists z. split; [exact EZ|]. split; [exact KZ|]. split; [exact SZ|].
  intros idx HI. destruct (HZ idx HI) as (lv & EL & LN & EI). rewrite SZ in HI. destruct (lane_array x axis n idx lv (Logic.conj G R) Hn HI EL LN) as [A0 E0]. exists lv, (lane_red op (map as_f64 lv)).
  split; [exact EL|]. split; [exact EI|]. split; [exact A0|]. split; [exact E0|]. intros y A KY E. apply nan_full_spec; [exact A|exact E|rewrite KY; exact K1|rewrite KY; exact K2].
Qed.
(* integers: the sum, where the sizes of the elements add up to less than 2^53 and the dtype holds it *)
Theorem C177_sum_partial : forall x axis n z idx lv zs, real_array x -> integer (n_kind x) = true ->
  nth_error (shape_of x) axis = Some n -> n <> 0%nat -> nan_red_axis RSum x axis = Ok z -> inb idx (shape_of z) ->
  lane (n_buf x) (n_arr x) axis (outer_of (shape_of x) idx) = map Some lv -> lv = map SInt zs ->
  size_sum zs < 2 ^ 53 -> element (n_kind x) (SInt (whole_sum zs)) ->
  item_at z idx = Some (SInt (whole_sum zs)).
Proof.
  intros x axis n z idx lv zs [G R] KI Hn N0 EZ HI EL EV HS HE. assert (numeric (n_kind x) = true) as NK by (apply andb_true_iff in R; apply R).
  rewrite red_axis_other in EZ by (intros Q; rewrite Q in KI; discriminate KI).
  destruct (nan_lanes_spec (n_kind x) x axis n (lane_red RSum) NK G Hn N0) as (z' & EZ' & KZ & SZ & HZ). rewrite EZ in EZ'. injection EZ' as <-.
  destruct (HZ idx HI) as (lv' & EL' & LN & EI). rewrite SZ in HI. destruct (lane_array x axis n idx lv' (Logic.conj G R) Hn HI EL' LN) as [A0 E0].
  assert (lv' = lv) as ->. { apply map_Some_inj. congruence. }
  assert (Forall2 is_whole zs (map as_f64 lv)) as HW.
  { apply (whole_reads (n_kind x)); [exact R|exact (vals_elements _ _ (proj1 A0) E0)| |exact HS]. rewrite EV, map_map. apply map_ext. intros a. reflexivity. }
  pose proof (lane_sum_whole zs _ HW HS) as [OV VV]. rewrite EI. f_equal.
  apply int_element in HE; [|left; destruct (n_kind x); try discriminate KI; reflexivity].
  destruct (n_kind x); try discriminate KI; cbn [write_f64]; f_equal; (apply as_int_exact; [exact OV|exact VV|exact HE]).
Qed.
(* integers of less than 2^53 in size: the greatest or the least element of the lane *)
Theorem C177_extreme_partial : forall (up : bool) x axis n z idx lv zs, real_array x -> integer (n_kind x) = true ->
  nth_error (shape_of x) axis = Some n -> n <> 0%nat -> nan_red_axis (if up then RMax else RMin) x axis = Ok z -> inb idx (shape_of z) ->
  lane (n_buf x) (n_arr x) axis (outer_of (shape_of x) idx) = map Some lv -> lv = map SInt zs -> Forall (fun e => Z.abs e < 2 ^ 53) zs ->
  exists m, item_at z idx = Some (SInt m) /\ In m zs /\ Forall (fun e => if up then e <= m else m <= e) zs.
Proof.
  intros up x axis n z idx lv zs [G R] KI Hn N0 EZ HI EL EV HS. assert (numeric (n_kind x) = true) as NK by (apply andb_true_iff in R; apply R).
  rewrite red_axis_other in EZ by (intros Q; rewrite Q in KI; discriminate KI). change (if up then RMax else RMin) with (red_of up) in EZ.
  destruct (nan_lanes_spec (n_kind x) x axis n (lane_red (red_of up)) NK G Hn N0) as (z' & EZ' & KZ & SZ & HZ). rewrite EZ in EZ'. injection EZ' as <-.
  destruct (HZ idx HI) as (lv' & EL' & LN & EI). rewrite SZ in HI. destruct (lane_array x axis n idx lv' (Logic.conj G R) Hn HI EL' LN) as [A0 E0].
  assert (lv' = lv) as -> by (apply map_Some_inj; congruence). subst lv.
  assert (zs <> []) as ZN by (intros ->; cbn in LN; lia).
  destruct (lane_best_whole up zs _ (ints_whole zs HS) ZN) as (m & [OV VV] & HM & HB). exists m. split; [|split; assumption]. rewrite EI. f_equal.
  pose proof (vals_elements _ _ (proj1 A0) E0) as FE. rewrite Forall_forall in FE. specialize (FE (SInt m) (in_map SInt _ _ HM)). cbn [row n_kind] in FE.
  apply int_element in FE; [|left; destruct (n_kind x); try discriminate KI; reflexivity].
  destruct (n_kind x); try discriminate KI; cbn [write_f64]; f_equal; (apply as_int_exact; [exact OV|exact VV|exact FE]).
Qed.
(* larger int64 elements are rounded, so that the greatest need not be an element *)
Theorem C177_extreme_refuted : exists x, real_array x /\ n_kind x = Int64 /\ n_buf x = map SInt [2 ^ 53 + 1; 3] /\ nan_red_axis RMax x 0 = Ok (row Int64 [SInt (2 ^ 53)]).
Proof.
  exists (row Int64 [SInt 9007199254740993; SInt 3]). split; [split; [good_row|reflexivity]|]. repeat split; vm_compute; reflexivity.
Qed.
(* int8 lanes whose sum int8 does not hold stop at 127, where sum wraps and NumPy widens; int64 sums are rounded to doubles *)
Theorem C177_sum_refuted :
  (exists x, real_array x /\ n_kind x = Int8 /\ n_buf x = map SInt [100; 100] /\ nan_red_axis RSum x 0 = Ok (row Int8 [SInt 127])) /\
  (exists x, real_array x /\ n_kind x = Int64 /\ n_buf x = map SInt [2 ^ 53; 1] /\ nan_red_axis RSum x 0 = Ok (row Int64 [SInt (2 ^ 53)])).
Proof.
  split; [exists (row Int8 [SInt 100; SInt 100])|exists (row Int64 [SInt 9007199254740992; SInt 1])]; (split; [split; [good_row|reflexivity]|]); repeat split; vm_compute; reflexivity.
Qed.
(* lanes of no elements give 0 for every reduction, also where the product of nothing is 1 *)
Theorem C177_empty_refuted : forall op x axis, real_array x -> n_kind x <> Float64 -> n_kind x <> Float32 -> nth_error (shape_of x) axis = Some 0%nat ->
  exists z, nan_red_axis op x axis = Ok z /\ shape_of z = reduced_shape axis (shape_of x) /\
    (forall idx, inb idx (shape_of z) -> exists v, item_at z idx = Some v /\ real_value v = Fin 0) /\
    nan_total RProd (row (n_kind x) []) = Ok (f64_int 1).
Proof.
  intros op x axis [G R] K1 K2 Hn. rewrite red_axis_other by assumption. unfold nan_reduce_lanes. assert (numeric (n_kind x) = true) as NK by (apply andb_true_iff in R; apply R).
  unfold shape_of in Hn. rewrite Hn. fold (reduced_shape axis (a_shape (n_arr x))). cbn [Nat.eqb]. rewrite orb_true_r.
  eexists. split; [reflexivity|]. split; [reflexivity|]. split.
  - intros idx HI. exists (write_f64 (n_kind x) (S754_zero false)). split.
    + unfold item_at. cbn [n_buf n_arr shape_of a_shape fresh] in *. rewrite fresh_get by (apply item_pos; exact NK). apply nth_error_repeat. apply rank_lt. exact HI.
    + clear - R. destruct (n_kind x); try discriminate R; reflexivity.
  - clear - K1 K2 R. destruct (n_kind x); try discriminate R; try contradiction; vm_compute; reflexivity.
Qed.
(* an axis that does not exist panics *)
Theorem C177_axis : forall op x axis, n_kind x <> Float64 -> n_kind x <> Float32 -> (length (shape_of x) <= axis)%nat -> nan_red_axis op x axis = Panic.
Proof.
  intros op x axis K1 K2 H. rewrite red_axis_other by assumption. unfold nan_reduce_lanes. apply nth_error_None in H. unfold shape_of in H. rewrite H. reflexivity.
Qed.
Example C177_nonvacuous :
  let x := mkN Int16 [SInt 1; SInt (-7); SInt 5; SInt 9; SInt 2; SInt 4] (mkArr 0 [2; 3]%nat [6; 2] 2 true false) in
  real_array x /\ nth_error (shape_of x) 1 = Some 3%nat /\ nan_red_axis RSum x 1 = Ok (row Int16 [SInt (-1); SInt 15]) /\ size_sum [1; -7; 5] < 2 ^ 53 /\ Forall (fun e => Z.abs e < 2 ^ 53) [1; -7; 5] /\ element Int16 (SInt (whole_sum [1; -7; 5])) /\
  lane (n_buf x) (n_arr x) 1 (outer_of (shape_of x) [0%nat]) = map Some (map SInt [1; -7; 5]) /\
  nan_red_axis RMax x 0 = Ok (row Int16 [SInt 9; SInt 2; SInt 5]) /\ nan_red_axis RMin x 0 = Ok (row Int16 [SInt 1; SInt (-7); SInt 4]) /\ nan_red_axis RProd x 1 = Ok (row Int16 [SInt (-35); SInt 72]) /\
  real_array (mkN Int16 [] (fresh [2; 0]%nat 2)) /\ nth_error [2; 0]%nat 1 = Some 0%nat.
Proof.
  split; [split; [good_row|reflexivity]|]. do 2 (split; [vm_compute; reflexivity|]). split; [vm_compute; reflexivity|]. split; [repeat constructor|]. split; [apply int_element; [left; reflexivity|vm_compute; split; discriminate]|]. do 4 (split; [vm_compute; reflexivity|]). split; [split; [good_row|reflexivity]|reflexivity].
Qed.

Print Assumptions C177_lanes.
Print Assumptions C177_sum_partial.
Print Assumptions C177_extreme_partial.
Print Assumptions C177_extreme_refuted.
Print Assumptions C177_sum_refuted.
Print Assumptions C177_empty_refuted.
Print Assumptions C177_axis.
