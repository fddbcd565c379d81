(* C176: nanmean and nanvar along an axis. *)
From Coq Require Import SpecFloat.
From Verif Require Import Base Lists Int_Model Int_Proofs F64_Model Arr_Spec Arr_Model Arr_Wf Arr_Proofs Wf_Check Bcast_Model Bcast_Proofs Copy_Model Copy_Proofs Idx_Model Idx_Assign Elem_Model Elem_Proofs Rng_Model Date_Model New_Model Promo_Spec Promo_Model Promo_Proofs Promo_Props SF_Proofs SF_Arith SF_Cmp Cast_Spec Cast_Model Cast_SF Cast_Proofs Cast_Laws Cast_Props Close_Proofs Bitw_Spec Bitw_Model Bitw_Proofs Rnd_Spec Rnd_Model Rnd_Proofs Rnd_Round Rnd_Props Ari_Spec SF_Round Ari_Model Ari_Proofs Ari_Ord Ari_Next Ari_Props Red_Spec Red_Model Red_Proofs Cpx_Spec Cpx_Model Cpx_Proofs CpxA_Spec CpxA_Proofs Fred_Spec Fred_Model Fred_Proofs Fred_Props Sqrt_Spec Sqrt_Model Sqrt_Proofs Sqrt_Half Var_Spec Var_Model Var_Proofs Nmean_Spec Nmean_Model Nmean_Proofs Nlane_Model Nlane_Proofs.
Local Open Scope Z_scope.

(* z has the lanes of x along the axis reduced to float64 numbers: the entry at idx is what R makes of
   an array y, of any shape and layout, with the elements of the lane *)
Definition lanewise (R : narr -> res spec_float) (x : narr) (axis : nat) (z : narr) : Prop :=
  n_kind z = Float64 /\ shape_of z = reduced_shape axis (shape_of x) /\
  forall idx, inb idx (shape_of z) -> exists lv r,
    lane (n_buf x) (n_arr x) axis (outer_of (shape_of x) idx) = map Some lv /\ item_at z idx = Some (SFlt r) /\
    real_array (row (n_kind x) lv) /\ listed (row (n_kind x) lv) lv /\
    forall y, real_array y -> listed y lv -> R y = Ok r.
Theorem C176_mean : forall x axis n, real_array x -> nth_error (shape_of x) axis = Some n -> n <> 0%nat ->
  exists z, nan_mean_axis x axis = Ok z /\ lanewise nan_mean x axis z.
Proof.
  intros x axis n [G R] Hn N0. destruct (nan_lanes_spec Float64 x axis n lane_mean eq_refl G Hn N0) as (z & EZ & KZ & SZ & HZ). exists z. split; [exact EZ|]. split; [exact KZ|]. split; [exact SZ|].
  intros idx HI. destruct (HZ idx HI) as (lv & EL & LN & EI). rewrite SZ in HI. destruct (lane_array x axis n idx lv (Logic.conj G R) Hn HI EL LN) as [A0 E0]. exists lv, (lane_mean (map as_f64 lv)). split; [exact EL|]. split; [exact EI|]. split; [exact A0|]. split; [exact E0|]. intros y A E.
  rewrite (nan_mean_spec y lv A E), lane_mean_is. rewrite (numbers_read (n_kind y) lv); [reflexivity|apply A|apply vals_elements; [apply A|exact E]].
Qed.
Theorem C176_var : forall x axis n, real_array x -> nth_error (shape_of x) axis = Some n -> n <> 0%nat ->
  exists z, nan_var_axis x axis = Ok z /\ lanewise nan_var x axis z.
Proof.
  intros x axis n [G R] Hn N0. destruct (nan_lanes_spec Float64 x axis n lane_var eq_refl G Hn N0) as (z & EZ & KZ & SZ & HZ). exists z. split; [exact EZ|]. split; [exact KZ|]. split; [exact SZ|].
  intros idx HI. destruct (HZ idx HI) as (lv & EL & LN & EI). rewrite SZ in HI. destruct (lane_array x axis n idx lv (Logic.conj G R) Hn HI EL LN) as [A0 E0]. exists lv, (lane_var (map as_f64 lv)). split; [exact EL|]. split; [exact EI|]. split; [exact A0|]. split; [exact E0|]. intros y A E.
  rewrite (nan_var_spec y lv A E), lane_var_is. rewrite (numbers_read (n_kind y) lv); [reflexivity|apply A|apply vals_elements; [apply A|exact E]].
Qed.
(* an axis that does not exist panics *)
Theorem C176_axis : forall x axis, (length (shape_of x) <= axis)%nat -> nan_mean_axis x axis = Panic /\ nan_var_axis x axis = Panic.
Proof.
  intros x axis H. unfold nan_mean_axis, nan_var_axis, nan_reduce_lanes. apply nth_error_None in H. unfold shape_of in H. rewrite H. split; reflexivity.
Qed.
(* lanes of no elements give 0, where an array of no elements gives NaN *)
Theorem C176_empty_refuted : forall x axis, real_array x -> nth_error (shape_of x) axis = Some 0%nat ->
  exists z z', nan_mean_axis x axis = Ok z /\ nan_var_axis x axis = Ok z' /\ shape_of z = reduced_shape axis (shape_of x) /\ z' = z /\
    (forall idx, inb idx (shape_of z) -> item_at z idx = Some (SFlt (S754_zero false))) /\
    nan_mean (row Float64 []) = Ok S754_nan /\ nan_var (row Float64 []) = Ok S754_nan.
Proof.
  intros x axis _ Hn. unfold nan_mean_axis, nan_var_axis, nan_reduce_lanes. unfold shape_of in Hn. rewrite Hn. fold (reduced_shape axis (a_shape (n_arr x))). cbn [Nat.eqb]. rewrite orb_true_r.
  eexists _, _. split; [reflexivity|]. split; [reflexivity|]. split; [reflexivity|]. split; [reflexivity|]. split; [|split; reflexivity].
  intros idx HI. unfold item_at. cbn [n_buf n_arr shape_of a_shape fresh] in *. rewrite fresh_get by (cbn; lia). apply nth_error_repeat. apply rank_lt. exact HI.
Qed.
Example C176_nonvacuous :
  let x := mkN Float64 [fl 1 1; SFlt S754_nan; fl 5 1; fl 9 1; SFlt S754_nan; SFlt S754_nan] (mkArr 0 [2; 3]%nat [24; 8] 8 true false) in
  let t := mkN Float64 (n_buf x) (mkArr 0 [3; 2]%nat [8; 24] 8 false true) in
  real_array x /\ nth_error (shape_of x) 1 = Some 3%nat /\ nan_mean_axis x 1 = Ok (row Float64 [fl 3 1; fl 9 1]) /\ nan_var_axis x 1 = Ok (row Float64 [fl 4 1; SFlt (S754_zero false)]) /\
  real_array t /\ nan_mean_axis t 0 = Ok (row Float64 [fl 3 1; fl 9 1]) /\ nan_mean_axis t 1 = Ok (row Float64 [fl 5 1; SFlt S754_nan; fl 5 1]) /\
  real_array (mkN Float64 [] (fresh [2; 0]%nat 8)) /\ nth_error [2; 0]%nat 1 = Some 0%nat.
Proof.
  split; [split; [good_row|reflexivity]|]. do 3 (split; [vm_compute; reflexivity|]). split; [split; [good_row|reflexivity]|]. do 2 (split; [vm_compute; reflexivity|]). split; [split; [good_row|reflexivity]|reflexivity].
Qed.

Print Assumptions C176_mean.
Print Assumptions C176_var.
Print Assumptions C176_axis.
Print Assumptions C176_empty_refuted.
