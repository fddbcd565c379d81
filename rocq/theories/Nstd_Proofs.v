(* Lemmas for C176: nanstd along an axis. *)
From Coq Require Import SpecFloat.
From Verif Require Import Base Lists Int_Model Int_Proofs F64_Model Arr_Spec Arr_Model Arr_Wf Arr_Proofs Wf_Check Copy_Model Copy_Proofs Elem_Model Elem_Proofs Rng_Model New_Model Promo_Spec Promo_Model Promo_Proofs Promo_Props SF_Proofs SF_Arith Cast_Spec Cast_Model Cast_SF Cast_Proofs Cast_Laws Cast_Props Close_Proofs Bitw_Spec Bitw_Model Bitw_Proofs Rnd_Spec Rnd_Model Rnd_Proofs Rnd_Round Rnd_Props Ari_Spec SF_Round Ari_Model Ari_Proofs Cpx_Spec Cpx_Model Cpx_Proofs Tra_Spec Tra_Model Tra_Proofs Tra_Props Sqrt_Spec Sqrt_Model Sqrt_Proofs Sqrt_Half Sqrt_Props Bcast_Model Bcast_Proofs Idx_Model Idx_Assign Date_Model SF_Cmp Ari_Ord Ari_Next Ari_Props Red_Spec Red_Model Red_Proofs CpxA_Spec CpxA_Proofs Fred_Spec Fred_Model Fred_Proofs Fred_Props Var_Spec Var_Model Var_Proofs Nmean_Spec Nmean_Model Nmean_Proofs Nlane_Model Nlane_Proofs Nstd_Model.
From Verif Require Cum_Proofs.
Local Open Scope Z_scope.

Lemma var_axis_good x axis n z : real_array x -> nth_error (shape_of x) axis = Some n -> n <> 0%nat -> Z.of_nat (prod (reduced_shape axis (shape_of x))) * 16 < 2 ^ 63 ->
  nan_var_axis x axis = Ok z -> good z.
Proof.
  intros [G R] Hn N0 HM EZ. pose proof G as (_ & W & _). unfold nan_var_axis, nan_reduce_lanes in EZ. pose proof Hn as Hn'. unfold shape_of in Hn. rewrite Hn in EZ. fold (reduced_shape axis (a_shape (n_arr x))) in EZ. unfold shape_of in HM. set (osh := reduced_shape axis (a_shape (n_arr x))) in *.
  destruct (Nat.eqb_spec n 0) as [|_]; [contradiction|]. rewrite orb_false_r in EZ. destruct (Nat.eqb_spec (prod osh) 0) as [P0|P0].
  - injection EZ as <-. apply Cum_Proofs.fresh_good; [reflexivity|apply repeat_length|exact HM|]. rewrite P0. constructor.
  - rewrite odometer_all in EZ. match type of EZ with bind (mapM ?h _) _ = _ => destruct (mapM h (all_idx osh)) as [ys| | |] eqn:EY; try discriminate EZ end. cbn [bind] in EZ. injection EZ as <-.
    pose proof (mapM_length _ _ _ EY) as LY. rewrite all_idx_length in LY. apply Cum_Proofs.fresh_good; [reflexivity|exact LY|exact HM|].
    apply Forall_forall. intros y HY. apply In_nth_error in HY as [i HY].
    assert (exists idx, nth_error (all_idx osh) i = Some idx) as [idx HX].
    { destruct (nth_error (all_idx osh) i) eqn:Q; [eexists; reflexivity|]. apply nth_error_None in Q. rewrite all_idx_length in Q. assert (i < length ys)%nat by (apply nth_error_Some; congruence). lia. }
    assert (inb idx osh) as HI by (apply in_all_idx; eapply nth_error_In; exact HX).
    destruct (outer_of_inb axis _ n idx Hn HI) as [HO _]. assert (exists lv, Red_Spec.lane (n_buf x) (n_arr x) axis (outer_of (a_shape (n_arr x)) idx) = map Some lv /\ length lv = n) as (lv & EL & LN) by (apply Red_Proofs.lane_vals; assumption).
    pose proof (lane_f64_spec x axis n idx lv G Hn' HI EL) as LS. unfold shape_of in LS.
    destruct (mapM_nth _ _ _ _ _ EY HX) as (y' & HY' & HQ). rewrite LS in HQ. cbn [bind] in HQ.
    assert (y = write_f64 Float64 (lane_var (map as_f64 lv))) as -> by congruence.
    cbn [write_f64 element]. rewrite lane_var_is. apply var_of_ok. destruct (lane_array x axis n idx lv (Logic.conj G R) Hn' HI EL LN) as [A0 E0].
    pose proof (read_ok (n_kind x) lv R (vals_elements _ _ (proj1 A0) E0)) as HF. clear - HF. induction HF as [|v l H HF IH]; [constructor|]. cbn [filter]. destruct (negb (is_nan v)); [constructor; assumption|exact IH].
Qed.
