(* C175: nanmean, nanvar and nanstd of all elements. *)
From Coq Require Import SpecFloat.
From Verif Require Import Base Lists Int_Model Int_Proofs F64_Model Arr_Spec Arr_Model Arr_Wf Arr_Proofs Wf_Check Bcast_Model Bcast_Proofs Copy_Model Copy_Proofs Idx_Model Idx_Assign Elem_Model Elem_Proofs Rng_Model Date_Model New_Model Promo_Spec Promo_Model Promo_Proofs Promo_Props SF_Proofs SF_Arith SF_Cmp Cast_Spec Cast_Model Cast_SF Cast_Proofs Cast_Laws Cast_Props Close_Proofs Bitw_Spec Bitw_Model Bitw_Proofs Rnd_Spec Rnd_Model Rnd_Proofs Rnd_Round Rnd_Props Ari_Spec SF_Round Ari_Model Ari_Proofs Ari_Ord Ari_Next Ari_Props Red_Spec Red_Model Red_Proofs Cpx_Spec Cpx_Model Cpx_Proofs CpxA_Spec CpxA_Proofs Fred_Spec Fred_Model Fred_Proofs Fred_Props Sqrt_Spec Sqrt_Model Sqrt_Proofs Sqrt_Half Var_Spec Var_Model Var_Proofs Nmean_Spec Nmean_Model Nmean_Proofs.
Local Open Scope Z_scope.

(* NaN elements count for nothing: the results are those of an array without them *)
Theorem C175_skip : forall x y vals, real_array x -> real_array y -> listed x vals -> listed y (filter is_a_number vals) ->
  nan_mean x = nan_mean y /\ nan_var x = nan_var y /\ nan_std x = nan_std y.
Proof.
  intros x y vals AX AY EX EY. unfold nan_std. rewrite (nan_mean_spec x vals AX EX), (nan_var_spec x vals AX EX), (nan_mean_spec y _ AY EY), (nan_var_spec y _ AY EY).
  assert (filter is_a_number (filter is_a_number vals) = filter is_a_number vals) as ->; [|auto].
  clear. induction vals as [|v l IH]; [reflexivity|]. cbn [filter]. destruct (is_a_number v) eqn:E; [cbn [filter]; rewrite E, IH; reflexivity|exact IH].
Qed.
(* shape and layout do not matter *)
Theorem C175_layout : forall x y vals, real_array x -> real_array y -> listed x vals -> listed y vals ->
  nan_mean x = nan_mean y /\ nan_var x = nan_var y /\ nan_std x = nan_std y.
Proof.
  intros x y vals AX AY EX EY. unfold nan_std. rewrite (nan_mean_spec x vals AX EX), (nan_var_spec x vals AX EX), (nan_mean_spec y _ AY EY), (nan_var_spec y _ AY EY). auto.
Qed.
(* no numbers: NaN *)
Theorem C175_none : forall x vals, real_array x -> listed x vals -> (forall v, In v vals -> real_value v = NaN) ->
  nan_mean x = Ok S754_nan /\ nan_var x = Ok S754_nan /\ nan_std x = Ok S754_nan.
Proof.
  intros x vals A E H. unfold nan_std. rewrite (nan_mean_spec x vals A E), (nan_var_spec x vals A E).
  assert (filter is_a_number vals = []) as ->; [|auto]. induction vals as [|v l IH]; [reflexivity|]. cbn [filter]. unfold is_a_number at 1. rewrite (H v) by (left; reflexivity). clear E.
  assert (forall l, (forall v, In v l -> real_value v = NaN) -> filter is_a_number l = []) as F.
  { clear. induction l as [|v l IH]; intros H; [reflexivity|]. cbn [filter]. unfold is_a_number at 1. rewrite (H v) by (left; reflexivity). apply IH. intros w Hw. apply H. right. exact Hw. }
  apply F. intros w Hw. apply H. right. exact Hw.
Qed.
(* the variance is never negative, and the standard deviation is its root, rounded once *)
Theorem C175_std : forall x vals, real_array x -> listed x vals ->
  exists v s, nan_var x = Ok v /\ nan_std x = Ok s /\ at_least_zero (float_value v) /\ square_root (fun r => holds Float64 (r, 0)) (float_value v) (float_value s).
Proof.
  intros x vals A E. pose proof A as [G R]. destruct (var_of_ok (map as_f64 (filter is_a_number vals))) as [V P]; [apply (read_ok (n_kind x)); [exact R|apply number_elements, (vals_elements x vals G E)]|].
  unfold nan_std. rewrite (nan_var_spec x vals A E). eexists _, _. split; [reflexivity|]. split; [reflexivity|]. split; [apply at_least_value; exact P|]. exact (sqrt_every Float64 _ eq_refl eq_refl V).
Qed.
(* numbers whose sum needs no more than 53 bits: their exact mean, rounded once.
   Missing: sums that are rounded themselves *)
Theorem C175_mean_partial : forall x vals U, real_array x -> listed x vals -> Forall fits vals -> unit_of Float64 U ->
  let l := numbers (map real_value vals) in
  l <> [] -> Z.of_nat (length l) < 2 ^ 53 -> summable 53 U l ->
  exists r, nan_mean x = Ok r /\ rounded Float64 (total l) (Z.of_nat (length l)) (float_value r).
Proof.
  intros x vals U A E HF HU l NE HL HS. pose proof A as [G R]. pose proof (number_elements _ _ (vals_elements x vals G E)) as HV.
  rewrite (nan_mean_spec x vals A E). eexists. split; [reflexivity|].
  assert (map float_value (map as_f64 (filter is_a_number vals)) = l) as EV.
  { subst l. clear - HF G R E. pose proof (vals_elements x vals G E) as HV. clear E. induction HF as [|v t Hv HF IH]; [reflexivity|]. inversion HV as [|? ? H1 H2]; subst. specialize (IH H2). cbn [map filter numbers]. unfold numbers in *. cbn [filter]. unfold is_a_number at 1.
    destruct (as_f64_value (n_kind x) v R H1 Hv) as [EA _]. destruct (real_value v); cbn [map]; rewrite ?EA; [exact IH|f_equal; exact IH|f_equal; exact IH]. }
  pose proof (read_ok (n_kind x) _ R HV) as OK. assert (length (map as_f64 (filter is_a_number vals)) = length l) as EL by (rewrite <- EV, !map_length; reflexivity).
  rewrite <- EV in HS. pose proof (sum_exact U _ HU OK HS) as ES. rewrite EV in ES. unfold mean_of. rewrite EL. assert (0 < Z.of_nat (length l)) as HP by (destruct l; [contradiction|cbn [length]; lia]).
  destruct (Nat.eqb_spec (length l) 0) as [|_]; [lia|]. apply rounded_kind; [auto|].
  destruct (count_whole (Z.of_nat (length l)) ltac:(lia)) as [VN EN]. destruct (div_rounded 53 1024 _ (f64_int (Z.of_nat (length l))) f64_format (sum_ok _ (S754_zero false) OK eq_refl) VN) as [Q _]. rewrite ES, EN in Q. cbn [quotient_of] in Q.
  set (n := Z.of_nat (length l)) in *. pose proof one_pos as H1. assert (0 < n * one) as HN1 by (apply Z.mul_pos_pos; lia). destruct (Z.eqb_spec (n * one) 0) as [|_]; [lia|].
  rewrite Z.sgn_pos, Z.mul_1_r, Z.abs_eq in Q by lia. exact (scale_rounded _ _ _ _ one _ H1 Q).
Qed.
(* whole numbers with a whole mean m: the mean of the squares, rounded once *)
Theorem C175_whole_partial : forall x vals zs m, real_array x -> listed x vals -> numbers (map real_value vals) = map (fun z => Fin (z * one)) zs -> zs <> [] ->
  size_sum zs < 2 ^ 53 -> Z.of_nat (length zs) < 2 ^ 53 -> whole_sum zs = m * Z.of_nat (length zs) -> squares_sum m zs < 2 ^ 53 ->
  exists v, nan_var x = Ok v /\ rounded Float64 (squares_sum m zs * one) (Z.of_nat (length zs)) (float_value v).
Proof.
  intros x vals zs m A E EV NE HA HL HM HQ. pose proof A as [G R]. pose proof (number_elements _ _ (vals_elements x vals G E)) as HV. rewrite (nan_var_spec x vals A E). eexists. split; [reflexivity|]. apply rounded_kind; [auto|].
  apply (var_of_whole m zs); try assumption. apply (whole_reads (n_kind x)); try assumption. rewrite <- EV. clear. unfold numbers. induction vals as [|v t IH]; [reflexivity|]. cbn [map filter]. unfold is_a_number at 1. destruct (real_value v) eqn:Q; cbn [map]; rewrite ?Q; [exact IH|f_equal; exact IH|f_equal; exact IH].
Qed.
Example C175_nonvacuous :
  let x := row Float64 [fl 1 1; SFlt S754_nan; fl 5 1; fl 9 1; SFlt S754_nan] in
  let y := row Float64 [fl 1 1; fl 5 1; fl 9 1] in
  real_array x /\ real_array y /\ filter is_a_number (n_buf x) = n_buf y /\ nan_mean x = Ok (flt (fl 5 1)) /\ nan_var x = Ok (flt (fl 32 3)) /\
  numbers (map real_value (n_buf x)) = map (fun z => Fin (z * one)) [1; 5; 9] /\ whole_sum [1; 5; 9] = 5 * 3 /\ squares_sum 5 [1; 5; 9] = 32 /\
  nan_mean (row Int32 [SInt 1; SInt 2]) = Ok (flt (fl 3 2)) /\ unit_of Float64 one.
Proof.
  split; [split; [good_row|reflexivity]|]. split; [split; [good_row|reflexivity]|]. do 7 (split; [vm_compute; reflexivity|]). exists 0. split; [cbn; lia|reflexivity].
Qed.

Print Assumptions C175_skip.
Print Assumptions C175_layout.
Print Assumptions C175_none.
Print Assumptions C175_std.
Print Assumptions C175_mean_partial.
Print Assumptions C175_whole_partial.
