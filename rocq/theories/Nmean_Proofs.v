(* Proofs about nanmean, nanvar and nanstd. *)
From Coq Require Import SpecFloat.
From Verif Require Import Base Lists Int_Model Int_Proofs F64_Model Arr_Spec Arr_Model Arr_Wf Arr_Proofs Wf_Check Bcast_Model Bcast_Proofs Copy_Model Copy_Proofs Idx_Model Idx_Assign Elem_Model Elem_Proofs Rng_Model Date_Model New_Model Promo_Spec Promo_Model Promo_Proofs Promo_Props SF_Proofs SF_Arith SF_Cmp Cast_Spec Cast_Model Cast_SF Cast_Proofs Cast_Laws Cast_Props Close_Proofs Bitw_Spec Bitw_Model Bitw_Proofs Rnd_Spec Rnd_Model Rnd_Proofs Rnd_Round Rnd_Props Ari_Spec SF_Round Ari_Model Ari_Proofs Ari_Ord Ari_Next Ari_Props Red_Spec Red_Model Red_Proofs Cpx_Spec Cpx_Model Cpx_Proofs CpxA_Spec CpxA_Proofs Fred_Spec Fred_Model Fred_Proofs Fred_Props Sqrt_Spec Sqrt_Model Sqrt_Proofs Sqrt_Half Var_Spec Var_Model Var_Proofs Nmean_Spec Nmean_Model.
Local Open Scope Z_scope.

Definition mean_of (l : list spec_float) : spec_float :=
  if Nat.eqb (length l) 0 then S754_nan else SFdiv 53 1024 (fold_left (SFadd 53 1024) l (S754_zero false)) (f64_int (Z.of_nat (length l))).
Definition var_of (l : list spec_float) : spec_float := if is_nan (mean_of l) then S754_nan else spread (mean_of l) (length l) l.

Lemma all_f64_spec x vals : good x -> listed x vals -> all_f64 x = Ok (map as_f64 vals).
Proof. intros (_ & W & _) E. unfold all_f64. apply read_offsets; [apply wf_map; exact W|apply elems_map; exact E]. Qed.
Lemma nan_add_fold l s c : fold_left nan_add l (s, c) = (fold_left (SFadd 53 1024) (filter (fun v => negb (is_nan v)) l) s, (c + length (filter (fun v => negb (is_nan v)) l))%nat).
Proof.
  revert s c. induction l as [|v l IH]; intros s c; cbn [fold_left filter]; [cbn [length]; rewrite Nat.add_0_r; reflexivity|].
  unfold nan_add at 2. destruct (is_nan v); cbn [negb fst snd]; rewrite IH; [reflexivity|]. cbn [fold_left length]. rewrite Nat.add_succ_r. reflexivity.
Qed.
Lemma nan_square_fold m l s c : fold_left (nan_square m) l (s, c) = (fold_left (deviation m) (filter (fun v => negb (is_nan v)) l) s, (c + length (filter (fun v => negb (is_nan v)) l))%nat).
Proof.
  revert s c. induction l as [|v l IH]; intros s c; cbn [fold_left filter]; [cbn [length]; rewrite Nat.add_0_r; reflexivity|].
  unfold nan_square at 2. destruct (is_nan v); cbn [negb fst snd]; rewrite IH; [reflexivity|]. cbn [fold_left length]. rewrite Nat.add_succ_r. reflexivity.
Qed.
Lemma number_read k v : real k = true -> element k v -> negb (is_nan (as_f64 v)) = is_a_number v.
Proof.
  intros R E. destruct (as_f64_rounded k v R E) as [A _]. unfold is_a_number. destruct (real_value v) as [|s|z].
  - apply value_nan in A. rewrite A. reflexivity.
  - destruct (as_f64 v); try discriminate A; reflexivity.
  - destruct (as_f64 v); [reflexivity|reflexivity|contradiction|reflexivity].
Qed.
Lemma numbers_read k vals : real k = true -> Forall (element k) vals -> filter (fun v => negb (is_nan v)) (map as_f64 vals) = map as_f64 (filter is_a_number vals).
Proof.
  intros R HF. induction HF as [|v l Hv HF IH]; [reflexivity|]. cbn [map filter]. rewrite (number_read k v R Hv), IH. destruct (is_a_number v); reflexivity.
Qed.
Lemma nan_mean_spec x vals : real_array x -> listed x vals -> nan_mean x = Ok (mean_of (map as_f64 (filter is_a_number vals))).
Proof.
  intros [G R] E. pose proof (vals_elements x vals G E) as HV. unfold nan_mean.
  assert (size (n_arr x) = length vals) as SZ by (unfold listed, elems in E; apply (f_equal (@length _)) in E; rewrite !map_length, all_idx_length in E; exact E). rewrite SZ.
  destruct (Nat.eqb_spec (length vals) 0) as [H0|H0]; [destruct vals; [reflexivity|discriminate H0]|]. rewrite (all_f64_spec x vals G E). cbn [bind]. rewrite nan_add_fold, (numbers_read (n_kind x) vals R HV). reflexivity.
Qed.
Lemma nan_var_spec x vals : real_array x -> listed x vals -> nan_var x = Ok (var_of (map as_f64 (filter is_a_number vals))).
Proof.
  intros A E. pose proof A as [G R]. pose proof (vals_elements x vals G E) as HV. unfold nan_var. rewrite (nan_mean_spec x vals A E). cbn [bind]. unfold var_of.
  destruct (is_nan (mean_of _)); [reflexivity|]. rewrite (all_f64_spec x vals G E). cbn [bind]. rewrite nan_square_fold, (numbers_read (n_kind x) vals R HV). reflexivity.
Qed.
Lemma read_ok k vals : real k = true -> Forall (element k) vals -> Forall (fun v => ok64 v = true) (map as_f64 vals).
Proof. intros R HF. induction HF as [|v l Hv HF IH]; [constructor|]. cbn [map]. constructor; [apply (as_f64_rounded k v R Hv)|exact IH]. Qed.
Lemma sum_ok l s : Forall (fun v => ok64 v = true) l -> ok64 s = true -> ok64 (fold_left (SFadd 53 1024) l s) = true.
Proof. intros H. revert s. induction H as [|v l Hv H IH]; intros s HS; [exact HS|]. cbn [fold_left]. apply IH. apply ok_add; assumption. Qed.
Lemma mean_of_ok l : Forall (fun v => ok64 v = true) l -> ok64 (mean_of l) = true.
Proof. intros H. unfold mean_of. destruct (Nat.eqb (length l) 0); [reflexivity|]. apply ok_div; [apply sum_ok; [exact H|reflexivity]|apply ok_count]. Qed.
Lemma var_of_ok l : Forall (fun v => ok64 v = true) l -> ok64 (var_of l) = true /\ not_negative (var_of l).
Proof.
  intros H. unfold var_of. destruct (is_nan (mean_of l)) eqn:HN; [split; reflexivity|]. split; [apply ok_spread; [apply mean_of_ok; exact H|exact H]|].
  apply spread_sign. intros H0. unfold mean_of in HN. rewrite H0 in HN. discriminate HN.
Qed.
Lemma number_elements k vals : Forall (element k) vals -> Forall (element k) (filter is_a_number vals).
Proof. intros H. apply Forall_forall. intros v Hv. apply filter_In in Hv as [Hv _]. rewrite Forall_forall in H. apply H. exact Hv. Qed.
Lemma at_least_value v : not_negative v -> at_least_zero (float_value v).
Proof.
  destruct v as [s|s| |s m e]; intros S0; cbn [not_negative] in S0; cbn [float_value at_least_zero]; [lia|exact S0|exact I|].
  subst s. cbn [cond_Zopp]. apply Z.mul_nonneg_nonneg; [lia|apply Z.pow_nonneg; lia].
Qed.
(* sums without rounding *)
Lemma sum_exact U l : unit_of Float64 U -> Forall (fun v => ok64 v = true) l -> summable 53 U (map float_value l) -> float_value (fold_left (SFadd 53 1024) l (S754_zero false)) = Fin (total (map float_value l)).
Proof.
  intros HU HV HS. assert (float_kind Float64) as K by (right; right; reflexivity).
  assert (valid_in Float64 (S754_zero false)) as V0 by reflexivity.
  destruct (inv_fold Float64 (sum_inv Float64 U) (S754_zero false) (fun a b => float_elem Float64 AAdd a b) V0 ltac:(intros _; reflexivity) (sum_stable Float64 U K HU) l HV) as [_ H].
  exact (H HS).
Qed.
Lemma whole_reads k vals zs : real k = true -> Forall (element k) vals -> map real_value vals = map (fun z => Fin (z * one)) zs -> size_sum zs < 2 ^ 53 -> Forall2 is_whole zs (map as_f64 vals).
Proof.
  intros R HV. revert zs. induction HV as [|v l Hv HV IH]; intros [|z zs] E B; try discriminate E; [constructor|]. unfold size_sum in *. cbn [map fold_right] in *. injection E as E1 E2. pose proof (abs_sum_nonneg zs).
  constructor; [|apply IH; [exact E2|lia]]. destruct (as_f64_rounded k v R Hv) as [A V]. rewrite E1 in A. split; [exact V|]. apply (fmt_rounded_exact 53 1024 _ 1 _ (z * one) ltac:(lia) A f64_format (whole64 z ltac:(lia))). ring.
Qed.
Lemma var_of_whole m zs l : Forall2 is_whole zs l -> zs <> [] -> size_sum zs < 2 ^ 53 -> Z.of_nat (length zs) < 2 ^ 53 -> whole_sum zs = m * Z.of_nat (length zs) -> squares_sum m zs < 2 ^ 53 ->
  fmt_rounded 53 1024 (squares_sum m zs * one) (Z.of_nat (length zs)) (float_value (var_of l)).
Proof.
  intros HF NE HA HL HM HQ. assert (length l = length zs) as EL by (clear - HF; induction HF; cbn [length]; congruence).
  assert (0 < Z.of_nat (length zs)) as HP by (destruct zs; [contradiction|cbn [length]; lia]).
  assert (Z.abs m < 2 ^ 53) as HB.
  { assert (Z.abs (whole_sum zs) <= size_sum zs) as H by (clear; unfold whole_sum, size_sum; induction zs; cbn; lia). rewrite HM, Z.abs_mul in H. rewrite (Z.abs_eq (Z.of_nat _)) in H by lia. nia. }
  assert (is_whole m (mean_of l)) as HW.
  { unfold mean_of. rewrite EL. destruct (Nat.eqb_spec (length zs) 0) as [|_]; [lia|]. apply mean_whole; [|lia|exact HB]. rewrite <- HM. apply sum_whole; assumption. }
  unfold var_of. destruct (is_nan (mean_of l)) eqn:HN; [destruct HW as [_ HW]; destruct (mean_of l); try discriminate HN; discriminate HW|]. rewrite EL. apply spread_whole; assumption.
Qed.
