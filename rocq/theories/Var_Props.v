(* C172, C173: variance, standard deviation and mean of all elements of a float array. *)
From Coq Require Import SpecFloat.
From Verif Require Import Base Lists Int_Model Int_Proofs F64_Model Arr_Spec Arr_Model Arr_Wf Arr_Proofs Wf_Check Bcast_Model Bcast_Proofs Copy_Model Copy_Proofs Idx_Model Idx_Assign Elem_Model Elem_Proofs Rng_Model Date_Model New_Model Promo_Spec Promo_Model Promo_Proofs Promo_Props SF_Proofs SF_Arith SF_Cmp Cast_Spec Cast_Model Cast_SF Cast_Proofs Cast_Laws Cast_Props Close_Proofs Bitw_Spec Bitw_Model Bitw_Proofs Rnd_Spec Rnd_Model Rnd_Proofs Rnd_Round Rnd_Props Ari_Spec SF_Round Ari_Model Ari_Proofs Ari_Ord Ari_Next Ari_Props Red_Spec Red_Model Red_Proofs Cpx_Spec Cpx_Model Cpx_Proofs CpxA_Spec CpxA_Proofs Fred_Spec Fred_Model Fred_Proofs Fred_Props Sqrt_Spec Sqrt_Model Sqrt_Proofs Sqrt_Half Var_Spec Var_Model Var_Proofs.
Local Open Scope Z_scope.

(* the variance is never below zero, whatever the elements and the layout *)
Theorem C172_var : forall x vals, float_array x -> listed x vals ->
  exists v, float_var x = Ok v /\ valid_in Float64 v /\ at_least_zero (float_value v).
Proof.
  intros x vals [G K] E. destruct (float_var_spec x vals K G E) as (v & EV & V & S0). exists v. split; [exact EV|]. split; [exact V|].
  destruct v as [s|s| |s m e]; cbn [not_negative] in S0; cbn [float_value at_least_zero]; [lia|exact S0|exact I|].
  subst s. cbn [cond_Zopp]. apply Z.mul_nonneg_nonneg; [lia|apply Z.pow_nonneg; lia].
Qed.
(* the standard deviation is the number nearest to the root of the variance *)
Theorem C172_std : forall x vals, float_array x -> listed x vals ->
  exists v s, float_var x = Ok v /\ float_std x = Ok s /\
    square_root (fun r => holds Float64 (r, 0)) (float_value v) (float_value s) /\ at_least_zero (float_value s) /\
    (float_value s = NaN <-> float_value v = NaN).
Proof.
  intros x vals A E. destruct (C172_var x vals A E) as (v & EV & V & P). exists v, (sqrt_float Float64 v). split; [exact EV|]. split; [unfold float_std; rewrite EV; reflexivity|].
  pose proof (sqrt_every Float64 v eq_refl eq_refl V) as R. split; [exact R|].
  destruct (float_value v) as [|n|a]; cbn [square_root at_least_zero] in R, P.
  - rewrite R. split; [exact I|]. split; reflexivity.
  - subst n. rewrite R. split; [reflexivity|]. split; discriminate.
  - destruct (Z.ltb_spec a 0) as [|_]; [lia|]. destruct R as (r & -> & _ & R & _). split; [exact R|]. split; discriminate.
Qed.
(* no elements: NaN *)
Theorem C172_empty : forall x, float_array x -> listed x [] -> float_var x = Ok S754_nan /\ float_std x = Ok S754_nan.
Proof.
  intros x [G K] E. assert (0%nat = size (n_arr x)) as L by (unfold listed, elems in E; apply (f_equal (@length _)) in E; rewrite !map_length, all_idx_length in E; symmetry; exact E). assert (EV : float_var x = Ok S754_nan) by (unfold float_var; rewrite <- L; reflexivity).
  split; [exact EV|]. unfold float_std. rewrite EV. reflexivity.
Qed.
(* a NaN anywhere: NaN *)
Theorem C172_nan : forall x vals, float_array x -> listed x vals -> In NaN (map real_value vals) ->
  float_var x = Ok S754_nan /\ float_std x = Ok S754_nan.
Proof. intros x vals [G K] E HI. pose proof (float_var_nan x vals K G E HI) as EV. split; [exact EV|]. unfold float_std. rewrite EV. reflexivity. Qed.
(* whole numbers whose mean m is whole, in any layout: the mean of the squares, rounded once.
   Missing: other elements, where the mean itself is rounded *)
Theorem C172_whole_partial : forall x vals zs m, float_array x -> listed x vals -> map real_value vals = map (fun z => Fin (z * one)) zs -> zs <> [] ->
  size_sum zs < 2 ^ fst (format (n_kind x)) -> Z.of_nat (length zs) < 2 ^ 53 -> whole_sum zs = m * Z.of_nat (length zs) -> squares_sum m zs < 2 ^ 53 ->
  exists v, float_var x = Ok v /\ rounded Float64 (squares_sum m zs * one) (Z.of_nat (length zs)) (float_value v).
Proof.
  intros x vals zs m [G K] E EV NE HA HL HM HQ.
  assert (HT : total (map real_value vals) = whole_sum zs * one) by (rewrite EV; clear; unfold total, whole_sum; induction zs as [|z zs IH]; cbn [map fold_right fin] in *; [reflexivity|rewrite IH; ring]).
  assert (HW : weight (map real_value vals) = size_sum zs * one).
  { rewrite EV. clear. unfold weight, size_sum. induction zs as [|z zs IH]; cbn [map fold_right fin] in *; [reflexivity|]. rewrite IH, Z.abs_mul, (Z.abs_eq one) by (pose proof one_pos; lia). ring. }
  destruct (C158_sum x vals one (Logic.conj G K) E) as (s & ES & VS).
  - exists 0. split; [destruct K as [-> |[-> | ->]]; cbn; lia|reflexivity].
  - split; [rewrite EV; apply Forall_forall; intros e He; apply in_map_iff in He as (z & <- & _); exists z; reflexivity|]. rewrite HW. apply Z.mul_lt_mono_pos_r; [exact one_pos|exact HA].
  - rewrite HT in VS. destruct (float_var_whole x vals zs m s K G E EV NE ES VS) as (v & EQ & R); try assumption.
    + eapply Z.lt_le_trans; [exact HA|]. destruct K as [-> |[-> | ->]]; vm_compute; discriminate.
    + exists v. split; [exact EQ|]. apply rounded_kind; [auto|exact R].
Qed.
(* the same eight numbers, in one run of memory and in every other place of a longer run:
   the variance is 2 here and 4 there, because the means are added up in different orders *)
Definition big (z : Z) : scalar := SFlt (f64_int (2 ^ 53 + z)).
Definition together : narr := row Float64 (map big [0; 4; 0; 2; 0; 2; 2; 2]).
Definition apart : narr :=
  mkN Float64 (concat (map (fun z => [big z; big 0]) [0; 4; 0; 2; 0; 2; 2; 2])) (mkArr 0 [8]%nat [16] 8 false false).
Theorem C172_layout_refuted :
  ~ (forall x y vals, float_array x -> float_array y -> n_kind x = n_kind y -> listed x vals -> listed y vals -> float_var x = float_var y).
Proof.
  intros H. specialize (H together apart (map big [0; 4; 0; 2; 0; 2; 2; 2])).
  assert (float_array together) as H1 by (split; [good_row|right; right; reflexivity]). assert (float_array apart) as H2 by (split; [good_row|right; right; reflexivity]).
  specialize (H H1 H2 eq_refl ltac:(reflexivity) ltac:(reflexivity)). vm_compute in H. discriminate H.
Qed.
Definition single (z : Z) : scalar := SFlt (float_whole 24 128 (z <? 0) (Z.abs z)).
Example C172_nonvacuous :
  let x := row Float32 [single 1; single 5; single (-3); single 9] in
  let t := mkN Float64 [fl 1 1; fl 2 1; fl 3 1; fl 4 1; fl 5 1; fl 9 1] (mkArr 0 [3; 2]%nat [8; 24] 8 false true) in
  float_array x /\ listed x ([single 1; single 5; single (-3); single 9]) /\ float_array t /\
  float_var x = Ok (flt (fl 20 1)) /\ float_var t = Ok (flt (fl 20 3)) /\ float_std t = Ok (sqrt_float Float64 (flt (fl 20 3))) /\
  map real_value ([single 1; single 5; single (-3); single 9]) = map (fun z => Fin (z * one)) [1; 5; -3; 9] /\
  whole_sum [1; 5; -3; 9] = 3 * 4 /\ squares_sum 3 [1; 5; -3; 9] = 80 /\
  float_var together = Ok (flt (fl 2 1)) /\ float_var apart = Ok (flt (fl 4 1)).
Proof.
  split; [split; [good_row|right; left; reflexivity]|]. split; [reflexivity|]. split; [split; [good_row|right; right; reflexivity]|].
  do 7 (split; [vm_compute; reflexivity|]). vm_compute. reflexivity.
Qed.

(* ---- C173 -------------------------------------------------------------------- *)
(* elements whose sum needs no more bits than the dtype has: the exact mean, rounded once.
   Missing: sums that are rounded themselves *)
Theorem C173_mean_partial : forall x vals U, float_array x -> listed x vals -> vals <> [] -> Z.of_nat (length vals) < 2 ^ 53 -> unit_of (n_kind x) U ->
  summable (fst (format (n_kind x))) U (map real_value vals) ->
  exists r, float_mean x = Ok r /\ rounded Float64 (total (map real_value vals)) (Z.of_nat (length vals)) (float_value r).
Proof.
  intros x vals U A E NE HL HU HS. pose proof A as [G K]. destruct (C158_sum x vals U A E HU HS) as (s & ES & VS). destruct (total_ok x vals K G E) as (s' & ES' & OS). rewrite ES in ES'. injection ES' as <-.
  assert (size (n_arr x) = length vals) as SZ by (unfold listed, elems in E; apply (f_equal (@length _)) in E; rewrite !map_length, all_idx_length in E; exact E).
  assert (0 < Z.of_nat (length vals)) as HP by (destruct vals; [contradiction|cbn [length]; lia]).
  unfold float_mean. rewrite SZ, ES. destruct (Nat.eqb_spec (length vals) 0) as [|_]; [lia|]. cbn [bind]. eexists. split; [reflexivity|]. apply rounded_kind; [auto|].
  destruct (count_whole (Z.of_nat (length vals)) ltac:(lia)) as [VN EN]. destruct (div_rounded 53 1024 s (f64_int (Z.of_nat (length vals))) f64_format OS VN) as [R _]. rewrite VS, EN in R. cbn [quotient_of] in R.
  set (n := Z.of_nat (length vals)) in *. pose proof one_pos as H1. assert (0 < n * one) as HN1 by (apply Z.mul_pos_pos; lia). destruct (Z.eqb_spec (n * one) 0) as [|_]; [lia|].
  rewrite Z.sgn_pos, Z.mul_1_r, Z.abs_eq in R by lia. exact (scale_rounded _ _ _ _ one _ H1 R).
Qed.
Theorem C173_empty : forall x, listed x [] -> float_mean x = Ok S754_nan.
Proof.
  intros x E. assert (0%nat = size (n_arr x)) as L by (unfold listed, elems in E; apply (f_equal (@length _)) in E; rewrite !map_length, all_idx_length in E; symmetry; exact E).
  unfold float_mean. rewrite <- L. reflexivity.
Qed.
Theorem C173_nan : forall x vals, float_array x -> listed x vals -> In NaN (map real_value vals) -> float_mean x = Ok S754_nan.
Proof.
  intros x vals A E HI. destruct (C158_nan RSum x vals (or_introl eq_refl) A E HI) as (r & ER & VR). apply value_nan in VR. subst r. unfold float_mean. rewrite ER. destruct (Nat.eqb _ 0); reflexivity.
Qed.
(* the sum of a float16 array is taken in float16: the mean of 60000 and 60000 is infinite *)
Theorem C173_bounded_refuted :
  ~ (forall x vals lo hi, float_array x -> listed x vals -> vals <> [] -> (forall e, In e (map real_value vals) -> exists z, e = Fin z /\ lo <= z <= hi) ->
     exists r z, float_mean x = Ok r /\ float_value r = Fin z /\ lo <= z <= hi).
Proof.
  intros H. set (h := SFlt (S754_finite false 1875 5)).
  destruct (H (row Float16 [h; h]) [h; h] (60000 * one) (60000 * one)) as (r & z & E & V & _).
  - split; [good_row|left; reflexivity].
  - reflexivity.
  - discriminate.
  - intros e He. exists (60000 * one). split; [|lia]. destruct He as [<- |[<- |[]]]; vm_compute; reflexivity.
  - vm_compute in E. injection E as <-. discriminate V.
Qed.
(* the mean depends on the layout as well: the same numbers in rows and in columns *)
Definition rows : narr := mkN Float64 (map big [0; 4; 0; 2; 0; 2; 2; 2]) (fresh [4; 2]%nat 8).
Definition columns : narr := mkN Float64 (map big [0; 0; 0; 2; 4; 2; 2; 2]) (mkArr 0 [4; 2]%nat [8; 32] 8 false true).
Theorem C173_layout_refuted :
  ~ (forall x y vals, float_array x -> float_array y -> n_kind x = n_kind y -> shape_of x = shape_of y -> listed x vals -> listed y vals -> float_mean x = float_mean y).
Proof.
  intros H. specialize (H rows columns (map big [0; 4; 0; 2; 0; 2; 2; 2])).
  assert (float_array rows) as H1 by (split; [good_row|right; right; reflexivity]). assert (float_array columns) as H2 by (split; [good_row|right; right; reflexivity]).
  specialize (H H1 H2 eq_refl eq_refl ltac:(reflexivity) ltac:(reflexivity)). vm_compute in H. discriminate H.
Qed.
Example C173_nonvacuous :
  let x := row Float64 [fl 1 2; fl 3 4; fl (-5) 1; fl 1 4] in
  float_array x /\ float_mean x = Ok (flt (fl (-7) 8)) /\ unit_of Float64 (2 ^ 1072) /\ summable 53 (2 ^ 1072) [real_value (fl 1 2); real_value (fl 3 4)] /\
  float_mean (row Float64 [fl 1 1; SFlt S754_nan]) = Ok S754_nan.
Proof.
  split; [split; [good_row|right; right; reflexivity]|]. split; [vm_compute; reflexivity|]. split; [exists (-2); split; [cbn; lia|reflexivity]|]. split; [|reflexivity].
  split; [|vm_compute; reflexivity]. constructor; [exists 2; vm_compute; reflexivity|constructor; [exists 3; vm_compute; reflexivity|constructor]].
Qed.

Print Assumptions C172_var.
Print Assumptions C172_std.
Print Assumptions C172_empty.
Print Assumptions C172_nan.
Print Assumptions C172_whole_partial.
Print Assumptions C172_layout_refuted.
Print Assumptions C173_mean_partial.
Print Assumptions C173_empty.
Print Assumptions C173_nan.
Print Assumptions C173_bounded_refuted.
Print Assumptions C173_layout_refuted.
