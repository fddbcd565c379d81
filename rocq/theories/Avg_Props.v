(* C174: the mean of a float array along an axis. *)
From Coq Require Import SpecFloat.
From Verif Require Import Base Lists Int_Model Int_Proofs F64_Model Arr_Spec Arr_Model Arr_Wf Arr_Proofs Wf_Check Bcast_Model Bcast_Proofs Copy_Model Copy_Proofs Idx_Model Idx_Assign Elem_Model Elem_Proofs Rng_Model Date_Model New_Model Promo_Spec Promo_Model Promo_Proofs Promo_Props SF_Proofs SF_Arith SF_Cmp Cast_Spec Cast_Model Cast_SF Cast_Proofs Cast_Laws Cast_Props Close_Proofs Bitw_Spec Bitw_Model Bitw_Proofs Rnd_Spec Rnd_Model Rnd_Proofs Rnd_Round Rnd_Props Ari_Spec SF_Round Ari_Model Ari_Proofs Ari_Ord Ari_Next Ari_Props Red_Spec Red_Model Red_Proofs Cpx_Spec Cpx_Model Cpx_Proofs CpxA_Spec CpxA_Proofs Fred_Spec Fred_Model Fred_Proofs Fred_Props Sqrt_Spec Sqrt_Model Sqrt_Proofs Sqrt_Half Var_Spec Var_Model Var_Proofs Avg_Model Avg_Proofs.
From Verif Require Lay_Copy Mean_Proofs.
Local Open Scope Z_scope.

(* every lane whose sum needs no more bits than the dtype has: its exact mean, rounded once;
   NaN for lanes of no elements.  Missing: float16, and sums that are rounded themselves *)
Theorem C174_axis_partial : forall x axis n U, float_array x -> n_kind x <> Float16 -> nth_error (shape_of x) axis = Some n -> unit_of (n_kind x) U ->
  in_memory (reduced_shape axis (shape_of x)) -> Z.of_nat n < 2 ^ fst (format (n_kind x)) ->
  exists z, float_mean_axis x axis = Ok z /\
    per_lane (fun l r => length l = n /\ (summable (fst (format (n_kind x))) U l ->
                         if (n =? 0)%nat then r = NaN else rounded (n_kind x) (total l) (Z.of_nat n) r)) x axis z.
Proof.
  intros x axis n U A NH Hn HU HM HN. pose proof A as [G K]. assert (axis < length (shape_of x))%nat as HA by (apply nth_error_Some; rewrite Hn; discriminate).
  destruct (C158_sum_axis x axis U A HA HU) as (s & ES & KS & SS & HS). pose proof (float_axis_good x axis s A HA HM ES) as GS. destruct (float_kind_real _ K) as [RK NK].
  destruct (count_value (n_kind x) n K HN) as [EC VC].
  assert (GC : good (count_array (n_kind x) n)) by (apply Cum_Proofs.fresh_good; [exact NK|reflexivity|cbn; lia|constructor; [exact EC|constructor]]).
  assert (RS : real (n_kind s) = true) by (rewrite KS; exact RK).
  pose proof (C150_rounded_partial Over s (count_array (n_kind x) n) (Logic.conj GS RS) (Logic.conj GC RK)) as HD.
  change (shape_of (count_array (n_kind x) n)) with [1%nat] in HD. rewrite Mean_Proofs.bshape_one in HD by (rewrite SS; unfold reduced_shape; destruct (remove_at axis (shape_of x)); discriminate).
  rewrite SS in HD. destruct (HD HM) as (z & EZ & GZ & KZ & SZ & HZ). exists z. unfold float_mean_axis. rewrite ES. cbn [bind]. unfold shape_of in Hn. rewrite Hn, KS. cbn [aop_of] in EZ. rewrite EZ. split; [reflexivity|].
  assert (AK : arith_kind Over (n_kind s) (n_kind x) = n_kind x) by (rewrite KS; destruct K as [-> |[-> | ->]]; reflexivity). change (n_kind (count_array (n_kind x) n)) with (n_kind x) in *. rewrite AK in *.
  split; [exact KZ|]. split; [exact SZ|]. intros idx HI. rewrite SZ in HI. rewrite SS in HS. destruct (HS idx HI) as (lv & t & EL & ET & HT & QT).
  destruct (HZ idx HI) as (v & w & r & BV & BW & BR & HR). exists lv, r. split; [exact EL|]. split; [exact BR|].
  assert (v = t) as -> by (unfold bc_at in BV; rewrite Lay_Copy.unbroadcast_same in BV by (rewrite SS; exact HI); congruence).
  assert (w = write_f64 (n_kind x) (f64_int (Z.of_nat n))) as -> by (apply load_in in BW; destruct BW as [<- |[]]; reflexivity).
  split; [pose proof (good_element z idx r GZ BR) as HE; rewrite KZ in HE; exact HE|].
  assert (LN : length lv = n) by (apply (f_equal (@length _)) in EL; unfold Red_Spec.lane in EL; rewrite !map_length, seq_length, (nth_error_nth _ _ _ Hn) in EL; symmetry; exact EL).
  split; [rewrite map_length; exact LN|]. intros HSM. specialize (QT HSM).
  assert (RO : rounds_once Over s (count_array (n_kind x) n) t (write_f64 (n_kind x) (f64_int (Z.of_nat n)))).
  { unfold rounds_once. change (n_kind (count_array (n_kind x) n)) with (n_kind x). rewrite KS in *. destruct K as [K16|[K32|K64]]; [contradiction|left; auto|right].
    split; [rewrite AK; exact K64|]. split; [apply (narrow_fits (n_kind x)); try assumption; rewrite K64; reflexivity|]. split; [apply (narrow_fits (n_kind x)); try assumption; rewrite K64; reflexivity|]. intros _. left. reflexivity. }
  specialize (HR RO). cbn [rounded_result] in HR. rewrite QT, VC in HR. cbn [quotient_of] in HR. pose proof one_pos as H1.
  destruct (Nat.eqb_spec n 0) as [Z0|NZ].
  - subst n. rewrite Z0 in HR. destruct lv; [|discriminate Z0]. exact HR.
  - assert (0 < Z.of_nat n * one) as HP by (apply Z.mul_pos_pos; lia). destruct (Z.eqb_spec (Z.of_nat n * one) 0) as [|_]; [lia|]. rewrite Z.sgn_pos, Z.mul_1_r, Z.abs_eq in HR by lia.
    exact (scale_kind _ _ _ one _ H1 HR).
Qed.
(* the mean along an axis can leave the range of the elements: a float16 lane is added up in float16 *)
Theorem C174_bounded_refuted :
  ~ (forall x axis lo hi, float_array x -> (axis < length (shape_of x))%nat -> in_memory (reduced_shape axis (shape_of x)) ->
     exists z, float_mean_axis x axis = Ok z /\
       per_lane (fun l r => l <> [] -> (forall e, In e l -> exists a, e = Fin a /\ lo <= a <= hi) -> exists a, r = Fin a /\ lo <= a <= hi) x axis z).
Proof.
  intros H. set (h := SFlt (S754_finite false 1875 5)).
  destruct (H (row Float16 [h; h]) 0%nat (60000 * one) (60000 * one)) as (z & E & _ & S1 & HZ).
  - split; [good_row|left; reflexivity].
  - cbn. lia.
  - reflexivity.
  - destruct (HZ [0%nat]) as (lv & r & EL & ER & _ & Q).
    + rewrite S1. repeat constructor.
    + assert (lv = [h; h]) as ->.
      { change (map Some [h; h] = map Some lv) in EL. destruct lv as [|a [|b [|c l]]]; try discriminate EL. injection EL as <- <-. reflexivity. }
      vm_compute in E. injection E as <-. vm_compute in ER. injection ER as <-. destruct Q as (a & HQ & _); [discriminate| |discriminate HQ].
      intros e He. exists (60000 * one). split; [|lia]. destruct He as [<- |[<- |[]]]; vm_compute; reflexivity.
Qed.
Example C174_nonvacuous :
  let x := mkN Float64 [fl 1 1; fl 2 1; fl 3 1; fl 4 1; fl 6 1; fl 1 2] (mkArr 0 [3; 2]%nat [8; 24] 8 false true) in
  float_array x /\ nth_error (shape_of x) 1 = Some 2%nat /\ unit_of Float64 (2 ^ 1072) /\ in_memory (reduced_shape 1 (shape_of x)) /\
  float_mean_axis x 1 = Ok (row Float64 [fl 5 2; fl 4 1; fl 7 4]) /\ summable 53 (2 ^ 1072) [real_value (fl 3 1); real_value (fl 1 2)] /\
  float_mean_axis (mkN Float32 [] (fresh [0; 2]%nat 4)) 0 = Ok (row Float32 [SFlt S754_nan; SFlt S754_nan]).
Proof.
  split; [split; [good_row|right; right; reflexivity]|]. split; [reflexivity|]. split; [exists (-2); split; [cbn; lia|reflexivity]|]. split; [reflexivity|]. split; [vm_compute; reflexivity|]. split; [|vm_compute; reflexivity].
  split; [|vm_compute; reflexivity]. constructor; [exists 12; vm_compute; reflexivity|constructor; [exists 2; vm_compute; reflexivity|constructor]].
Qed.

Print Assumptions C174_axis_partial.
Print Assumptions C174_bounded_refuted.
