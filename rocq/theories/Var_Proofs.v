(* Proofs about variances in floating point. *)
From Coq Require Import SpecFloat Permutation.
From Verif Require Import Base Lists Int_Model Int_Proofs F64_Model Arr_Spec Arr_Model Arr_Wf Arr_Proofs Copy_Model Copy_Proofs Elem_Model Elem_Proofs Rng_Model New_Model Promo_Spec Promo_Model Promo_Proofs SF_Proofs SF_Arith Cast_Spec Cast_Model Cast_SF Cast_Proofs Bitw_Spec Bitw_Model Bitw_Proofs Rnd_Spec Rnd_Model Rnd_Proofs Ari_Spec SF_Round Ari_Model Ari_Proofs Red_Spec Red_Model Red_Proofs Cpx_Spec Cpx_Model Cpx_Proofs Fred_Spec Fred_Model Fred_Proofs Sqrt_Spec Sqrt_Model Sqrt_Proofs Sqrt_Half Var_Spec Var_Model.
Local Open Scope Z_scope.

Definition not_negative (x : spec_float) : Prop :=
  match x with S754_nan => True | S754_zero s | S754_infinity s | S754_finite s _ _ => s = false end.
Lemma round_aux_sign prec emax q e l : not_negative (binary_round_aux prec emax false q e l).
Proof.
  unfold binary_round_aux. destruct (shr_fexp prec emax q e l) as [r e']. destruct (shr_fexp prec emax (round_nearest_even (shr_m r) (loc_of_shr_record r)) e' loc_Exact) as [r' e''].
  destruct (shr_m r'); [reflexivity| |exact I]. destruct (e'' <=? emax - prec); reflexivity.
Qed.
Lemma square_sign prec emax x : not_negative (SFmul prec emax x x).
Proof. destruct x as [s|s| |s m e]; cbn [SFmul]; try exact I; try (destruct s; reflexivity). rewrite xorb_nilpotent. apply round_aux_sign. Qed.
Lemma normalize_sign prec emax p e z : not_negative (binary_normalize prec emax (Zpos p) e z).
Proof. cbn [binary_normalize]. unfold binary_round. destruct (shl_align p e _) as [m e']. apply round_aux_sign. Qed.
Lemma add_sign prec emax x y : not_negative x -> not_negative y -> not_negative (SFadd prec emax x y).
Proof.
  intros HX HY. destruct x as [s|s| |s m e], y as [t|t| |t n g]; cbn [not_negative] in HX, HY; subst; try exact I; try reflexivity.
  cbn [SFadd cond_Zopp]. cbv zeta. rewrite <- Pos2Z.inj_add. apply normalize_sign.
Qed.
Lemma div_sign prec emax x y : not_negative x -> not_negative y -> not_negative (SFdiv prec emax x y).
Proof.
  intros HX HY. destruct x as [s|s| |s m e], y as [t|t| |t n g]; cbn [not_negative] in HX, HY; subst; try exact I; try reflexivity.
  cbn [SFdiv]. destruct (SFdiv_core_binary prec emax (Zpos m) e (Zpos n) g) as [[q e'] l]. apply round_aux_sign.
Qed.
Lemma count_sign n : n <> 0%nat -> not_negative (f64_int (Z.of_nat n)).
Proof. intros H. destruct n as [|n]; [contradiction|]. apply (normalize_sign 53 1024 (Pos.of_succ_nat n) 0 false). Qed.
Lemma spread_sign mean n vals : n <> 0%nat -> not_negative (spread mean n vals).
Proof.
  intros H. apply div_sign; [|apply count_sign; exact H]. assert (forall l s, not_negative s -> not_negative (fold_left (deviation mean) l s)) as HF; [|apply HF; reflexivity].
  intros l. induction l as [|v l IH]; intros s HS; [exact HS|]. cbn [fold_left]. apply IH. apply add_sign; [exact HS|apply square_sign].
Qed.
Notation ok64 := (valid_binary 53 1024).
Lemma ok_add x y : ok64 x = true -> ok64 y = true -> ok64 (SFadd 53 1024 x y) = true. Proof. intros A B. apply add_rounded; [apply f64_format|exact A|exact B]. Qed.
Lemma ok_sub x y : ok64 x = true -> ok64 y = true -> ok64 (SFsub 53 1024 x y) = true. Proof. intros A B. apply sub_rounded; [apply f64_format|exact A|exact B]. Qed.
Lemma ok_mul x y : ok64 x = true -> ok64 y = true -> ok64 (SFmul 53 1024 x y) = true. Proof. intros A B. apply mul_rounded; [apply f64_format|exact A|exact B]. Qed.
Lemma ok_div x y : ok64 x = true -> ok64 y = true -> ok64 (SFdiv 53 1024 x y) = true. Proof. intros A B. apply div_rounded; [apply f64_format|exact A|exact B]. Qed.
Lemma ok_count z : ok64 (f64_int z) = true. Proof. apply (normalize_rounded 53 1024 z 0 false f64_format). lia. Qed.
Lemma ok_spread mean n vals : ok64 mean = true -> Forall (fun v => ok64 v = true) vals -> ok64 (spread mean n vals) = true.
Proof.
  intros M H. apply ok_div; [|apply ok_count]. assert (forall l s, Forall (fun v => ok64 v = true) l -> ok64 s = true -> ok64 (fold_left (deviation mean) l s) = true) as HF; [|apply HF; [exact H|reflexivity]].
  intros l. induction l as [|v l IH]; intros s HL HS; [exact HS|]. inversion HL; subst. cbn [fold_left]. apply IH; [assumption|]. apply ok_add; [exact HS|]. apply ok_mul; apply ok_sub; assumption.
Qed.
Lemma total_ok x vals : float_kind (n_kind x) -> good x -> elems (n_buf x) (n_arr x) = map Some vals ->
  exists s, float_total RSum x = Ok s /\ ok64 s = true.
Proof.
  intros K G E. pose proof G as (_ & W & _). destruct (floats_flt _ vals K (vals_elements x vals G E)) as [FV FE]. destruct (float_kind_real _ K) as [RK _].
  pose proof (wf_map flt _ _ W) as W'. pose proof (elems_map flt _ _ _ E) as E'. unfold float_total. rewrite (dispatch_reduce_spec _ _ _ _ _ W' E'). cbn [bind].
  assert (VI : valid_in (n_kind x) (fred_init (n_kind x) RSum)) by (destruct K as [-> |[-> | ->]]; reflexivity).
  assert (ST : stable (n_kind x) (fun _ _ => True) (fred_comb (n_kind x) RSum)) by (split; intros; (split; [|exact I]); apply float_elem_valid; try assumption; reflexivity).
  destruct ((size (n_arr x) =? 0)%nat || a_c (n_arr x) || (ndim (n_arr x) <=? 1)%nat).
  - destruct (inv_reduce8 _ (fun _ _ => True) _ _ VI I ST ltac:(intros ? ? ? ? ?; exact I) _ FV) as [A _]. eexists. split; [reflexivity|].
    apply (as_f64_rounded (n_kind x)); [exact RK|]. apply write_element; [exact RK|]. apply (as_f64_float _ _ K A).
  - rewrite (trait_reduce_spec _ _ _ _ _ W' E'). cbn [bind]. destruct (inv_fold _ (fun _ _ => True) _ _ VI I ST _ FV) as [A _]. eexists. split; [reflexivity|]. apply (as_f64_float _ _ K A).
Qed.
Lemma float_var_spec x vals : float_kind (n_kind x) -> good x -> elems (n_buf x) (n_arr x) = map Some vals ->
  exists r, float_var x = Ok r /\ ok64 r = true /\ not_negative r.
Proof.
  intros K G E. pose proof G as (_ & W & _). pose proof (vals_elements x vals G E) as HV. destruct (floats_flt _ vals K HV) as [FV FE]. destruct (float_kind_real _ K) as [RK _].
  unfold float_var. destruct (Nat.eqb_spec (size (n_arr x)) 0) as [H0|H0]; [exists S754_nan; repeat split|].
  destruct (a_c (n_arr x) && kind_eqb (n_kind x) Float64) eqn:HC.
  - apply andb_true_iff in HC as [HC HK]. rewrite (read_contig _ _ _ (wf_map flt _ _ W) HC (elems_map flt _ _ _ E)). cbn [bind]. eexists. split; [reflexivity|]. split; [|apply spread_sign; exact H0].
    assert (F64 : Forall (fun v => ok64 v = true) (map flt vals)) by (assert (n_kind x = Float64) as HK' by (destruct (n_kind x); try discriminate HK; reflexivity); rewrite HK' in FV; exact FV).
    apply ok_spread; [|exact F64]. apply ok_div; [|apply ok_count].
    assert (forall l s, Forall (fun v => ok64 v = true) l -> ok64 s = true -> ok64 (fold_left (SFadd 53 1024) l s) = true) as HF; [|apply HF; [exact F64|reflexivity]].
    intros l. induction l as [|v l IH]; intros s HL HS; [exact HS|]. inversion HL; subst. cbn [fold_left]. apply IH; [assumption|]. apply ok_add; assumption.
  - destruct (total_ok x vals K G E) as (s & ES & VS). unfold float_mean. destruct (Nat.eqb_spec (size (n_arr x)) 0) as [|_]; [contradiction|]. rewrite ES. cbn [bind]. rewrite (read_offsets _ _ _ (wf_map as_f64 _ _ W) (elems_map as_f64 _ _ _ E)). cbn [bind].
    eexists. split; [reflexivity|]. split; [|apply spread_sign; exact H0]. apply ok_spread; [apply ok_div; [exact VS|apply ok_count]|].
    apply Forall_forall. intros y Hy. apply in_map_iff in Hy as (v & <- & Hv). rewrite Forall_forall in HV. apply (as_f64_rounded (n_kind x) v RK (HV v Hv)).
Qed.

(* ---- whole numbers ------------------------------------------------------------ *)
Definition is_whole (z : Z) (x : spec_float) : Prop := ok64 x = true /\ float_value x = Fin (z * one).
Lemma whole64 z : Z.abs z < 2 ^ 53 -> fmt_holds 53 1024 (z * one).
Proof.
  intros H. destruct (Z_le_gt_dec 0 z) as [L|L]; [apply (whole_holds 53 1024 z f64_format); lia|].
  replace (z * one) with (- (- z * one)) by ring. apply fmt_opp. apply (whole_holds 53 1024 (- z) f64_format). lia.
Qed.
Lemma add_whole a b x y : is_whole a x -> is_whole b y -> Z.abs (a + b) < 2 ^ 53 -> is_whole (a + b) (SFadd 53 1024 x y).
Proof.
  intros [VX EX] [VY EY] H. destruct (add_rounded 53 1024 x y f64_format VX VY) as [R V]. split; [exact V|]. rewrite EX, EY in R. cbn [sum_of] in R.
  apply (fmt_rounded_exact 53 1024 _ 1 _ ((a + b) * one) ltac:(lia) R f64_format (whole64 _ H)). ring.
Qed.
Lemma sub_whole a b x y : is_whole a x -> is_whole b y -> Z.abs (a - b) < 2 ^ 53 -> is_whole (a - b) (SFsub 53 1024 x y).
Proof.
  intros [VX EX] [VY EY] H. destruct (sub_rounded 53 1024 x y f64_format VX VY) as [R V]. split; [exact V|]. unfold difference_of in R. rewrite EX, EY in R. cbn [sum_of ext_opp] in R.
  apply (fmt_rounded_exact 53 1024 _ 1 _ ((a - b) * one) ltac:(lia) R f64_format (whole64 _ H)). ring.
Qed.
Lemma mul_whole a b x y : is_whole a x -> is_whole b y -> Z.abs (a * b) < 2 ^ 53 -> is_whole (a * b) (SFmul 53 1024 x y).
Proof.
  intros [VX EX] [VY EY] H. destruct (mul_rounded 53 1024 x y f64_format VX VY) as [R V]. split; [exact V|]. rewrite EX, EY in R. cbn [product_of] in R.
  apply (fmt_rounded_exact 53 1024 _ one _ (a * b * one) one_pos R f64_format (whole64 _ H)). ring.
Qed.
Lemma count_whole z : Z.abs z < 2 ^ 53 -> is_whole z (f64_int z).
Proof.
  intros H. split; [apply ok_count|]. destruct (normalize_rounded 53 1024 z 0 false f64_format ltac:(lia)) as [R _].
  apply (fmt_rounded_exact 53 1024 _ 1 _ (z * one) ltac:(lia) R f64_format (whole64 _ H)). rewrite one_is. change (0 + 1074) with 1074. ring.
Qed.
Lemma scale_rounded prec emax N D c e : 0 < c -> fmt_rounded prec emax (N * c) (D * c) e -> fmt_rounded prec emax N D e.
Proof.
  intros HC. assert (RG : fmt_range prec emax (N * c) (D * c) <-> fmt_range prec emax N D).
  { unfold fmt_range. rewrite Z.abs_mul, (Z.abs_eq c) by lia. set (B := (2 ^ (prec + 1) - 1) * 2 ^ (emax - prec + 1074)). replace (2 * (Z.abs N * c)) with (2 * Z.abs N * c) by ring. rewrite Z.mul_assoc. symmetry. apply Z.mul_lt_mono_pos_r. exact HC. }
  unfold fmt_rounded. destruct e as [|s|r]; [auto| |].
  - intros [A B]. split; [rewrite <- RG; exact A|]. rewrite B. split; intros; nia.
  - intros [A [F H]]. split; [apply RG; exact A|]. split; [exact F|]. intros r' F'. destruct (H r' F') as [H1 H2].
    assert (E : forall y, Z.abs (N * c - y * (D * c)) = Z.abs (N - y * D) * c) by (intros y; rewrite <- (Z.abs_eq c) at 3 by lia; rewrite <- Z.abs_mul; f_equal; ring). rewrite !E in *.
    split; [apply (Zmult_lt_0_le_reg_r _ _ c HC); exact H1|]. intros Q. apply H2. rewrite Q. reflexivity.
Qed.
Lemma div_whole a n x y : is_whole a x -> is_whole n y -> 0 < n ->
  fmt_rounded 53 1024 (a * one) n (float_value (SFdiv 53 1024 x y)) /\ ok64 (SFdiv 53 1024 x y) = true.
Proof.
  intros [VX EX] [VY EY] H. destruct (div_rounded 53 1024 x y f64_format VX VY) as [R V]. split; [|exact V]. pose proof one_pos as H1. assert (0 < n * one) by (apply Z.mul_pos_pos; lia). rewrite EX, EY in R. cbn [quotient_of] in R.
  destruct (Z.eqb_spec (n * one) 0) as [|_]; [lia|]. rewrite Z.sgn_pos, Z.mul_1_r, Z.abs_eq in R by lia. exact (scale_rounded _ _ _ _ one _ H1 R).
Qed.
Lemma small_square d : 0 <= Z.abs d <= d * d.
Proof. nia. Qed.
Lemma squares_nonneg m zs : 0 <= squares_sum m zs.
Proof.
  induction zs as [|z zs IH]; [cbn; lia|]. change (squares_sum m (z :: zs)) with ((z - m) * (z - m) + squares_sum m zs). pose proof (Z.square_nonneg (z - m)). lia.
Qed.
Lemma spread_whole m x vals zs : is_whole m x -> Forall2 is_whole zs vals -> zs <> [] -> Z.of_nat (length zs) < 2 ^ 53 -> squares_sum m zs < 2 ^ 53 ->
  fmt_rounded 53 1024 (squares_sum m zs * one) (Z.of_nat (length zs)) (float_value (spread x (length zs) vals)).
Proof.
  intros HM HF HN HL HS. apply div_whole; [|apply count_whole; lia|destruct zs; [contradiction|cbn [length]; lia]].
  assert (forall l l', Forall2 is_whole l l' -> forall t s, is_whole t s -> 0 <= t -> t + squares_sum m l < 2 ^ 53 -> is_whole (t + squares_sum m l) (fold_left (deviation x) l' s)) as H.
  { intros l l' F. induction F as [|z v l l' HZ F IH]; intros t s HT T0 B.
    - unfold squares_sum in *. cbn in *. rewrite Z.add_0_r. exact HT.
    - change (squares_sum m (z :: l)) with ((z - m) * (z - m) + squares_sum m l) in *. cbn [fold_left]. rewrite Z.add_assoc in *. pose proof (squares_nonneg m l) as N. pose proof (small_square (z - m)) as SQ.
      apply IH; [|lia|lia]. unfold deviation. cbv zeta. apply add_whole; [exact HT| |lia]. assert (is_whole (z - m) (SFsub 53 1024 v x)) as HD by (apply sub_whole; [exact HZ|exact HM|lia]). apply mul_whole; [exact HD|exact HD|rewrite Z.abs_eq; lia]. }
  specialize (H zs vals HF 0 (S754_zero false) ltac:(split; reflexivity) ltac:(lia)). rewrite Z.add_0_l in H. apply H. lia.
Qed.
Lemma sum_whole zs vals : Forall2 is_whole zs vals -> fold_right Z.add 0 (map Z.abs zs) < 2 ^ 53 -> is_whole (fold_right Z.add 0 zs) (fold_left (SFadd 53 1024) vals (S754_zero false)).
Proof.
  intros HF HS. assert (forall l l', Forall2 is_whole l l' -> forall t s, is_whole t s -> Z.abs t + fold_right Z.add 0 (map Z.abs l) < 2 ^ 53 -> is_whole (t + fold_right Z.add 0 l) (fold_left (SFadd 53 1024) l' s)) as H.
  { intros l l' F. induction F as [|z v l l' HZ F IH]; intros t s HT B; cbn [map fold_right fold_left] in *; [rewrite Z.add_0_r; exact HT|].
    assert (0 <= fold_right Z.add 0 (map Z.abs l)) by (clear; induction l; cbn; lia). rewrite Z.add_assoc. apply IH; [|lia]. apply add_whole; [exact HT|exact HZ|lia]. }
  specialize (H zs vals HF 0 (S754_zero false) ltac:(split; reflexivity) ltac:(lia)). rewrite Z.add_0_l in H. exact H.
Qed.
Lemma whole_element k z v : float_kind k -> element k v -> real_value v = Fin (z * one) -> Z.abs z < 2 ^ 53 -> is_whole z (as_f64 v).
Proof.
  intros K E HV HZ. destruct (float_kind_real _ K) as [RK _]. destruct (as_f64_rounded k v RK E) as [R V]. split; [exact V|]. rewrite HV in R.
  apply (fmt_rounded_exact 53 1024 _ 1 _ (z * one) ltac:(lia) R f64_format (whole64 _ HZ)). ring.
Qed.
Lemma abs_sum_nonneg l : 0 <= fold_right Z.add 0 (map Z.abs l). Proof. induction l; cbn; lia. Qed.
Lemma whole_elements k vals zs : float_kind k -> Forall (element k) vals -> map real_value vals = map (fun z => Fin (z * one)) zs -> fold_right Z.add 0 (map Z.abs zs) < 2 ^ 53 -> Forall2 is_whole zs (map as_f64 vals).
Proof.
  intros K HV. revert zs. induction HV as [|v l Hv HV IH]; intros [|z zs] E B; try discriminate E; [constructor|]. cbn [map fold_right] in *. injection E as E1 E2. pose proof (abs_sum_nonneg zs).
  constructor; [apply (whole_element k); try assumption; lia|]. apply IH; [exact E2|lia].
Qed.
Lemma mean_whole m n s : is_whole (m * n) s -> 0 < n < 2 ^ 53 -> Z.abs m < 2 ^ 53 -> is_whole m (SFdiv 53 1024 s (f64_int n)).
Proof.
  intros HS HN HM. destruct (div_whole (m * n) n s (f64_int n) HS ltac:(apply count_whole; lia) ltac:(lia)) as [R V]. split; [exact V|].
  apply (fmt_rounded_exact 53 1024 _ n _ (m * one) ltac:(lia) R f64_format (whole64 _ HM)). ring.
Qed.
Lemma whole_flt vals zs : Forall (element Float64) vals -> map real_value vals = map (fun z => Fin (z * one)) zs -> Forall2 is_whole zs (map flt vals).
Proof.
  intros HV E. destruct (floats_flt Float64 vals ltac:(right; right; reflexivity) HV) as [FV FE]. rewrite E in FE. clear HV E. revert zs FE. induction FV as [|v l Hv FV IH]; intros [|z zs] E; try discriminate E; [constructor|].
  cbn [map] in E. injection E as E1 E2. constructor; [split; [exact Hv|exact E1]|]. apply IH. exact E2.
Qed.
(* whole numbers with a whole mean: the variance is the mean of the squares, rounded once *)
Lemma float_var_whole x vals zs m s : float_kind (n_kind x) -> good x -> elems (n_buf x) (n_arr x) = map Some vals ->
  map real_value vals = map (fun z => Fin (z * one)) zs -> zs <> [] -> float_total RSum x = Ok s -> float_value s = Fin (fold_right Z.add 0 zs * one) ->
  fold_right Z.add 0 (map Z.abs zs) < 2 ^ 53 -> Z.of_nat (length zs) < 2 ^ 53 -> fold_right Z.add 0 zs = m * Z.of_nat (length zs) -> squares_sum m zs < 2 ^ 53 ->
  exists r, float_var x = Ok r /\ fmt_rounded 53 1024 (squares_sum m zs * one) (Z.of_nat (length zs)) (float_value r).
Proof.
  intros K G E EV NE ES VS HA HL HM HQ. pose proof G as (_ & W & _). pose proof (vals_elements x vals G E) as HV.
  assert (LV : length vals = length zs) by (rewrite <- (map_length real_value), EV, map_length; reflexivity).
  assert (SZ : size (n_arr x) = length zs) by (rewrite <- LV, <- (map_length Some vals), <- E; unfold elems; rewrite map_length; symmetry; apply all_idx_length).
  assert (0 < Z.of_nat (length zs)) as HP by (destruct zs; [contradiction|cbn [length]; lia]).
  assert (Z.abs m < 2 ^ 53) as HB.
  { assert (Z.abs (fold_right Z.add 0 zs) <= fold_right Z.add 0 (map Z.abs zs)) by (clear; induction zs; cbn; lia). rewrite HM, Z.abs_mul in H. rewrite (Z.abs_eq (Z.of_nat _)) in H by lia. nia. }
  unfold float_var. destruct (Nat.eqb_spec (size (n_arr x)) 0) as [H0|H0]; [lia|]. rewrite SZ.
  destruct (a_c (n_arr x) && kind_eqb (n_kind x) Float64) eqn:HC.
  - apply andb_true_iff in HC as [HC HK]. assert (n_kind x = Float64) as HK' by (destruct (n_kind x); try discriminate HK; reflexivity). rewrite HK' in HV. pose proof (whole_flt vals zs HV EV) as HF.
    pose proof (read_contig _ _ _ (wf_map flt _ _ W) HC (elems_map flt _ _ _ E)) as RC. rewrite SZ in RC. rewrite RC. cbn [bind]. eexists. split; [reflexivity|].
    apply spread_whole; try assumption. apply mean_whole; [|lia|exact HB]. rewrite <- HM. apply sum_whole; assumption.
  - pose proof (whole_elements (n_kind x) vals zs K HV EV HA) as HF. destruct (total_ok x vals K G E) as (s' & ES' & OS). rewrite ES in ES'. injection ES' as <-. unfold float_mean. destruct (Nat.eqb_spec (size (n_arr x)) 0) as [|_]; [contradiction|]. rewrite ES, SZ. cbn [bind].
    rewrite (read_offsets _ _ _ (wf_map as_f64 _ _ W) (elems_map as_f64 _ _ _ E)). cbn [bind]. eexists. split; [reflexivity|].
    apply spread_whole; try assumption. apply mean_whole; [|lia|exact HB]. rewrite <- HM. split; assumption.
Qed.

(* ---- NaN ----------------------------------------------------------------------- *)
Lemma deviation_nan mean s : deviation mean s S754_nan = S754_nan.
Proof. unfold deviation. cbn [SFsub SFmul]. destruct s; reflexivity. Qed.
Lemma deviation_stays mean v : deviation mean S754_nan v = S754_nan.
Proof. reflexivity. Qed.
Lemma spread_nan mean n vals : In S754_nan vals -> spread mean n vals = S754_nan.
Proof.
  intros HI. unfold spread. assert (forall l, fold_left (deviation mean) l S754_nan = S754_nan) as ST by (induction l as [|v l IH]; [reflexivity|exact IH]).
  assert (forall l s, In S754_nan l -> fold_left (deviation mean) l s = S754_nan) as HF; [|rewrite HF by exact HI; reflexivity].
  intros l. induction l as [|v l IH]; intros s HL; [destruct HL|]. destruct HL as [-> |H]; cbn [fold_left]; [rewrite deviation_nan; apply ST|apply IH; exact H].
Qed.
Lemma value_nan x : float_value x = NaN -> x = S754_nan.
Proof. destruct x; intros H; try discriminate H; reflexivity. Qed.
Lemma float_var_nan x vals : float_kind (n_kind x) -> good x -> elems (n_buf x) (n_arr x) = map Some vals -> In NaN (map real_value vals) -> float_var x = Ok S754_nan.
Proof.
  intros K G E HI. pose proof G as (_ & W & _). pose proof (vals_elements x vals G E) as HV. destruct (float_kind_real _ K) as [RK _].
  unfold float_var. destruct (Nat.eqb_spec (size (n_arr x)) 0) as [H0|H0]; [reflexivity|].
  destruct (a_c (n_arr x) && kind_eqb (n_kind x) Float64) eqn:HC.
  - apply andb_true_iff in HC as [HC HK]. rewrite (read_contig _ _ _ (wf_map flt _ _ W) HC (elems_map flt _ _ _ E)). cbn [bind]. rewrite spread_nan; [reflexivity|].
    destruct (floats_flt _ vals K HV) as [_ FE]. rewrite <- FE in HI. apply in_map_iff in HI as (y & HY & HI). apply value_nan in HY. subst y. exact HI.
  - destruct (total_ok x vals K G E) as (s & ES & VS). unfold float_mean. destruct (Nat.eqb_spec (size (n_arr x)) 0) as [|_]; [contradiction|]. rewrite ES. cbn [bind]. rewrite (read_offsets _ _ _ (wf_map as_f64 _ _ W) (elems_map as_f64 _ _ _ E)). cbn [bind].
    rewrite spread_nan; [reflexivity|]. apply in_map_iff in HI as (v & HN & HI). apply in_map_iff. exists v. split; [|exact HI]. rewrite Forall_forall in HV. destruct (as_f64_rounded (n_kind x) v RK (HV v HI)) as [A _]. rewrite HN in A. apply value_nan. exact A.
Qed.
