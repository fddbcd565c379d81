(* The root in float32 rounded to float16 is the nearest float16: the first rounding never hides
   on which side of the middle of two neighbours the root lies. *)
From Coq Require Import SpecFloat.
From Verif Require Import Base Lists Int_Model F64_Model Rng_Model SF_Proofs SF_Arith Promo_Spec Promo_Proofs Cast_Spec Cast_Model Cast_SF Cast_Proofs Rnd_Spec Rnd_Model Rnd_Proofs Ari_Spec SF_Round Ari_Model Ari_Proofs Cpx_Model Sqrt_Spec Sqrt_Model Sqrt_Proofs.
Local Open Scope Z_scope.

Lemma root_tie m g c F : 0 < m < 2048 -> 0 <= g -> 2048 <= c < 4096 -> 13 <= F ->
  (c * 2 ^ F - 2 ^ (F - 13)) * (c * 2 ^ F - 2 ^ (F - 13)) <= m * 2 ^ g -> m * 2 ^ g <= (c * 2 ^ F + 2 ^ (F - 13)) * (c * 2 ^ F + 2 ^ (F - 13)) ->
  m * 2 ^ g = (c * 2 ^ F) * (c * 2 ^ F).
Proof.
  intros HM HG HC HF L U. set (h := 2 ^ (F - 13)) in *. assert (PH : 0 < h) by (apply pow_pos; lia).
  assert (EU : 2 ^ F = 8192 * h) by (unfold h; change 8192 with (2 ^ 13); rewrite <- Z.pow_add_r by lia; f_equal; lia). rewrite EU in *.
  assert (GE : 2 * F <= g).
  { destruct (Z_le_gt_dec (2 * F) g) as [|GG]; [assumption|exfalso]. assert (2 ^ g <= 2 ^ (F + F)) as PG by (apply Z.pow_le_mono_r; lia). rewrite Z.pow_add_r, EU in PG by lia.
    assert (m * 2 ^ g <= 2048 * (8192 * h * (8192 * h))) as A by (apply Z.mul_le_mono_nonneg; try lia; apply Z.pow_nonneg; lia).
    assert (1024 * (8192 * h) <= c * (8192 * h) - h) as B by nia. assert (1024 * (8192 * h) * (1024 * (8192 * h)) <= (c * (8192 * h) - h) * (c * (8192 * h) - h)) as C by (apply Z.mul_le_mono_nonneg; lia).
    assert (0 < h * h) by (apply Z.mul_pos_pos; lia). lia. }
  assert (exists k, m * 2 ^ g = k * (8192 * h * (8192 * h))) as [k EK].
  { exists (m * 2 ^ (g - 2 * F)). rewrite <- EU, <- Z.mul_assoc, <- !Z.pow_add_r by lia. do 2 f_equal. lia. }
  rewrite EK in *. clear EK GE. set (w := h * h). assert (0 < w) by (apply Z.mul_pos_pos; lia).
  replace ((c * (8192 * h) - h) * (c * (8192 * h) - h)) with ((c * 8192 - 1) * (c * 8192 - 1) * w) in L by (unfold w; ring).
  replace ((c * (8192 * h) + h) * (c * (8192 * h) + h)) with ((c * 8192 + 1) * (c * 8192 + 1) * w) in U by (unfold w; ring).
  replace (k * (8192 * h * (8192 * h))) with (k * 67108864 * w) in * by (unfold w; ring).
  apply Z.mul_le_mono_pos_r in L; [|assumption]. apply Z.mul_le_mono_pos_r in U; [|assumption].
  assert (k = c * c) as -> by nia. unfold w. ring.
Qed.

(* every number below is counted in units of 2^-1074 *)
Section Half.
Variables (a R : Z) (m : Z) (e : Z).
Hypothesis (EA : a = m * 2 ^ (e + 1074)) (HM : 0 < m < 2048) (HE : -24 <= e <= 5).
Hypothesis HR : nearest_root (fmt_holds 24 128) a R.
Lemma half_area : a * one = m * 2 ^ (e + 1074 + 1074).
Proof. rewrite EA, one_is, (Z.pow_add_r 2 (e + 1074)) by lia. generalize (2 ^ 1074); intros; ring. Qed.
Lemma half_side c F : 2048 <= c < 4096 -> 1000 <= F <= 1079 ->
  (R <= c * 2 ^ F -> a * one <= (c * 2 ^ F) * (c * 2 ^ F)) /\ (c * 2 ^ F <= R -> (c * 2 ^ F) * (c * 2 ^ F) <= a * one).
Proof.
  intros HC HF. destruct HR as (FR & R0 & H). set (M := c * 2 ^ F). assert (PF : 0 < 2 ^ F) by (apply pow_pos; lia). assert (M0 : 0 < M) by (apply Z.mul_pos_pos; lia).
  assert (FM : fmt_holds 24 128 M) by (exists c, (F - 1074); split; [lia|]; split; [unfold SpecFloat.emin; lia|unfold M; do 2 f_equal; lia]).
  destruct (H M FM ltac:(lia)) as [A B]. destruct (Z.lt_trichotomy R M) as [L|[L|L]].
  - specialize (A L). split; [|lia]. intros _. assert ((R + M) * (R + M) <= (2 * M) * (2 * M)) by (apply Z.mul_le_mono_nonneg; lia). lia.
  - set (h := 2 ^ (F - 13)). assert (PH : 0 < h) by (apply pow_pos; lia). assert (EU : 2 ^ F = 8192 * h) by (unfold h; change 8192 with (2 ^ 13); rewrite <- Z.pow_add_r by lia; f_equal; lia).
    assert (EH : 2 ^ (F - 12) = 2 * h) by (unfold h; change 2 with (2 ^ 1) at 2; rewrite <- Z.pow_add_r by lia; f_equal; lia).
    assert (FP : fmt_holds 24 128 (M + 2 * h)) by (exists (c * 4096 + 1), (F - 12 - 1074); split; [lia|]; split; [unfold SpecFloat.emin; lia|]; replace (F - 12 - 1074 + 1074) with (F - 12) by lia; rewrite EH; unfold M; rewrite EU; ring).
    assert (FN : fmt_holds 24 128 (M - 2 * h)) by (exists (c * 4096 - 1), (F - 12 - 1074); split; [lia|]; split; [unfold SpecFloat.emin; lia|]; replace (F - 12 - 1074 + 1074) with (F - 12) by lia; rewrite EH; unfold M; rewrite EU; ring).
    assert (MH : 2 * h <= M) by (unfold M; rewrite EU; nia).
    destruct (H _ FP ltac:(lia)) as [UP _]. specialize (UP ltac:(lia)). destruct (H _ FN ltac:(lia)) as [_ DN]. specialize (DN ltac:(lia)). rewrite L in UP, DN.
    assert (a * one = M * M); [|lia]. rewrite half_area in *. apply (root_tie m (e + 1074 + 1074) c F HM ltac:(lia) HC ltac:(lia)); fold h; fold M; lia.
  - specialize (B L). split; [lia|]. intros _. assert ((2 * M) * (2 * M) <= (R + M) * (R + M)) by (apply Z.mul_le_mono_nonneg; lia). lia.
Qed.
Lemma half_low : 2 ^ 1062 <= R.
Proof.
  destruct (half_side 2048 1051 ltac:(lia) ltac:(lia)) as [A _]. replace (2 ^ 1062) with (2048 * 2 ^ 1051) by reflexivity. destruct (Z_le_gt_dec (2048 * 2 ^ 1051) R) as [|G]; [assumption|exfalso].
  specialize (A ltac:(lia)). destruct HR as (FR & R0 & H). destruct (H (2048 * 2 ^ 1051)) as [B _]; [exists 1, (-12); split; [lia|]; split; [unfold SpecFloat.emin; lia|reflexivity]|lia|]. specialize (B ltac:(lia)).
  assert (2048 * 2 ^ 1051 * (2048 * 2 ^ 1051) <= a * one) as C.
  { rewrite half_area. replace (2048 * 2 ^ 1051 * (2048 * 2 ^ 1051)) with (1 * 2 ^ 2124) by reflexivity. apply Z.mul_le_mono_nonneg; [lia|lia|apply Z.pow_nonneg; lia|apply Z.pow_le_mono_r; lia]. }
  revert B C G R0. generalize (2048 * 2 ^ 1051) (a * one). intros t b B C G R0. nia.
Qed.
Lemma half_high : R <= 2 ^ 1082.
Proof.
  destruct (half_side 2048 1071 ltac:(lia) ltac:(lia)) as [_ A]. replace (2 ^ 1082) with (2048 * 2 ^ 1071) by reflexivity. destruct (Z_le_gt_dec R (2048 * 2 ^ 1071)) as [|G]; [assumption|exfalso].
  specialize (A ltac:(lia)). assert (a * one < 2048 * 2 ^ 1071 * (2048 * 2 ^ 1071)) as C; [|lia].
  rewrite half_area. replace (2048 * 2 ^ 1071 * (2048 * 2 ^ 1071)) with (2048 * 2 ^ 2153) by reflexivity.
  apply Z.lt_le_trans with (2048 * 2 ^ (e + 1074 + 1074)); [apply Z.mul_lt_mono_pos_r; [apply pow_pos; lia|lia]|]. apply Z.mul_le_mono_nonneg_l; [lia|]. apply Z.pow_le_mono_r; lia.
Qed.
Lemma half_root m1 e1 (r := m1 * 2 ^ (e1 + 1074)) : 0 < m1 < 2048 -> -24 <= e1 <= 5 -> (e1 = -24 \/ 1024 <= m1) ->
  nearest (fmt_holds 11 16) R 1 r -> nearest_root (fmt_holds 11 16) a r.
Proof.
  intros HM1 HE1 HC (FR & HN). assert (PE : 0 < 2 ^ (e1 + 1074)) by (apply pow_pos; lia).
  assert (RL : 2 ^ 1062 <= r).
  { pose proof half_low as HL. destruct (HN (2 ^ 1062)) as [A _]; [exists 1, (-12); split; [lia|]; split; [unfold SpecFloat.emin; lia|reflexivity]|]. revert A HL. generalize (2 ^ 1062). intros t A HL. lia. }
  assert (E24 : e1 <> -24). { intros ->. unfold r in RL. change (2 ^ (-24 + 1074)) with (2 ^ 1050) in RL. replace (2 ^ 1062) with (4096 * 2 ^ 1050) in RL by reflexivity. assert (0 < 2 ^ 1050) by (apply pow_pos; lia). revert RL. generalize dependent (2 ^ 1050). intros t RL T0. nia. }
  destruct HC as [HC|HC]; [contradiction|]. clear RL.
  assert (NEAR : forall y, fmt_holds 11 16 y -> (r < y -> 2 * R <= r + y) /\ (y < r -> r + y <= 2 * R)) by (intros y FY; destruct (HN y FY) as [A _]; split; lia).
  assert (EE : 2 ^ (e1 + 1074) = 2 * 2 ^ (e1 + 1073)) by (replace (e1 + 1074) with (1 + (e1 + 1073)) by lia; rewrite Z.pow_add_r by lia; reflexivity).
  assert (EE2 : 2 ^ (e1 + 1073) = 2 * 2 ^ (e1 + 1072)) by (replace (e1 + 1073) with (1 + (e1 + 1072)) by lia; rewrite Z.pow_add_r by lia; reflexivity).
  split; [exact FR|]. split; [unfold r; apply Z.mul_nonneg_nonneg; lia|]. intros y FY Y0. split; intros L.
  - assert (exists j, y = j * 2 ^ (e1 + 1074)) as [j EJ].
    { destruct (fmt_holds_cases 11 16 y e1 ltac:(lia) ltac:(unfold SpecFloat.emin; lia) FY) as [J|[_ J]]; [exact J|exfalso]. change (2 ^ (11 - 1)) with 1024 in J. unfold r in L. nia. }
    assert (JM : m1 + 1 <= j) by (rewrite EJ in L; unfold r in L; apply Z.mul_lt_mono_pos_r in L; [lia|exact PE]).
    set (y' := (m1 + 1) * 2 ^ (e1 + 1074)). assert (YL : y' <= y) by (rewrite EJ; apply Z.mul_le_mono_nonneg_r; lia).
    assert (FY' : fmt_holds 11 16 y').
    { destruct (Z.eq_dec m1 2047) as [-> |N]; [|exists (m1 + 1), e1; split; [lia|]; split; [unfold SpecFloat.emin; lia|reflexivity]].
      exists 1024, (e1 + 1). split; [lia|]. split; [|unfold y'; replace (e1 + 1 + 1074) with (1 + (e1 + 1074)) by lia; rewrite (Z.pow_add_r 2 1) by lia; change (2 ^ 1) with 2; ring].
      destruct FY as (my & ey & HMy & HEy & EY). destruct (Z_le_gt_dec ey e1) as [G|G]; [exfalso|unfold SpecFloat.emin in *; lia].
      assert (2 ^ (ey + 1074) <= 2 ^ (e1 + 1074)) by (apply Z.pow_le_mono_r; unfold SpecFloat.emin in *; lia). assert (0 < 2 ^ (ey + 1074)) by (apply pow_pos; unfold SpecFloat.emin in *; lia).
      unfold y' in YL. rewrite EY in YL. change (2 ^ 11) with 2048 in HMy. nia. }
    destruct (NEAR y' FY') as [A _]. specialize (A ltac:(unfold r, y'; apply Z.mul_lt_mono_pos_r; lia)).
    destruct (half_side (2 * m1 + 1) (e1 + 1073) ltac:(lia) ltac:(lia)) as [B _].
    assert (ES : r + y' = 2 * ((2 * m1 + 1) * 2 ^ (e1 + 1073))) by (unfold r, y'; rewrite EE; ring). specialize (B ltac:(lia)).
    apply Z.le_trans with ((r + y') * (r + y')); [rewrite ES; lia|]. assert (0 < r) by (unfold r; apply Z.mul_pos_pos; lia). apply Z.mul_le_mono_nonneg; lia.
  - assert (R0 : 0 < r) by (unfold r; apply Z.mul_pos_pos; lia). destruct (Z.eq_dec m1 1024) as [E1|N1].
    + set (y' := 2047 * 2 ^ (e1 + 1073)). assert (P3 : 0 < 2 ^ (e1 + 1073)) by lia. assert (ER : r = 2048 * 2 ^ (e1 + 1073)) by (unfold r; rewrite E1, EE; ring).
      assert (FY' : fmt_holds 11 16 y') by (exists 2047, (e1 - 1); split; [lia|]; split; [unfold SpecFloat.emin; lia|]; unfold y'; do 2 f_equal; lia).
      assert (YL : y <= y').
      { destruct (fmt_holds_cases 11 16 y (e1 - 1) ltac:(lia) ltac:(unfold SpecFloat.emin; lia) FY) as [[j J]|[_ J]]; replace (e1 - 1 + 1074) with (e1 + 1073) in J by lia.
        - rewrite J, ER in L. apply Z.mul_lt_mono_pos_r in L; [|exact P3]. rewrite J. apply Z.mul_le_mono_nonneg_r; lia.
        - change (2 ^ (11 - 1)) with 1024 in J. unfold y'. lia. }
      destruct (NEAR y' FY') as [_ A]. specialize (A ltac:(unfold y'; lia)). destruct (half_side 4095 (e1 + 1072) ltac:(lia) ltac:(lia)) as [_ B].
      assert (ES : r + y' = 2 * (4095 * 2 ^ (e1 + 1072))) by (unfold y'; rewrite ER, EE2; ring). specialize (B ltac:(lia)).
      apply Z.le_trans with ((r + y') * (r + y')); [apply Z.mul_le_mono_nonneg; lia|rewrite ES; lia].
    + set (y' := (m1 - 1) * 2 ^ (e1 + 1074)).
      assert (FY' : fmt_holds 11 16 y') by (exists (m1 - 1), e1; split; [lia|]; split; [unfold SpecFloat.emin; lia|reflexivity]).
      assert (YL : y <= y').
      { destruct (fmt_holds_cases 11 16 y e1 ltac:(lia) ltac:(unfold SpecFloat.emin; lia) FY) as [[j J]|[_ J]].
        - rewrite J in L. unfold r in L. apply Z.mul_lt_mono_pos_r in L; [|exact PE]. rewrite J. apply Z.mul_le_mono_nonneg_r; lia.
        - change (2 ^ (11 - 1)) with 1024 in J. unfold y'. apply Z.le_trans with (1024 * 2 ^ (e1 + 1074)); [lia|apply Z.mul_le_mono_nonneg_r; lia]. }
      destruct (NEAR y' FY') as [_ A]. specialize (A ltac:(unfold r, y'; apply Z.mul_lt_mono_pos_r; lia)).
      destruct (half_side (2 * m1 - 1) (e1 + 1073) ltac:(lia) ltac:(lia)) as [_ B].
      assert (ES : r + y' = 2 * ((2 * m1 - 1) * 2 ^ (e1 + 1073))) by (unfold r, y'; rewrite EE; ring). specialize (B ltac:(lia)).
      apply Z.le_trans with ((r + y') * (r + y')); [apply Z.mul_le_mono_nonneg; lia|rewrite ES; lia].
Qed.
End Half.

Theorem sqrt_half x : valid_binary 11 16 x = true -> square_root (fmt_holds 11 16) (float_value x) (float_value (sqrt_float Float16 x)).
Proof.
  intros V. cbn [sqrt_float]. destruct (widen_f16 x V) as [EW VW]. destruct (sqrt_rounded 24 128 _ f32_format ltac:(lia) VW) as [SR SV].
  destruct (to_format_rounded 24 128 11 16 _ f32_format f16_format SV) as [TR TV]. rewrite EW in SR. clear EW VW.
  set (w := SFsqrt 24 128 (to_format 24 128 x)) in *. set (y := to_format 11 16 w) in *. clearbody y w.
  destruct (float_value x) as [|[]|a] eqn:EX; cbn [square_root] in *.
  - rewrite SR in TR. exact TR.
  - rewrite SR in TR. exact TR.
  - rewrite SR in TR. exact TR.
  - destruct (Z.ltb_spec a 0) as [L|L]; [rewrite SR in TR; exact TR|]. destruct SR as (R & ER & HR). rewrite ER in TR.
    destruct (Z.eq_dec a 0) as [-> |A0].
    { assert (R = 0) as ->.
      { destruct HR as (FR & R0 & H). destruct (H 0 ltac:(apply float_zero; unfold SpecFloat.emin; lia) ltac:(lia)) as [_ B]. destruct (Z.eq_dec R 0); [assumption|]. specialize (B ltac:(lia)). nia. }
      pose proof (fmt_rounded_exact 11 16 0 1 (float_value y) 0 ltac:(lia) TR f16_format ltac:(apply float_zero; unfold SpecFloat.emin; lia) ltac:(lia)) as EY. exists 0. split; [exact EY|].
      split; [apply float_zero; unfold SpecFloat.emin; lia|]. split; [lia|]. intros r' _ H. split; intros L'; nia. }
    destruct x as [s|s| |s m e]; try discriminate EX; [injection EX as <-; contradiction|]. destruct (valid_inv 11 16 s m e ltac:(lia) V) as (DX & RX & _). unfold SpecFloat.emin in RX.
    cbn [float_value] in EX. injection EX as EX. pose proof (pow_pos (e + 1074) ltac:(lia)) as PE.
    assert (s = false) as -> by (destruct s; [cbn [cond_Zopp] in EX; nia|reflexivity]). cbn [cond_Zopp] in EX.
    assert (HM : 0 < Zpos m < 2048). { pose proof (dlen_bounds m) as [_ B]. assert (2 ^ dlen m <= 2 ^ 11) by (apply Z.pow_le_mono_r; lia). change (2 ^ 11) with 2048 in *. lia. }
    assert (RLO : 2 ^ 1062 <= R) by (apply (half_low a R (Zpos m) e); auto; lia). assert (RHI : R <= 2 ^ 1082) by (apply (half_high a R (Zpos m) e); auto; lia).
    assert (RNG : fmt_range 11 16 R 1).
    { unfold fmt_range. rewrite Z.abs_eq by (assert (0 < 2 ^ 1062) by (apply pow_pos; lia); lia). apply Z.le_lt_trans with (2 * 2 ^ 1082); [lia|reflexivity]. }
    destruct (float_value y) as [|b|r] eqn:EY; cbn [fmt_rounded] in TR; [contradiction|exfalso; apply TR; exact RNG|]. destruct TR as [_ NR]. exists r. split; [reflexivity|].
    assert (RP : 2 ^ 1062 <= r).
    { destruct NR as [_ NR]. destruct (NR (2 ^ 1062)) as [A _]; [exists 1, (-12); split; [lia|]; split; [unfold SpecFloat.emin; lia|reflexivity]|]. revert A RLO. generalize (2 ^ 1062). intros t A RLO. lia. }
    assert (P62 : 0 < 2 ^ 1062) by (apply pow_pos; lia).
    destruct y as [t|t| |t m1 e1]; try discriminate EY; [injection EY as <-; lia|]. destruct (valid_inv 11 16 t m1 e1 ltac:(lia) TV) as (DY & RY & CY). unfold SpecFloat.emin in RY, CY.
    cbn [float_value] in EY. injection EY as EY. pose proof (pow_pos (e1 + 1074) ltac:(lia)) as PE1.
    assert (t = false) as -> by (destruct t; [cbn [cond_Zopp] in EY; assert (0 < Zpos m1 * 2 ^ (e1 + 1074)) by (apply Z.mul_pos_pos; lia); lia|reflexivity]). cbn [cond_Zopp] in EY. rewrite <- EY in *.
    pose proof (dlen_bounds m1) as [B1 B2].
    apply (half_root a R (Zpos m) e); auto; try lia.
    + assert (2 ^ dlen m1 <= 2 ^ 11) by (apply Z.pow_le_mono_r; lia). change (2 ^ 11) with 2048 in *. lia.
    + destruct CY as [CY|CY]; [left; lia|right]. rewrite CY in B1. exact B1.
Qed.
Lemma sqrt_every k x : real k = true -> is_float_kind k = true -> valid_in k x -> square_root (fun z => holds k (z, 0)) (float_value x) (float_value (sqrt_float k x)).
Proof.
  intros R F V. assert (k = Float16 \/ k = Float32 \/ k = Float64) as [-> |HK] by (destruct k; try discriminate R; try discriminate F; auto); [|apply sqrt_value; assumption].
  apply (root_ext (fmt_holds 11 16)); [|apply sqrt_half; exact V]. intros z. symmetry. apply (float_holds_kind Float16 z). auto.
Qed.

(* ---- complex roots on the real axis ------------------------------------------ *)
Definition part_of (k : kind) : kind := match k with Complex64 => Float32 | _ => Float64 end.
Lemma part_valid k x : is_complex_kind k = true -> (valid_in k x <-> valid_in (part_of k) x).
Proof. destruct k; try discriminate; intros _; split; intros H; exact H. Qed.
Lemma sqrt_complex_valid other : (forall k a b, is_complex_kind k = true -> valid_in k a -> valid_in k b -> valid_in k (fst (other k (a, b))) /\ valid_in k (snd (other k (a, b)))) ->
  forall k a b, is_complex_kind k = true -> valid_in k a -> valid_in k b -> valid_in k (fst (sqrt_complex other k (a, b))) /\ valid_in k (snd (sqrt_complex other k (a, b))).
Proof.
  intros HO k a b C VA VB. assert (RP : real (part_of k) = true /\ is_float_kind (part_of k) = true) by (destruct k; split; reflexivity). destruct RP as [RP FP].
  assert (VO : forall y, valid_in k y -> valid_in k (sqrt_float (part_of k) y)) by (intros y V; apply (proj2 (part_valid k _ C)); apply sqrt_valid; [exact RP|exact FP|]; apply (proj1 (part_valid k _ C)); exact V).
  assert (OP : forall y, valid_in k y -> valid_in k (SFopp y)) by (intros y V; unfold valid_in in *; rewrite opp_valid; exact V).
  unfold sqrt_complex. change (match k with Complex64 => Float32 | _ => Float64 end) with (part_of k). destruct b as [s|s| |s m e]; try (apply HO; assumption).
  assert (VZ : valid_in k (S754_zero false)) by (unfold valid_in; destruct k; reflexivity). destruct (sign_negative a); cbn [fst snd]; split; try (exact VZ); try (exact VB); [|apply VO; exact VA]. destruct s; [apply OP|]; apply VO, OP, VA.
Qed.
Lemma sqrt_axis other k y : is_complex_kind k = true -> valid_in k y ->
  let c := sqrt_complex other k (y, S754_zero false) in
  axis_root (fun r => holds (part_of k) (r, 0)) (float_value y) (float_value (fst c)) (float_value (snd c)).
Proof.
  intros C V. cbv zeta. cbn [sqrt_complex]. change (match k with Complex64 => Float32 | _ => Float64 end) with (part_of k).
  assert (RP : real (part_of k) = true /\ is_float_kind (part_of k) = true) by (destruct k; split; reflexivity). destruct RP as [RP FP]. apply (proj1 (part_valid k _ C)) in V.
  pose proof (sqrt_every (part_of k) y RP FP V) as S1. pose proof (sqrt_every (part_of k) (SFopp y) RP FP ltac:(unfold valid_in in *; rewrite opp_valid; exact V)) as S2.
  destruct y as [s|s| |s m e]; cbn [sign_negative].
  - destruct s; cbn [fst snd float_value axis_root] in *; change (0 <? 0) with false; cbv iota.
    + cbn [SFopp negb float_value] in S2. split; [|]. 
      * cbn [square_root]. change (0 <? 0) with false. cbv iota. cbn [square_root] in S1. change (0 <? 0) with false in S1. cbv iota in S1. destruct S1 as (r & E & N). exists 0. split; [reflexivity|]. assert (r = 0) as R0; [|rewrite R0 in N; exact N].
        destruct (part_of k); try discriminate RP; try discriminate FP; cbn in E; congruence.
      * destruct (part_of k); try discriminate RP; try discriminate FP; reflexivity.
    + split; [exact S1|reflexivity].
  - destruct s; cbn [fst snd SFopp negb float_value axis_root square_root] in *; [rewrite S2|rewrite S1]; reflexivity.
  - exact I.
  - pose proof (valid_inv (fst (format (part_of k))) (snd (format (part_of k))) s m e ltac:(destruct k; cbn; lia) V) as (_ & RX & _).
    assert (PE : 0 < 2 ^ (e + 1074)) by (apply pow_pos; destruct k; cbn in RX; lia). destruct s; cbn [fst snd SFopp negb float_value axis_root cond_Zopp] in *.
    + destruct (Z.ltb_spec (- Zpos m * 2 ^ (e + 1074)) 0) as [L|L]; [|nia]. split; [reflexivity|]. replace (- (- Zpos m * 2 ^ (e + 1074))) with (Zpos m * 2 ^ (e + 1074)) by ring. exact S2.
    + destruct (Z.ltb_spec (Zpos m * 2 ^ (e + 1074)) 0) as [L|L]; [nia|]. split; [exact S1|reflexivity].
Qed.
