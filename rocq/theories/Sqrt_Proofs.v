(* Proofs about square roots. *)
From Coq Require Import SpecFloat.
From Verif Require Import Base Lists Int_Model F64_Model Rng_Model SF_Proofs SF_Arith Promo_Spec Promo_Proofs Cast_Spec Cast_Model Cast_SF Cast_Proofs Rnd_Spec Rnd_Model Rnd_Proofs Ari_Spec SF_Round Ari_Model Ari_Proofs Sqrt_Spec Sqrt_Model.
Local Open Scope Z_scope.

(* the middle of two multiples of the unit lies on the same side of the root and of the number
   that stands for it *)
Lemma root_side q r k (N := 4 * q + (if Zeq_bool r 0 then 0 else if r <=? q then 1 else 3)) : 0 <= q -> 0 <= r <= 2 * q -> 0 <= k ->
  (N <= 2 * k -> 4 * (q * q + r) <= k * k) /\ (2 * k <= N -> k * k <= 4 * (q * q + r)).
Proof.
  intros HQ HR HK. unfold N, Zeq_bool. destruct (Z.compare_spec r 0) as [R0|R0|R0]; [subst r| |]; try lia.
  - split; intros H; nia.
  - destruct (Z.leb_spec r q); split; intros L.
    + assert (2 * q + 1 <= k) by lia. nia.
    + assert (k <= 2 * q) by lia. nia.
    + assert (2 * q + 2 <= k) by lia. nia.
    + assert (k <= 2 * q + 1) by lia. nia.
Qed.
Lemma root_rec q r : 0 <= q -> 0 <= r <= 2 * q ->
  rec_inv (shr_record_of_loc q (if Zeq_bool r 0 then loc_Exact else loc_Inexact (if r <=? q then Lt else Gt))) (4 * q + (if Zeq_bool r 0 then 0 else if r <=? q then 1 else 3)) 4 /\
  shr_m (shr_record_of_loc q (if Zeq_bool r 0 then loc_Exact else loc_Inexact (if r <=? q then Lt else Gt))) = q.
Proof.
  intros HQ HR. destruct (Zeq_bool r 0); [|destruct (r <=? q)]; cbn [shr_record_of_loc]; unfold rec_inv; cbn [shr_m shr_r shr_s]; repeat split; lia.
Qed.

Theorem sqrt_rounded prec emax x : a_format prec emax -> prec + 3 <= emax -> valid_binary prec emax x = true ->
  square_root (fmt_holds prec emax) (float_value x) (float_value (SFsqrt prec emax x)) /\ valid_binary prec emax (SFsqrt prec emax x) = true.
Proof.
  intros HF HPE VX. pose proof HF as (HP & HL & HZ). pose proof one_pos as H1.
  destruct x as [s|[]| |s m e]; cbn [SFsqrt]; try (split; reflexivity).
  - split; [|reflexivity]. cbn [float_value square_root]. change (0 <? 0) with false. cbv iota. exists 0. split; [reflexivity|]. split; [apply float_zero; lia|]. split; [lia|].
    intros r' _ H. split; intros L; nia.
  - destruct (valid_inv prec emax s m e ltac:(lia) VX) as (DX & RX & _). pose proof (pow_pos (e + 1074) ltac:(lia)) as PE. destruct s.
    { split; [|reflexivity]. cbn [float_value square_root cond_Zopp]. destruct (Z.ltb_spec (- Zpos m * 2 ^ (e + 1074)) 0) as [|L]; [reflexivity|]. nia. }
    cbn [float_value square_root cond_Zopp]. destruct (Z.ltb_spec (Zpos m * 2 ^ (e + 1074)) 0) as [L|_]; [nia|].
    unfold SFsqrt_core_binary. cbv zeta. cbn [Zdigits2]. change (Zpos (digits2_pos m)) with (dlen m).
    set (X := Z.div2 (dlen m + e + 1)). set (e' := Z.min (fexp prec emax X) (Z.div2 e)). set (sh := e - 2 * e').
    pose proof (dlen_pos m) as DP. pose proof (dlen_bounds m) as [BM1 BM2].
    assert (XE : 2 * X <= dlen m + e + 1 <= 2 * X + 1) by (unfold X; rewrite Z.div2_div; pose proof (Z.div_mod (dlen m + e + 1) 2 ltac:(lia)); pose proof (Z.mod_pos_bound (dlen m + e + 1) 2 ltac:(lia)); lia).
    assert (EE : 2 * Z.div2 e <= e <= 2 * Z.div2 e + 1) by (rewrite Z.div2_div; pose proof (Z.div_mod e 2 ltac:(lia)); pose proof (Z.mod_pos_bound e 2 ltac:(lia)); lia).
    clearbody X. assert (HS : 0 <= sh) by (unfold sh, e'; lia).
    assert (FX : fexp prec emax X = X - prec) by (unfold fexp, SpecFloat.emin in *; lia).
    assert (HE' : -1074 <= e') by (unfold e', fexp; lia). assert (EX : e' <= X - prec) by (unfold e'; lia). assert (SpecFloat.emin prec emax <= X - prec) as XL by (rewrite <- FX; unfold fexp; lia).
    set (m' := match sh with Z0 => Zpos m | Zpos _ => Z.shiftl (Zpos m) sh | Zneg _ => 0 end).
    assert (EM : m' = Zpos m * 2 ^ sh) by (unfold m'; destruct sh eqn:ES; [change (2 ^ 0) with 1; lia|rewrite Z.shiftl_mul_pow2 by lia; reflexivity|lia]).
    clearbody m'. pose proof (pow_pos sh HS) as PS. assert (HM : 0 < m') by (rewrite EM; apply Z.mul_pos_pos; lia).
    pose proof (Z.sqrtrem_spec m' ltac:(lia)) as SR. destruct (Z.sqrtrem m') as [q r]. destruct SR as [SQ SR].
    assert (HQ : 0 < q) by nia. pose proof (zdigits_bounds q HQ) as [BQ1 BQ2]. set (dq := Zdigits2 q) in *. assert (1 <= dq) as DQ by (unfold dq; destruct q; try lia; cbn [Zdigits2]; lia).
    assert (DX2 : dq + e' = X).
    { assert (2 ^ (dlen m + sh - 1) <= m') as M1 by (rewrite EM; replace (dlen m + sh - 1) with ((dlen m - 1) + sh) by lia; rewrite Z.pow_add_r by lia; apply Z.mul_le_mono_nonneg_r; lia).
      assert (m' < 2 ^ (dlen m + sh)) as M2 by (rewrite EM, Z.pow_add_r by lia; apply Z.mul_lt_mono_pos_r; lia).
      assert (2 ^ (dq - 1 + (dq - 1)) <= m') as Q1 by (rewrite Z.pow_add_r by lia; pose proof (pow_pos (dq - 1) ltac:(lia)); nia).
      assert (m' < 2 ^ (dq + dq)) as Q2 by (rewrite Z.pow_add_r by lia; nia).
      assert (dq - 1 + (dq - 1) < dlen m + sh) by (apply (Z.pow_lt_mono_r_iff 2); lia). assert (dlen m + sh - 1 < dq + dq) by (apply (Z.pow_lt_mono_r_iff 2); lia). unfold sh in *. lia. }
    set (u := 2 ^ (e' + 1074)). pose proof (pow_pos (e' + 1074) ltac:(lia)) as PU. fold u in PU.
    assert (EB : Zpos m * 2 ^ (e + 1074) * one = m' * (u * u)).
    { rewrite EM, one_is. unfold u. rewrite <- !Z.mul_assoc, <- !Z.pow_add_r by lia. do 2 f_equal. unfold sh. lia. }
    set (N := 4 * q + (if Zeq_bool r 0 then 0 else if r <=? q then 1 else 3)).
    set (l := if Zeq_bool r 0 then loc_Exact else loc_Inexact (if r <=? q then Lt else Gt)).
    assert (HN : 4 * q <= N < 4 * (q + 1)) by (unfold N; destruct (Zeq_bool r 0); [|destruct (r <=? q)]; lia).
    destruct (root_rec q r ltac:(lia) SR) as [RI RM]. fold l N in RI, RM.
    destruct (round_aux_rounded prec emax false q e' l N 4 (N * u) 4 0 HF RI) as [RR RV].
    { fold dq. rewrite DX2, FX. exact EX. } { lia. } { exact RM. } { lia. } { lia. } { lia. } { lia. }
    { unfold u. rewrite Z.add_0_r. change (2 ^ 0) with 1. ring. }
    split; [|exact RV].
    assert (RNG : fmt_range prec emax (N * u) 4).
    { unfold fmt_range. rewrite Z.abs_eq by (apply Z.mul_nonneg_nonneg; lia).
      assert (N * u < 4 * 2 ^ (X + 1074)) as A1.
      { rewrite <- DX2. replace (dq + e' + 1074) with (dq + (e' + 1074)) by lia. rewrite Z.pow_add_r by lia. fold u. rewrite Z.mul_assoc. apply Z.mul_lt_mono_pos_r; lia. }
      assert (2 * 2 ^ (X + 1074) <= 2 ^ prec * 2 ^ (emax - prec + 1074)) as A2.
      { change 2 with (2 ^ 1) at 1. rewrite <- !Z.pow_add_r by lia. apply Z.pow_le_mono_r; lia. }
      assert (2 ^ prec * 2 ^ (emax - prec + 1074) <= (2 ^ (prec + 1) - 1) * 2 ^ (emax - prec + 1074)) as A3.
      { apply Z.mul_le_mono_nonneg_r; [apply Z.pow_nonneg; lia|]. rewrite Z.pow_add_r by lia. change (2 ^ 1) with 2. pose proof (pow_pos prec ltac:(lia)). lia. }
      lia. }
    destruct (float_value (binary_round_aux prec emax false q e' l)) as [|b|R]; cbn [fmt_rounded] in RR; [contradiction|exfalso; apply RR; exact RNG|].
    destruct RR as [_ [FR NR]]. exists R. split; [reflexivity|].
    set (t := 2 ^ (dq - 1) * u). pose proof (pow_pos (dq - 1) ltac:(lia)) as PT. assert (T0 : 0 < t) by (apply Z.mul_pos_pos; lia).
    assert (TX : t = 2 ^ (prec - 1) * 2 ^ (X - prec + 1074)) by (unfold t, u; rewrite <- !Z.pow_add_r by lia; f_equal; lia).
    assert (FT : fmt_holds prec emax t).
    { exists (2 ^ (prec - 1)), (X - prec). split; [|split; [lia|exact TX]]. pose proof (pow_pos (prec - 1) ltac:(lia)). assert (2 ^ (prec - 1) < 2 ^ prec) by (apply Z.pow_lt_mono_r; lia). lia. }
    assert (TQ : t <= q * u) by (apply Z.mul_le_mono_nonneg_r; lia).
    assert (TN : 4 * t <= N * u) by (apply Z.le_trans with (4 * q * u); [lia|apply Z.mul_le_mono_nonneg_r; lia]).
    assert (RT : t <= R) by (destruct (NR t FT) as [A _]; lia).
    assert (MUL : forall y, fmt_holds prec emax y -> t <= y -> exists j, y = j * u).
    { intros y FY HY. destruct (fmt_holds_cases prec emax y (X - prec) HP ltac:(lia) FY) as [[j ->]|[_ B]]; [|rewrite TX in HY; lia].
      exists (j * 2 ^ (X - prec - e')). unfold u. rewrite <- Z.mul_assoc, <- Z.pow_add_r by lia. do 2 f_equal. lia. }
    destruct (MUL R FR RT) as [i EI].
    assert (STEP : forall y, fmt_holds prec emax y -> t <= y -> (R < y -> 4 * (m' * (u * u)) <= (R + y) * (R + y)) /\ (y < R -> (R + y) * (R + y) <= 4 * (m' * (u * u)))).
    { intros y FY HY. destruct (MUL y FY HY) as [j EJ]. destruct (NR y FY) as [A _].
      assert (Z.abs (N - i * 4) <= Z.abs (N - j * 4)) as AB.
      { apply (Zmult_lt_0_le_reg_r _ _ u PU). rewrite <- (Z.abs_eq u) at 1 2 by lia. rewrite <- !Z.abs_mul. replace ((N - i * 4) * u) with (N * u - R * 4) by (rewrite EI; ring). replace ((N - j * 4) * u) with (N * u - y * 4) by (rewrite EJ; ring). exact A. }
      assert (0 <= i) by (destruct (Z_lt_le_dec i 0); [nia|assumption]). assert (0 <= j) by (destruct (Z_lt_le_dec j 0); [nia|assumption]).
      destruct (root_side q r (i + j) ltac:(lia) SR ltac:(lia)) as [S1 S2]. fold N in S1, S2. rewrite <- SQ in S1, S2.
      assert (ER : (R + y) * (R + y) = (i + j) * (i + j) * (u * u)) by (rewrite EI, EJ; ring). rewrite ER. pose proof (Z.mul_pos_pos u u PU PU) as UU.
      rewrite Z.mul_assoc. split; intros L; (apply Z.mul_le_mono_nonneg_r; [lia|]).
      - apply S1. assert (i < j) by (rewrite EI, EJ in L; apply (Z.mul_lt_mono_pos_r u); assumption). lia.
      - apply S2. assert (j < i) by (rewrite EI, EJ in L; apply (Z.mul_lt_mono_pos_r u); assumption). lia. }
    unfold nearest_root. rewrite EB. split; [exact FR|]. split; [lia|]. intros y FY Y0. destruct (Z_le_gt_dec t y) as [L|L].
    + destruct (STEP y FY L) as [S1 S2]. split; assumption.
    + split; [lia|]. intros _. destruct (Z_le_gt_dec R t) as [L2|L2].
      * assert (R = t) as -> by lia. apply Z.le_trans with ((2 * t) * (2 * t)); [apply Z.mul_le_mono_nonneg; lia|]. replace (2 * t * (2 * t)) with (4 * (t * t)) by ring. apply Z.mul_le_mono_nonneg_l; [lia|].
        apply Z.le_trans with ((q * u) * (q * u)); [apply Z.mul_le_mono_nonneg; lia|]. replace (q * u * (q * u)) with (q * q * (u * u)) by ring. apply Z.mul_le_mono_nonneg_r; [apply Z.mul_nonneg_nonneg; lia|lia].
      * destruct (STEP t FT ltac:(lia)) as [_ S2]. specialize (S2 ltac:(lia)). apply Z.le_trans with ((R + t) * (R + t)); [apply Z.mul_le_mono_nonneg; lia|exact S2].
Qed.

Lemma root_exact P a r r' : nearest_root P a r -> P r' -> 0 <= r' -> r' * r' = a * one -> r = r'.
Proof.
  intros (_ & R0 & H) HP H0 E. destruct (H r' HP H0) as [A B]. destruct (Z.lt_trichotomy r r') as [L|[L|L]]; [|exact L|].
  - specialize (A L). rewrite <- E in A. nia.
  - specialize (B L). rewrite <- E in B. nia.
Qed.
Lemma root_ext (P Q : Z -> Prop) e e' : (forall z, P z <-> Q z) -> square_root P e e' -> square_root Q e e'.
Proof.
  intros H. unfold square_root. destruct e as [|[]|a]; auto. destruct (a <? 0); [auto|]. intros (r & E & F & R & HR). exists r. split; [exact E|]. split; [apply H, F|]. split; [exact R|]. intros r' Q'. apply HR, H, Q'.
Qed.
Lemma sqrt_valid k x : real k = true -> is_float_kind k = true -> valid_in k x -> valid_in k (sqrt_float k x).
Proof.
  unfold valid_in. intros R F V. destruct k; try discriminate R; try discriminate F; cbn [sqrt_float format fst snd] in *.
  - destruct (widen_f16 x V) as [_ W]. apply (to_format_rounded 24 128 11 16 _ f32_format f16_format). apply sqrt_rounded; [apply f32_format|lia|exact W].
  - apply sqrt_rounded; [apply f32_format|lia|exact V].
  - apply sqrt_rounded; [apply f64_format|lia|exact V].
Qed.
Lemma sqrt_value k x : k = Float32 \/ k = Float64 -> valid_in k x -> square_root (fun z => holds k (z, 0)) (float_value x) (float_value (sqrt_float k x)).
Proof.
  intros HK V. apply (root_ext (fmt_holds (fst (format k)) (snd (format k)))). { intros z. rewrite float_holds_kind by tauto. tauto. }
  destruct HK as [-> | ->]; unfold valid_in in V; cbn [sqrt_float format fst snd] in *; apply sqrt_rounded; try exact V; try lia; [apply f32_format|apply f64_format].
Qed.
Lemma sqrt_exact k x a r : real k = true -> is_float_kind k = true -> valid_in k x -> float_value x = Fin a -> 0 <= r -> r * r = a * one -> holds k (r, 0) ->
  float_value (sqrt_float k x) = Fin r.
Proof.
  intros R F V E R0 RR H. pose proof one_pos as H1. assert (A0 : 0 <= a) by nia.
  assert (GEN : forall k', k' = Float32 \/ k' = Float64 -> forall y, valid_in k' y -> float_value y = Fin a -> holds k' (r, 0) -> float_value (sqrt_float k' y) = Fin r).
  { intros k' HK y VY EY HY. pose proof (sqrt_value k' y HK VY) as Q. rewrite EY in Q. cbn [square_root] in Q. destruct (Z.ltb_spec a 0) as [|_]; [lia|]. destruct Q as (r0 & Q1 & Q2). rewrite Q1. f_equal. exact (root_exact _ a r0 r Q2 HY R0 RR). }
  assert (k = Float16 \/ k = Float32 \/ k = Float64) as [-> |HK] by (destruct k; try discriminate R; try discriminate F; auto).
  - unfold valid_in in V. cbn [format fst snd] in V. destruct (widen_f16 x V) as [EW VW]. assert (float_value (SFsqrt 24 128 (to_format 24 128 x)) = Fin r) as E32.
    { apply (GEN Float32 (or_introl eq_refl) (to_format 24 128 x)); [exact VW|congruence|]. destruct H as [(m & e & HM & HE & ->) _]. split; [|reflexivity]. exists m, e. split; [lia|]. split; [lia|reflexivity]. }
    cbn [sqrt_float]. destruct (to_format_exact 24 128 11 16 (SFsqrt 24 128 (to_format 24 128 x))) as [EF _]; try (unfold SpecFloat.emin; lia).
    + apply sqrt_rounded; [apply f32_format|lia|exact VW].
    + rewrite E32. cbn [ext_in]. apply H.
    + congruence.
  - exact (GEN k HK x V E H).
Qed.
