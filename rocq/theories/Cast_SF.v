(* Comparison and exact conversion of binary floating-point numbers of any format. *)
From Coq Require Import SpecFloat.
From Verif Require Import Base Int_Model F64_Model Date_Model New_Model Promo_Spec Promo_Proofs SF_Proofs SF_Arith Cast_Spec Cast_Model.
Local Open Scope Z_scope.

Lemma valid_inv prec emax s m e : 0 < prec -> valid_binary prec emax (S754_finite s m e) = true ->
  dlen m <= prec /\ SpecFloat.emin prec emax <= e <= emax - prec /\ (e = SpecFloat.emin prec emax \/ dlen m = prec).
Proof.
  intros HP H. cbn [valid_binary] in H. unfold SpecFloat.bounded in H. apply andb_true_iff in H as [H1 H2].
  unfold canonical_mantissa in H1. apply Zeq_bool_eq in H1. apply Z.leb_le in H2.
  change (Zpos (digits2_pos m)) with (dlen m) in H1. unfold fexp in H1. lia.
Qed.
Lemma valid_intro prec emax s m e : 0 < prec -> dlen m <= prec -> SpecFloat.emin prec emax <= e <= emax - prec ->
  (e = SpecFloat.emin prec emax \/ dlen m = prec) -> valid_binary prec emax (S754_finite s m e) = true.
Proof.
  intros HP H1 H2 H3. cbn [valid_binary]. unfold SpecFloat.bounded. apply andb_true_iff. split.
  - unfold canonical_mantissa. apply Zeq_is_eq_bool. change (Zpos (digits2_pos m)) with (dlen m). unfold fexp. lia.
  - apply Z.leb_le. lia.
Qed.

Lemma pow_add_nonneg a b : 0 <= a -> 0 <= b -> 2 ^ (a + b) = 2 ^ a * 2 ^ b.
Proof. intros. apply Z.pow_add_r; assumption. Qed.
Lemma pow_pos a : 0 <= a -> 0 < 2 ^ a.
Proof. intros. apply Z.pow_pos_nonneg; lia. Qed.

(* a larger exponent means a larger number *)
Lemma exponent_lt prec emax m e m' e' : 0 < prec -> -1074 <= SpecFloat.emin prec emax ->
  (forall s, valid_binary prec emax (S754_finite s m e) = true) -> (forall s, valid_binary prec emax (S754_finite s m' e') = true) ->
  e < e' -> Zpos m * 2 ^ (e + 1074) < Zpos m' * 2 ^ (e' + 1074).
Proof.
  intros HP HE V V' HL. destruct (valid_inv _ _ false _ _ HP (V false)) as (A1 & A2 & A3).
  destruct (valid_inv _ _ false _ _ HP (V' false)) as (B1 & B2 & B3).
  pose proof (dlen_bounds m) as [_ DM]. pose proof (dlen_bounds m') as [DM' _].
  assert (dlen m' = prec) by lia.
  assert (2 ^ dlen m <= 2 ^ prec) by (apply Z.pow_le_mono_r; lia).
  assert (Zpos m * 2 ^ (e + 1074) < 2 ^ prec * 2 ^ (e + 1074)) by (apply Z.mul_lt_mono_pos_r; [apply pow_pos; lia|lia]).
  assert (2 ^ (prec - 1) * 2 ^ (e' + 1074) <= Zpos m' * 2 ^ (e' + 1074)) by (apply Z.mul_le_mono_nonneg_r; [pose proof (pow_pos (e' + 1074)); lia|congruence]).
  rewrite <- pow_add_nonneg in * by lia. assert (2 ^ (prec + (e + 1074)) <= 2 ^ (prec - 1 + (e' + 1074))) by (apply Z.pow_le_mono_r; lia). lia.
Qed.
Lemma same_exponent m m' k : 0 <= k -> (Zpos m * 2 ^ k ?= Zpos m' * 2 ^ k) = (m ?= m')%positive.
Proof. intros HK. pose proof (pow_pos k HK) as HQ. rewrite <- (Zmult_compare_compat_r (Zpos m) (Zpos m') (2 ^ k)) by lia. reflexivity. Qed.

Theorem compare_value prec emax x y : 0 < prec -> -1074 <= SpecFloat.emin prec emax ->
  valid_binary prec emax x = true -> valid_binary prec emax y = true ->
  SFcompare x y = ext_compare (float_value x) (float_value y).
Proof.
  intros HP HE VX VY.
  assert (HV : forall s m e, valid_binary prec emax (S754_finite s m e) = true -> forall t, valid_binary prec emax (S754_finite t m e) = true)
    by (intros s m e H t; exact H).
  assert (HPOS : forall m e, valid_binary prec emax (S754_finite false m e) = true -> 0 < Zpos m * 2 ^ (e + 1074)).
  { intros m e H. destruct (valid_inv _ _ _ _ _ HP H) as (_ & ? & _). pose proof (pow_pos (e + 1074)). nia. }
  assert (HC : forall m e m' e', valid_binary prec emax (S754_finite false m e) = true -> valid_binary prec emax (S754_finite false m' e') = true ->
    (Zpos m * 2 ^ (e + 1074) ?= Zpos m' * 2 ^ (e' + 1074)) = match (e ?= e')%Z with Lt => Lt | Gt => Gt | Eq => Pcompare m m' Eq end).
  { intros m e m' e' V V'. destruct (Z.compare_spec e e') as [E|E|E].
    - subst e'. destruct (valid_inv _ _ _ _ _ HP V) as (_ & ? & _). rewrite same_exponent by lia. reflexivity.
    - apply Z.compare_lt_iff. eapply exponent_lt; eauto.
    - apply Z.compare_gt_iff. eapply exponent_lt; eauto. }
  destruct x as [s|s| |s m e], y as [t|t| |t m' e']; cbn [SFcompare float_value ext_compare]; try reflexivity;
    try (destruct s, t; reflexivity).
  - pose proof (HPOS m' e' VY) as H. f_equal. symmetry. destruct t; cbn [cond_Zopp];
      [rewrite Z.mul_opp_l; apply Z.compare_gt_iff; lia|apply Z.compare_lt_iff; lia].
  - pose proof (HPOS m e VX) as H. f_equal. symmetry. destruct s; cbn [cond_Zopp];
      [rewrite Z.mul_opp_l; apply Z.compare_lt_iff; lia|apply Z.compare_gt_iff; lia].
  - pose proof (HPOS m e VX) as H. pose proof (HPOS m' e' VY) as H'. pose proof (HC m e m' e' VX VY) as HH.
    destruct s, t; cbn [cond_Zopp]; rewrite ?Z.mul_opp_l.
    + f_equal. rewrite Z.compare_opp, (Z.compare_antisym (Zpos m * 2 ^ (e + 1074))), HH.
      destruct (e ?= e'); try reflexivity.
    + f_equal. symmetry. apply Z.compare_lt_iff. lia.
    + f_equal. symmetry. apply Z.compare_gt_iff. lia.
    + f_equal. rewrite HH. destruct (e ?= e'); reflexivity.
Qed.

(* rounding a number the format has changes nothing *)
Lemma round_exact prec emax s m e m0 e0 : 0 < prec -> -1074 <= SpecFloat.emin prec emax -> -1074 <= e ->
  Zpos m * 2 ^ (e + 1074) = Zpos m0 * 2 ^ (e0 + 1074) -> dlen m0 <= prec -> SpecFloat.emin prec emax <= e0 <= emax - prec ->
  exists q k, binary_round prec emax s m e = S754_finite s q k /\ Zpos q * 2 ^ (k + 1074) = Zpos m * 2 ^ (e + 1074) /\
    valid_binary prec emax (S754_finite s q k) = true.
Proof.
  intros HP HE He EV HD He0.
  assert (MAG : dlen m + e = dlen m0 + e0).
  { assert (HX : forall p a j, -1074 <= a -> Zpos j = Zpos p * 2 ^ (a + 1074) -> dlen j = dlen p + (a + 1074)).
    { intros p a j Ha Hj. apply (dlen_mul_pow p j (a + 1074) Hj). lia. }
    destruct (Zpos m * 2 ^ (e + 1074)) as [|j|j] eqn:EJ; [pose proof (pow_pos (e + 1074)); nia| |pose proof (pow_pos (e + 1074)); nia].
    pose proof (HX m e j He (eq_sym EJ)). pose proof (HX m0 e0 j ltac:(lia) EV). lia. }
  set (k := Z.max (dlen m0 + e0 - prec) (SpecFloat.emin prec emax)).
  assert (HK : SpecFloat.emin prec emax <= k <= e0) by (unfold k; lia).
  pose proof (pow_pos (e0 - k) ltac:(lia)) as PQ.
  destruct (Zpos m0 * 2 ^ (e0 - k)) as [|q|q] eqn:EQ; [nia| |nia].
  assert (VQ : Zpos q * 2 ^ (k + 1074) = Zpos m * 2 ^ (e + 1074)).
  { rewrite <- EQ, EV, <- Z.mul_assoc, <- pow_add_nonneg by lia. f_equal. f_equal. lia. }
  assert (DQ : dlen q = dlen m0 + (e0 - k)) by (apply (dlen_mul_pow m0 q (e0 - k)); [symmetry; exact EQ|lia]).
  exists q, k.
  assert (HF : fexp prec emax (dlen m + e) = k) by (unfold fexp; rewrite MAG; reflexivity).
  split; [|split; [exact VQ|apply valid_intro; [exact HP| | |]; unfold k in *; lia]].
  unfold binary_round. change (Zpos (digits2_pos m)) with (dlen m). rewrite HF. unfold shl_align.
  destruct (Z_lt_le_dec k e) as [HL|HL].
  - destruct (k - e) as [|p|p] eqn:EP; try lia.
    assert (SH : Zpos (shift_pos p m) = Zpos q).
    { rewrite shift_pos_mul. apply (Z.mul_cancel_r _ _ (2 ^ (k + 1074))); [pose proof (pow_pos (k + 1074)); lia|].
      rewrite VQ, <- Z.mul_assoc, <- pow_add_nonneg by lia. f_equal. f_equal. lia. }
    injection SH as SH. rewrite SH.
    rewrite (round_aux_exact prec emax s q q k 0); [f_equal; lia|change (2 ^ 0) with 1; lia|lia| |lia].
    rewrite DQ. unfold fexp. fold (SpecFloat.emin prec emax). unfold k in *. lia.
  - assert (EM : Zpos m = Zpos q * 2 ^ (k - e)).
    { apply (Z.mul_cancel_r _ _ (2 ^ (e + 1074))); [pose proof (pow_pos (e + 1074)); lia|].
      rewrite <- VQ, <- Z.mul_assoc, <- pow_add_nonneg by lia. f_equal. f_equal. lia. }
    assert (EA : match k - e with Zneg d => (shift_pos d m, k) | _ => (m, e) end = (m, e)) by (destruct (k - e) eqn:E'; try reflexivity; lia).
    rewrite EA. rewrite (round_aux_exact prec emax s m q e (k - e)); [f_equal; lia|exact EM|lia| |lia]. rewrite HF. lia.
Qed.

(* the finite numbers of a format, as in Promo_Spec *)
Definition fmt_holds (prec emax : Z) : Z -> Prop := float_holds prec (SpecFloat.emin prec emax) (emax - prec).

Lemma round_holds prec emax s m e : 0 < prec -> -1074 <= SpecFloat.emin prec emax -> -1074 <= e ->
  fmt_holds prec emax (Zpos m * 2 ^ (e + 1074)) ->
  float_value (binary_round prec emax s m e) = Fin (cond_Zopp s (Zpos m) * 2 ^ (e + 1074)) /\
  valid_binary prec emax (binary_round prec emax s m e) = true.
Proof.
  intros HP HE He (m1 & e1 & HM & HE1 & EV).
  pose proof (pow_pos (e + 1074) ltac:(lia)). pose proof (pow_pos (e1 + 1074) ltac:(lia)).
  assert (HM1 : 0 < m1) by nia. destruct m1 as [|m0|m0]; try lia.
  destruct (round_exact prec emax s m e m0 e1 HP HE He EV) as (q & k & E & V & VB).
  - apply dlen_le. lia.
  - lia.
  - rewrite E. split; [|exact VB]. cbn [float_value]. f_equal. destruct s; cbn [cond_Zopp]; rewrite ?Z.mul_opp_l, V; reflexivity.
Qed.

Lemma fmt_opp prec emax x : fmt_holds prec emax x -> fmt_holds prec emax (- x).
Proof. apply float_opp. Qed.

Lemma to_format_exact prec emax prec' emax' x : 0 < prec -> -1074 <= SpecFloat.emin prec emax -> 0 < prec' -> -1074 <= SpecFloat.emin prec' emax' ->
  valid_binary prec emax x = true -> ext_in (fmt_holds prec' emax') (float_value x) ->
  float_value (to_format prec' emax' x) = float_value x /\ valid_binary prec' emax' (to_format prec' emax' x) = true.
Proof.
  intros HP HE HP' HE' V H. destruct x as [s|s| |s m e]; try (split; reflexivity). cbn [to_format].
  destruct (valid_inv _ _ _ _ _ HP V) as (_ & ? & _). cbn [float_value ext_in] in H.
  apply round_holds; [exact HP'|exact HE'|lia|]. destruct s; cbn [cond_Zopp] in H; [|exact H].
  apply fmt_opp in H. rewrite Z.mul_opp_l, Z.opp_involutive in H. exact H.
Qed.

(* the value of a float is a number of its format *)
Lemma valid_holds prec emax x : 0 < prec -> valid_binary prec emax x = true -> SpecFloat.emin prec emax <= 0 <= emax - prec ->
  ext_in (fmt_holds prec emax) (float_value x).
Proof.
  intros HP V HZ. destruct x as [s|s| |s m e]; cbn [float_value ext_in]; try exact I.
  - apply float_zero; lia.
  - destruct (valid_inv _ _ _ _ _ HP V) as (D & R & _). pose proof (dlen_bounds m) as [_ B].
    assert (2 ^ dlen m <= 2 ^ prec) by (apply Z.pow_le_mono_r; lia).
    exists (cond_Zopp s (Zpos m)), e. split; [destruct s; cbn [cond_Zopp]; lia|]. split; [lia|reflexivity].
Qed.

Lemma one_nz : one <> 0. Proof. pose proof one_pos. lia. Qed.

Lemma int_exact prec emax z : 0 < prec -> -1074 <= SpecFloat.emin prec emax -> fmt_holds prec emax (z * one) ->
  float_value (binary_normalize prec emax z 0 false) = Fin (z * one) /\ valid_binary prec emax (binary_normalize prec emax z 0 false) = true.
Proof.
  intros HP HE H. destruct z as [|p|p]; cbn [binary_normalize].
  - split; reflexivity.
  - apply (round_holds prec emax false p 0 HP HE ltac:(lia)). exact H.
  - destruct (round_holds prec emax true p 0 HP HE ltac:(lia)) as [A B]; [|split; [exact A|exact B]].
    apply fmt_opp in H. rewrite <- Z.mul_opp_l in H. exact H.
Qed.

(* truncation *)
Lemma trunc_value prec emax x m : 0 < prec -> -1074 <= SpecFloat.emin prec emax -> valid_binary prec emax x = true ->
  float_value x = Fin m -> sf_trunc x = Z.quot m one.
Proof.
  intros HP HE V H. pose proof one_pos as P1. destruct x as [s|s| |s p e]; try discriminate; cbn [float_value] in H; injection H as <-.
  - reflexivity.
  - destruct (valid_inv _ _ _ _ _ HP V) as (_ & R & _). cbn [sf_trunc]. cbv zeta.
    pose proof (pow_pos (e + 1074) ltac:(lia)) as P2.
    assert (HA : (if 0 <=? e then Z.shiftl (Zpos p) e else Z.shiftr (Zpos p) (- e)) = Z.quot (Zpos p * 2 ^ (e + 1074)) one).
    { rewrite Z.quot_div_nonneg by nia. destruct (Z.leb_spec 0 e) as [L|L].
      + rewrite Z.shiftl_mul_pow2, one_at, Z.mul_assoc, Z.div_mul by lia. reflexivity.
      + rewrite Z.shiftr_div_pow2 by lia.
        assert (HO : one = 2 ^ (- e) * 2 ^ (e + 1074)) by (unfold one; rewrite <- pow_add_nonneg by lia; f_equal; lia).
        rewrite HO, Z.div_mul_cancel_r; [reflexivity|pose proof (pow_pos (- e)); lia|lia]. }
    rewrite HA. destruct s; cbn [cond_Zopp]; [|reflexivity]. rewrite Z.mul_opp_l, Z.quot_opp_l by lia. reflexivity.
Qed.
Lemma trunc_exact prec emax x z : 0 < prec -> -1074 <= SpecFloat.emin prec emax -> valid_binary prec emax x = true ->
  float_value x = Fin (z * one) -> sf_trunc x = z.
Proof. intros HP HE V H. rewrite (trunc_value _ _ _ _ HP HE V H). apply Z.quot_mul. apply one_nz. Qed.
