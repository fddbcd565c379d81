(* The operations of SpecFloat round to the nearest number of the format. *)
From Coq Require Import SpecFloat.
From Verif Require Import Base Promo_Spec Promo_Proofs SF_Proofs SF_Arith Cast_Spec Cast_Model Cast_SF Rnd_Spec Rnd_Model Rnd_Proofs Ari_Spec.
Local Open Scope Z_scope.

(* ---- the arithmetic of nearest multiples ------------------------------------ *)
Lemma nearest_multiple N D m j : 0 < D -> 2 * Z.abs (m * D - N) <= D -> (2 * Z.abs (m * D - N) = D -> Z.even m = true) ->
  Z.abs (N - m * D) <= Z.abs (N - j * D) /\ (Z.abs (N - m * D) = Z.abs (N - j * D) -> j = m \/ (2 * (m - j) | m)).
Proof.
  intros HD HN HT. destruct (Z.eq_dec j m) as [-> |NE]; [split; [lia|auto]|].
  assert (j * D - m * D >= D \/ j * D - m * D <= - D) as HJ.
  { destruct (Z_lt_le_dec j m) as [L|L]; [right|left]; replace (j * D - m * D) with ((j - m) * D) by ring; nia. }
  split; [lia|]. intros HE. right. assert (2 * Z.abs (m * D - N) = D) as H2 by lia. specialize (HT H2).
  apply Z.even_spec in HT. destruct HT as [h Hh].
  assert (j * D - m * D = D \/ j * D - m * D = - D) as H3 by lia.
  assert (j = m + 1 \/ j = m - 1) as [-> | ->].
  { destruct H3 as [H3|H3]; [left|right]; apply (Z.mul_reg_r _ _ D); lia. }
  - exists (- h). lia.
  - exists h. lia.
Qed.

Lemma nearest_core (F : Z -> Prop) V W N D P m h : 0 < D -> 0 < P -> 0 < W -> V * D = N * P * W ->
  2 * Z.abs (m * D - N) <= D -> (2 * Z.abs (m * D - N) = D -> Z.even m = true) ->
  (forall r, F r -> (exists j, r = j * P) \/ (r < h * P /\ h * D <= N)) -> F (m * P) -> nearest F V W (m * P).
Proof.
  intros HD HP HW HV HN HT HF HM. split; [exact HM|]. intros r' Hr'.
  assert (forall r, D * Z.abs (V - r * W) = W * Z.abs (N * P - r * D)) as HS.
  { intros r. rewrite <- (Z.abs_eq D) at 1 by lia. rewrite <- (Z.abs_eq W) at 2 by lia. rewrite <- !Z.abs_mul. f_equal. rewrite Z.mul_sub_distr_l, (Z.mul_comm D V), HV. ring. }
  assert (D * Z.abs (V - m * P * W) = W * P * Z.abs (N - m * D)) as HS1.
  { rewrite HS. replace (N * P - m * P * D) with ((N - m * D) * P) by ring. rewrite Z.abs_mul, (Z.abs_eq P) by lia. ring. }
  specialize (HS r'). destruct (HF r' Hr') as [[j ->]|[HB HH]].
  - assert (D * Z.abs (V - j * P * W) = W * P * Z.abs (N - j * D)) as HS2.
    { rewrite HS. replace (N * P - j * P * D) with ((N - j * D) * P) by ring. rewrite Z.abs_mul, (Z.abs_eq P) by lia. ring. }
    destruct (nearest_multiple N D m j HD HN HT) as [A B].
    assert (0 < W * P) as HWP by (apply Z.mul_pos_pos; assumption). split.
    + apply (Zmult_lt_0_le_reg_r _ _ D HD). rewrite !(Z.mul_comm _ D), HS1, HS2. apply Z.mul_le_mono_nonneg_l; [lia|exact A].
    + intros HE. assert (W * P * Z.abs (N - m * D) = W * P * Z.abs (N - j * D)) as HE' by (rewrite <- HS1, <- HS2, HE; reflexivity).
      apply Z.mul_reg_l in HE'; [|lia]. destruct (B HE') as [-> |[c Hc]]; [left; reflexivity|right]. exists c.
      replace (2 * (m * P - j * P)) with (2 * (m - j) * P) by ring. rewrite Hc at 1. ring.
  - assert (Z.abs (N - m * D) <= N - h * D) as A by (destruct (nearest_multiple N D m h HD HN HT) as [A _]; lia).
    assert (P * Z.abs (N - m * D) < N * P - r' * D) as B.
    { apply Z.le_lt_trans with (P * (N - h * D)); [apply Z.mul_le_mono_nonneg_l; lia|].
      assert (r' * D < h * P * D) by (apply Z.mul_lt_mono_pos_r; lia). lia. }
    assert (0 <= P * Z.abs (N - m * D)) by (apply Z.mul_nonneg_nonneg; lia).
    assert (D * Z.abs (V - m * P * W) < D * Z.abs (V - r' * W)) as C.
    { rewrite HS1, HS, <- Z.mul_assoc. apply Z.mul_lt_mono_pos_l; [exact HW|]. lia. }
    apply Z.mul_lt_mono_pos_l in C; [|exact HD]. split; [lia|]. intros HE. rewrite HE in C. lia.
Qed.

Lemma nearest_opp (F : Z -> Prop) V W r : (forall x, F x -> F (- x)) -> nearest F V W r -> nearest F (- V) W (- r).
Proof.
  intros HF [H1 H2]. split; [apply HF; exact H1|]. intros r' H. destruct (H2 (- r') (HF _ H)) as [A B].
  replace (- V - - r * W) with (- (V - r * W)) by ring. replace (- V - r' * W) with (- (V - - r' * W)) by ring. rewrite !Z.abs_opp. split; [exact A|].
  intros HE. destruct (B HE) as [C|[c Hc]]; [left; lia|right]. exists c. lia.
Qed.
Lemma nearest_exact (F : Z -> Prop) V W r x : 0 < W -> nearest F V W r -> F x -> V = x * W -> r = x.
Proof.
  intros HW [_ H] HX ->. destruct (H x HX) as [A _]. rewrite Z.sub_diag in A. assert (x * W - r * W = 0) as E by lia.
  replace (x * W - r * W) with ((x - r) * W) in E by ring. apply Z.mul_eq_0 in E. lia.
Qed.

(* ---- rounding --------------------------------------------------------------- *)
(* the record is N / D, its integer part and what rounding makes of it *)
Lemma rne_tie r N D : rec_inv r N D -> let m := round_nearest_even (shr_m r) (loc_of_shr_record r) in
  2 * Z.abs (m * D - N) = D -> Z.even m = true.
Proof.
  destruct r as [q rr ss]. unfold rec_inv. cbn [shr_m shr_r shr_s]. intros (HD & Hm & H).
  destruct rr, ss; cbn [loc_of_shr_record round_nearest_even shr_m shr_r shr_s]; cbv zeta.
  1,3,4: intros HE; exfalso; replace ((q + 1) * D) with (q * D + D) in * by ring; lia.
  intros _. destruct (Z.even q) eqn:EQ; [exact EQ|]. rewrite Z.even_add, EQ. reflexivity.
Qed.
Lemma rec_floor r N D : rec_inv r N D -> shr_m r * D <= N < (shr_m r + 1) * D.
Proof.
  destruct r as [q rr ss]. unfold rec_inv. cbn [shr_m shr_r shr_s]. intros (HD & Hm & H).
  replace ((q + 1) * D) with (q * D + D) by ring. destruct rr, ss; lia.
Qed.
Lemma zdigits_bounds q : 0 < q -> 2 ^ (Zdigits2 q - 1) <= q < 2 ^ Zdigits2 q.
Proof. intros H. destruct q as [|p|p]; try lia. exact (dlen_bounds p). Qed.
Lemma zdigits_nonneg q : 0 <= Zdigits2 q. Proof. destruct q; cbn [Zdigits2]; lia. Qed.
Lemma zdigits_unique q d : 2 ^ (d - 1) <= q < 2 ^ d -> 1 <= d -> Zdigits2 q = d.
Proof.
  intros H Hd. assert (0 < 2 ^ (d - 1)) by (apply Z.pow_pos_nonneg; lia). destruct q as [|p|p]; try lia. exact (dlen_unique p d H Hd).
Qed.
Lemma shr_none r e k : k <= 0 -> shr r e k = (r, e). Proof. intros H. destruct k; try reflexivity. lia. Qed.

(* the finite number m * 2^E, with a carry to the next binade, or infinity *)
Definition packed (prec emax : Z) (s : bool) (m E : Z) : spec_float :=
  if m =? 0 then S754_zero s
  else if m =? 2 ^ prec then (if E + 1 <=? emax - prec then S754_finite s (Z.to_pos (2 ^ (prec - 1))) (E + 1) else S754_infinity s)
  else if E <=? emax - prec then S754_finite s (Z.to_pos m) E else S754_infinity s.

Lemma round_aux_packed prec emax s q e l N D : 1 < prec -> rec_inv (shr_record_of_loc q l) N D -> e <= fexp prec emax (Zdigits2 q + e) ->
  0 <= q -> shr_m (shr_record_of_loc q l) = q ->
  exists m f, let E := fexp prec emax (Zdigits2 q + e) in let DD := 2 ^ (E - e) * D in
    binary_round_aux prec emax s q e l = packed prec emax s m E /\
    2 * Z.abs (m * DD - N) <= DD /\ (2 * Z.abs (m * DD - N) = DD -> Z.even m = true) /\ 0 < DD /\
    f * DD <= N < (f + 1) * DD /\ 0 <= f <= m /\ f < 2 ^ prec /\ m <= 2 ^ prec /\ (E = SpecFloat.emin prec emax \/ 2 ^ (prec - 1) <= f).
Proof.
  intros HP HI HE Hq HQ. set (E := fexp prec emax (Zdigits2 q + e)) in *. set (k := E - e). assert (0 <= k) as Hk by (unfold k; lia).
  destruct (shr_inv _ e k N D Hk HI) as (r & ER & HR). pose proof (rne_inv r N _ HR) as (A1 & A2 & A3). pose proof (rne_tie r N _ HR) as A4. pose proof (rec_floor r N _ HR) as A5.
  pose proof HI as (HD0 & _). pose proof (rec_floor _ N D HI) as B5. rewrite HQ in B5.
  assert (0 < 2 ^ k) as HK by (apply Z.pow_pos_nonneg; lia). set (DD := 2 ^ k * D) in *. assert (0 < DD) as HDD by (apply Z.mul_pos_pos; lia).
  pose proof HR as (_ & Hm0 & _). set (f := shr_m r) in *. set (m := round_nearest_even f (loc_of_shr_record r)) in *.
  pose proof (zdigits_nonneg q) as Hd. set (d := Zdigits2 q) in *.
  assert (E = Z.max (d + e - prec) (SpecFloat.emin prec emax)) as EE by reflexivity.
  assert (q < 2 ^ d) as Q1.
  { destruct (Z.eq_dec q 0) as [-> |NQ]; [apply Z.pow_pos_nonneg; lia|]. apply zdigits_bounds. lia. }
  assert (f < 2 ^ prec) as F1.
  { assert (d <= prec + k) as Hdk by (unfold k; lia).
    assert (2 ^ d <= 2 ^ prec * 2 ^ k) as H1 by (rewrite <- Z.pow_add_r by lia; apply Z.pow_le_mono_r; lia).
    assert (f * DD < 2 ^ prec * DD); [|apply Z.mul_lt_mono_pos_r in H; assumption].
    apply Z.le_lt_trans with N; [lia|]. apply Z.lt_le_trans with ((q + 1) * D); [lia|]. unfold DD. rewrite Z.mul_assoc. apply Z.mul_le_mono_nonneg_r; lia. }
  assert (E = SpecFloat.emin prec emax \/ 2 ^ (prec - 1) <= f) as F2.
  { destruct (Z.eq_dec E (SpecFloat.emin prec emax)) as [|NE]; [left; assumption|right].
    assert (E = d + e - prec) as E2 by lia. assert (d = prec + k) as D2 by (unfold k; lia).
    assert (0 < q) as Q0. { destruct (Z.eq_dec q 0) as [Z0|]; [|lia]. exfalso. assert (d = 0) by (unfold d; rewrite Z0; reflexivity). lia. }
    pose proof (zdigits_bounds q Q0) as [Q2 _]. fold d in Q2. rewrite D2 in Q2. replace (prec + k - 1) with (prec - 1 + k) in Q2 by lia. rewrite Z.pow_add_r in Q2 by lia.
    assert (2 ^ (prec - 1) * DD < (f + 1) * DD); [|apply Z.mul_lt_mono_pos_r in H; lia].
    apply Z.le_lt_trans with N; [|lia]. apply Z.le_trans with (q * D); [|lia]. unfold DD. rewrite Z.mul_assoc. apply Z.mul_le_mono_nonneg_r; lia. }
  exists m, f. cbv zeta. fold k. fold DD. split; [|repeat split; try assumption; try lia].
  unfold binary_round_aux. unfold shr_fexp at 1. fold d. fold E. change (fexp prec emax (d + e)) with E. fold k. rewrite ER. replace (e + k) with E by (unfold k; lia). fold f. fold m.
  unfold packed. unfold shr_fexp. cbn [shr_record_of_loc].
  destruct (Z.eqb_spec m 0) as [M0|M0].
  { rewrite M0. cbn [Zdigits2]. rewrite shr_none by (unfold fexp; lia). reflexivity. }
  assert (0 < m) as MP by lia.
  destruct (Z.eqb_spec m (2 ^ prec)) as [MM|MM].
  - assert (Zdigits2 m = prec + 1) as DM.
    { apply zdigits_unique; [|lia]. rewrite MM. replace (prec + 1 - 1) with prec by lia. split; [lia|]. apply Z.pow_lt_mono_r; lia. }
    rewrite DM. replace (fexp prec emax (prec + 1 + E) - E) with 1 by (unfold fexp; lia).
    assert (m = Zpos (Z.to_pos (2 ^ (prec - 1))) * 2 ^ 1) as EM.
    { rewrite Z2Pos.id by (apply Z.pow_pos_nonneg; lia). rewrite <- Z.pow_add_r by lia. rewrite MM. f_equal. lia. }
    rewrite EM. rewrite shr_exact by lia. cbn [shr_m]. reflexivity.
  - assert (Zdigits2 m <= prec) as DM. { destruct m as [|p|p]; try lia. cbn [Zdigits2]. change (Zpos (digits2_pos p)) with (dlen p). apply dlen_le. lia. }
    rewrite shr_none by (unfold fexp; lia). cbn [shr_m]. destruct m as [|p|p]; try lia. cbn [Z.to_pos]. reflexivity.
Qed.

(* ---- the rounded number is the nearest one ----------------------------------- *)
Definition fmt_range (prec emax N D : Z) : Prop := 2 * Z.abs N < (2 ^ (prec + 1) - 1) * 2 ^ (emax - prec + 1074) * D.
Definition fmt_rounded (prec emax N D : Z) (e : ext) : Prop :=
  match e with
  | NaN => False
  | Fin r => fmt_range prec emax N D /\ nearest (fmt_holds prec emax) N D r
  | Inf s => ~ fmt_range prec emax N D /\ (s = true <-> N < 0)
  end.

Lemma packed_value prec emax s m E : 1 < prec -> 0 <= m <= 2 ^ prec -> SpecFloat.emin prec emax <= E -> (E = SpecFloat.emin prec emax \/ 2 ^ (prec - 1) <= m) -> -1074 <= SpecFloat.emin prec emax ->
  let R := packed prec emax s m E in
  valid_binary prec emax R = true /\
  ((float_value R = Fin ((if s then - m else m) * 2 ^ (E + 1074)) /\ (m = 0 \/ (m = 2 ^ prec /\ E + 1 <= emax - prec) \/ (0 < m < 2 ^ prec /\ E <= emax - prec)))
   \/ (R = S754_infinity s /\ 0 < m /\ ((m = 2 ^ prec /\ emax - prec <= E) \/ (m < 2 ^ prec /\ emax - prec < E)))).
Proof.
  intros HP HM HE HN HL R. unfold R, packed. assert (0 < 2 ^ (prec - 1)) as HH by (apply Z.pow_pos_nonneg; lia).
  assert (2 ^ prec = 2 ^ (prec - 1) * 2) as H2 by (replace prec with (prec - 1 + 1) at 1 by lia; rewrite Z.pow_add_r by lia; reflexivity).
  destruct (Z.eqb_spec m 0) as [-> |M0].
  { split; [reflexivity|]. left. split; [destruct s; reflexivity|left; reflexivity]. }
  destruct (Z.eqb_spec m (2 ^ prec)) as [-> |MM].
  - destruct (Z.leb_spec (E + 1) (emax - prec)) as [L|L].
    + assert (dlen (Z.to_pos (2 ^ (prec - 1))) = prec) as HD.
      { apply dlen_unique; [|lia]. rewrite Z2Pos.id by lia. split; [lia|]. rewrite H2. lia. }
      split; [apply valid_intro; [lia|lia|lia|right; exact HD]|]. left. split; [|right; left; split; [reflexivity|lia]].
      cbn [float_value]. f_equal. rewrite Z2Pos.id by lia. rewrite H2. replace (E + 1 + 1074) with (1 + (E + 1074)) by lia. rewrite Z.pow_add_r by lia. change (2 ^ 1) with 2. destruct s; cbn [cond_Zopp]; ring.
    + split; [reflexivity|]. right. split; [reflexivity|]. split; [lia|]. left. split; [reflexivity|lia].
  - assert (0 < m) as MP by lia. destruct (Z.leb_spec E (emax - prec)) as [L|L].
    + assert (dlen (Z.to_pos m) <= prec) as HD by (apply dlen_le; rewrite Z2Pos.id by lia; lia).
      split. { apply valid_intro; [lia|exact HD|lia|]. destruct HN as [HN|HN]; [left; exact HN|right]. apply dlen_unique; [|lia]. rewrite Z2Pos.id by lia. lia. }
      left. split; [|right; right; lia]. cbn [float_value]. f_equal. rewrite Z2Pos.id by lia. destruct s; reflexivity.
    + split; [reflexivity|]. right. split; [reflexivity|]. split; [lia|]. right. lia.
Qed.

Lemma fmt_holds_cases prec emax r E : 1 < prec -> -1074 <= SpecFloat.emin prec emax <= E -> fmt_holds prec emax r ->
  (exists j, r = j * 2 ^ (E + 1074)) \/ (SpecFloat.emin prec emax < E /\ r < 2 ^ (prec - 1) * 2 ^ (E + 1074)).
Proof.
  intros HP HE (m' & e' & HM & HE' & ->). destruct (Z_le_gt_dec E e') as [L|L].
  - left. exists (m' * 2 ^ (e' - E)). rewrite <- Z.mul_assoc, <- Z.pow_add_r by lia. do 2 f_equal. lia.
  - right. split; [lia|]. assert (0 < 2 ^ (e' + 1074)) as HP' by (apply Z.pow_pos_nonneg; lia).
    apply Z.lt_le_trans with (2 ^ prec * 2 ^ (e' + 1074)); [apply Z.mul_lt_mono_pos_r; lia|]. rewrite <- !Z.pow_add_r by lia. apply Z.pow_le_mono_r; lia.
Qed.

Theorem round_aux_rounded prec emax (s : bool) q e l N D V W a : a_format prec emax -> rec_inv (shr_record_of_loc q l) N D ->
  e <= fexp prec emax (Zdigits2 q + e) -> 0 <= q -> shr_m (shr_record_of_loc q l) = q ->
  0 < W -> 0 <= a -> 0 <= e + 1074 + a -> 0 <= N -> V * D * 2 ^ a = N * W * 2 ^ (e + 1074 + a) ->
  fmt_rounded prec emax (if s then - V else V) W (float_value (binary_round_aux prec emax s q e l)) /\
  valid_binary prec emax (binary_round_aux prec emax s q e l) = true.
Proof.
  intros (HP & HL & HZ) HI HE Hq HQ HW Ha Hea HN0 HV.
  destruct (round_aux_packed prec emax s q e l N D HP HI HE Hq HQ) as (m & f & EB & C1 & C2 & C3 & C4 & C5 & C6 & C7 & C8).
  set (E := fexp prec emax (Zdigits2 q + e)) in *. set (DD := 2 ^ (E - e) * D) in *. pose proof HI as (HD & _).
  assert (SpecFloat.emin prec emax <= E) as HEm by (unfold E, fexp; lia).
  set (P := 2 ^ (E + 1074)). assert (0 < P) as HPP by (apply Z.pow_pos_nonneg; lia).
  assert (V * DD = N * P * W) as EQ.
  { assert (0 < 2 ^ a) as A0 by (apply Z.pow_pos_nonneg; lia). apply (Z.mul_reg_r _ _ (2 ^ a)); [lia|]. unfold DD, P.
    replace (V * (2 ^ (E - e) * D) * 2 ^ a) with (V * D * 2 ^ a * 2 ^ (E - e)) by ring. rewrite HV.
    replace (N * 2 ^ (E + 1074) * W * 2 ^ a) with (N * W * (2 ^ (E + 1074) * 2 ^ a)) by ring. rewrite <- Z.mul_assoc, <- !Z.pow_add_r by lia. do 2 f_equal. lia. }
  assert (0 <= V) as HV0.
  { destruct (Z_lt_le_dec V 0) as [L|L]; [|exact L]. exfalso. assert (V * DD < 0) by (apply Z.mul_neg_pos; lia). assert (0 <= N * P * W) by (repeat apply Z.mul_nonneg_nonneg; lia). lia. }
  destruct (packed_value prec emax s m E HP ltac:(lia) HEm ltac:(lia) HL) as [VB CS]. rewrite EB. split; [|exact VB].
  set (PM := 2 ^ (emax - prec + 1074)). assert (0 < PM) as HPM by (apply Z.pow_pos_nonneg; lia).
  assert (Z.abs (if s then - V else V) = V) as AV by (destruct s; lia).
  assert (2 ^ (prec + 1) = 2 * 2 ^ prec) as T2 by (rewrite Z.pow_add_r by lia; change (2 ^ 1) with 2; ring).
  assert (0 < 2 ^ (prec - 1)) as HH by (apply Z.pow_pos_nonneg; lia).
  assert (2 ^ prec = 2 * 2 ^ (prec - 1)) as T1 by (replace prec with (prec - 1 + 1) at 1 by lia; rewrite Z.pow_add_r by lia; change (2 ^ 1) with 2; ring).
  assert (forall c, c * DD <= 2 * N -> forall B, 0 <= c -> B <= c * P -> B * W <= 2 * V) as LOW.
  { intros c H B Hc HB. apply (Zmult_lt_0_le_reg_r _ _ DD C3). replace (2 * V * DD) with (2 * N * (P * W)) by (replace (2 * V * DD) with (2 * (V * DD)) by ring; rewrite EQ; ring).
    apply Z.le_trans with (c * P * W * DD); [apply Z.mul_le_mono_nonneg_r; [lia|]; apply Z.mul_le_mono_nonneg_r; lia|].
    replace (c * P * W * DD) with (c * DD * (P * W)) by ring. apply Z.mul_le_mono_nonneg_r; [apply Z.mul_nonneg_nonneg; lia|exact H]. }
  assert (forall c, 2 * N < c * DD -> forall B, c * P <= B -> 2 * V < B * W) as HIGH.
  { intros c H B HB. apply (Z.mul_lt_mono_pos_r DD); [exact C3|]. replace (2 * V * DD) with (2 * N * (P * W)) by (replace (2 * V * DD) with (2 * (V * DD)) by ring; rewrite EQ; ring).
    apply Z.lt_le_trans with (c * DD * (P * W)); [apply Z.mul_lt_mono_pos_r; [apply Z.mul_pos_pos; lia|exact H]|].
    replace (c * DD * (P * W)) with (c * P * W * DD) by ring. apply Z.mul_le_mono_nonneg_r; [lia|]. apply Z.mul_le_mono_nonneg_r; lia. }
  clearbody E DD. clear HI HQ HV EB HE.
  destruct CS as [[FV CM]|[RI [M0 CM]]].
  - rewrite FV. cbn [fmt_rounded]. split.
    + unfold fmt_range. rewrite AV. fold PM. destruct CM as [CM|[[CM CE]|[CM CE]]].
      * assert (f = 0) as F0 by lia. rewrite F0 in C4. assert (2 * N < 2 * DD) as HNN by lia. apply (HIGH 2 HNN). destruct C8 as [C8|C8]; [|lia].
        apply Z.mul_le_mono_nonneg; [lia|lia|lia|]. unfold P, PM. apply Z.pow_le_mono_r; lia.
      * apply (HIGH (2 * 2 ^ prec)). { subst m. assert (N < 2 ^ prec * DD); [|lia]. apply Z.lt_le_trans with ((f + 1) * DD); [lia|]. apply Z.mul_le_mono_nonneg_r; lia. }
        assert (2 * P <= PM) as HPX. { unfold P, PM. change 2 with (2 ^ 1) at 1. rewrite <- Z.pow_add_r by lia. apply Z.pow_le_mono_r; lia. }
        rewrite T2. apply Z.le_trans with (2 ^ prec * PM); [replace (2 * 2 ^ prec * P) with (2 ^ prec * (2 * P)) by ring; apply Z.mul_le_mono_nonneg_l; lia|]. apply Z.mul_le_mono_nonneg_r; lia.
      * apply (HIGH (2 ^ (prec + 1) - 1)).
        { destruct (Z.eq_dec (2 * Z.abs (m * DD - N)) DD) as [TE|TN].
          - specialize (C2 TE). apply Z.even_spec in C2. destruct C2 as [h C2]. assert (m <= 2 ^ prec - 2) as M2 by lia.
            assert (2 * N <= (2 * m + 1) * DD) as H1 by lia. apply Z.le_lt_trans with ((2 * m + 1) * DD); [exact H1|]. apply Z.mul_lt_mono_pos_r; lia.
          - assert (2 * N < (2 * m + 1) * DD) as H1 by lia. apply Z.lt_le_trans with ((2 * m + 1) * DD); [exact H1|]. apply Z.mul_le_mono_nonneg_r; lia. }
        apply Z.mul_le_mono_nonneg_l; [lia|]. unfold P, PM. apply Z.pow_le_mono_r; lia.
    + assert (fmt_holds prec emax (m * P)) as FM.
      { destruct CM as [CM|[[CM CE]|[CM CE]]].
        - subst m. apply float_zero; lia.
        - exists (2 ^ (prec - 1)), (E + 1). split; [lia|]. split; [lia|]. subst m. rewrite T1. unfold P. replace (E + 1 + 1074) with (1 + (E + 1074)) by lia. rewrite (Z.pow_add_r 2 1) by lia. change (2 ^ 1) with 2. ring.
        - exists m, E. split; [lia|]. split; [lia|reflexivity]. }
      assert (nearest (fmt_holds prec emax) V W (m * P)) as NR.
      { apply (nearest_core (fmt_holds prec emax) V W N DD P m (2 ^ (prec - 1))); try assumption.
        intros r Hr. destruct (fmt_holds_cases prec emax r E HP ltac:(lia) Hr) as [HJ|[HE HB]]; [left; exact HJ|right]. split; [exact HB|].
        destruct C8 as [C8|C8]; [lia|]. apply Z.le_trans with (f * DD); [apply Z.mul_le_mono_nonneg_r; lia|lia]. }
      fold P. destruct s; [|exact NR]. rewrite Z.mul_opp_l. apply nearest_opp; [apply fmt_opp|exact NR].
  - rewrite RI. cbn [float_value fmt_rounded].
    assert (~ fmt_range prec emax (if s then - V else V) W) as NR.
    { unfold fmt_range. rewrite AV. fold PM. apply Z.le_ngt. destruct CM as [[CM CE]|[CM CE]].
      - apply (LOW (2 ^ (prec + 1) - 1)); [|lia|].
        + subst m. assert (2 * (2 ^ prec * DD) - DD <= 2 * N) by lia. rewrite T2. lia.
        + apply Z.mul_le_mono_nonneg_l; [lia|]. unfold P, PM. apply Z.pow_le_mono_r; lia.
      - destruct C8 as [C8|C8]; [lia|]. apply (LOW (2 ^ prec)); [|lia|].
        + rewrite T1. assert (2 ^ (prec - 1) * DD <= f * DD) by (apply Z.mul_le_mono_nonneg_r; lia). lia.
        + assert (PM * 2 <= P) as HPX. { unfold P, PM. change 2 with (2 ^ 1) at 2. rewrite <- Z.pow_add_r by lia. apply Z.pow_le_mono_r; lia. }
          apply Z.le_trans with (2 ^ (prec + 1) * PM); [apply Z.mul_le_mono_nonneg_r; lia|]. rewrite T2. replace (2 * 2 ^ prec * PM) with (2 ^ prec * (PM * 2)) by ring. apply Z.mul_le_mono_nonneg_l; lia. }
    split; [exact NR|]. assert (0 < V) as VP.
    { destruct (Z.eq_dec V 0) as [-> |]; [|lia]. exfalso. apply NR. unfold fmt_range. rewrite AV. fold PM. assert (0 < (2 ^ (prec + 1) - 1) * PM * W); [|lia]. repeat apply Z.mul_pos_pos; lia. }
    destruct s; split; intros; try lia; try reflexivity; discriminate.
Qed.

(* ---- the operations ---------------------------------------------------------- *)
Lemma shl_align_spec m e e' : exists j, 0 <= j /\ snd (shl_align m e e') = e - j /\ Zpos (fst (shl_align m e e')) = Zpos m * 2 ^ j /\ e - j = Z.min e e'.
Proof.
  unfold shl_align. destruct (e' - e) as [|p|p] eqn:E.
  - exists 0. cbn [fst snd]. change (2 ^ 0) with 1. lia.
  - exists 0. cbn [fst snd]. change (2 ^ 0) with 1. lia.
  - exists (Zpos p). cbn [fst snd]. rewrite shift_pos_mul. lia.
Qed.
Theorem round_rounded prec emax (s : bool) m e : a_format prec emax -> -1074 <= e ->
  fmt_rounded prec emax (cond_Zopp s (Zpos m) * 2 ^ (e + 1074)) 1 (float_value (binary_round prec emax s m e)) /\ valid_binary prec emax (binary_round prec emax s m e) = true.
Proof.
  intros HF He. pose proof HF as (HP & HL & HZ). unfold binary_round. set (E := fexp prec emax (Zpos (digits2_pos m) + e)).
  destruct (shl_align_spec m e E) as (j & Hj & E1 & E2 & E3). destruct (shl_align m e E) as [mz ez]. cbn [fst snd] in *.
  assert (dlen mz = dlen m + j) as DL by (apply dlen_mul_pow; assumption).
  assert (cond_Zopp s (Zpos m) * 2 ^ (e + 1074) = if s then - (Zpos m * 2 ^ (e + 1074)) else Zpos m * 2 ^ (e + 1074)) as -> by (destruct s; cbn [cond_Zopp]; ring).
  assert (fexp prec emax (Zdigits2 (Zpos mz) + ez) = E) as FE.
  { cbn [Zdigits2]. change (Zpos (digits2_pos mz)) with (dlen mz). change (Zpos (digits2_pos m)) with (dlen m) in E. unfold E. f_equal. lia. }
  apply (round_aux_rounded prec emax s (Zpos mz) ez loc_Exact (Zpos mz) 1 (Zpos m * 2 ^ (e + 1074)) 1 j).
  - exact HF.
  - unfold rec_inv. cbn [shr_record_of_loc shr_m shr_r shr_s]. lia.
  - rewrite FE. lia.
  - lia.
  - reflexivity.
  - lia.
  - exact Hj.
  - lia.
  - lia.
  - rewrite E2. replace (ez + 1074 + j) with (e + 1074) by lia. ring.
Qed.

Lemma fmt_rounded_zero prec emax : a_format prec emax -> fmt_rounded prec emax 0 1 (Fin 0).
Proof.
  intros (HP & HL & HZ). split.
  - unfold fmt_range. cbn [Z.abs]. assert (0 < 2 ^ (emax - prec + 1074)) by (apply Z.pow_pos_nonneg; lia). assert (1 < 2 ^ (prec + 1)) by (apply Z.pow_gt_1; lia). assert (0 < (2 ^ (prec + 1) - 1) * 2 ^ (emax - prec + 1074) * 1); [|lia]. repeat apply Z.mul_pos_pos; lia.
  - split; [apply float_zero; lia|]. intros r' _. rewrite Z.sub_0_l, Z.mul_0_l. cbn [Z.abs Z.opp]. split; [lia|]. intros H. left. lia.
Qed.
Theorem normalize_rounded prec emax M e z : a_format prec emax -> -1074 <= e ->
  fmt_rounded prec emax (M * 2 ^ (e + 1074)) 1 (float_value (binary_normalize prec emax M e z)) /\ valid_binary prec emax (binary_normalize prec emax M e z) = true.
Proof.
  intros HF He. destruct M as [|p|p]; cbn [binary_normalize].
  - split; [apply fmt_rounded_zero; exact HF|reflexivity].
  - apply (round_rounded prec emax false p e HF He).
  - apply (round_rounded prec emax true p e HF He).
Qed.
(* a number of the format is its own rounding *)
Lemma fmt_rounded_self prec emax x : a_format prec emax -> fmt_holds prec emax x -> fmt_rounded prec emax x 1 (Fin x).
Proof.
  intros (HP & HL & HZ) H. split.
  - unfold fmt_range. destruct H as (m & e & HM & HE & ->). rewrite Z.abs_mul, (Z.abs_eq (2 ^ _)) by (apply Z.pow_nonneg; lia).
    rewrite (Z.pow_add_r 2 prec 1) by lia. change (2 ^ 1) with 2.
    assert (0 < 2 ^ (e + 1074)) by (apply Z.pow_pos_nonneg; lia). assert (2 ^ (e + 1074) <= 2 ^ (emax - prec + 1074)) by (apply Z.pow_le_mono_r; lia).
    rewrite Z.mul_1_r, Z.mul_assoc. apply Z.lt_le_trans with ((2 ^ prec * 2 - 1) * 2 ^ (e + 1074)); [apply Z.mul_lt_mono_pos_r; lia|apply Z.mul_le_mono_nonneg_l; lia].
  - split; [exact H|]. intros r' _. rewrite Z.mul_1_r, Z.sub_diag. cbn [Z.abs]. split; [lia|]. intros E. left. lia.
Qed.
Lemma fmt_rounded_exact prec emax V W e x : 0 < W -> fmt_rounded prec emax V W e -> a_format prec emax -> fmt_holds prec emax x -> V = x * W -> e = Fin x.
Proof.
  intros HW H HF HX HV. destruct (fmt_rounded_self prec emax x HF HX) as [HR _]. destruct e as [|s|r]; cbn in H.
  - contradiction.
  - destruct H as [H _]. exfalso. apply H. unfold fmt_range in *. rewrite HV, Z.abs_mul, (Z.abs_eq W) by lia. rewrite Z.mul_1_r in HR.
    replace (2 * (Z.abs x * W)) with (2 * Z.abs x * W) by ring. apply Z.mul_lt_mono_pos_r; assumption.
  - destruct H as [_ H]. f_equal. exact (nearest_exact _ _ _ _ _ HW H HX HV).
Qed.

Theorem add_rounded prec emax x y : a_format prec emax -> valid_binary prec emax x = true -> valid_binary prec emax y = true ->
  sum_of (fmt_rounded prec emax) (float_value x) (float_value y) (float_value (SFadd prec emax x y)) /\ valid_binary prec emax (SFadd prec emax x y) = true.
Proof.
  intros HF VX VY. pose proof HF as (HP & HL & HZ). pose proof (valid_holds prec emax x ltac:(lia) VX HZ) as HX. pose proof (valid_holds prec emax y ltac:(lia) VY HZ) as HY.
  destruct x as [s|s| |s m e], y as [t|t| |t n g]; cbn [SFadd].
  - destruct (Bool.eqb s t); (split; [apply fmt_rounded_zero; exact HF|reflexivity]).
  - split; reflexivity.
  - split; reflexivity.
  - split; [|exact VY]. apply fmt_rounded_self; assumption.
  - split; reflexivity.
  - destruct (Bool.eqb s t) eqn:E; cbn [float_value sum_of]; rewrite E; split; reflexivity.
  - split; reflexivity.
  - split; reflexivity.
  - split; reflexivity.
  - split; reflexivity.
  - split; reflexivity.
  - split; reflexivity.
  - split; [|exact VX]. cbn [float_value sum_of]. rewrite Z.add_0_r. apply fmt_rounded_self; assumption.
  - split; reflexivity.
  - split; reflexivity.
  - destruct (valid_inv prec emax s m e ltac:(lia) VX) as (_ & RX & _). destruct (valid_inv prec emax t n g ltac:(lia) VY) as (_ & RY & _).
    cbv zeta. destruct (shl_align_spec m e (Z.min e g)) as (j & Hj & _ & E2 & E3). destruct (shl_align_spec n g (Z.min e g)) as (j' & Hj' & _ & F2 & F3).
    set (M := cond_Zopp s _ + cond_Zopp t _). cbn [float_value sum_of].
    assert (cond_Zopp s (Zpos m) * 2 ^ (e + 1074) + cond_Zopp t (Zpos n) * 2 ^ (g + 1074) = M * 2 ^ (Z.min e g + 1074)) as ->; [|apply normalize_rounded; [exact HF|lia]].
    unfold M. rewrite E2, F2. replace (e + 1074) with (j + (Z.min e g + 1074)) by lia. replace (g + 1074) with (j' + (Z.min e g + 1074)) by lia. rewrite (Z.pow_add_r 2 j), (Z.pow_add_r 2 j') by lia.
    destruct s, t; cbn [cond_Zopp]; ring.
Qed.

Lemma sub_add prec emax x y : SFsub prec emax x y = SFadd prec emax x (SFopp y).
Proof.
  destruct x as [s|s| |s m e], y as [t|t| |t n g]; try reflexivity. cbn [SFsub SFadd SFopp]. cbv zeta. f_equal. destruct t; cbn [negb cond_Zopp]; lia.
Qed.
Theorem sub_rounded prec emax x y : a_format prec emax -> valid_binary prec emax x = true -> valid_binary prec emax y = true ->
  difference_of (fmt_rounded prec emax) (float_value x) (float_value y) (float_value (SFsub prec emax x y)) /\ valid_binary prec emax (SFsub prec emax x y) = true.
Proof.
  intros HF VX VY. rewrite sub_add. unfold difference_of. rewrite <- opp_value. apply add_rounded; [exact HF|exact VX|]. rewrite opp_valid. exact VY.
Qed.

Lemma dlen_mul m n : dlen m + dlen n - 1 <= dlen (m * n).
Proof.
  pose proof (dlen_bounds m) as [A _]. pose proof (dlen_bounds n) as [B _]. pose proof (dlen_bounds (m * n)) as [_ C]. pose proof (dlen_pos m). pose proof (dlen_pos n). pose proof (dlen_pos (m * n)).
  destruct (Z_le_gt_dec (dlen m + dlen n - 1) (dlen (m * n))) as [L|L]; [exact L|exfalso].
  assert (2 ^ (dlen m - 1) * 2 ^ (dlen n - 1) <= Zpos m * Zpos n) as D by (apply Z.mul_le_mono_nonneg; try lia; apply Z.pow_nonneg; lia).
  rewrite <- Z.pow_add_r in D by lia. rewrite <- Pos2Z.inj_mul in D.
  assert (2 ^ dlen (m * n) <= 2 ^ (dlen m - 1 + (dlen n - 1))) by (apply Z.pow_le_mono_r; lia). lia.
Qed.
Lemma negative_sign (s : bool) m k : 0 <= k -> (cond_Zopp s (Zpos m) * 2 ^ k =? 0) = false /\ negative (cond_Zopp s (Zpos m) * 2 ^ k) = s.
Proof.
  intros H. pose proof (pow_pos k H) as HP. assert (0 < Zpos m * 2 ^ k) by (apply Z.mul_pos_pos; lia). unfold negative. destruct s; cbn [cond_Zopp]; rewrite ?Z.mul_opp_l.
  - split; [apply Z.eqb_neq; lia|apply Z.ltb_lt; lia].
  - split; [apply Z.eqb_neq; lia|apply Z.ltb_ge; lia].
Qed.
Lemma fmt_rounded_zero_w prec emax W : a_format prec emax -> 0 < W -> fmt_rounded prec emax 0 W (Fin 0).
Proof.
  intros HF HW. destruct (fmt_rounded_zero prec emax HF) as [A B]. split.
  - unfold fmt_range in *. cbn [Z.abs] in *. rewrite Z.mul_1_r in A. rewrite Z.mul_0_r in *. apply Z.mul_pos_pos; lia.
  - split; [apply B|]. intros r' _. rewrite Z.sub_0_l, Z.mul_0_l. cbn [Z.abs Z.opp]. split; [lia|]. intros H. left. assert (r' * W = 0) as E by lia. apply Z.mul_eq_0 in E. lia.
Qed.
Lemma one_is : one = 2 ^ 1074. Proof. reflexivity. Qed.
Theorem mul_rounded prec emax x y : a_format prec emax -> valid_binary prec emax x = true -> valid_binary prec emax y = true ->
  product_of (fmt_rounded prec emax) (float_value x) (float_value y) (float_value (SFmul prec emax x y)) /\ valid_binary prec emax (SFmul prec emax x y) = true.
Proof.
  intros HF VX VY. pose proof HF as (HP & HL & HZ). pose proof one_pos as H1.
  destruct x as [s|s| |s m e], y as [t|t| |t n g]; cbn [SFmul]; try (split; reflexivity).
  - split; [apply fmt_rounded_zero_w; assumption|reflexivity].
  - split; [apply fmt_rounded_zero_w; assumption|reflexivity].
  - destruct (valid_inv prec emax t n g ltac:(lia) VY) as (_ & RY & _). destruct (negative_sign t n (g + 1074) ltac:(lia)) as [A B]. cbn [float_value product_of]. rewrite A, B. split; reflexivity.
  - split; [|reflexivity]. cbn [float_value product_of]. rewrite Z.mul_0_r. apply fmt_rounded_zero_w; assumption.
  - destruct (valid_inv prec emax s m e ltac:(lia) VX) as (_ & RX & _). destruct (negative_sign s m (e + 1074) ltac:(lia)) as [A B]. cbn [float_value product_of]. rewrite A, B. split; [f_equal; apply xorb_comm|reflexivity].
  - destruct (valid_inv prec emax s m e ltac:(lia) VX) as (_ & RX & CX). destruct (valid_inv prec emax t n g ltac:(lia) VY) as (_ & RY & CY). cbn [float_value product_of].
    assert (cond_Zopp s (Zpos m) * 2 ^ (e + 1074) * (cond_Zopp t (Zpos n) * 2 ^ (g + 1074)) =
            if xorb s t then - (Zpos m * Zpos n * 2 ^ (e + g + 2148)) else Zpos m * Zpos n * 2 ^ (e + g + 2148)) as ->.
    { replace (e + g + 2148) with ((e + 1074) + (g + 1074)) by lia. rewrite (Z.pow_add_r 2 (e + 1074)) by lia. destruct s, t; cbn [cond_Zopp xorb]; ring. }
    apply (round_aux_rounded prec emax (xorb s t) (Zpos (m * n)) (e + g) loc_Exact (Zpos (m * n)) 1 (Zpos m * Zpos n * 2 ^ (e + g + 2148)) one 1074).
    + exact HF.
    + unfold rec_inv. cbn [shr_record_of_loc shr_m shr_r shr_s]. lia.
    + cbn [Zdigits2]. change (Zpos (digits2_pos (m * n))) with (dlen (m * n)). pose proof (dlen_mul m n). pose proof (dlen_pos m). pose proof (dlen_pos n). unfold fexp. lia.
    + lia.
    + reflexivity.
    + exact H1.
    + lia.
    + lia.
    + lia.
    + rewrite one_is, Pos2Z.inj_mul, Z.mul_1_r. replace (e + g + 1074 + 1074) with (e + g + 2148) by lia. generalize (2 ^ 1074) (2 ^ (e + g + 2148)). intros. ring.
Qed.

Theorem div_rounded prec emax x y : a_format prec emax -> valid_binary prec emax x = true -> valid_binary prec emax y = true ->
  quotient_of (fmt_rounded prec emax) (float_value x) (float_value y) (float_value (SFdiv prec emax x y)) /\ valid_binary prec emax (SFdiv prec emax x y) = true.
Proof.
  intros HF VX VY. pose proof HF as (HP & HL & HZ). pose proof one_pos as H1.
  destruct x as [s|s| |s m e], y as [t|t| |t n g]; cbn [SFdiv]; try (split; reflexivity).
  - destruct (valid_inv prec emax t n g ltac:(lia) VY) as (_ & RY & _). destruct (negative_sign t n (g + 1074) ltac:(lia)) as [A B]. cbn [float_value quotient_of]. rewrite A. split; [|reflexivity].
    rewrite !Z.mul_0_l. apply fmt_rounded_zero_w; [exact HF|]. apply Z.eqb_neq in A. lia.
  - cbn. split; [exists (xorb s t); reflexivity|reflexivity].
  - destruct (valid_inv prec emax t n g ltac:(lia) VY) as (_ & RY & _). destruct (negative_sign t n (g + 1074) ltac:(lia)) as [A B]. cbn [float_value quotient_of]. rewrite A, B. split; reflexivity.
  - destruct (valid_inv prec emax s m e ltac:(lia) VX) as (_ & RX & _). destruct (negative_sign s m (e + 1074) ltac:(lia)) as [A B]. cbn [float_value quotient_of]. rewrite A. change (0 =? 0) with true. cbv iota. split; [exists (xorb s t); reflexivity|reflexivity].
  - destruct (valid_inv prec emax s m e ltac:(lia) VX) as (_ & RX & CX). destruct (valid_inv prec emax t n g ltac:(lia) VY) as (_ & RY & CY).
    destruct (negative_sign t n (g + 1074) ltac:(lia)) as [A B]. cbn [float_value quotient_of]. rewrite A.
    pose proof (pow_pos (e + 1074) ltac:(lia)) as PE. pose proof (pow_pos (g + 1074) ltac:(lia)) as PG.
    assert (Z.abs (cond_Zopp t (Zpos n) * 2 ^ (g + 1074)) = Zpos n * 2 ^ (g + 1074)) as -> by (rewrite Z.abs_mul, (Z.abs_eq (2 ^ _)) by lia; destruct t; reflexivity).
    assert (cond_Zopp s (Zpos m) * 2 ^ (e + 1074) * one * Z.sgn (cond_Zopp t (Zpos n) * 2 ^ (g + 1074)) = if xorb s t then - (Zpos m * 2 ^ (e + 1074) * one) else Zpos m * 2 ^ (e + 1074) * one) as ->.
    { rewrite Z.sgn_mul, (Z.sgn_pos (2 ^ (g + 1074))) by lia. destruct s, t; cbn [cond_Zopp xorb]; change (Z.sgn (Zpos n)) with 1; change (Z.sgn (- Zpos n)) with (-1); ring. }
    unfold SFdiv_core_binary. cbv zeta. cbn [Zdigits2]. change (Zpos (digits2_pos m)) with (dlen m). change (Zpos (digits2_pos n)) with (dlen n).
    set (E0 := fexp prec emax (dlen m + e - (dlen n + g))). set (e' := Z.min E0 (e - g)). assert (0 <= e - g - e') as HS by (unfold e'; lia).
    set (m' := match e - g - e' with Z0 => Zpos m | Zpos _ => Z.shiftl (Zpos m) (e - g - e') | Zneg _ => 0 end).
    assert (m' = Zpos m * 2 ^ (e - g - e')) as EM.
    { unfold m'. destruct (e - g - e') eqn:ES; [change (2 ^ 0) with 1; lia|rewrite Z.shiftl_mul_pow2 by lia; reflexivity|lia]. }
    clearbody m'. assert (0 < 2 ^ (e - g - e')) as PS by (apply pow_pos; exact HS). assert (0 < m') as HM' by (rewrite EM; apply Z.mul_pos_pos; lia).
    pose proof (new_location_inv m' (Zpos n) ltac:(lia) ltac:(lia)) as RI.
    destruct (Z.div_eucl m' (Zpos n)) as [q r] eqn:DE. assert (q = m' / Zpos n) as EQ by (unfold Z.div; rewrite DE; reflexivity). assert (r = m' mod Zpos n) as ER by (unfold Z.modulo; rewrite DE; reflexivity).
    rewrite <- EQ, <- ER in RI. assert (0 <= q) as HQ by (rewrite EQ; apply Z.div_pos; lia).
    assert (shr_m (shr_record_of_loc q (new_location (Zpos n) r)) = q) as SQ by (destruct (new_location (Zpos n) r) as [|[]]; reflexivity).
    apply (round_aux_rounded prec emax (xorb s t) q e' (new_location (Zpos n) r) m' (Zpos n) (Zpos m * 2 ^ (e + 1074) * one) (Zpos n * 2 ^ (g + 1074)) (Z.max 0 (- (e' + 1074)))).
    + exact HF.
    + exact RI.
    + pose proof (dlen_pos m). pose proof (dlen_pos n). pose proof (zdigits_nonneg q).
      destruct (Z_le_gt_dec e' (SpecFloat.emin prec emax)) as [L|L]; [unfold fexp; lia|].
      (* above the least exponent the quotient has all its digits *)
      assert (E0 = dlen m + e - (dlen n + g) - prec) as E1 by (unfold E0, fexp, e' in *; lia).
      assert (prec <= Zdigits2 q) as HDQ; [|unfold fexp; lia].
      assert (2 ^ (prec - 1) <= q) as HQ2.
      { rewrite EQ. apply Z.div_le_lower_bound; [lia|]. rewrite EM. pose proof (dlen_bounds m) as [BM _]. pose proof (dlen_bounds n) as [_ BN].
        apply Z.le_trans with (2 ^ dlen n * 2 ^ (prec - 1)); [apply Z.mul_le_mono_nonneg_r; [apply Z.pow_nonneg; lia|lia]|].
        apply Z.le_trans with (2 ^ (dlen m - 1) * 2 ^ (e - g - e')); [|apply Z.mul_le_mono_nonneg_r; lia].
        rewrite <- !Z.pow_add_r by lia. apply Z.pow_le_mono_r; [lia|]. unfold e'. lia. }
      destruct (Z_le_gt_dec prec (Zdigits2 q)) as [L2|L2]; [exact L2|exfalso].
      pose proof (zdigits_bounds q ltac:(assert (0 < 2 ^ (prec - 1)) by (apply pow_pos; lia); lia)) as [_ BQ].
      assert (2 ^ Zdigits2 q <= 2 ^ (prec - 1)) by (apply Z.pow_le_mono_r; lia). lia.
    + exact HQ.
    + exact SQ.
    + apply Z.mul_pos_pos; lia.
    + lia.
    + lia.
    + lia.
    + rewrite EM, one_is. set (a := Z.max 0 (- (e' + 1074))).
      replace (Zpos m * 2 ^ (e + 1074) * 2 ^ 1074 * Zpos n * 2 ^ a) with (Zpos m * Zpos n * (2 ^ (e + 1074) * 2 ^ 1074 * 2 ^ a)) by (generalize (2 ^ 1074); intros; ring).
      replace (Zpos m * 2 ^ (e - g - e') * (Zpos n * 2 ^ (g + 1074)) * 2 ^ (e' + 1074 + a)) with (Zpos m * Zpos n * (2 ^ (e - g - e') * 2 ^ (g + 1074) * 2 ^ (e' + 1074 + a))) by ring.
      f_equal. rewrite <- !Z.pow_add_r by lia. f_equal. lia.
Qed.
