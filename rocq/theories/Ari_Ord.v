(* Proofs about maximum, minimum, fmax, fmin, copysign and the remainder. *)
From Coq Require Import SpecFloat.
From Verif Require Import Base Lists Int_Model Int_Proofs F64_Model Arr_Spec Arr_Model Arr_Wf Arr_Proofs Bcast_Model Bcast_Proofs Copy_Model Copy_Proofs Idx_Model Idx_Assign
  Elem_Model Elem_Proofs Rng_Model Date_Model New_Model Promo_Spec Promo_Model Promo_Proofs Promo_Props SF_Proofs SF_Arith SF_Cmp Cast_Spec Cast_Model Cast_SF Cast_Proofs Cast_Laws
  Close_Proofs Bitw_Spec Bitw_Model Bitw_Proofs Rnd_Spec Rnd_Model Rnd_Proofs Rnd_Round Ari_Spec SF_Round Ari_Model Ari_Proofs.
Local Open Scope Z_scope.

(* ---- maximum and minimum ----------------------------------------------------------- *)
Definition is_order (op : aop) : bool := match op with AMaximum | AMinimum | AFMax | AFMin => true | _ => false end.
Definition order_of (op : aop) : ext -> ext -> ext -> Prop :=
  match op with AMaximum => nan_wins larger | AMinimum => nan_wins smaller | AFMax => nan_loses larger | _ => nan_loses smaller end.
Lemma sfltb_value prec emax x y : a_format prec emax -> valid_binary prec emax x = true -> valid_binary prec emax y = true ->
  SFltb x y = true <-> ext_lt (float_value x) (float_value y).
Proof.
  intros (H1 & H2 & _) VX VY. rewrite <- says_lt. rewrite <- (float_cmp_value prec emax CLt x y) by (assumption || lia). reflexivity.
Qed.
Lemma is_nan_value x : is_nan x = true <-> float_value x = NaN.
Proof. destruct x; cbn; split; congruence. Qed.
Lemma not_nan_value x : is_nan x = false -> float_value x <> NaN.
Proof. destruct x; cbn; congruence. Qed.
Lemma larger_pick e f (c : bool) : e <> NaN -> f <> NaN -> (c = true <-> ext_lt e f) -> larger e f (if c then f else e) .
Proof.
  intros HE HF HC. destruct c.
  - split; [right; reflexivity|]. split; [apply ext_lt_le; apply HC; reflexivity|apply ext_le_refl; exact HF].
  - split; [left; reflexivity|]. split; [apply ext_le_refl; exact HE|]. apply ext_le_iff; try assumption. intros H. apply HC in H. discriminate.
Qed.
Lemma smaller_pick e f (c : bool) : e <> NaN -> f <> NaN -> (c = true <-> ext_lt f e) -> smaller e f (if c then f else e) .
Proof.
  intros HE HF HC. destruct c.
  - split; [right; reflexivity|]. split; [apply ext_lt_le; apply HC; reflexivity|apply ext_le_refl; exact HF].
  - split; [left; reflexivity|]. split; [apply ext_le_refl; exact HE|]. apply ext_le_iff; try assumption. intros H. apply HC in H. discriminate.
Qed.
Lemma if_value (c : bool) x y : float_value (if c then x else y) = if c then float_value x else float_value y. Proof. destruct c; reflexivity. Qed.
Lemma order_bin prec emax op x y : a_format prec emax -> is_order op = true -> valid_binary prec emax x = true -> valid_binary prec emax y = true ->
  order_of op (float_value x) (float_value y) (float_value (float_bin op prec emax x y)).
Proof.
  intros HF HO VX VY. destruct (is_nan x) eqn:NX.
  { assert (x = S754_nan) as -> by (destruct x; try discriminate NX; reflexivity). destruct op; try discriminate HO; cbn; try reflexivity; destruct y; reflexivity. }
  destruct (is_nan y) eqn:NY.
  { assert (y = S754_nan) as -> by (destruct y; try discriminate NY; reflexivity). destruct op; try discriminate HO; destruct x; try discriminate NX; reflexivity. }
  apply not_nan_value in NX as EX. apply not_nan_value in NY as EY.
  assert (larger (float_value x) (float_value y) (float_value (float_max x y))) as HL.
  { unfold float_max. rewrite if_value. apply larger_pick; try assumption. apply (sfltb_value prec emax); assumption. }
  assert (smaller (float_value x) (float_value y) (float_value (float_min x y))) as HS.
  { unfold float_min. rewrite if_value. apply smaller_pick; try assumption. apply (sfltb_value prec emax); assumption. }
  assert (forall R : ext -> ext -> ext -> Prop, R (float_value x) (float_value y) (float_value (float_max x y)) -> nan_wins R (float_value x) (float_value y) (float_value (float_max x y)) /\ nan_loses R (float_value x) (float_value y) (float_value (float_max x y))) as W1
    by (intros R HR; revert HR EX EY; destruct (float_value x), (float_value y); intros; try contradiction; split; exact HR).
  assert (forall R : ext -> ext -> ext -> Prop, R (float_value x) (float_value y) (float_value (float_min x y)) -> nan_wins R (float_value x) (float_value y) (float_value (float_min x y)) /\ nan_loses R (float_value x) (float_value y) (float_value (float_min x y))) as W2
    by (intros R HR; revert HR EX EY; destruct (float_value x), (float_value y); intros; try contradiction; split; exact HR).
  destruct op; try discriminate HO; cbn [float_bin order_of]; rewrite ?NX, ?NY; cbn [orb]; first [apply W1; exact HL|apply W2; exact HS].
Qed.
(* the result is one of the operands *)
Lemma order_is_one op e f r : is_order op = true -> order_of op e f r -> r = e \/ r = f.
Proof.
  intros HO. destruct op; try discriminate HO; cbn [order_of]; unfold larger, smaller; destruct e, f; cbn; tauto.
Qed.
Lemma order_elem k op x y : k = Float16 \/ k = Float32 \/ k = Float64 -> is_order op = true -> valid_in k x -> valid_in k y ->
  order_of op (float_value x) (float_value y) (float_value (float_elem k op x y)).
Proof.
  unfold valid_in. intros [-> |[-> | ->]] HO VX VY; cbn [format fst snd] in *.
  - destruct (widen_f16 x VX) as [AX BX]. destruct (widen_f16 y VY) as [AY BY]. pose proof (order_bin 24 128 op _ _ f32_format HO BX BY) as H. rewrite AX, AY in H.
    assert (float_elem Float16 op x y = to_format 11 16 (float_bin op 24 128 (to_format 24 128 x) (to_format 24 128 y))) as -> by (destruct op; try discriminate HO; reflexivity).
    assert (valid_binary 24 128 (float_bin op 24 128 (to_format 24 128 x) (to_format 24 128 y)) = true) as VB by (apply bin_valid; try assumption; [apply f32_format|destruct op; try discriminate HO; reflexivity]).
    destruct (to_format_exact 24 128 11 16 _ ltac:(lia) ltac:(unfold SpecFloat.emin; lia) ltac:(lia) ltac:(unfold SpecFloat.emin; lia) VB) as [C _]; [|rewrite C; exact H].
    destruct (order_is_one op _ _ _ HO H) as [-> | ->]; [exact (valid_holds 11 16 x ltac:(lia) VX ltac:(vm_compute; split; discriminate))|exact (valid_holds 11 16 y ltac:(lia) VY ltac:(vm_compute; split; discriminate))].
  - apply order_bin; try assumption. apply f32_format.
  - apply order_bin; try assumption. apply f64_format.
Qed.
Lemma fin_le a b : ext_le (Fin a) (Fin b) <-> a <= b.
Proof. unfold ext_le, ext_compare. destruct (Z.compare_spec a b); split; intros; try exact I; lia || contradiction. Qed.
Lemma order_int op a b c : is_order op = true -> c = (match op with AMaximum | AFMax => Z.max a b | _ => Z.min a b end) -> order_of op (Fin (a * one)) (Fin (b * one)) (Fin (c * one)).
Proof.
  intros HO ->. pose proof one_pos as HP. destruct op; try discriminate HO; cbn [order_of nan_wins nan_loses]; unfold larger, smaller; rewrite !fin_le;
    (split; [first [destruct (Z.max_spec a b) as [[_ ->]|[_ ->]]|destruct (Z.min_spec a b) as [[_ ->]|[_ ->]]]; auto|split; apply Z.mul_le_mono_nonneg_r; lia]).
Qed.
Lemma order_same k op v w r : real k = true -> is_order op = true -> element k v -> element k w -> same_elem k op v w = Ok r ->
  order_of op (real_value v) (real_value w) (real_value r).
Proof.
  intros R HO EV EW ER. destruct (is_float_kind k) eqn:K.
  { pose proof (real_float k R K) as KF. destruct (element_float k v KF EV) as (x & -> & VX). destruct (element_float k w KF EW) as (y & -> & VY).
    cbn [same_elem] in ER. injection ER as <-. exact (order_elem k op x y KF HO VX VY). }
  assert (is_integer k = true \/ k = Bool) as KI by (destruct (real_cases k R) as [H|[H|H]]; [right; exact H|left; exact H|congruence]).
  destruct (element_int k v KI EV) as (i & -> & HI). destruct (element_int k w KI EW) as (j & -> & HJ). destruct KI as [KI| ->].
  - destruct (int_of_integer k KI) as (t & ET & _).
    assert (same_elem k op (SInt i) (SInt j) = bind (int_bin t op i j) (fun z => Ok (SInt z))) as EE by (destruct k; try discriminate KI; injection ET as <-; reflexivity).
    rewrite EE in ER. destruct op; try discriminate HO; injection ER as <-; (apply order_int; [reflexivity|]); try reflexivity.
    + destruct (Z.ltb_spec j i); lia.
    + destruct (Z.ltb_spec i j); lia.
  - cbn [same_elem int_of] in ER. injection ER as <-. cbn [int_range fst snd] in *. apply order_int; [exact HO|].
    assert (i = 0 \/ i = 1) as HI' by lia. assert (j = 0 \/ j = 1) as HJ' by lia. destruct op; try discriminate HO; destruct HI' as [-> | ->], HJ' as [-> | ->]; reflexivity.
Qed.
Lemma order_mixed k kx ky op v w r : real k = true -> real kx = true -> real ky = true -> is_order op = true -> element kx v -> element ky w -> fits v -> fits w ->
  holds_value k (value v) -> holds_value k (value w) -> mixed_elem k op v w = Ok r -> order_of op (real_value v) (real_value w) (real_value r).
Proof.
  intros R RX RY HO EV EW FV FW HV HW ER. rewrite (mixed_elem_is k kx ky op v w RX RY EV EW) in ER. injection ER as <-.
  destruct (as_f64_value kx v RX EV FV) as [AX BX]. destruct (as_f64_value ky w RY EW FW) as [AY BY].
  assert (mixed_bin op (as_f64 v) (as_f64 w) = float_bin op 53 1024 (as_f64 v) (as_f64 w)) as -> by (destruct op; try discriminate HO; reflexivity).
  pose proof (order_bin 53 1024 op _ _ f64_format HO BX BY) as H. rewrite AX, AY in H.
  assert (valid_binary 53 1024 (float_bin op 53 1024 (as_f64 v) (as_f64 w)) = true) as VB by (apply bin_valid; try assumption; [apply f64_format|destruct op; try discriminate HO; reflexivity]).
  destruct (write_exact k _ (real_numeric k R) VB) as [C _]; [|unfold real_value at 3; rewrite C; exact H].
  rewrite (element_value kx v RX EV) in HV. rewrite (element_value ky w RY EW) in HW. destruct (order_is_one op _ _ _ HO H) as [-> | ->]; assumption.
Qed.
Lemma promote_comm_real a b : real a = true -> real b = true -> promote a b = promote b a.
Proof. destruct a; try discriminate; destruct b; try discriminate; reflexivity. Qed.
Lemma order_out op kx ky v w r : real kx = true -> real ky = true -> is_order op = true -> kx = ky \/ wide_int kx = false /\ wide_int ky = false -> element kx v -> element ky w ->
  elem_out op kx ky v w = Ok r -> order_of op (real_value v) (real_value w) (real_value r).
Proof.
  intros RX RY HO HK EV EW ER. unfold elem_out in ER. destruct (kind_eqb kx ky) eqn:Q.
  - apply kind_eqb_eq in Q. subst ky. exact (order_same kx op v w r RX HO EV EW ER).
  - destruct HK as [-> |[W1 W2]]; [rewrite kind_eqb_refl in Q; discriminate|]. apply (order_mixed (promote kx ky) kx ky); try assumption.
    + apply promote_real; assumption. + apply (narrow_fits kx); assumption. + apply (narrow_fits ky); assumption.
    + apply promote_holds; try assumption. apply real_numeric; exact RY.
    + rewrite promote_comm_real by assumption. apply promote_holds; try assumption. apply real_numeric; exact RX.
Qed.
Lemma order_unique op e f r r' : is_order op = true -> order_of op e f r -> order_of op f e r' -> r = r'.
Proof.
  assert (forall a b, ext_le a b -> ext_le b a -> a = b) as AS.
  { intros a b. unfold ext_le. destruct a as [|s|x], b as [|t|y]; cbn; try contradiction; try (destruct s); try (destruct t); try contradiction; try reflexivity.
    destruct (Z.compare_spec x y), (Z.compare_spec y x); intros; try contradiction; subst; try reflexivity; lia. }
  intros HO. destruct op; try discriminate HO; cbn [order_of]; destruct e, f; cbn [nan_wins nan_loses]; unfold larger, smaller; intros; try congruence;
    repeat match goal with H : _ /\ _ |- _ => destruct H end; repeat match goal with H : _ \/ _ |- _ => destruct H end; subst; try reflexivity; apply AS; assumption.
Qed.

(* ---- remainder ------------------------------------------------------------------------ *)
Lemma rem_scaled (s t : bool) M N U : 0 < M -> 0 < N -> 0 < U -> Z.rem (cond_Zopp s M * U) (cond_Zopp t N * U) = cond_Zopp s (M mod N) * U.
Proof.
  intros HM HN HU. rewrite Z.mul_rem_distr_r by (destruct t; cbn; lia). f_equal. rewrite <- (Z.rem_mod_nonneg M N) by lia.
  destruct s, t; cbn [cond_Zopp]; rewrite ?Z.rem_opp_opp, ?Z.rem_opp_l, ?Z.rem_opp_r by lia; reflexivity.
Qed.
Lemma fmt_holds_of prec emax m e : Z.abs m < 2 ^ prec -> SpecFloat.emin prec emax <= e <= emax - prec -> fmt_holds prec emax (m * 2 ^ (e + 1074)).
Proof. intros HM HE. exists m, e. repeat split; try assumption; lia. Qed.
Lemma rem_value prec emax x y : a_format prec emax -> valid_binary prec emax x = true -> valid_binary prec emax y = true ->
  remainder_of (float_value x) (float_value y) (float_value (float_rem prec emax x y)).
Proof.
  intros HF VX VY. pose proof HF as (H1 & H2 & H3). destruct x as [s|s| |s m e], y as [t|t| |t n g]; try reflexivity.
  - cbn [float_value float_rem remainder_of]. destruct (Z.eqb_spec (cond_Zopp t (Zpos n) * 2 ^ (g + 1074)) 0) as [Q|_].
    + exfalso. pose proof (finite_range prec emax t n g HF VY). pose proof (pow_pos (g + 1074) ltac:(lia)). destruct t; cbn [cond_Zopp] in Q; nia.
    + reflexivity.
  - cbn [float_value float_rem remainder_of].
    destruct (valid_inv prec emax s m e ltac:(lia) VX) as (DM & RM & _). destruct (valid_inv prec emax t n g ltac:(lia) VY) as (DN & RN & _).
    pose proof (dlen_bounds m) as [_ BM]. pose proof (dlen_bounds n) as [_ BN].
    assert (2 ^ dlen m <= 2 ^ prec) by (apply Z.pow_le_mono_r; lia). assert (2 ^ dlen n <= 2 ^ prec) by (apply Z.pow_le_mono_r; lia).
    set (ez := Z.min e g). destruct (shl_align_spec m e ez) as (i & Hi & _ & EM & E1). destruct (shl_align_spec n g ez) as (j & Hj & _ & EN & E2).
    set (M := Zpos (fst (shl_align m e ez))) in *. set (N := Zpos (fst (shl_align n g ez))) in *.
    assert (0 < M) as PM by (unfold M; lia). assert (0 < N) as PN by (unfold N; lia). clearbody M N. pose proof (pow_pos (ez + 1074) ltac:(lia)) as PU.
    assert (cond_Zopp s (Zpos m) * 2 ^ (e + 1074) = cond_Zopp s M * 2 ^ (ez + 1074)) as EX.
    { replace (e + 1074) with (i + (ez + 1074)) by lia. rewrite (Z.pow_add_r 2 i) by lia. rewrite EM. destruct s; cbn [cond_Zopp]; ring. }
    assert (cond_Zopp t (Zpos n) * 2 ^ (g + 1074) = cond_Zopp t N * 2 ^ (ez + 1074)) as EY.
    { replace (g + 1074) with (j + (ez + 1074)) by lia. rewrite (Z.pow_add_r 2 j) by lia. rewrite EN. destruct t; cbn [cond_Zopp]; ring. }
    rewrite EX, EY, rem_scaled by assumption. set (U := 2 ^ (ez + 1074)) in *.
    destruct (Z.eqb_spec (cond_Zopp t N * U) 0) as [Q|_]; [exfalso; destruct t; cbn [cond_Zopp] in Q; nia|].
    pose proof (Z.mod_pos_bound M N PN) as HR. pose proof (Z.mod_le M N ltac:(lia) PN) as HL. set (r := M mod N) in *. clearbody r.
    destruct r as [|p|p]; [|assert (fmt_holds prec emax (Zpos p * 2 ^ (ez + 1074))) as HH|lia].
    + destruct s; reflexivity.
    + apply fmt_holds_of; [|lia]. rewrite Z.abs_eq by lia. destruct (Z.le_ge_cases e g) as [L|L].
      * assert (i = 0) as -> by lia. change (2 ^ 0) with 1 in EM. lia.
      * assert (j = 0) as -> by lia. change (2 ^ 0) with 1 in EN. lia.
    + destruct (round_holds prec emax s p ez ltac:(lia) H2 ltac:(lia) HH) as [A _]. exact A.
Qed.

(* ---- floor division of whole numbers ------------------------------------------------------ *)
Lemma floor_core prec emax A B r : a_format prec emax -> 3 <= emax -> 0 < B < 2 ^ prec -> Z.abs A < 2 ^ prec ->
  (forall r', fmt_holds prec emax r' -> Z.abs (A * one - r * B) <= Z.abs (A * one - r' * B)) -> A / B * one <= r < (A / B + 1) * one.
Proof.
  intros (H1 & H2 & H3) HE HB HA HN. pose proof one_pos as HP. set (q := A / B). pose proof (Z.mul_div_le A B ltac:(lia)) as L1. pose proof (Z.mul_succ_div_gt A B ltac:(lia)) as L2. fold q in L1, L2.
  assert (EO : one = 2 ^ 1074) by reflexivity. assert (1 < 2 ^ prec) as PP by (apply Z.pow_gt_1; lia). unfold SpecFloat.emin in *.
  assert (Z.abs q < 2 ^ prec) as HQ by (destruct (Z.abs_spec A) as [[? E]|[? E]], (Z.abs_spec q) as [[? E']|[? E']]; rewrite E in HA; rewrite E'; nia).
  split.
  - apply Z.le_ngt. intros L. specialize (HN (q * one)). rewrite EO in HN at 1. change (2 ^ 1074) with (2 ^ (0 + 1074)) in HN at 1. specialize (HN (fmt_holds_of prec emax q 0 HQ ltac:(unfold SpecFloat.emin; lia))).
    clear EO. set (o := one) in *. clearbody o. rewrite !Z.abs_eq in HN by nia. nia.
  - apply Z.lt_nge. intros L. set (Q := q + 1) in *. assert (Q * B - A >= 1) as HD by (unfold Q; lia).
    (* a number of the format below Q, at distance U *)
    assert (forall m e, Z.abs m < 2 ^ prec -> 3 - emax - prec <= e <= emax - prec -> forall U, 0 < U -> m * 2 ^ (e + 1074) = Q * one - U -> 2 * (Q * B - A) * one <= U * B) as HU.
    { intros m e Hm He U PU EU. specialize (HN (m * 2 ^ (e + 1074)) (fmt_holds_of prec emax m e Hm ltac:(unfold SpecFloat.emin; lia))). rewrite EU in HN.
      clear EO EU. set (o := one) in *. clearbody o. assert (0 < (Q * B - A) * o) as HS by (apply Z.mul_pos_pos; lia). assert (Q * o * B <= r * B) as HS2 by (apply Z.mul_le_mono_nonneg_r; lia).
      rewrite (Z.abs_neq (A * o - r * B)) in HN by lia. replace (A * o - (Q * o - U) * B) with (U * B - (Q * B - A) * o) in HN by ring.
      assert (- (A * o - r * B) >= (Q * B - A) * o) by lia. assert (0 < U * B) by (apply Z.mul_pos_pos; lia). destruct (Z.abs_spec (U * B - (Q * B - A) * o)) as [[? E]|[? E]]; rewrite E in HN; lia. }
    destruct (Z.lt_trichotomy Q 0) as [NQ|[ZQ|PQ]].
    + set (P := - Q) in *. set (k := Z.log2 P). pose proof (Z.log2_spec P ltac:(lia)) as [K1 K2]. fold k in K1, K2. pose proof (Z.log2_nonneg P) as K0. fold k in K0.
      assert (P < 2 ^ prec) as HPP by lia. assert (k < prec) as KP by (apply (Z.pow_lt_mono_r_iff 2); lia).
      rewrite Z.pow_succ_r in K2 by lia. assert (2 ^ prec = 2 ^ k * 2 * 2 ^ (prec - 1 - k)) as EPW. { replace prec with (k + (1 + (prec - 1 - k))) at 1 by lia. rewrite (Z.pow_add_r 2 k), (Z.pow_add_r 2 1) by lia. change (2 ^ 1) with 2. ring. }
      set (w := 2 ^ (prec - 1 - k)) in *. assert (0 < w) as PW by (apply pow_pos; lia).
      assert (one = w * 2 ^ (k + 1 - prec + 1074)) as EW. { rewrite EO. unfold w. rewrite <- Z.pow_add_r by lia. f_equal. lia. }
      set (U := 2 ^ (k + 1 - prec + 1074)) in *. assert (0 < U) as PU by (apply pow_pos; lia).
      assert (P * w + 1 < 2 ^ prec) as HM.
      { assert (P <= 2 ^ prec - 2) by (unfold P, Q; lia). destruct (Z.le_gt_cases w 1) as [W|W]; [assert (w = 1) as -> by lia; lia|]. nia. }
      pose proof (HU (- (P * w + 1)) (k + 1 - prec) ltac:(lia) ltac:(lia) U PU) as HX. fold U in HX. specialize (HX ltac:(rewrite EW; unfold P; ring)).
      rewrite EW in HX. assert (2 * (Q * B - A) * w <= B) as HX2 by (apply (Z.mul_le_mono_pos_r _ _ U PU); lia).
      assert (2 * w <= B) as HB2. { assert (2 * w * 1 <= 2 * w * (Q * B - A)) by (apply Z.mul_le_mono_nonneg_l; lia). lia. }
      assert (- A >= P * B + 1) by (unfold P; lia). assert (2 ^ k * (2 * w) <= P * B) by (apply Z.mul_le_mono_nonneg; lia). lia.
    + pose proof (HU (-1) (- prec) ltac:(lia) ltac:(lia) (2 ^ (- prec + 1074)) (pow_pos (- prec + 1074) ltac:(lia)) ltac:(rewrite ZQ; ring)) as HX.
      assert (one = 2 ^ prec * 2 ^ (- prec + 1074)) as EW. { rewrite EO, <- Z.pow_add_r by lia. f_equal. lia. } rewrite EW in HX. pose proof (pow_pos (- prec + 1074) ltac:(lia)) as PU. set (U := 2 ^ (- prec + 1074)) in *.
      assert (2 * (Q * B - A) * 2 ^ prec <= B) as HX2 by (apply (Z.mul_le_mono_pos_r _ _ U PU); lia).
      assert (2 * 2 ^ prec * 1 <= 2 * 2 ^ prec * (Q * B - A)) by (apply Z.mul_le_mono_nonneg_l; lia). lia.
    + set (k := Z.log2_up Q). assert (Q <= 2 ^ k /\ 2 ^ k + 1 <= 2 * Q /\ 0 <= k) as (K1 & K2 & K0).
      { destruct (Z.eq_dec Q 1) as [->|N1]; [unfold k; cbn; lia|]. pose proof (Z.log2_up_spec Q ltac:(lia)) as [A1 A2]. fold k in A1, A2. pose proof (Z.log2_up_nonneg Q) as A0. fold k in A0.
        assert (1 <= k) by (assert (k <> 0) by (intros E; rewrite E in A2; cbn in A2; lia); lia). replace k with (Z.succ (Z.pred k)) at 2 by lia. rewrite Z.pow_succ_r by lia. lia. }
      assert (k <= prec) as KP. { destruct (Z.eq_dec Q 1) as [E|N1]; [unfold k; rewrite E; cbn; lia|]. apply Z.log2_up_le_pow2; [lia|]. unfold Q in *. lia. }
      assert (2 ^ prec = 2 ^ k * 2 ^ (prec - k)) as EPW. { rewrite <- Z.pow_add_r by lia. f_equal. lia. }
      set (w := 2 ^ (prec - k)) in *. assert (0 < w) as PW by (apply pow_pos; lia).
      assert (one = w * 2 ^ (k - prec + 1074)) as EW. { rewrite EO. unfold w. rewrite <- Z.pow_add_r by lia. f_equal. lia. }
      set (U := 2 ^ (k - prec + 1074)) in *. assert (0 < U) as PU by (apply pow_pos; lia).
      assert (1 * w <= Q * w <= 2 ^ k * w) as [W1 W2] by (split; apply Z.mul_le_mono_nonneg_r; lia).
      pose proof (HU (Q * w - 1) (k - prec) ltac:(lia) ltac:(lia) U PU) as HX. fold U in HX. specialize (HX ltac:(rewrite EW; ring)).
      rewrite EW in HX. assert (2 * (Q * B - A) * w <= B) as HX2 by (apply (Z.mul_le_mono_pos_r _ _ U PU); lia).
      assert (2 * w <= B) as HB2. { assert (2 * w * 1 <= 2 * w * (Q * B - A)) by (apply Z.mul_le_mono_nonneg_l; lia). lia. }
      assert (B * w * (2 ^ k + 1) <= B * w * (2 * Q)) as M1 by (apply Z.mul_le_mono_nonneg_l; [apply Z.mul_nonneg_nonneg; lia|lia]). assert (B * 1 <= B * w) as M2 by (apply Z.mul_le_mono_nonneg_l; lia).
      assert (2 ^ prec * B <= 2 * A * w) as M3 by (rewrite EPW; lia). assert (0 <= B * q) as A1 by (apply Z.mul_nonneg_nonneg; unfold Q in PQ; lia). assert (0 <= A) as A0 by lia.
      assert (A * (2 * w) <= A * B) as M4 by (apply Z.mul_le_mono_nonneg_l; lia). assert (2 ^ prec * B <= A * B) as M5 by lia. apply (Z.mul_le_mono_pos_r _ _ B) in M5; lia.
Qed.

Lemma floor_div_whole prec emax x y a b : a_format prec emax -> 3 <= emax -> valid_binary prec emax x = true -> valid_binary prec emax y = true ->
  float_value x = Fin (a * one) -> float_value y = Fin (b * one) -> b <> 0 -> Z.abs a < 2 ^ prec -> Z.abs b < 2 ^ prec ->
  float_value (float_bin AFloorDiv prec emax x y) = Fin (a / b * one).
Proof.
  intros HF HE VX VY EX EY NB HA HB. pose proof HF as (H1 & H2 & H3). pose proof one_pos as HP. destruct (div_rounded prec emax x y HF VX VY) as [D V]. rewrite EX, EY in D. cbn [quotient_of] in D.
  destruct (Z.eqb_spec (b * one) 0) as [Q|_]; [exfalso; apply NB; apply one_cancel; rewrite Q; ring|].
  assert (a * one * one * Z.sgn (b * one) = a * Z.sgn b * one * one) as EN by (rewrite Z.sgn_mul, (Z.sgn_pos one HP); ring).
  assert (Z.abs (b * one) = Z.abs b * one) as ED by (rewrite Z.abs_mul, (Z.abs_eq one) by lia; reflexivity). rewrite EN, ED in D.
  assert (a * Z.sgn b / Z.abs b = a / b) as EQ. { destruct b as [|p|p]; [contradiction|cbn [Z.sgn Z.abs]; f_equal; ring|]. cbn [Z.sgn Z.abs]. change (Zneg p) with (- Zpos p). rewrite <- (Z.div_opp_opp a (- Zpos p)) by lia. f_equal; lia. }
  assert (Z.abs (a * Z.sgn b) < 2 ^ prec) as HA'. { rewrite Z.abs_mul. destruct b; cbn [Z.sgn Z.abs] in *; lia. }
  set (A := a * Z.sgn b) in *. set (B := Z.abs b) in *. assert (0 < B < 2 ^ prec) as HB' by (unfold B; lia).
  cbn [float_bin]. destruct (round_float_value prec emax UFloor _ HF eq_refl V) as [R _].
  destruct (float_value (SFdiv prec emax x y)) as [|s|r]; cbn [fmt_rounded] in D; [contradiction| |].
  - exfalso. apply (proj1 D). unfold fmt_range. rewrite Z.abs_mul, Z.abs_mul, (Z.abs_eq one) by lia.
    assert (0 < 2 ^ (emax - prec)) as PE by (apply pow_pos; lia). assert (2 ^ (emax - prec + 1074) = 2 ^ (emax - prec) * one) as -> by (apply Z.pow_add_r; lia).
    rewrite (Z.pow_add_r 2 prec 1) by lia. change (2 ^ 1) with 2. set (w := 2 ^ (emax - prec)) in *. clearbody w. set (o := one) in *. clearbody o. set (T := 2 ^ prec) in *. clearbody T.
    assert (2 * Z.abs A < T * 2 - 1) by lia. assert (0 < o * o) by (apply Z.mul_pos_pos; lia).
    assert (2 * Z.abs A * (o * o) < (T * 2 - 1) * (o * o)) by (apply Z.mul_lt_mono_pos_r; lia).
    assert ((T * 2 - 1) * (o * o) * 1 <= (T * 2 - 1) * (o * o) * (w * B)) by (apply Z.mul_le_mono_nonneg_l; [apply Z.mul_nonneg_nonneg; lia|]; assert (0 < w * B) by (apply Z.mul_pos_pos; lia); lia). lia.
  - destruct D as [_ [_ D]]. assert (A / B * one <= r < (A / B + 1) * one) as HR.
    { apply (floor_core prec emax A B r HF HE HB' HA'). intros r' Hr'. destruct (D r' Hr') as [D' _].
      replace (A * one * one - r * (B * one)) with ((A * one - r * B) * one) in D' by ring. replace (A * one * one - r' * (B * one)) with ((A * one - r' * B) * one) in D' by ring.
      rewrite !(Z.abs_mul _ one), (Z.abs_eq one) in D' by lia. apply (Z.mul_le_mono_pos_r _ _ one HP). exact D'. }
    destruct R as (f & -> & Wf & HfR). f_equal. rewrite <- EQ. destruct Wf as [g ->]. f_equal. clear - HR HfR HP. set (o := one) in *. clearbody o. set (q := A / B) in *. clearbody q.
    assert (g < q + 1) by (apply (Z.mul_lt_mono_pos_r o); lia). assert (q < g + 1) by (apply (Z.mul_lt_mono_pos_r o); lia). lia.
Qed.

(* ---- one float dtype: every operation but nextafter ------------------------------------------- *)
Lemma float_pair k op x y sh (Q : scalar -> scalar -> scalar -> Prop) : good x -> good y -> n_kind x = k -> n_kind y = k -> k = Float16 \/ k = Float32 \/ k = Float64 ->
  broadcast_shapes (shape_of x) (shape_of y) = Some sh -> in_memory sh ->
  (forall a b, valid_in k a -> valid_in k b -> valid_in k (float_elem k op a b) /\ Q (SFlt a) (SFlt b) (SFlt (float_elem k op a b))) ->
  exists z, binary op x y = Ok z /\ good z /\ n_kind z = k /\ shape_of z = sh /\
    forall idx, inb idx sh -> exists v w r, bc_at x idx = Some v /\ bc_at y idx = Some w /\ item_at z idx = Some r /\ Q v w r.
Proof.
  intros GX GY KX KY K E HS HQ. assert (real k = true) as R by (destruct K as [-> |[-> | ->]]; reflexivity).
  assert (binary op x y = binary_plain op x y) as EB.
  { destruct op; try reflexivity. cbn [binary]. rewrite KX, KY. destruct K as [-> |[-> | ->]]; reflexivity. }
  rewrite EB. destruct (plain_good op x y sh Q) as (z & EZ & GZ & KZ & SZ & HZ); try assumption; [rewrite KX; exact R|rewrite KY; exact R| |].
  - intros idx v w Hi _ _ EV EW. rewrite KX in *. rewrite KY in *. rewrite promote_self by exact R. destruct (element_float k v K EV) as (a & -> & VA). destruct (element_float k w K EW) as (b & -> & VB).
    destruct (HQ a b VA VB) as [V HQ']. exists (SFlt (float_elem k op a b)). split; [unfold elem_out; rewrite kind_eqb_refl; reflexivity|]. split; [apply float_element; assumption|exact HQ'].
  - exists z. split; [exact EZ|]. split; [exact GZ|]. split; [rewrite KZ, KX, KY; apply promote_self; exact R|]. split; [exact SZ|]. intros idx Hi. destruct (HZ idx Hi) as (v & w & r & A & B & C & _ & _ & _ & D).
    exists v, w, r. repeat (split; [assumption|]). exact D.
Qed.
Lemma rem_elem k x y : k = Float16 \/ k = Float32 \/ k = Float64 -> valid_in k x -> valid_in k y -> remainder_of (float_value x) (float_value y) (float_value (float_elem k AMod x y)).
Proof.
  unfold valid_in. intros [-> |[-> | ->]] VX VY; cbn [format fst snd] in *.
  - destruct (widen_f16 x VX) as [AX BX]. destruct (widen_f16 y VY) as [AY BY]. pose proof (rem_value 24 128 _ _ f32_format BX BY) as H. rewrite AX, AY in H.
    cbn [float_elem float_bin]. pose proof (rem_valid 24 128 _ _ f32_format BX BY) as VR.
    destruct (to_format_exact 24 128 11 16 _ ltac:(lia) ltac:(unfold SpecFloat.emin; lia) ltac:(lia) ltac:(unfold SpecFloat.emin; lia) VR) as [C _]; [|rewrite C; exact H].
    pose proof (rem_value 11 16 x y f16_format VX VY) as H'. pose proof (valid_holds 11 16 _ ltac:(lia) (rem_valid 11 16 x y f16_format VX VY) ltac:(vm_compute; split; discriminate)) as HV.
    assert (forall e f r r', remainder_of e f r -> remainder_of e f r' -> r = r') as U.
    { intros e f r r'. destruct e, f; cbn; try congruence. destruct (_ =? 0); congruence. }
    rewrite (U _ _ _ _ H H'). exact HV.
  - apply rem_value; try assumption. apply f32_format.
  - apply rem_value; try assumption. apply f64_format.
Qed.
Lemma floor_elem k x y a b : k = Float16 \/ k = Float32 \/ k = Float64 -> valid_in k x -> valid_in k y ->
  float_value x = Fin (a * one) -> float_value y = Fin (b * one) -> b <> 0 -> Z.abs a < 2 ^ fst (format k) -> Z.abs b < 2 ^ fst (format k) ->
  float_value (float_elem k AFloorDiv x y) = Fin (a / b * one).
Proof.
  unfold valid_in. intros [-> |[-> | ->]] VX VY EX EY NB HA HB; cbn [format fst snd] in *.
  - destruct (widen_f16 x VX) as [AX BX]. destruct (widen_f16 y VY) as [AY BY]. rewrite EX in AX. rewrite EY in AY.
    change (2 ^ 11) with 2048 in *. assert (2 ^ 24 = 16777216) as P24 by reflexivity.
    pose proof (floor_div_whole 24 128 _ _ a b f32_format ltac:(lia) BX BY AX AY NB ltac:(lia) ltac:(lia)) as H. cbn [float_elem].
    pose proof (bin_valid 24 128 AFloorDiv _ _ f32_format eq_refl BX BY) as VR.
    destruct (to_format_exact 24 128 11 16 _ ltac:(lia) ltac:(unfold SpecFloat.emin; lia) ltac:(lia) ltac:(unfold SpecFloat.emin; lia) VR) as [C _]; [|rewrite C; exact H].
    rewrite H. cbn [ext_in]. apply float_int; [|unfold SpecFloat.emin; lia]. change (2 ^ 11) with 2048. clear - NB HA HB.
    assert (0 < b \/ b < 0) as [PB|PB] by lia.
    + pose proof (Z.div_mod a b NB). pose proof (Z.mod_pos_bound a b PB). set (q := a / b) in *. set (m := a mod b) in *. clearbody q m. nia.
    + pose proof (Z.div_mod a b NB). pose proof (Z.mod_neg_bound a b PB). set (q := a / b) in *. set (m := a mod b) in *. clearbody q m. nia.
  - cbn [float_elem]. apply floor_div_whole; try assumption; [apply f32_format|lia].
  - cbn [float_elem]. apply floor_div_whole; try assumption; [apply f64_format|lia].
Qed.
