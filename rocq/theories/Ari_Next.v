(* copysign and nextafter: bit patterns of floats and their order. *)
From Coq Require Import SpecFloat.
From Verif Require Import Base Lists Int_Model Int_Proofs F64_Model Arr_Spec Arr_Model Arr_Wf Arr_Proofs Wf_Check Bcast_Model Bcast_Proofs Copy_Model Copy_Proofs Idx_Model Idx_Assign
  Elem_Model Elem_Proofs Rng_Model Date_Model New_Model Promo_Spec Promo_Model Promo_Proofs Promo_Props SF_Proofs SF_Arith SF_Cmp Cast_Spec Cast_Model Cast_SF Cast_Proofs Cast_Laws Cast_Props
  Close_Proofs Bitw_Spec Bitw_Model Bitw_Proofs Rnd_Spec Rnd_Model Rnd_Proofs Rnd_Round Rnd_Props Ari_Spec SF_Round Ari_Model Ari_Proofs Ari_Ord.
Local Open Scope Z_scope.

(* ---- numbers ------------------------------------------------------------------- *)
Lemma ext_lt_opp e f : ext_lt (ext_opp e) (ext_opp f) <-> ext_lt f e.
Proof. unfold ext_lt. destruct e as [|s|x], f as [|t|y]; cbn; try (destruct s); try (destruct t); cbn; try (split; congruence). rewrite Z.compare_opp. reflexivity. Qed.
Lemma ext_le_opp e f : ext_le (ext_opp e) (ext_opp f) <-> ext_le f e.
Proof. unfold ext_le. destruct e as [|s|x], f as [|t|y]; cbn; try (destruct s); try (destruct t); cbn; try reflexivity. rewrite Z.compare_opp. reflexivity. Qed.
Lemma ext_opp_opp e : ext_opp (ext_opp e) = e.
Proof. destruct e as [|s|x]; cbn; [reflexivity|rewrite negb_involutive; reflexivity|rewrite Z.opp_involutive; reflexivity]. Qed.
Lemma ext_in_opp prec emax e : ext_in (fmt_holds prec emax) (ext_opp e) <-> ext_in (fmt_holds prec emax) e.
Proof. destruct e as [|s|x]; cbn; try reflexivity. split; intros H; [rewrite <- (Z.opp_involutive x)|]; apply fmt_opp; exact H. Qed.
Lemma fin_lt a b : ext_lt (Fin a) (Fin b) <-> a < b.
Proof. unfold ext_lt. cbn. split; [intros H; injection H; auto|intros H; f_equal; exact H]. Qed.

Section Bits.
Variables prec emax : Z.
Hypothesis HF : a_format prec emax.
Hypothesis HE : 3 <= emax.
Let P := 2 ^ (prec - 1).
Let T := emax * 2 ^ prec.
(* the pattern of infinity *)
Let I := (2 * emax - 1) * P.
Let em := SpecFloat.emin prec emax.

Lemma P_pos : 0 < P. Proof. destruct HF as (H & _ & _). apply pow_pos. lia. Qed.
Lemma P_two : 2 ^ prec = 2 * P. Proof. destruct HF as (H & _ & _). unfold P. replace prec with (1 + (prec - 1)) at 1 by lia. rewrite Z.pow_add_r by lia. reflexivity. Qed.
Lemma T_is : T = 2 * emax * P. Proof. unfold T. rewrite P_two. ring. Qed.
Lemma I_T : 0 < I < T. Proof. rewrite T_is. unfold I. pose proof P_pos. nia. Qed.

(* the number with pattern u, sign bit clear *)
Definition mag (u : Z) : Z := if u / P =? 0 then u mod P * 2 ^ (em + 1074) else (u mod P + P) * 2 ^ (u / P - 1 + em + 1074).
Definition val (u : Z) : ext := if u =? I then Inf false else Fin (mag u).

Lemma split_bits q r : 0 <= r < P -> (q * P + r) / P = q /\ (q * P + r) mod P = r.
Proof. intros H. pose proof P_pos. split; [rewrite Z.div_add_l by lia; rewrite Z.div_small by lia; lia|rewrite Z.add_comm, Z.mod_add by lia; apply Z.mod_small; lia]. Qed.
Lemma bits_split u : 0 <= u -> exists q r, u = q * P + r /\ 0 <= q /\ 0 <= r < P.
Proof. intros H. pose proof P_pos. exists (u / P), (u mod P). pose proof (Z.div_mod u P ltac:(lia)). pose proof (Z.mod_pos_bound u P ltac:(lia)). pose proof (Z.div_pos u P H ltac:(lia)). repeat split; lia. Qed.
Lemma mag_of q r : 0 <= q -> 0 <= r < P -> mag (q * P + r) = if q =? 0 then r * 2 ^ (em + 1074) else (r + P) * 2 ^ (q - 1 + em + 1074).
Proof. intros H0 H. unfold mag. destruct (split_bits q r H) as [-> ->]. reflexivity. Qed.
Lemma em_ok : -1074 <= em. Proof. destruct HF as (_ & H & _). exact H. Qed.

Lemma mag_step u : 0 <= u -> mag u < mag (u + 1).
Proof.
  intros H. destruct (bits_split u H) as (q & r & -> & HQ & HR). pose proof P_pos. pose proof em_ok. rewrite mag_of by lia.
  assert (r + 1 < P \/ r + 1 = P) as [C|C] by lia.
  - replace (q * P + r + 1) with (q * P + (r + 1)) by ring. rewrite mag_of by lia. destruct (Z.eqb_spec q 0).
    + pose proof (pow_pos (em + 1074) ltac:(lia)). nia.
    + pose proof (pow_pos (q - 1 + em + 1074) ltac:(lia)). nia.
  - replace (q * P + r + 1) with ((q + 1) * P + 0) by lia. rewrite mag_of by lia. destruct (Z.eqb_spec (q + 1) 0); [lia|]. destruct (Z.eqb_spec q 0) as [->|N].
    + replace (0 + 1 - 1 + em + 1074) with (em + 1074) by ring. pose proof (pow_pos (em + 1074) ltac:(lia)). nia.
    + replace (q + 1 - 1 + em + 1074) with (1 + (q - 1 + em + 1074)) by ring. rewrite (Z.pow_add_r 2 1 (q - 1 + em + 1074)) by lia. pose proof (pow_pos (q - 1 + em + 1074) ltac:(lia)). change (2 ^ 1) with 2. nia.
Qed.
Lemma mag_mono u v : 0 <= u < v -> mag u < mag v.
Proof.
  intros [H0 H]. assert (exists n : nat, v = u + 1 + Z.of_nat n) as [n ->] by (exists (Z.to_nat (v - u - 1)); rewrite Z2Nat.id by lia; lia).
  clear H. induction n as [|n IH]; [rewrite Z.add_0_r; apply mag_step; exact H0|].
  replace (u + 1 + Z.of_nat (S n)) with (u + 1 + Z.of_nat n + 1) by lia. pose proof (mag_step (u + 1 + Z.of_nat n) ltac:(lia)). lia.
Qed.
Lemma mag_zero : mag 0 = 0.
Proof. change 0 with (0 * P + 0) at 1. rewrite mag_of; [reflexivity|lia|pose proof P_pos; lia]. Qed.
Lemma mag_nonneg u : 0 <= u -> 0 <= mag u.
Proof. intros H. assert (u = 0 \/ 0 < u) as [->|Hu] by lia; [rewrite mag_zero; lia|]. pose proof (mag_mono 0 u ltac:(lia)). rewrite mag_zero in *. lia. Qed.

(* a finite float is its pattern *)
Lemma finite_bits (s : bool) m e : valid_binary prec emax (S754_finite s m e) = true ->
  let u := (e - em) * P + Zpos m in 0 < u < I /\ mag u = Zpos m * 2 ^ (e + 1074).
Proof.
  intros V u. destruct HF as (H1 & H2 & H3). destruct (valid_inv prec emax s m e ltac:(lia) V) as (D & R & C). fold em in R, C. pose proof (dlen_bounds m) as [B1 B2].
  pose proof P_pos. assert (Zpos m < 2 * P) as HM. { assert (2 ^ dlen m <= 2 ^ prec) by (apply Z.pow_le_mono_r; lia). rewrite P_two in *. lia. }
  assert (Zpos m < P -> e = em) as HS. { intros HL. destruct C as [C|C]; [exact C|]. exfalso. rewrite C in B1. fold P in B1. lia. }
  assert (emax - prec = 2 * emax - 3 + em) as EM by (unfold em, SpecFloat.emin; ring).
  assert (0 <= (e - em) * P) by nia. assert (u < I) as HI. { unfold u, I. assert ((e - em) * P <= (2 * emax - 3) * P) by nia. nia. }
  split; [unfold u in *; lia|]. assert (Zpos m < P \/ P <= Zpos m) as [L|L] by lia.
  - specialize (HS L). unfold u. rewrite mag_of by lia. rewrite HS. rewrite Z.sub_diag, Z.eqb_refl. reflexivity.
  - unfold u. replace ((e - em) * P + Zpos m) with ((e - em + 1) * P + (Zpos m - P)) by ring. rewrite mag_of by lia. destruct (Z.eqb_spec (e - em + 1) 0); [lia|].
    f_equal; [ring|f_equal; ring].
Qed.
(* the pattern of a float that is not NaN *)
Lemma to_bits_is x : valid_binary prec emax x = true -> is_nan x = false ->
  exists u, 0 <= u <= I /\ to_bits prec emax x = (if sign_bit x then T else 0) + u /\ float_value x = (if sign_bit x then ext_opp (val u) else val u).
Proof.
  intros V N. pose proof I_T. destruct x as [s|s| |s m e]; try discriminate N; cbn [sign_bit to_bits].
  - exists 0. split; [lia|]. split; [unfold T; destruct s; lia|]. unfold val. destruct (Z.eqb_spec 0 I); [lia|]. rewrite mag_zero. destruct s; reflexivity.
  - exists I. split; [lia|]. split; [reflexivity|]. unfold val. rewrite Z.eqb_refl. destruct s; reflexivity.
  - destruct (finite_bits s m e V) as [HU HV]. exists ((e - em) * P + Zpos m). split; [lia|]. split; [unfold em, P, T; ring|]. unfold val. destruct (Z.eqb_spec ((e - em) * P + Zpos m) I); [lia|].
    rewrite HV. cbn [float_value]. destruct s; cbn [cond_Zopp ext_opp]; f_equal; ring.
Qed.
Lemma from_bits_valid b : 0 <= b < 2 * T -> valid_binary prec emax (from_bits prec emax b) = true.
Proof.
  intros HB. destruct HF as (H1 & H2 & H3). pose proof P_pos. pose proof T_is. pose proof I_T. unfold from_bits. fold T P em.
  pose proof (Z.mod_pos_bound b T ltac:(lia)) as HU. set (u := b mod T) in *. clearbody u. destruct (bits_split u ltac:(lia)) as (q & r & -> & HQ & HR). destruct (split_bits q r HR) as [-> ->].
  assert (q < 2 * emax) by nia. destruct (Z.eqb_spec q (2 * emax - 1)); [destruct (r =? 0); reflexivity|].
  assert (emax - prec = 2 * emax - 3 + em) as EM by (unfold em, SpecFloat.emin; ring).
  destruct (Z.eqb_spec q 0).
  - destruct (Z.eqb_spec r 0); [reflexivity|]. apply valid_intro; [lia| |fold em; lia|left; reflexivity].
    pose proof (dlen_bounds (Z.to_pos r)) as [B _]. rewrite Z2Pos.id in B by lia. apply Z.lt_succ_r. assert (dlen (Z.to_pos r) - 1 < prec - 1); [|lia]. apply (Z.pow_lt_mono_r_iff 2); [lia|lia|]. fold P. lia.
  - assert (dlen (Z.to_pos (r + P)) = prec) as D.
    { pose proof (dlen_bounds (Z.to_pos (r + P))) as [B1 B2]. rewrite Z2Pos.id in B1, B2 by lia. assert (r + P < 2 ^ prec) by (rewrite P_two; lia).
      assert (dlen (Z.to_pos (r + P)) - 1 < prec) by (apply (Z.pow_lt_mono_r_iff 2); lia).
      assert (prec - 1 < dlen (Z.to_pos (r + P))). { apply (Z.pow_lt_mono_r_iff 2); [lia|unfold dlen; lia|]. fold P. lia. } lia. }
    apply valid_intro; [lia|lia|fold em; lia|right; exact D].
Qed.
Lemma from_bits_value (s : bool) u : 0 <= u <= I -> float_value (from_bits prec emax ((if s then T else 0) + u)) = if s then ext_opp (val u) else val u.
Proof.
  intros HU. destruct HF as (H1 & H2 & H3). pose proof P_pos. pose proof T_is. pose proof I_T. pose proof em_ok.
  assert ((T <=? (if s then T else 0) + u) = s) as ES. { destruct s; [apply Z.leb_le; lia|apply Z.leb_gt; lia]. }
  assert (((if s then T else 0) + u) mod T = u) as EM. { destruct s; [rewrite <- (Z.mul_1_l T) at 1; rewrite Z.add_comm, Z.mod_add by lia|]; apply Z.mod_small; lia. }
  unfold from_bits. fold T P em. rewrite ES, EM. clear ES EM. destruct (bits_split u ltac:(lia)) as (q & r & -> & HQ & HR). destruct (split_bits q r HR) as [-> ->].
  unfold val. rewrite mag_of by assumption. destruct (Z.eqb_spec q (2 * emax - 1)) as [->|NQ].
  - assert (r = 0) as -> by (unfold I in HU; lia). destruct (Z.eqb_spec ((2 * emax - 1) * P + 0) I) as [_|B]; [destruct s; reflexivity|unfold I in B; lia].
  - destruct (Z.eqb_spec (q * P + r) I) as [B|_].
    { exfalso. unfold I in B. assert (q = 2 * emax - 1); [|lia]. replace (q * P + r) with (q * P + r) in B by ring. assert ((q * P + r) / P = ((2 * emax - 1) * P + 0) / P) as C by (f_equal; lia). rewrite (proj1 (split_bits q r HR)), (proj1 (split_bits (2 * emax - 1) 0 ltac:(lia))) in C. exact C. }
    destruct (Z.eqb_spec q 0) as [->|N0].
    + destruct (Z.eqb_spec r 0) as [->|NR]; [destruct s; reflexivity|]. cbn [float_value]. rewrite Z2Pos.id by lia. destruct s; cbn [cond_Zopp ext_opp]; f_equal; ring.
    + cbn [float_value]. rewrite Z2Pos.id by lia. destruct s; cbn [cond_Zopp ext_opp]; f_equal; ring.
Qed.
(* every number of the format that is not negative has a pattern *)
Lemma holds_bits z : fmt_holds prec emax z -> 0 <= z -> exists u, 0 <= u < I /\ z = mag u.
Proof.
  intros H HZ. destruct HF as (H1 & H2 & H3). pose proof I_T. assert (z = 0 \/ 0 < z) as [->|HP] by lia; [exists 0; rewrite mag_zero; split; [lia|reflexivity]|].
  pose proof H as (m & e & HM & HR & EZ). pose proof (pow_pos (e + 1074) ltac:(lia)). assert (0 < m) by nia. destruct m as [|m|m]; try lia.
  rewrite EZ in H. destruct (round_holds prec emax false m e ltac:(lia) H2 ltac:(lia) H) as [EV VB]. cbn [cond_Zopp] in EV. rewrite <- EZ in EV.
  destruct (binary_round prec emax false m e) as [s|s| |s m' e'] eqn:EB; cbn [float_value] in EV; try discriminate; [injection EV as EV; lia|].
  apply fin_inj in EV || (injection EV as EV). destruct (finite_bits s m' e' VB) as [HU HV]. exists ((e' - em) * P + Zpos m'). split; [lia|]. rewrite HV. destruct s; cbn [cond_Zopp] in EV; [|lia].
  pose proof (valid_inv prec emax true m' e' ltac:(lia) VB) as (_ & R & _). pose proof (pow_pos (e' + 1074) ltac:(lia)). nia.
Qed.
Lemma mag_holds u : 0 <= u < I -> fmt_holds prec emax (mag u).
Proof.
  intros HU. destruct HF as (H1 & H2 & H3). pose proof (from_bits_valid u ltac:(pose proof I_T; lia)) as V. pose proof (valid_holds prec emax _ ltac:(lia) V H3) as H.
  pose proof (from_bits_value false u ltac:(lia)) as E. cbv iota in E. rewrite Z.add_0_l in E. rewrite E in H. unfold val in H. destruct (Z.eqb_spec u I); [lia|exact H].
Qed.
Lemma val_in u : 0 <= u <= I -> ext_in (fmt_holds prec emax) (val u).
Proof. intros H. unfold val. destruct (Z.eqb_spec u I); [exact Logic.I|]. apply mag_holds. lia. Qed.
Lemma val_step u : 0 <= u < I -> ext_lt (val u) (val (u + 1)).
Proof.
  intros H. unfold val. destruct (Z.eqb_spec u I); [lia|]. destruct (Z.eqb_spec (u + 1) I); [reflexivity|]. apply fin_lt. apply mag_step. lia.
Qed.
(* nothing between neighbouring patterns *)
Lemma val_gap u z : 0 <= u < I -> ext_in (fmt_holds prec emax) z -> ext_lt (val u) z -> ext_le (val (u + 1)) z.
Proof.
  intros HU HZ H. unfold val in *. destruct (Z.eqb_spec u I); [lia|]. destruct z as [|s|z]; [discriminate H| |].
  - destruct s; [discriminate H|]. destruct (u + 1 =? I); exact Logic.I.
  - apply fin_lt in H. pose proof (mag_nonneg u ltac:(lia)). destruct (holds_bits z HZ ltac:(lia)) as (w & HW & ->).
    assert (u < w) as HUW. { destruct (Z.lt_trichotomy u w) as [L|[->|L]]; [exact L|lia|]. pose proof (mag_mono w u ltac:(lia)). lia. }
    destruct (Z.eqb_spec (u + 1) I); [lia|]. apply fin_le. assert (u + 1 = w \/ u + 1 < w) as [<-|L] by lia; [lia|]. pose proof (mag_mono (u + 1) w ltac:(lia)). lia.
Qed.
Lemma val_gap_down u z : 0 <= u < I -> ext_in (fmt_holds prec emax) z -> ext_lt z (val (u + 1)) -> ext_le z (val u).
Proof.
  intros HU HZ H. assert (z <> NaN) as NZ by (intros ->; discriminate H). assert (forall w, val w <> NaN) as NV by (intros w; unfold val; destruct (_ =? _); discriminate).
  apply ext_le_iff; [exact NZ|apply NV|]. intros L. pose proof (val_gap u z HU HZ L) as G. apply ext_le_iff in G; [exact (G H)|apply NV|exact NZ].
Qed.
End Bits.

(* ---- nextafter ------------------------------------------------------------------------ *)
Lemma eqb_value prec emax x y : a_format prec emax -> valid_binary prec emax x = true -> valid_binary prec emax y = true ->
  (SFeqb x y = true <-> ext_compare (float_value x) (float_value y) = Some Eq).
Proof.
  intros (H1 & H2 & _) VX VY. pose proof (float_cmp_value prec emax CEq x y ltac:(lia) H2 VX VY) as H. cbn [float_cmp] in H. rewrite H.
  destruct (ext_compare _ _) as [[]|]; cbn; split; congruence.
Qed.
Lemma step_value prec emax x (up : bool) : a_format prec emax -> 3 <= emax -> valid_binary prec emax x = true ->
  let sx := if sign_bit x then ext_opp (float_value x) else float_value x in
  ext_lt (Fin 0) sx \/ up = true /\ sx = Fin 0 -> (up = true -> sx <> Inf false) ->
  let r := from_bits prec emax ((to_bits prec emax x + (if up then 1 else -1)) mod (emax * 2 ^ (prec + 1))) in
  let sr := if sign_bit x then ext_opp (float_value r) else float_value r in
  ext_in (fmt_holds prec emax) sr /\
  if up then ext_lt sx sr /\ forall z, ext_in (fmt_holds prec emax) z -> ext_lt sx z -> ext_le sr z
  else ext_lt sr sx /\ forall z, ext_in (fmt_holds prec emax) z -> ext_lt z sx -> ext_le z sr.
Proof.
  intros HF HE V sx HP HI r sr. assert (is_nan x = false) as N. { destruct x; try reflexivity. exfalso. unfold sx in HP. cbn in HP. destruct HP as [HP|[_ HP]]; discriminate HP. }
  destruct (to_bits_is prec emax HF HE x V N) as (u & HU & EB & EV). pose proof HF as (H1 & _ & _).
  assert (sx = val prec emax u) as ES by (unfold sx; rewrite EV; destruct (sign_bit x); [apply ext_opp_opp|reflexivity]). clearbody sx. subst sx.
  pose proof (I_T prec emax HF HE) as IT. set (T := emax * 2 ^ prec) in *. set (I := (2 * emax - 1) * 2 ^ (prec - 1)) in *.
  assert (emax * 2 ^ (prec + 1) = 2 * T) as E2 by (unfold T; rewrite Z.pow_add_r by lia; change (2 ^ 1) with 2; ring).
  assert (up = true -> u < I) as HI'. { intros HUP. specialize (HI HUP). unfold val in HI. fold I in HI. destruct (Z.eqb_spec u I); [congruence|lia]. }
  assert (up = false -> 0 < u) as H0'. { intros HUP. destruct HP as [HP|[HP _]]; [|congruence]. assert (u = 0 \/ 0 < u) as [->|G] by lia; [|exact G].
    unfold val in HP. fold I in HP. destruct (Z.eqb_spec 0 I); [lia|]. rewrite mag_zero in HP by assumption. exfalso. apply fin_lt in HP. lia. }
  assert (sr = val prec emax (if up then u + 1 else u - 1)) as ER.
  { unfold sr, r. rewrite E2, EB. set (u' := if up then u + 1 else u - 1). assert (0 <= u' <= I) by (unfold u'; destruct up; [specialize (HI' eq_refl); lia|specialize (H0' eq_refl); lia]).
    replace ((if sign_bit x then T else 0) + u + (if up then 1 else -1)) with ((if sign_bit x then T else 0) + u') by (unfold u'; destruct up; ring).
    rewrite Z.mod_small by (destruct (sign_bit x); lia). unfold T. rewrite (from_bits_value prec emax HF HE (sign_bit x) u' ltac:(fold I; lia)). destruct (sign_bit x); [apply ext_opp_opp|reflexivity]. }
  clearbody sr. subst sr. destruct up.
  - specialize (HI' eq_refl). split; [apply val_in; try assumption; fold I; lia|]. split; [apply val_step; try assumption; fold I; lia|]. intros z HZ L. apply val_gap; try assumption; fold I; lia.
  - specialize (H0' eq_refl). split; [apply val_in; try assumption; fold I; lia|]. remember (u - 1) as p eqn:EP. assert (u = p + 1) as EU by lia. rewrite EU in *. split; [apply val_step; try assumption; fold I; lia|].
    intros z HZ L. apply val_gap_down; try assumption; fold I; lia.
Qed.
Lemma sign_value x : is_nan x = false -> forall prec emax, a_format prec emax -> valid_binary prec emax x = true ->
  (ext_lt (Fin 0) (float_value x) -> sign_bit x = false) /\ (ext_lt (float_value x) (Fin 0) -> sign_bit x = true).
Proof.
  intros _ prec emax HF V. destruct x as [s|s| |s m e]; cbn; try (split; discriminate); try (destruct s; split; (reflexivity || discriminate)).
  pose proof (finite_range prec emax s m e HF V). pose proof (pow_pos (e + 1074) ltac:(lia)). set (U := 2 ^ (e + 1074)) in *. clearbody U.
  rewrite !fin_lt. destruct s; cbn [cond_Zopp]; split; intros L; try reflexivity; nia.
Qed.
Lemma next_value prec emax x y : a_format prec emax -> 3 <= emax -> valid_binary prec emax x = true -> valid_binary prec emax y = true ->
  ext_lt (Fin 0) (float_value x) \/ x = S754_zero false /\ ext_lt (Fin 0) (float_value y) ->
  next_toward (fmt_holds prec emax) (float_value x) (float_value y) (float_value (float_next prec emax x y)).
Proof.
  intros HF HE VX VY HC. assert (is_nan x = false) as NX. { destruct x; try reflexivity. destruct HC as [HC|[HC _]]; discriminate HC. }
  assert (sign_bit x = false) as SX. { destruct HC as [HC|[-> _]]; [apply (sign_value x NX prec emax HF VX); exact HC|reflexivity]. }
  unfold next_toward, float_next. pose proof (eqb_value prec emax x y HF VX VY) as HQ. pose proof (sfltb_value prec emax x y HF VX VY) as HL.
  destruct (is_nan y) eqn:NY. { destruct y; try discriminate NY. destruct x as [s|s| |s m e]; reflexivity || discriminate NX. }
  rewrite NX. cbn [orb]. destruct (SFeqb x y). { rewrite (proj1 HQ eq_refl). reflexivity. }
  pose proof (ext_total (float_value x) (float_value y)) as TT. destruct (SFltb x y) eqn:L.
  - assert (ext_lt (float_value x) (float_value y)) as LT by (apply HL; reflexivity). pose proof LT as LT'. unfold ext_lt in LT'. rewrite LT'.
    pose proof (step_value prec emax x true HF HE VX) as S1. cbv zeta in S1. rewrite SX in S1. cbv iota in S1. apply S1.
    + destruct HC as [HC|[-> _]]; [left; exact HC|right; split; reflexivity].
    + intros _ EI. rewrite EI in LT. unfold ext_lt in LT. destruct (float_value y) as [|[]|]; discriminate LT.
  - assert (ext_lt (float_value y) (float_value x)) as GT.
    { destruct TT as [A|[A|A]]; [intros A; apply is_nan_value in A; congruence|intros A; apply is_nan_value in A; congruence| | |exact A].
      - apply HL in A. discriminate. - assert (false = true); [|discriminate]. apply HQ. rewrite A. destruct (float_value y) as [|[]|z] eqn:E; try reflexivity; [apply is_nan_value in E; congruence|cbn; rewrite Z.compare_refl; reflexivity]. }
    pose proof GT as GT'. unfold ext_lt in GT'. rewrite (ext_antisym (float_value y) (float_value x)), GT'. cbn [option_map CompOpp].
    pose proof (step_value prec emax x false HF HE VX) as S1. cbv zeta in S1. rewrite SX in S1. cbv iota in S1. apply S1; [|discriminate].
    left. destruct HC as [HC|[-> HC]]; [exact HC|]. exfalso. exact (ext_lt_irrefl _ (ext_lt_trans _ _ _ GT HC)).
Qed.
Lemma next_valid prec emax x y : a_format prec emax -> 3 <= emax -> valid_binary prec emax y = true -> valid_binary prec emax (float_next prec emax x y) = true.
Proof.
  intros HF HE VY. unfold float_next. destruct (SFeqb x y); [exact VY|]. destruct (_ || _); [reflexivity|].
  assert (forall b, valid_binary prec emax (from_bits prec emax (b mod (emax * 2 ^ (prec + 1)))) = true) as HB.
  { intros b. apply from_bits_valid; try assumption. pose proof HF as (H1 & _ & _). pose proof (I_T prec emax HF HE) as IT. cbv zeta in IT.
    assert (emax * 2 ^ (prec + 1) = 2 * (emax * 2 ^ prec)) as -> by (rewrite Z.pow_add_r by lia; change (2 ^ 1) with 2; ring). apply Z.mod_pos_bound. lia. }
  destruct (SFltb x y); apply HB.
Qed.
Lemma leb_zero x prec emax : a_format prec emax -> valid_binary prec emax x = true -> float_value x <> Fin 0 -> is_nan x = false ->
  SFleb (S754_zero false) x = negb (sign_bit x) /\ SFltb (S754_zero false) x = negb (sign_bit x).
Proof. intros HF V N NN. destruct x as [s|s| |s m e]; try discriminate NN; [exfalso; apply N; reflexivity|destruct s; split; reflexivity|destruct s; split; reflexivity]. Qed.
Lemma sign_of_value x prec emax : a_format prec emax -> valid_binary prec emax x = true -> float_value x <> Fin 0 -> is_nan x = false ->
  if sign_bit x then ext_lt (float_value x) (Fin 0) else ext_lt (Fin 0) (float_value x).
Proof.
  intros HF V N NN. destruct x as [s|s| |s m e]; try discriminate NN; [exfalso; apply N; reflexivity|destruct s; reflexivity|]. cbn [sign_bit float_value].
  pose proof (finite_range prec emax s m e HF V). pose proof (pow_pos (e + 1074) ltac:(lia)). set (U := 2 ^ (e + 1074)) in *. clearbody U. destruct s; apply fin_lt; cbn [cond_Zopp]; nia.
Qed.
Lemma mixed_next_value x y : valid_binary 53 1024 x = true -> valid_binary 53 1024 y = true -> float_value x <> Fin 0 ->
  next_toward (fmt_holds 53 1024) (float_value x) (float_value y) (float_value (mixed_next x y)) /\ valid_binary 53 1024 (mixed_next x y) = true.
Proof.
  intros VX VY HZ. pose proof f64_format as HF. unfold next_toward, mixed_next. pose proof (eqb_value 53 1024 x y HF VX VY) as HQ. pose proof (sfltb_value 53 1024 x y HF VX VY) as HL.
  assert (forall b, valid_binary 53 1024 (from_bits 53 1024 (b mod (1024 * 2 ^ 54))) = true) as HB.
  { intros b. apply from_bits_valid; [exact HF|lia|]. change (2 * (1024 * 2 ^ 53)) with (1024 * 2 ^ 54). apply Z.mod_pos_bound. lia. }
  destruct (is_nan x) eqn:NX. { split; [|reflexivity]. destruct x; try discriminate NX. reflexivity. }
  destruct (is_nan y) eqn:NY. { split; [|reflexivity]. destruct y; try discriminate NY. destruct x; reflexivity || discriminate NX. }
  cbn [orb]. destruct (SFeqb x y). { split; [|exact VY]. rewrite (proj1 HQ eq_refl). reflexivity. }
  pose proof (ext_total (float_value x) (float_value y)) as TT. destruct (leb_zero x 53 1024 HF VX HZ NX) as [L1 L2]. pose proof (sign_of_value x 53 1024 HF VX HZ NX) as SV.
  destruct (SFltb x y) eqn:L.
  - split; [|apply HB]. assert (ext_lt (float_value x) (float_value y)) as LT by (apply HL; reflexivity). pose proof LT as LT'. unfold ext_lt in LT'. rewrite LT', L1.
    pose proof (step_value 53 1024 x (negb (sign_bit x)) HF ltac:(lia) VX) as S1. cbv zeta in S1. change (1024 * 2 ^ (53 + 1)) with (1024 * 2 ^ 54) in S1. destruct (sign_bit x); cbn [negb] in *.
    + destruct S1 as (A & B & C); [left; apply (ext_lt_opp (Fin 0)); exact SV|discriminate|]. split; [apply ext_in_opp; exact A|]. split; [apply ext_lt_opp; exact B|].
      intros z HZ' LZ. apply ext_le_opp. apply C; [apply ext_in_opp; exact HZ'|apply ext_lt_opp; exact LZ].
    + destruct S1 as (A & B & C); [left; exact SV| |split; [exact A|split; [exact B|exact C]]].
      intros _ EI. rewrite EI in LT. unfold ext_lt in LT. destruct (float_value y) as [|[]|]; discriminate LT.
  - split; [|apply HB]. assert (ext_lt (float_value y) (float_value x)) as GT.
    { destruct TT as [A|[A|A]]; [intros A; apply is_nan_value in A; congruence|intros A; apply is_nan_value in A; congruence| | |exact A].
      - apply HL in A. discriminate. - assert (false = true); [|discriminate]. apply HQ. rewrite A. destruct (float_value y) as [|[]|z] eqn:E; try reflexivity; [apply is_nan_value in E; congruence|cbn; rewrite Z.compare_refl; reflexivity]. }
    pose proof GT as GT'. unfold ext_lt in GT'. rewrite (ext_antisym (float_value y) (float_value x)), GT', L2. cbn [option_map CompOpp].
    pose proof (step_value 53 1024 x (sign_bit x) HF ltac:(lia) VX) as S1. cbv zeta in S1. change (1024 * 2 ^ (53 + 1)) with (1024 * 2 ^ 54) in S1. destruct (sign_bit x); cbn [negb] in *.
    + destruct S1 as (A & B & C); [left; apply (ext_lt_opp (Fin 0)); exact SV| |].
      { intros _ EI. assert (float_value x = Inf true) as EX by (rewrite <- (ext_opp_opp (float_value x)), EI; reflexivity). rewrite EX in GT. unfold ext_lt in GT. destruct (float_value y) as [|[]|]; discriminate GT. }
      split; [apply ext_in_opp; exact A|]. split; [apply ext_lt_opp; exact B|].
      intros z HZ' LZ. apply ext_le_opp. apply C; [apply ext_in_opp; exact HZ'|apply ext_lt_opp; exact LZ].
    + destruct S1 as (A & B & C); [left; exact SV|discriminate|split; [exact A|split; [exact B|exact C]]].
Qed.

(* ---- copysign --------------------------------------------------------------------------- *)
Lemma abs_opp_abs e : ext_abs (ext_opp (ext_abs e)) = ext_abs e /\ ext_abs (ext_abs e) = ext_abs e.
Proof. destruct e as [|s|x]; cbn; split; try reflexivity; f_equal; lia. Qed.
Lemma copysign_value prec emax x y : a_format prec emax -> valid_binary prec emax x = true -> valid_binary prec emax y = true ->
  float_value (float_copysign x y) = (if sign_bit y then ext_opp (ext_abs (float_value x)) else ext_abs (float_value x)) /\ with_sign_of (float_value x) (float_value y) (float_value (float_copysign x y)).
Proof.
  intros HF VX VY. assert (float_value (float_copysign x y) = (if sign_bit y then ext_opp (ext_abs (float_value x)) else ext_abs (float_value x))) as EV.
  { unfold float_copysign. destruct (sign_bit y); rewrite ?opp_value, (abs_value prec emax x HF VX); reflexivity. }
  split; [exact EV|]. rewrite EV. clear EV. destruct (abs_opp_abs (float_value x)) as [A1 A2]. unfold with_sign_of. destruct (is_nan y) eqn:NY.
  - destruct y; try discriminate NY. cbn. split; [exact A2|split; discriminate].
  - destruct (sign_value y NY prec emax HF VY) as [S1 S2]. destruct (sign_bit y); (split; [assumption|split; intros L]); try reflexivity; [specialize (S1 L); discriminate|specialize (S2 L); discriminate].
Qed.

Lemma copysign_elem k x y : k = Float16 \/ k = Float32 \/ k = Float64 -> valid_in k x -> valid_in k y ->
  with_sign_of (float_value x) (float_value y) (float_value (float_elem k ACopysign x y)).
Proof.
  unfold valid_in. intros [-> |[-> | ->]] VX VY; cbn [format fst snd float_elem float_bin] in *.
  - destruct (widen_f16 x VX) as [AX BX]. destruct (widen_f16 y VY) as [AY BY]. destruct (copysign_value 24 128 _ _ f32_format BX BY) as [E H]. rewrite AX, AY in *.
    pose proof (copysign_valid 24 128 _ (to_format 24 128 y) BX) as VB.
    destruct (to_format_exact 24 128 11 16 _ ltac:(lia) ltac:(unfold SpecFloat.emin; lia) ltac:(lia) ltac:(unfold SpecFloat.emin; lia) VB) as [C _]; [|rewrite C; exact H].
    rewrite E. assert (ext_in (fmt_holds 11 16) (ext_abs (float_value x))) as HA.
    { pose proof (valid_holds 11 16 x ltac:(lia) VX ltac:(vm_compute; split; discriminate)) as HX. destruct (float_value x) as [|s|z]; try exact I. cbn [ext_abs ext_in] in *. destruct (Z.abs_spec z) as [[_ ->]|[_ ->]]; [exact HX|apply fmt_opp; exact HX]. }
    destruct (sign_bit _); [apply ext_in_opp|]; exact HA.
  - apply (copysign_value 24 128); try assumption. apply f32_format.
  - apply (copysign_value 53 1024); try assumption. apply f64_format.
Qed.
Lemma sign_int a b c : with_sign_of (Fin (a * one)) (Fin (b * one)) (Fin (c * one)) <-> Z.abs c = Z.abs a /\ (0 < b -> c = Z.abs a) /\ (b < 0 -> c = - Z.abs a).
Proof.
  unfold with_sign_of. cbn [ext_abs ext_opp]. pose proof one_pos as HP. rewrite !fin_lt. set (o := one) in *. clearbody o. rewrite !Z.abs_mul, (Z.abs_eq o) by lia.
  assert (forall p q, Fin (p * o) = Fin (q * o) <-> p = q) as HI. { intros p q. split; [intros H; injection H as H; apply Z.mul_cancel_r in H; lia|intros ->; reflexivity]. }
  rewrite <- Z.mul_opp_l, !HI. assert (0 < b * o <-> 0 < b) as -> by nia. assert (b * o < 0 <-> b < 0) as -> by nia. reflexivity.
Qed.
Lemma copysign_same k v w r : real k = true -> element k v -> element k w -> holds_value k (ext_abs (real_value v), Fin 0) -> same_elem k ACopysign v w = Ok r ->
  with_sign_of (real_value v) (real_value w) (real_value r).
Proof.
  intros R EV EW HH ER. destruct (is_float_kind k) eqn:K.
  { pose proof (real_float k R K) as KF. destruct (element_float k v KF EV) as (x & -> & VX). destruct (element_float k w KF EW) as (y & -> & VY).
    cbn [same_elem] in ER. injection ER as <-. exact (copysign_elem k x y KF VX VY). }
  assert (is_integer k = true \/ k = Bool) as KI by (destruct (real_cases k R) as [H|[H|H]]; [right; exact H|left; exact H|congruence]).
  destruct (element_int k v KI EV) as (i & -> & HI). destruct (element_int k w KI EW) as (j & -> & HJ).
  change (real_value (SInt i)) with (Fin (i * one)) in *. change (real_value (SInt j)) with (Fin (j * one)) in *.
  assert (fst (int_range k) <= Z.abs i <= snd (int_range k)) as HA.
  { cbn [ext_abs] in HH. rewrite Z.abs_mul, (Z.abs_eq one) in HH by (pose proof one_pos; lia). apply holds_fin in HH; [|apply real_numeric; exact R].
    destruct (int_holds_one k _ KI HH) as (c & EC & HC). apply one_cancel in EC. subst c. exact HC. }
  destruct KI as [KI| ->].
  - destruct (int_of_integer k KI) as (t & ET & HT & _ & _ & HL & HU). rewrite <- HL, <- HU in *.
    assert (same_elem k ACopysign (SInt i) (SInt j) = bind (int_bin t ACopysign i j) (fun z => Ok (SInt z))) as EE by (destruct k; try discriminate KI; injection ET as <-; reflexivity).
    rewrite EE in ER. cbn [int_bin bind] in ER. injection ER as <-. change (real_value (SInt ?z)) with (Fin (z * one)). apply sign_int.
    destruct (signed t) eqn:SG.
    + rewrite (wrap_id t (Z.abs i) HT) by exact HA. assert (i_min t <= - Z.abs i <= i_max t) as HN. { destruct k; try discriminate KI; injection ET as <-; try discriminate SG; cbn in *; lia. }
      rewrite (wrap_id t (- Z.abs i) HT) by exact HN. destruct (Z.leb_spec 0 j); lia.
    + assert (0 <= i /\ 0 <= j) by (destruct k; try discriminate KI; injection ET as <-; try discriminate SG; cbn in *; lia). lia.
  - cbn [same_elem int_of] in ER. injection ER as <-. cbn [int_range fst snd] in *. change (real_value (SInt ?z)) with (Fin (z * one)). apply sign_int.
    assert (i = 0 \/ i = 1) as [-> | ->] by lia; cbn; lia.
Qed.
Lemma as_f64_sign k v : real k = true -> element k v -> fits v -> (is_integer k = true \/ k = Bool) -> fst (int_range k) = 0 -> sign_bit (as_f64 v) = false.
Proof.
  intros R E F KI H0. destruct (as_f64_value k v R E F) as [A B]. destruct (element_int k v KI E) as (i & -> & HI). assert (i = 0 \/ 0 < i) as [-> |HP] by lia; [reflexivity|].
  destruct (is_nan (as_f64 (SInt i))) eqn:NQ; [apply is_nan_value in NQ; rewrite NQ in A; discriminate A|].
  apply (sign_value _ NQ 53 1024 f64_format B). rewrite A. change (real_value (SInt i)) with (Fin (i * one)). apply fin_lt. pose proof one_pos. nia.
Qed.
Lemma promote_unsigned a b : real a = true -> real b = true -> is_float_kind (promote a b) = false -> fst (int_range (promote a b)) = 0 -> (is_integer b = true \/ b = Bool) /\ fst (int_range b) = 0.
Proof. intros RA RB. destruct a; try discriminate RA; destruct b; try discriminate RB; cbn; intros H1 H2; try discriminate H1; try discriminate H2; auto. Qed.
Lemma int_holds_fin k e : real k = true -> is_float_kind k = false -> holds_value k (e, Fin 0) -> exists z, e = Fin z.
Proof. intros R K H. destruct k; try discriminate K; try discriminate R; destruct H as (x & Q & _); exists x; congruence. Qed.
Lemma copysign_mixed kx ky v w r : real kx = true -> real ky = true -> element kx v -> element ky w -> fits v -> fits w ->
  holds_value (promote kx ky) (ext_abs (real_value v), Fin 0) -> mixed_elem (promote kx ky) ACopysign v w = Ok r -> with_sign_of (real_value v) (real_value w) (real_value r).
Proof.
  intros RX RY EV EW FV FW HH ER. set (k := promote kx ky) in *. assert (real k = true) as R by (apply promote_real; assumption).
  rewrite (mixed_elem_is k kx ky _ v w RX RY EV EW) in ER. injection ER as <-. cbn [mixed_bin float_bin].
  destruct (as_f64_value kx v RX EV FV) as [AX BX]. destruct (as_f64_value ky w RY EW FW) as [AY BY]. destruct (copysign_value 53 1024 _ _ f64_format BX BY) as [E H]. rewrite AX in E, H. rewrite AY in H.
  pose proof (copysign_valid 53 1024 _ (as_f64 w) BX) as VB.
  destruct (write_exact k _ (real_numeric k R) VB) as [C _]; [|unfold real_value at 3; rewrite C; exact H]. rewrite E. destruct (sign_bit (as_f64 w)) eqn:SG; [|exact HH].
  destruct (is_float_kind k) eqn:K.
  - destruct (real_float k R K) as [-> |[-> | ->]]; cbn [holds_value fst snd] in *; (split; [|reflexivity]); destruct HH as [HH _];
      (destruct (ext_abs (real_value v)) as [| |z]; try exact I; cbn [ext_opp ext_in] in *; apply float_opp; exact HH).
  - assert (is_integer k = true \/ k = Bool) as KI by (destruct (real_cases k R) as [Q|[Q|Q]]; [right; exact Q|left; exact Q|congruence]).
    assert (fst (int_range k) = 0 \/ fst (int_range k) = - snd (int_range k) - 1) as [KU|KS] by (destruct k; try discriminate K; try discriminate R; cbn; auto).
    + destruct (promote_unsigned kx ky RX RY K KU) as [KYI KYU]. rewrite (as_f64_sign ky w RY EW FW KYI KYU) in SG. discriminate.
    + destruct (int_holds_fin k _ R K HH) as [z EZ]. assert (0 <= z) as PZ by (destruct (real_value v); try discriminate EZ; injection EZ as <-; lia). rewrite EZ in *.
      cbn [ext_abs ext_opp] in *. apply holds_fin in HH; [|apply real_numeric; exact R]. apply holds_fin; [apply real_numeric; exact R|].
      destruct (int_holds_one k _ KI HH) as (c & EC & HC). rewrite EC, <- Z.mul_opp_l.
      assert (0 <= c) by (apply (Z.mul_le_mono_pos_r 0 c one one_pos); rewrite <- EC; exact PZ).
      clearbody k. assert (fst (int_range k) <= - c <= snd (int_range k)) as HN by (destruct HC; split; lia).
      pose proof (proj2 (int_element k (- c) KI) HN) as IE. destruct k; try discriminate K; try discriminate R; exact IE.
Qed.
Lemma copysign_out kx ky v w r : real kx = true -> real ky = true -> kx = ky \/ wide_int kx = false /\ wide_int ky = false -> element kx v -> element ky w ->
  holds_value (promote kx ky) (ext_abs (real_value v), Fin 0) -> elem_out ACopysign kx ky v w = Ok r -> with_sign_of (real_value v) (real_value w) (real_value r).
Proof.
  intros RX RY HK EV EW HH ER. unfold elem_out in ER. destruct (kind_eqb kx ky) eqn:Q.
  - apply kind_eqb_eq in Q. subst ky. rewrite promote_self in HH by exact RX. exact (copysign_same kx v w r RX EV EW HH ER).
  - destruct HK as [-> |[W1 W2]]; [rewrite kind_eqb_refl in Q; discriminate|]. apply (copysign_mixed kx ky); try assumption; [apply (narrow_fits kx)|apply (narrow_fits ky)]; assumption.
Qed.
