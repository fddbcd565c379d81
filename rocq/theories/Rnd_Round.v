(* Proofs about round(a, decimals). *)
From Coq Require Import SpecFloat.
From Verif Require Import Base Lists Int_Model Int_Proofs F64_Model Arr_Spec Arr_Model Arr_Wf Arr_Proofs Bcast_Model Bcast_Proofs Copy_Model Copy_Proofs Idx_Model Idx_Assign
  Elem_Model Elem_Proofs Rng_Model Date_Model New_Model Promo_Spec Promo_Model Promo_Proofs Promo_Props SF_Proofs SF_Arith SF_Cmp Cast_Spec Cast_Model Cast_SF Cast_Proofs Cast_Laws
  Close_Proofs Bitw_Spec Bitw_Model Bitw_Proofs Rnd_Spec Rnd_Model Rnd_Proofs.
Local Open Scope Z_scope.

(* ---- multiplying and dividing by one ------------------------------------------- *)
Section One.
Variables (prec emax : Z) (P : positive).
Hypothesis HF : a_format prec emax.
Hypothesis HP : Zpos P = 2 ^ (prec - 1).
Let unit := S754_finite false P (1 - prec).

Lemma mul_unit x : valid_binary prec emax x = true -> SFmul prec emax x unit = x.
Proof.
  intros V. destruct HF as (H1 & H2 & H3). destruct x as [s|s| |s m e]; cbn [SFmul unit]; rewrite ?xorb_false_r; try reflexivity.
  destruct (valid_inv prec emax s m e ltac:(lia) V) as (D & R & F).
  assert (Zpos (m * P) = Zpos m * 2 ^ (prec - 1)) as E by (rewrite Pos2Z.inj_mul, HP; reflexivity).
  pose proof (dlen_mul_pow m (m * P) (prec - 1) E ltac:(lia)) as DM.
  rewrite (round_aux_exact prec emax s (m * P) m (e + (1 - prec)) (prec - 1)); [f_equal; lia|exact E|lia| |lia].
  rewrite DM. unfold fexp. lia.
Qed.
Lemma div_unit x : valid_binary prec emax x = true -> SFdiv prec emax x unit = x.
Proof.
  intros V. destruct HF as (H1 & H2 & H3). destruct x as [s|s| |s m e]; cbn [SFdiv unit]; rewrite ?xorb_false_r; try reflexivity.
  destruct (valid_inv prec emax s m e ltac:(lia) V) as (D & R & F).
  assert (dlen P = prec) as DP by (apply dlen_unique; [rewrite HP; split; [lia|apply Z.pow_lt_mono_r; lia]|lia]).
  unfold SFdiv_core_binary. cbn [Zdigits2]. cbv zeta. fold (dlen m). fold (dlen P). rewrite DP.
  set (e' := Z.min (fexp prec emax (dlen m + e - (prec + (1 - prec)))) (e - (1 - prec))).
  assert (e' <= e) as He by (unfold e', fexp; lia).
  set (k := e - (1 - prec) - e').
  assert (match k with Zpos _ => Z.shiftl (Zpos m) k | Z0 => Zpos m | Zneg _ => 0 end = Zpos m * 2 ^ k) as ->.
  { assert (0 <= k) by (unfold k; lia). destruct k as [|p|p]; [cbn [Z.pow]; lia|rewrite Z.shiftl_mul_pow2 by lia; reflexivity|lia]. }
  assert (Zpos m * 2 ^ k = Zpos m * 2 ^ (e - e') * Zpos P) as EQ by (rewrite HP, <- Z.mul_assoc, <- pow_add_nonneg by lia; f_equal; f_equal; unfold k; lia).
  pose proof (pow_pos (e - e') ltac:(lia)) as PP.
  pose proof (Z_div_mod_full (Zpos m * 2 ^ k) (Zpos P) ltac:(lia)) as HD. destruct (Z.div_eucl (Zpos m * 2 ^ k) (Zpos P)) as [q r].
  assert (q = Zpos m * 2 ^ (e - e') /\ r = 0) as [-> ->].
  { destruct HD as [HD HR]. unfold Remainder in HR. rewrite EQ in HD. assert (0 <= r < Zpos P) by lia. assert (q = Zpos m * 2 ^ (e - e')) as -> by nia. split; [reflexivity|lia]. }
  assert (new_location (Zpos P) 0 = loc_Exact) as -> by (unfold new_location, new_location_even, new_location_odd; destruct (Z.even _); reflexivity).
  set (q := Z.to_pos (Zpos m * 2 ^ (e - e'))). assert (Zpos m * 2 ^ (e - e') = Zpos q) as E2 by (unfold q; rewrite Z2Pos.id by nia; reflexivity). rewrite E2.
  pose proof (dlen_mul_pow m q (e - e') (eq_sym E2) ltac:(lia)) as DQ.
  rewrite (round_aux_exact prec emax s q m e' (e - e')); [f_equal; lia|symmetry; exact E2|lia| |lia].
  rewrite DQ. unfold fexp. lia.
Qed.
End One.

Lemma one_f64 : float_one 53 1024 false = S754_finite false (2 ^ 52) (1 - 53). Proof. reflexivity. Qed.
Lemma one_f32 : float_one 24 128 false = S754_finite false (2 ^ 23) (1 - 24). Proof. reflexivity. Qed.
Lemma mul_one64 x : valid_binary 53 1024 x = true -> SFmul 53 1024 x (float_one 53 1024 false) = x.
Proof. intros V. rewrite one_f64. apply mul_unit; [exact f64_format|reflexivity|exact V]. Qed.
Lemma div_one64 x : valid_binary 53 1024 x = true -> SFdiv 53 1024 x (float_one 53 1024 false) = x.
Proof. intros V. rewrite one_f64. apply div_unit; [exact f64_format|reflexivity|exact V]. Qed.
Lemma mul_one32 x : valid_binary 24 128 x = true -> SFmul 24 128 x (float_one 24 128 false) = x.
Proof. intros V. rewrite one_f32. apply mul_unit; [exact f32_format|reflexivity|exact V]. Qed.
Lemma div_one32 x : valid_binary 24 128 x = true -> SFdiv 24 128 x (float_one 24 128 false) = x.
Proof. intros V. rewrite one_f32. apply div_unit; [exact f32_format|reflexivity|exact V]. Qed.

Lemma round_zero64 x : valid_binary 53 1024 x = true -> round_scaled 53 1024 0 x = round_float 53 1024 URint x.
Proof.
  intros V. unfold round_scaled. cbn [powi10]. cbv zeta. rewrite mul_one64 by exact V. apply div_one64. apply (round_float_value 53 1024); [exact f64_format|reflexivity|exact V].
Qed.
Lemma round_zero32 x : valid_binary 24 128 x = true -> round_scaled 24 128 0 x = round_float 24 128 URint x.
Proof.
  intros V. unfold round_scaled. cbn [powi10]. cbv zeta. rewrite mul_one32 by exact V. apply div_one32. apply (round_float_value 24 128); [exact f32_format|reflexivity|exact V].
Qed.

(* ---- arrays ------------------------------------------------------------------- *)
(* the typed loops; int8, bool, float16 and complex go through f64 *)
Definition int_typed (k : kind) : bool := match k with Int64 | Int32 | Int16 | Uint64 | Uint32 | Uint16 | Uint8 => true | _ => false end.
Definition round_out (k : kind) (d : Z) (v : scalar) : scalar :=
  match k, v with
  | Float64, SFlt f => SFlt (round_scaled 53 1024 d f)
  | Float32, SFlt f => SFlt (round_scaled 24 128 d f)
  | (Float64 | Float32), _ => v
  | _, _ => write_f64 k (round_scaled 53 1024 d (as_f64 v))
  end.
Lemma round_spec d x : good x -> int_typed (n_kind x) = false -> (forall v, element (n_kind x) v -> element (n_kind x) (round_out (n_kind x) d v)) ->
  exists z, round x d = Ok (Own, z) /\ good z /\ n_kind z = n_kind x /\ shape_of z = shape_of x /\
    forall idx, inb idx (shape_of x) -> exists v, item_at x idx = Some v /\ element (n_kind x) v /\ item_at z idx = Some (round_out (n_kind x) d v).
Proof.
  intros G HT HE. pose proof (proj1 (proj2 G)) as W. set (k := n_kind x) in *.
  set (f := fun v => match k, v with
    | Float64, SFlt f => Ok (SFlt (round_scaled 53 1024 d f)) | Float32, SFlt f => Ok (SFlt (round_scaled 24 128 d f))
    | (Float64 | Float32), _ => Fault | _, _ => Ok (write_f64 k (round_scaled 53 1024 d (as_f64 v))) end).
  destruct (map_good k f (round_out k d) x (mapM (lift1 f (n_buf x) (n_arr x)) (all_idx (shape_of x))) G (proj1 G)) as (z & E & EZ & GZ & HZ).
  - intros v EV. split; [|exact (HE v EV)]. fold k in EV. unfold f, round_out. destruct k; try reflexivity; destruct v; try contradiction; reflexivity.
  - reflexivity.
  - exists z. split; [|split; [exact GZ|split; [rewrite EZ; reflexivity|split; [rewrite EZ; reflexivity|exact HZ]]]].
    unfold round. fold k. unfold shape_of in *. destruct k eqn:K; try discriminate HT;
      match goal with
      | |- bind (slice_map ?F _ _) _ = _ => rewrite (slice_map_spec F) by exact W
      | |- bind (trait_map ?F _ _) _ = _ => rewrite (trait_map_spec F) by exact W
      end; unfold f in E; rewrite E; cbn [bind]; do 2 f_equal; symmetry; exact EZ.
Qed.

(* no decimals: a nearest whole number *)
Lemma round_out_value k v : real k = true -> int_typed k = false -> element k v ->
  on_finite nearest_of (real_value v) (real_value (round_out k 0 v)) /\ element k (round_out k 0 v).
Proof.
  intros R T EV. pose proof (real_numeric k R) as N.
  assert (forall K, (K = Float64 \/ K = Float32) -> K = k -> on_finite nearest_of (real_value v) (real_value (round_out k 0 v)) /\ element k (round_out k 0 v)) as HT.
  { intros K [->| ->] <-; destruct v as [z|x|x y]; try contradiction; unfold real_value; cbn [round_out value fst].
    - rewrite round_zero64 by exact EV. exact (round_float_value 53 1024 URint x f64_format eq_refl EV).
    - rewrite round_zero32 by exact EV. exact (round_float_value 24 128 URint x f32_format eq_refl EV). }
  destruct (kind_eqb k Float64) eqn:K1; [apply (HT Float64); [auto|symmetry; apply kind_eqb_eq; exact K1]|].
  destruct (kind_eqb k Float32) eqn:K2; [apply (HT Float32); [auto|symmetry; apply kind_eqb_eq; exact K2]|].
  assert (round_out k 0 v = write_f64 k (round_scaled 53 1024 0 (as_f64 v))) as -> by (destruct k; try reflexivity; discriminate).
  assert (fits v) as FV by (apply (narrow_fits k v R); [destruct k; try discriminate T; try discriminate R; reflexivity|exact EV]).
  destruct (as_f64_value k v R EV FV) as [A B]. rewrite round_zero64 by exact B.
  destruct (round_float_value 53 1024 URint (as_f64 v) f64_format eq_refl B) as [C D]. rewrite A in C. change (rounds URint) with nearest_of in C.
  set (y := round_float 53 1024 URint (as_f64 v)) in *.
  assert (holds_value k (float_value y, Fin 0)) as HH.
  { destruct v as [z|x|x' y'].
    - change (real_value (SInt z)) with (Fin (z * one)) in C. destruct C as (r & -> & C). apply (rounds_of_whole URint) in C; [|reflexivity|exists z; reflexivity]. subst r.
      exact (element_holds k (SInt z) N EV).
    - destruct k; try discriminate R; try discriminate K1; try discriminate K2; try contradiction.
      split; [|reflexivity]. exact (rounds_fits 11 16 URint x (float_value y) f16_format eq_refl EV C).
    - destruct k; try discriminate R; contradiction. }
  destruct (write_exact k y N D HH) as [E F]. split; [|exact F]. unfold real_value at 2. rewrite E. exact C.
Qed.

(* integers: toward zero *)
Lemma quot_toward z u : 0 < u -> Z.abs (Z.quot z u * u) <= Z.abs z < Z.abs (Z.quot z u * u) + u /\ 0 <= z * (Z.quot z u * u).
Proof.
  intros HU. assert (forall w, 0 <= w -> 0 <= Z.quot w u * u <= w /\ w < Z.quot w u * u + u) as H.
  { intros w HW. rewrite Z.quot_div_nonneg by lia. pose proof (Z.div_mod w u ltac:(lia)). pose proof (Z.mod_pos_bound w u HU). pose proof (Z.div_pos w u HW HU). nia. }
  destruct (Z.le_gt_cases 0 z) as [L|L].
  - specialize (H z L). split; [lia|apply Z.mul_nonneg_nonneg; lia].
  - specialize (H (- z) ltac:(lia)). rewrite Z.quot_opp_l in H by lia. set (r := Z.quot z u * u) in *. replace (- Z.quot z u * u) with (- r) in H by (unfold r; ring). split; [lia|].
    rewrite <- (Z.opp_involutive z), <- (Z.opp_involutive r), Z.mul_opp_opp. apply Z.mul_nonneg_nonneg; lia.
Qed.
Lemma round_int_exact t d z : ity_ok t -> d < 0 -> 10 ^ (- d) <= i_max t -> 10 ^ (- d) < 2 ^ 63 -> representable t z ->
  round_int t d z = Ok (Z.quot z (10 ^ (- d)) * 10 ^ (- d)) /\ representable t (Z.quot z (10 ^ (- d)) * 10 ^ (- d)).
Proof.
  intros HO HD HM H6 HZ. assert (1 < 10 ^ (- d)) as HP by (apply Z.pow_gt_1; lia). set (u := 10 ^ (- d)) in *.
  assert (i_min t <= 0) as HN by (unfold i_min; destruct (signed t); [|lia]; pose proof (Z.pow_nonneg 2 (bits t - 1)); lia).
  unfold round_int, round_scale. fold u. unfold representable in *.
  rewrite (wrap_id i64 u), (wrap_id t u); [|exact HO|unfold representable; lia|reflexivity|unfold representable; cbn; change (2 ^ 63) with 9223372036854775808 in H6; lia].
  destruct (Z.eqb_spec u 0); [lia|]. clearbody u. pose proof (quot_toward z u ltac:(lia)) as [B1 B2].
  set (r := Z.quot z u * u) in *. clearbody r. assert (i_min t <= r <= i_max t) by nia. rewrite wrap_id; [split; [reflexivity|assumption]|exact HO|assumption].
Qed.
Lemma round_int_spec d x : good x -> int_typed (n_kind x) = true -> d < 0 -> 10 ^ (- d) <= snd (int_range (n_kind x)) -> 10 ^ (- d) < 2 ^ 63 ->
  exists z, round x d = Ok (Own, z) /\ good z /\ n_kind z = n_kind x /\ shape_of z = shape_of x /\
    forall idx, inb idx (shape_of x) -> exists a, item_at x idx = Some (SInt a) /\ item_at z idx = Some (SInt (Z.quot a (10 ^ (- d)) * 10 ^ (- d))).
Proof.
  intros G HT HD HM H6. pose proof (proj1 (proj2 G)) as W. set (k := n_kind x) in *. assert (is_integer k = true) as KI by (destruct k; try discriminate HT; reflexivity).
  destruct (int_of_integer k KI) as (t & KT & OK & _ & _ & M1 & M2).
  set (f := fun v => match v with SInt z => bind (round_int t d z) (fun r => Ok (SInt r)) | _ => Fault end).
  set (g := fun v => match v with SInt z => SInt (Z.quot z (10 ^ (- d)) * 10 ^ (- d)) | _ => v end).
  destruct (map_good k f g x (mapM (lift1 f (n_buf x) (n_arr x)) (all_idx (shape_of x))) G (proj1 G)) as (z & E & EZ & GZ & HZ).
  - intros v EV. fold k in EV. destruct (element_int k v (or_introl KI) EV) as (a & -> & HA). unfold f, g.
    destruct (round_int_exact t d a OK HD ltac:(lia) H6 ltac:(unfold representable; lia)) as [-> B]. split; [reflexivity|].
    apply int_element; [left; exact KI|]. unfold representable in B. lia.
  - reflexivity.
  - exists z. split; [|split; [exact GZ|split; [rewrite EZ; reflexivity|split; [rewrite EZ; reflexivity|]]]].
    + unfold round. fold k. rewrite KT. assert ((0 <=? d) = false) as -> by (apply Z.leb_gt; exact HD). unfold shape_of in E. fold f. rewrite (slice_map_spec f) by exact W. rewrite E. cbn [bind].
      replace (mkN k (n_buf z) (fresh (a_shape (n_arr x)) (itemsize k))) with z by exact EZ. destruct k; try discriminate HT; reflexivity.
    + intros idx Hi. destruct (HZ idx Hi) as (v & Hv & EV & Hz). fold k in EV. destruct (element_int k v (or_introl KI) EV) as (a & -> & HA). exists a. split; [exact Hv|exact Hz].
Qed.

(* ---- decimals of a float64 ------------------------------------------------------ *)
Lemma valid_value_inj x y : valid_binary 53 1024 x = true -> valid_binary 53 1024 y = true -> float_value x = float_value y ->
  float_value x <> Fin 0 -> float_value x <> NaN -> x = y.
Proof.
  intros VX VY E NZ NN. pose proof (compare_value 53 1024 x y ltac:(lia) ltac:(vm_compute; discriminate) VX VY) as C. rewrite E in C.
  assert (ext_compare (float_value y) (float_value y) = Some Eq) as C1 by (rewrite <- E; destruct (float_value x) as [|[]|a]; try reflexivity; [congruence|cbn; rewrite Z.compare_refl; reflexivity]).
  rewrite C1 in C. destruct x as [s|s| |s m e], y as [t|t| |t m' e']; cbn [SFcompare] in C; try discriminate C; try (destruct s; discriminate C); try (destruct t; discriminate C); try (exfalso; apply NZ; reflexivity).
  - destruct s, t; try discriminate C; reflexivity.
  - destruct s, t; try discriminate C; destruct (Z.compare_spec e e') as [->|L|L]; try discriminate C.
    + injection C as C. destruct (Pos.compare_cont Eq m m') eqn:EM; try discriminate C. apply Pos.compare_eq in EM. subst. reflexivity.
    + injection C as C. apply Pos.compare_eq in C. subst. reflexivity.
Qed.
Lemma powi10_int d : 0 <= d <= 15 -> powi10 53 1024 d = f64_int (10 ^ d).
Proof.
  intros H. assert (d = 0 \/ d = 1 \/ d = 2 \/ d = 3 \/ d = 4 \/ d = 5 \/ d = 6 \/ d = 7 \/ d = 8 \/ d = 9 \/ d = 10 \/ d = 11 \/ d = 12 \/ d = 13 \/ d = 14 \/ d = 15) as C by lia.
  repeat destruct C as [-> | C]; try (subst d); vm_compute; reflexivity.
Qed.
Lemma fin_shape s m e : 2 ^ 52 <= m <= 2 ^ 53 -> -1000 <= e <= 900 ->
  exists q e', fin s m e = S754_finite s q e' /\ dlen q = 53 /\ e <= e' <= e + 1 /\ Zpos q * 2 ^ (e' + 1074) = m * 2 ^ (e + 1074).
Proof.
  intros HM HE. unfold fin. destruct (Z.eqb_spec m (2 ^ 53)) as [->|N].
  - exists (2 ^ 52)%positive, (e + 1). split; [reflexivity|]. split; [reflexivity|]. split; [lia|]. replace (e + 1 + 1074) with (1 + (e + 1074)) by lia.
    rewrite pow_add_nonneg by lia. change (Zpos (2 ^ 52)) with (2 ^ 52). change (2 ^ 53) with (2 ^ 52 * 2 ^ 1). ring.
  - exists (Z.to_pos m), e. split; [reflexivity|]. assert (Zpos (Z.to_pos m) = m) as E by (apply Z2Pos.id; lia). split; [apply dlen_unique; rewrite ?E; change (53 - 1) with 52; lia|]. split; [lia|]. rewrite E. reflexivity.
Qed.
Lemma finite53_valid s q e : dlen q = 53 -> -1000 <= e <= 900 -> valid_binary 53 1024 (S754_finite s q e) = true.
Proof. intros D R. apply valid_intro; [lia|lia|unfold SpecFloat.emin; lia|right; exact D]. Qed.

Lemma decimals_fixed d s p : 0 <= d <= 15 -> Zpos p < 2 ^ 50 ->
  round_scaled 53 1024 d (fdiv (canon s p) (f64_int (10 ^ d))) = fdiv (canon s p) (f64_int (10 ^ d)).
Proof.
  intros HD HP. unfold round_scaled. rewrite powi10_int by exact HD. cbv zeta.
  assert (0 < 10 ^ d < 2 ^ 53) as HT. { split; [apply Z.pow_pos_nonneg; lia|]. apply Z.le_lt_trans with (10 ^ 15); [apply Z.pow_le_mono_r; lia|reflexivity]. }
  destruct (10 ^ d) as [|t|t] eqn:ET; try lia. rewrite f64_int_pos by lia. clear ET HD d.
  destruct (fdiv_near s p false t ltac:(lia) ltac:(lia)) as (m & E & EQ & HE & HM & L & R). rewrite xorb_false_r in EQ.
  assert (SFdiv 53 1024 (canon s p) (canon false t) = fin s m (- E)) as EQ' by exact EQ.
  enough (round_float 53 1024 URint (SFmul 53 1024 (fdiv (canon s p) (canon false t)) (canon false t)) = canon s p) as -> by reflexivity.
  rewrite EQ. destruct (fin_shape s m (- E) HM ltac:(lia)) as (q & e & -> & DQ & He & VQ).
  destruct (canon_m t ltac:(lia)) as [EP DP]. pose proof (dlen_le t 53 ltac:(lia)) as T1. pose proof (dlen_pos t) as T2. unfold canon at 1. set (P := Z.to_pos (Zpos t * 2 ^ (53 - dlen t))) in *.
  cbn [SFmul]. rewrite xorb_false_r. set (w := e + (dlen t - 53)).
  assert (dlen (q * P) = 105 \/ dlen (q * P) = 106) as DD.
  { pose proof (dlen_bounds q) as B1. pose proof (dlen_bounds P) as B2. rewrite DQ in B1. rewrite DP in B2. change (53 - 1) with 52 in *.
    destruct (Z.le_gt_cases (2 ^ 105) (Zpos q * Zpos P)) as [G|G]; [right|left]; (apply dlen_unique; [rewrite Pos2Z.inj_mul|lia]).
    - change (106 - 1) with 105. split; [exact G|]. apply Z.lt_le_trans with (2 ^ 53 * 2 ^ 53); [apply Z.mul_lt_mono_nonneg; lia|vm_compute; discriminate].
    - change (105 - 1) with 104. split; [|exact G]. apply Z.le_trans with (2 ^ 52 * 2 ^ 52); [vm_compute; discriminate|apply Z.mul_le_mono_nonneg; lia]. }
  destruct (round_aux_near s (q * P) w loc_Exact (Zpos (q * P)) 1) as (m2 & -> & HM2 & R2).
  { split; [lia|]. split; [discriminate|]. cbn [shr_record_of_loc shr_m shr_r shr_s]. cbv zeta. rewrite Z.mul_1_r, Z.sub_diag. reflexivity. }
  { lia. } { unfold w. lia. }
  set (a := dlen (q * P) - 53) in *. rewrite Z.mul_1_r in R2.
  destruct (fin_shape s m2 (w + a) HM2 ltac:(unfold w; lia)) as (q2 & e2 & -> & DQ2 & He2 & VQ2).
  assert (valid_binary 53 1024 (S754_finite s q2 e2) = true) as V2 by (apply finite53_valid; [exact DQ2|unfold w in He2; lia]).
  destruct (round_float_value 53 1024 URint (S754_finite s q2 e2) f64_format eq_refl V2) as [RV VV]. cbn [float_value on_finite] in RV. destruct RV as (r & RE & [[z ->] RN]).
  pose proof (canon_m p ltac:(lia)) as [EC DC]. pose proof (dlen_le p 53 ltac:(lia)) as T3. pose proof (dlen_pos p) as T4.
  assert (float_value (canon s p) = Fin (cond_Zopp s (Zpos p) * one)) as VC.
  { unfold canon. cbn [float_value]. do 1 f_equal. set (pm := Z.to_pos (Zpos p * 2 ^ (53 - dlen p))) in *.
    assert (Zpos pm * 2 ^ (dlen p - 53 + 1074) = Zpos p * one) as EE by (rewrite EC, <- Z.mul_assoc, <- pow_add_nonneg by lia; unfold one; do 2 f_equal; lia).
    destruct s; cbn [cond_Zopp]; [change (Zneg pm) with (- Zpos pm); change (Zneg p) with (- Zpos p); rewrite !Z.mul_opp_l; f_equal; exact EE|exact EE]. }
  pose proof one_pos as O1.
  (* the product is within half of p *)
  assert (2 * Z.abs (Zpos q2 * 2 ^ (e2 + 1074) - Zpos p * one) < one) as KEY.
  { rewrite VQ2. set (Y := m2 * 2 ^ (w + a + 1074)). set (V := m * Zpos t * 2 ^ (1074 - E)). set (U := 2 ^ (w + a + 1074)). set (T := Zpos t * 2 ^ (1074 - E)). set (K := Zpos p * one).
    assert (Zpos (q * P) * 2 ^ (w + 1074) = V) as EV.
    { unfold V. rewrite Pos2Z.inj_mul, EP. replace (1074 - E) with (- E + 1074) by lia. replace (m * Zpos t * 2 ^ (- E + 1074)) with (m * 2 ^ (- E + 1074) * Zpos t) by ring. rewrite <- VQ.
      replace (2 ^ (e + 1074)) with (2 ^ (53 - dlen t) * 2 ^ (w + 1074)) by (rewrite <- pow_add_nonneg by (unfold w; lia); f_equal; unfold w; lia). ring. }
    assert (U = 2 ^ a * 2 ^ (w + 1074)) as EU by (unfold U; rewrite <- pow_add_nonneg by (unfold w, a; lia); f_equal; lia).
    pose proof (pow_pos (w + 1074) ltac:(unfold w; lia)) as W1.
    assert (2 * Z.abs (Y - V) <= U) as I1.
    { rewrite EU. unfold Y. fold U. rewrite EU, <- EV. replace (m2 * (2 ^ a * 2 ^ (w + 1074)) - Zpos (q * P) * 2 ^ (w + 1074)) with ((m2 * 2 ^ a - Zpos (q * P)) * 2 ^ (w + 1074)) by ring.
      rewrite Z.abs_mul, (Z.abs_eq (2 ^ (w + 1074))) by lia. rewrite Z.mul_assoc. apply Z.mul_le_mono_nonneg_r; [lia|exact R2]. }
    assert (2 ^ 52 * U <= V) as I2.
    { rewrite <- EV, EU, Z.mul_assoc. apply Z.mul_le_mono_nonneg_r; [lia|]. pose proof (dlen_bounds (q * P)) as [B _]. rewrite <- pow_add_nonneg by (unfold a; lia). replace (52 + a) with (dlen (q * P) - 1) by (unfold a; lia). exact B. }
    pose proof (pow_pos (1074 - E) ltac:(lia)) as W2.
    assert (K = Zpos p * 2 ^ E * 2 ^ (1074 - E)) as EK by (unfold K, one; rewrite <- Z.mul_assoc, <- pow_add_nonneg by lia; do 2 f_equal; lia).
    assert (2 * Z.abs (V - K) <= T) as I3.
    { rewrite EK. unfold V, T. rewrite <- Z.mul_sub_distr_r, Z.abs_mul, (Z.abs_eq (2 ^ (1074 - E))) by lia. rewrite Z.mul_assoc. apply Z.mul_le_mono_nonneg_r; [lia|exact R]. }
    assert (2 ^ 52 * T <= K) as I4 by (rewrite EK; unfold T; rewrite Z.mul_assoc; apply Z.mul_le_mono_nonneg_r; [lia|exact L]).
    assert (K < 2 ^ 50 * one) as I5 by (unfold K; apply Z.mul_lt_mono_pos_r; assumption).
    change (2 ^ 52) with 4503599627370496 in *. change (2 ^ 50) with 1125899906842624 in *. clearbody Y V U T K. clear - I1 I2 I3 I4 I5 O1. lia. }
  assert (z = cond_Zopp s (Zpos p)) as ->.
  { set (A := Zpos q2 * 2 ^ (e2 + 1074)) in *. assert (cond_Zopp s (Zpos q2) * 2 ^ (e2 + 1074) = cond_Zopp s A) as EA by (destruct s; cbn [cond_Zopp]; unfold A; [change (Zneg q2) with (- Zpos q2)|]; ring).
    rewrite EA in RN. set (o := one) in *. clearbody o A. clear - RN KEY O1. set (c := cond_Zopp s (Zpos p)).
    assert (2 * Z.abs (cond_Zopp s A - c * o) < o) as K2 by (unfold c; destruct s; cbn [cond_Zopp]; [change (Zneg p) with (- Zpos p); rewrite Z.mul_opp_l|]; set (po := Zpos p * o) in *; clearbody po; lia).
    set (X := cond_Zopp s A) in *. clearbody X c. clear KEY. assert (Z.abs ((z - c) * o) < o) as K3 by (rewrite Z.mul_sub_distr_r; lia).
    rewrite Z.abs_mul, (Z.abs_eq o) in K3 by lia. assert (Z.abs (z - c) < 1) by (apply Z.mul_lt_mono_pos_r with o; lia). lia. }
  assert (Zpos p * one <> 0) as NZ by (apply Z.neq_mul_0; split; [discriminate|lia]).
  apply valid_value_inj; [exact VV| |congruence| |].
  - unfold canon. apply finite53_valid; [exact DC|lia].
  - rewrite RE. intros H. apply fin_inj in H. destruct s; cbn [cond_Zopp] in H; [change (Zneg p) with (- Zpos p) in H|]; lia.
  - rewrite RE. discriminate.
Qed.

(* ---- clip of an array ------------------------------------------------------------- *)
Lemma clip_spec lo hi x : good x -> real (n_kind x) = true -> bound (n_kind x) lo -> bound (n_kind x) hi ->
  exists z, clip x lo hi = Ok z /\ good z /\ n_kind z = n_kind x /\ shape_of z = shape_of x /\
    forall idx, inb idx (shape_of x) -> exists v w, item_at x idx = Some v /\ element (n_kind x) v /\ item_at z idx = Some w /\
      real_value w = clip_ext (bound_value lo) (bound_value hi) (real_value v).
Proof.
  intros G R BL BH. pose proof (proj1 (proj2 G)) as W. set (k := n_kind x) in *.
  set (f := fun v => @Ok scalar (clip_out k lo hi v)).
  destruct (map_good k f (clip_out k lo hi) x (mapM (lift1 f (n_buf x) (n_arr x)) (all_idx (shape_of x))) G (proj1 G)) as (z & E & EZ & GZ & HZ).
  - intros v EV. split; [reflexivity|]. apply clip_out_value; assumption.
  - reflexivity.
  - exists z. split; [|split; [exact GZ|split; [rewrite EZ; reflexivity|split; [rewrite EZ; reflexivity|]]]].
    + unfold clip. fold k. unfold shape_of in E. assert ((if clip_typed k then slice_map (fun v => Ok (clip_elem k lo hi v)) (n_buf x) (n_arr x) else trait_map (fun v => Ok (write_f64 k (clip_f64 lo hi (as_f64 v)))) (n_buf x) (n_arr x)) = Ok (n_buf z)) as ->.
      { rewrite <- E. unfold f, clip_out. destruct (clip_typed k); [apply slice_map_spec|apply trait_map_spec]; exact W. }
      cbn [bind]. f_equal. symmetry. exact EZ.
    + intros idx Hi. destruct (HZ idx Hi) as (v & Hv & EV & Hz). exists v, (clip_out k lo hi v). split; [exact Hv|]. split; [exact EV|]. split; [exact Hz|]. apply clip_out_value; assumption.
Qed.
Lemma ext_le_lt_trans e f g : ext_le e f -> ext_lt f g -> ext_lt e g.
Proof.
  intros H1 H2. destruct (ext_lt_not_nan _ _ H2) as [NF NG]. assert (e <> NaN) as NE by (intros ->; destruct f; exact H1).
  destruct (ext_total e f NE NF) as [L|[->|L]]; [eapply ext_lt_trans; eassumption|exact H2|]. apply (ext_le_iff e f NE NF) in H1. contradiction.
Qed.
Lemma ext_le_trans e f g : ext_le e f -> ext_le f g -> ext_le e g.
Proof.
  intros H1 H2. assert (e <> NaN) as NE by (intros ->; destruct f; exact H1). assert (f <> NaN) as NF by (intros ->; destruct g; exact H2).
  assert (g <> NaN) as NG by (intros ->; destruct f as [|[]|]; exact H2). apply (ext_le_iff e g NE NG). intros L.
  pose proof (ext_le_lt_trans _ _ _ H2 L) as L'. apply (ext_le_iff e f NE NF) in H1. contradiction.
Qed.
Lemma clip_ext_idem lo hi e : not_nan lo -> not_nan hi -> clip_ext lo hi (clip_ext lo hi e) = clip_ext lo hi e.
Proof.
  intros NL NH. destruct e as [|s|x] eqn:EE; [destruct lo as [l|], hi as [h|]; reflexivity| |].
  all: rewrite <- EE; assert (e <> NaN) as NE by (rewrite EE; discriminate); clear EE.
  all: assert (forall a b, says CLt (ext_compare a b) = true \/ says CLt (ext_compare a b) = false) as DL by (intros; destruct (says _ _); auto).
  all: assert (forall a b, says CGt (ext_compare a b) = true \/ says CGt (ext_compare a b) = false) as DG by (intros; destruct (says _ _); auto).
  all: assert (forall a, says CLt (ext_compare a a) = false) as RL by (intros a; destruct (says CLt (ext_compare a a)) eqn:S1; [apply says_lt in S1; apply ext_lt_irrefl in S1; contradiction|reflexivity]).
  all: assert (forall a, says CGt (ext_compare a a) = false) as RG by (intros a; destruct (says CGt (ext_compare a a)) eqn:S1; [apply says_gt in S1; apply ext_lt_irrefl in S1; contradiction|reflexivity]).
  all: unfold clip_ext; destruct lo as [l|], hi as [h|]; try reflexivity.
  all: repeat match goal with
       | |- context[if says ?c (ext_compare ?a ?a) then _ else _] => first [rewrite RL|rewrite RG]
       | |- context[if says ?c (ext_compare ?a ?b) then _ else _] => let S1 := fresh "S1" in destruct (says c (ext_compare a b)) eqn:S1; cbv iota
       end; try reflexivity; try congruence.
  all: repeat match goal with
       | H : context[if says CLt (ext_compare ?a ?a) then _ else _] |- _ => rewrite RL in H
       | H : context[if says CGt (ext_compare ?a ?a) then _ else _] |- _ => rewrite RG in H
       | A : says ?c (ext_compare ?a ?b) = _, H : context[if says ?c (ext_compare ?a ?b) then _ else _] |- _ => rewrite A in H
       end; try congruence.
  all: exfalso; match goal with A : says CLt (ext_compare ?h ?l) = true, B : says CGt (ext_compare ?l ?h) = false |- _ => apply says_lt in A; apply says_gt in A; congruence end.
Qed.
Lemma ext_le_not_nan e f : ext_le e f -> e <> NaN /\ f <> NaN.
Proof. intros H. split; intros ->; [destruct f; exact H|destruct e as [|[]|]; exact H]. Qed.
Lemma clip_ext_mono lo hi e f : not_nan lo -> not_nan hi -> ext_le e f -> ext_le (clip_ext lo hi e) (clip_ext lo hi f).
Proof.
  intros NL NH H. destruct (ext_le_not_nan e f H) as [NE NF].
  assert (forall l e f, l <> NaN -> ext_le e f -> ext_le (if says CLt (ext_compare e l) then l else e) (if says CLt (ext_compare f l) then l else f)) as ML.
  { clear. intros l e f NL H. destruct (ext_le_not_nan e f H) as [NE NF]. destruct (says CLt (ext_compare f l)) eqn:S1.
    - apply says_lt in S1. pose proof (ext_le_lt_trans _ _ _ H S1) as S2. apply says_lt in S2. rewrite S2. apply ext_le_refl; exact NL.
    - assert (ext_le l f) by (apply (ext_le_iff l f NL NF); intros L; apply says_lt in L; congruence). destruct (says CLt (ext_compare e l)); assumption. }
  assert (forall h e f, h <> NaN -> ext_le e f -> ext_le (if says CGt (ext_compare e h) then h else e) (if says CGt (ext_compare f h) then h else f)) as MH.
  { clear. intros l e f NL H. destruct (ext_le_not_nan e f H) as [NE NF]. destruct (says CGt (ext_compare e l)) eqn:S1.
    - apply says_gt in S1. assert (says CGt (ext_compare f l) = true) as ->; [|apply ext_le_refl; exact NL]. apply says_gt.
      destruct (ext_total l f NL NF) as [A|[A|A]]; [exact A| |]; exfalso; [subst f; apply (ext_le_iff e l NE NL) in H; contradiction|].
      apply (ext_le_iff e f NE NF) in H. apply H. eapply ext_lt_trans; eassumption.
    - assert (ext_le e l) by (apply (ext_le_iff e l NE NL); intros L; apply says_gt in L; congruence). destruct (says CGt (ext_compare f l)); assumption. }
  unfold clip_ext. destruct lo as [l|], hi as [h|]; try exact H.
  - apply MH; [intros ->; apply NH; reflexivity|]. apply ML; [intros ->; apply NL; reflexivity|exact H].
  - apply ML; [intros ->; apply NL; reflexivity|exact H].
  - apply MH; [intros ->; apply NH; reflexivity|exact H].
Qed.

(* ---- laws of rounding ---------------------------------------------------------------- *)
Lemma whole_gap a b : whole a -> whole b -> a < b + one -> a <= b.
Proof.
  intros [z ->] [w ->] H. pose proof one_pos as HO. set (o := one) in *. clearbody o. assert (z < w + 1) by (apply Z.mul_lt_mono_pos_r with o; lia).
  apply Z.mul_le_mono_nonneg_r; lia.
Qed.
Lemma floor_unique x r r' : floor_of x r -> floor_of x r' -> r = r'.
Proof. intros [W H] [W' H']. apply Z.le_antisymm; apply whole_gap; try assumption; lia. Qed.
Lemma ceil_unique x r r' : ceil_of x r -> ceil_of x r' -> r = r'.
Proof. intros [W H] [W' H']. apply Z.le_antisymm; apply whole_gap; try assumption; lia. Qed.
Lemma floor_le_rounds op x f r : is_rounding op = true -> floor_of x f -> rounds op x r -> f <= r.
Proof.
  intros HO [HF H] HR. destruct (rounds_near op x r HO HR) as [HW _]. apply whole_gap; [exact HF|exact HW|]. pose proof one_pos.
  destruct op; try discriminate HO; destruct HR as [_ HR]; nia.
Qed.
Lemma rounds_le_ceil op x c r : is_rounding op = true -> ceil_of x c -> rounds op x r -> r <= c.
Proof.
  intros HO [HF H] HR. destruct (rounds_near op x r HO HR) as [HW _]. apply whole_gap; [exact HW|exact HF|]. pose proof one_pos.
  destruct op; try discriminate HO; destruct HR as [_ HR]; nia.
Qed.
Lemma floor_ceil x r : floor_of x r -> ceil_of (- x) (- r).
Proof. intros [[z ->] H]. split; [exists (- z); ring|lia]. Qed.
Lemma floor_mono x y f g : x <= y -> floor_of x f -> floor_of y g -> f <= g.
Proof. intros L [HF H] [HG H']. apply whole_gap; [exact HF|exact HG|lia]. Qed.
Lemma ceil_mono x y f g : x <= y -> ceil_of x f -> ceil_of y g -> f <= g.
Proof. intros L [HF H] [HG H']. apply whole_gap; [exact HF|exact HG|lia]. Qed.
Lemma trunc_mono x y f g : x <= y -> trunc_of x f -> trunc_of y g -> f <= g.
Proof. intros L [HF [H S1]] [HG [H' S2]]. apply whole_gap; [exact HF|exact HG|]. pose proof one_pos. nia. Qed.

(* ---- negative, absolute, sign -------------------------------------------------------- *)
Lemma int_wrap_value k t z : is_integer k = true -> int_of k = Some t -> holds_value k (Fin (z * one), Fin 0) -> wrap t z = z.
Proof.
  intros KI KT H. destruct (int_of_integer k KI) as (t' & KT' & OK & _ & _ & M1 & M2). rewrite KT in KT'. injection KT' as <-.
  assert (element k (SInt z)) as EV.
  { assert (holds k (z * one, 0)) as HH by (destruct k; try discriminate KI; destruct H as (y & E & H); injection E as <-; exact H). destruct k; try discriminate KI; exact HH. }
  apply int_element in EV; [|left; exact KI]. apply wrap_id; [exact OK|]. unfold representable. lia.
Qed.
Definition exact_op (op : uop) (e : ext) : ext := match op with UNeg => ext_opp e | UAbs => ext_abs e | USign => ext_sgn e | _ => e end.
Lemma exact_value op e e' : is_rounding op = false -> unary_value op e e' -> e' = exact_op op e.
Proof. destruct op; try discriminate; intros _ H; exact H. Qed.
Lemma real_cases k : real k = true -> k = Bool \/ is_integer k = true \/ is_float_kind k = true.
Proof. destruct k; try discriminate; auto. Qed.
Lemma exact_out k op v : real k = true -> is_rounding op = false -> element k v -> (op = UNeg -> k <> Bool) ->
  holds_value k (exact_op op (real_value v), Fin 0) -> real_value (unary_out k op v) = exact_op op (real_value v).
Proof.
  intros R HO EV HB HH. destruct (real_cases k R) as [->|[KI|KF]].
  - destruct (element_int Bool v (or_intror eq_refl) EV) as (z & -> & HZ). cbn [int_range fst snd] in HZ. unfold real_value. cbn [unary_out value fst].
    destruct op; try discriminate HO; cbn [exact_op ext_abs ext_sgn]; [exfalso; apply HB; reflexivity| | |reflexivity].
    + pose proof one_pos. f_equal. rewrite Z.abs_mul, !Z.abs_eq by lia. reflexivity.
    + pose proof one_pos. f_equal. f_equal. rewrite Z.sgn_mul, (Z.sgn_pos one), Z.mul_1_r by lia. assert (z = 0 \/ z = 1) as [-> | ->] by lia; reflexivity.
  - destruct (element_int k v (or_introl KI) EV) as (z & -> & HZ). destruct (int_of_integer k KI) as (t & KT & OK & _ & _ & M1 & M2). pose proof one_pos.
    assert (real_value (unary_out k op (SInt z)) = Fin (int_unary t op z * one)) as ->.
    { unfold real_value. cbn [unary_out value fst]. rewrite KT. destruct k; try discriminate KI; reflexivity. }
    change (real_value (SInt z)) with (Fin (z * one)) in *. destruct op; try discriminate HO; cbn [exact_op ext_abs ext_sgn ext_opp int_unary] in *.
    + rewrite <- Z.mul_opp_l in *. rewrite (int_wrap_value k t (- z) KI KT HH). reflexivity.
    + rewrite Z.abs_mul, (Z.abs_eq one) in * by lia. rewrite (int_wrap_value k t (Z.abs z) KI KT HH). reflexivity.
    + rewrite Z.sgn_mul, (Z.sgn_pos one), Z.mul_1_r by lia. reflexivity.
    + reflexivity.
  - apply exact_value; [exact HO|]. apply unary_out_value; [exact R|exact EV|right; exact KF].
Qed.
Lemma double_neg k v : numeric k = true -> element k v -> value (unary_out k UNeg (unary_out k UNeg v)) = value v.
Proof.
  assert (forall e, ext_opp (ext_opp e) = e) as OO by (intros [|[]|x]; cbn; try reflexivity; rewrite Z.opp_involutive; reflexivity).
  assert (forall x, is_float_kind k = true -> valid_in k x -> float_value (float_kernel k UNeg (float_kernel k UNeg x)) = float_value x) as HF.
  { intros x KF V. destruct (kernel_value k UNeg x KF V) as [A B]. destruct (kernel_value k UNeg _ KF B) as [C _]. cbn [unary_value] in A, C. rewrite C, A. apply OO. }
  intros N EV. destruct v as [z|x|x y].
  - cbn [unary_out value]. assert (is_integer k = true \/ k = Bool) as K by (destruct k; try discriminate N; try contradiction; auto).
    destruct K as [KI| ->]; [|replace (1 - (1 - z)) with z by lia; reflexivity]. destruct (int_of_integer k KI) as (t & KT & OK & _ & _ & M1 & M2).
    apply int_element in EV; [|left; exact KI]. rewrite KT. cbn [int_unary]. assert (wrap t (- wrap t (- z)) = z) as E.
    { rewrite <- (Z.sub_0_l (wrap t (- z))), wrap_sub_r by exact OK. replace (0 - - z) with z by lia. apply wrap_id; [exact OK|unfold representable; lia]. }
    destruct k; try discriminate KI; rewrite E; reflexivity.
  - cbn [unary_out value]. rewrite HF; [reflexivity| |]; destruct k; try contradiction; try reflexivity; exact EV.
  - cbn [unary_out value]. rewrite !HF; [reflexivity| | | |]; destruct k; try contradiction; try reflexivity; apply EV.
Qed.
