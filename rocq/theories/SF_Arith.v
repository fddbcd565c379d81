(* binary64 arithmetic (Coq.Floats.SpecFloat) on floats that are integers: sums,
   differences and products are exact below 2^53, quotients are rounded to nearest. *)
From Coq Require Import SpecFloat.
From Verif Require Import Base Rng_Model SF_Proofs.
Local Open Scope Z_scope.

Notation fadd := (SFadd 53 1024).
Notation fsub := (SFsub 53 1024).
Notation fmul := (SFmul 53 1024).
Notation fdiv := (SFdiv 53 1024).

(* the float with sign s and integer magnitude k < 2^53 *)
Definition canon (s : bool) (k : positive) : spec_float :=
  S754_finite s (Z.to_pos (Zpos k * 2 ^ (53 - dlen k))) (dlen k - 53).

Lemma pow2_pos k : 0 < 2 ^ k \/ k < 0.
Proof. destruct (Z_lt_dec k 0); [now right|left]. apply Z.pow_pos_nonneg; lia. Qed.
Lemma dlen_pos p : 1 <= dlen p. Proof. unfold dlen; lia. Qed.
Lemma dlen_le p n : Zpos p < 2 ^ n -> dlen p <= n.
Proof.
  intro H. pose proof (dlen_bounds p) as B. pose proof (dlen_pos p). destruct (Z_le_gt_dec (dlen p) n) as [|G]; [assumption|].
  destruct (Z_lt_dec n 0) as [L|L]; [rewrite Z.pow_neg_r in H by lia; lia|].
  assert (2 ^ n <= 2 ^ (dlen p - 1)) by (apply Z.pow_le_mono_r; lia). lia.
Qed.
Lemma canon_m k : Zpos k < 2 ^ 53 -> let m := Z.to_pos (Zpos k * 2 ^ (53 - dlen k)) in
  Zpos m = Zpos k * 2 ^ (53 - dlen k) /\ dlen m = 53.
Proof.
  intros H m. pose proof (dlen_le k 53 H). assert (0 < 2 ^ (53 - dlen k)) by (apply Z.pow_pos_nonneg; lia).
  assert (Zpos m = Zpos k * 2 ^ (53 - dlen k)) as E by (unfold m; rewrite Z2Pos.id; nia).
  split; [exact E|]. rewrite (dlen_mul_pow k m (53 - dlen k) E) by lia. lia.
Qed.

Lemma round_int s p ez k : Zpos k < 2 ^ 53 -> ez <= 0 -> Zpos p = Zpos k * 2 ^ (- ez) ->
  binary_round 53 1024 s p ez = canon s k.
Proof.
  intros Hk He Hp. destruct (canon_m k Hk) as [Em Dm]. unfold canon.
  set (q := Z.to_pos (Zpos k * 2 ^ (53 - dlen k))) in *. pose proof (dlen_le k 53 Hk) as D. pose proof (dlen_pos k) as D1.
  assert (dlen p = dlen k - ez) as Dp by (rewrite (dlen_mul_pow k p (- ez) Hp); lia).
  unfold binary_round. change (Zpos (digits2_pos p)) with (dlen p). rewrite Dp.
  replace (dlen k - ez + ez) with (dlen k) by lia.
  assert (fexp 53 1024 (dlen k) = dlen k - 53) as Hf by (unfold fexp, emin; lia). rewrite Hf.
  destruct (Z_le_gt_dec ez (dlen k - 53)) as [L|L].
  - assert (shl_align p ez (dlen k - 53) = (p, ez)) as ->.
    { unfold shl_align. destruct (dlen k - 53 - ez) eqn:E; try lia; reflexivity. }
    rewrite (round_aux_exact 53 1024 s p q ez (dlen k - 53 - ez)); [f_equal; lia | | lia | | lia].
    + rewrite Hp, Em, <- Z.mul_assoc, <- Z.pow_add_r by lia. f_equal. f_equal. lia.
    + rewrite Dp. replace (dlen k - ez + ez) with (dlen k) by lia. rewrite Hf. lia.
  - assert (shl_align p ez (dlen k - 53) = (q, dlen k - 53)) as ->.
    { unfold shl_align. destruct (dlen k - 53 - ez) as [|z|z] eqn:E; try lia. f_equal.
      apply Pos2Z.inj. rewrite shift_pos_mul, Em, Hp, <- Z.mul_assoc, <- Z.pow_add_r by lia. f_equal. f_equal. lia. }
    rewrite (round_aux_exact 53 1024 s q q (dlen k - 53) 0); [f_equal; lia | change (2 ^ 0) with 1; lia | lia | | lia].
    rewrite Dm. replace (53 + (dlen k - 53)) with (dlen k) by lia. rewrite Hf. lia.
Qed.

Lemma f64_int_canon z : f64_int z = match z with Z0 => S754_zero false | Zpos p => binary_round 53 1024 false p 0 | Zneg p => binary_round 53 1024 true p 0 end.
Proof. destruct z; reflexivity. Qed.
Lemma f64_int_pos k : Zpos k < 2 ^ 53 -> f64_int (Zpos k) = canon false k.
Proof. intro H. rewrite f64_int_canon. apply round_int; [exact H|lia|cbn [Z.opp]; change (2 ^ 0) with 1; lia]. Qed.
Lemma f64_int_neg k : Zpos k < 2 ^ 53 -> f64_int (Zneg k) = canon true k.
Proof. intro H. rewrite f64_int_canon. apply round_int; [exact H|lia|cbn [Z.opp]; change (2 ^ 0) with 1; lia]. Qed.

Lemma canon_is s k : Zpos k < 2 ^ 53 -> sf_is (canon s k) (if s then Zneg k else Zpos k) 0.
Proof.
  intro H. destruct (canon_m k H) as [Em _]. unfold canon, sf_is. pose proof (dlen_le k 53 H).
  rewrite Z.min_r by lia. replace (dlen k - 53 - (dlen k - 53)) with 0 by lia. replace (0 - (dlen k - 53)) with (53 - dlen k) by lia.
  change (2 ^ 0) with 1. rewrite Z.mul_1_r. destruct s; [|exact Em].
  change (Zneg (Z.to_pos (Zpos k * 2 ^ (53 - dlen k)))) with (- Zpos (Z.to_pos (Zpos k * 2 ^ (53 - dlen k)))). rewrite Em. change (Zneg k) with (- Zpos k). ring.
Qed.
Lemma f64_int_is z : Z.abs z < 2 ^ 53 -> sf_is (f64_int z) z 0.
Proof.
  intro H. destruct z as [|k|k]; [reflexivity| |].
  - rewrite f64_int_pos by exact H. exact (canon_is false k H).
  - rewrite f64_int_neg by exact H. exact (canon_is true k H).
Qed.

(* any presentation M * 2^e of a small integer is normalised to the same float *)
Lemma normalize_int M ez k s0 : Z.abs k < 2 ^ 53 -> ez <= 0 -> M = k * 2 ^ (- ez) ->
  binary_normalize 53 1024 M ez s0 = if k =? 0 then S754_zero s0 else f64_int k.
Proof.
  intros Hk He E. assert (0 < 2 ^ (- ez)) as Hp by (apply Z.pow_pos_nonneg; lia).
  destruct k as [|k|k]; cbn [Z.eqb].
  - subst M. reflexivity.
  - destruct M as [|p|p]; try nia. cbn [binary_normalize]. rewrite f64_int_pos by exact Hk. apply round_int; assumption.
  - destruct M as [|p|p]; try nia. cbn [binary_normalize]. rewrite f64_int_neg by exact Hk. apply round_int; [exact Hk|exact He|nia].
Qed.

Definition zsgn (s : bool) (p : positive) : Z := if s then Zneg p else Zpos p.
Lemma f64_int_sgn s k : Zpos k < 2 ^ 53 -> f64_int (zsgn s k) = canon s k.
Proof. destruct s; [apply f64_int_neg|apply f64_int_pos]. Qed.
Lemma zsgn_abs s p : Z.abs (zsgn s p) = Zpos p. Proof. now destruct s. Qed.
Lemma cond_opp s p : cond_Zopp s (Zpos p) = zsgn s p. Proof. now destruct s. Qed.

(* aligning the mantissa of a small integer to a smaller exponent *)
Lemma shl_align_canon s k ez : Zpos k < 2 ^ 53 -> ez <= dlen k - 53 ->
  cond_Zopp s (Zpos (fst (shl_align (Z.to_pos (Zpos k * 2 ^ (53 - dlen k))) (dlen k - 53) ez))) = zsgn s k * 2 ^ (- ez).
Proof.
  intros Hk He. destruct (canon_m k Hk) as [Em _]. set (q := Z.to_pos (Zpos k * 2 ^ (53 - dlen k))) in *.
  pose proof (dlen_le k 53 Hk).
  assert (Zpos (fst (shl_align q (dlen k - 53) ez)) = Zpos k * 2 ^ (- ez)) as E.
  { unfold shl_align. destruct (ez - (dlen k - 53)) as [|z|z] eqn:Ez; try lia; cbn [fst].
    - rewrite Em. f_equal. f_equal. lia.
    - rewrite shift_pos_mul, Em, <- Z.mul_assoc, <- Z.pow_add_r by lia. f_equal. f_equal. lia. }
  rewrite E. destruct s; cbn [cond_Zopp zsgn]; [rewrite <- Z.mul_opp_l; reflexivity|reflexivity].
Qed.

Lemma zsplit z : z <> 0 -> exists s k, z = zsgn s k.
Proof. destruct z as [|p|p]; [easy|exists false, p|exists true, p]; reflexivity. Qed.

Lemma fadd_int a b : Z.abs a < 2 ^ 53 -> Z.abs b < 2 ^ 53 -> Z.abs (a + b) < 2 ^ 53 ->
  fadd (f64_int a) (f64_int b) = f64_int (a + b).
Proof.
  intros Ha Hb Hc. destruct (Z.eq_dec a 0) as [->|Na].
  { destruct (Z.eq_dec b 0) as [->|Nb]; [reflexivity|]. destruct (zsplit b Nb) as (s & k & ->). rewrite zsgn_abs in Hb.
    rewrite Z.add_0_l, f64_int_sgn by exact Hb. reflexivity. }
  destruct (zsplit a Na) as (s & k & ->). rewrite zsgn_abs in Ha. rewrite (f64_int_sgn s k) by exact Ha.
  destruct (Z.eq_dec b 0) as [->|Nb].
  { rewrite Z.add_0_r, f64_int_sgn by exact Ha. reflexivity. }
  destruct (zsplit b Nb) as (s' & k' & ->). rewrite zsgn_abs in Hb. rewrite (f64_int_sgn s' k') by exact Hb.
  pose proof (dlen_le k 53 Ha). pose proof (dlen_le k' 53 Hb). unfold canon. cbn [SFadd].
  rewrite !shl_align_canon by (assumption || lia).
  set (ez := Z.min (dlen k - 53) (dlen k' - 53)).
  rewrite (normalize_int _ ez (zsgn s k + zsgn s' k')) by (assumption || (unfold ez; lia) || ring).
  destruct (zsgn s k + zsgn s' k' =? 0) eqn:E; [|reflexivity]. apply Z.eqb_eq in E. rewrite E. reflexivity.
Qed.

Lemma fsub_int a b : Z.abs a < 2 ^ 53 -> Z.abs b < 2 ^ 53 -> Z.abs (a - b) < 2 ^ 53 ->
  fsub (f64_int a) (f64_int b) = f64_int (a - b).
Proof.
  intros Ha Hb Hc. destruct (Z.eq_dec a 0) as [->|Na].
  { destruct (Z.eq_dec b 0) as [->|Nb]; [reflexivity|]. destruct (zsplit b Nb) as (s & k & ->). rewrite zsgn_abs in Hb.
    replace (0 - zsgn s k) with (zsgn (negb s) k) by (destruct s; reflexivity). rewrite !f64_int_sgn by exact Hb. reflexivity. }
  destruct (zsplit a Na) as (s & k & ->). rewrite zsgn_abs in Ha. rewrite (f64_int_sgn s k) by exact Ha.
  destruct (Z.eq_dec b 0) as [->|Nb].
  { rewrite Z.sub_0_r, f64_int_sgn by exact Ha. reflexivity. }
  destruct (zsplit b Nb) as (s' & k' & ->). rewrite zsgn_abs in Hb. rewrite (f64_int_sgn s' k') by exact Hb.
  pose proof (dlen_le k 53 Ha). pose proof (dlen_le k' 53 Hb). unfold canon. cbn [SFsub].
  set (ez := Z.min (dlen k - 53) (dlen k' - 53)).
  rewrite !shl_align_canon by (assumption || (unfold ez; lia)).
  rewrite (normalize_int _ ez (zsgn s k - zsgn s' k')) by (assumption || (unfold ez; lia) || ring).
  destruct (zsgn s k - zsgn s' k' =? 0) eqn:E; [|reflexivity]. apply Z.eqb_eq in E. rewrite E. reflexivity.
Qed.

Lemma dlen_pow_bounds p d : 2 ^ (d - 1) <= Zpos p < 2 ^ d -> 1 <= d -> dlen p = d.
Proof. apply dlen_unique. Qed.

Lemma fmul_int a b : Z.abs a < 2 ^ 53 -> Z.abs b < 2 ^ 53 -> Z.abs (a * b) < 2 ^ 53 -> a * b <> 0 ->
  fmul (f64_int a) (f64_int b) = f64_int (a * b).
Proof.
  intros Ha Hb Hc Hn. assert (a <> 0) as Na by lia. assert (b <> 0) as Nb by lia.
  destruct (zsplit a Na) as (s & k & ->). destruct (zsplit b Nb) as (s' & k' & ->).
  assert (zsgn s k * zsgn s' k' = zsgn (xorb s s') (k * k')) as E by (destruct s, s'; reflexivity).
  rewrite E, zsgn_abs in Hc. rewrite zsgn_abs in Ha, Hb. rewrite E, !f64_int_sgn by assumption.
  destruct (canon_m k Ha) as [Ek Dk]. destruct (canon_m k' Hb) as [Ek' Dk']. destruct (canon_m (k * k') Hc) as [Ec Dc].
  unfold canon. cbn [SFmul].
  set (m := Z.to_pos (Zpos k * 2 ^ (53 - dlen k))) in *. set (m' := Z.to_pos (Zpos k' * 2 ^ (53 - dlen k'))) in *.
  set (q := Z.to_pos (Zpos (k * k') * 2 ^ (53 - dlen (k * k')))) in *.
  pose proof (dlen_le k 53 Ha). pose proof (dlen_le k' 53 Hb). pose proof (dlen_le (k * k') 53 Hc).
  pose proof (dlen_pos k). pose proof (dlen_pos k'). pose proof (dlen_pos (k * k')).
  assert (Zpos (m * m') = Zpos (k * k') * 2 ^ (106 - dlen k - dlen k')) as Em.
  { rewrite Pos2Z.inj_mul, Ek, Ek', Pos2Z.inj_mul. replace (106 - dlen k - dlen k') with ((53 - dlen k) + (53 - dlen k')) by lia.
    rewrite Z.pow_add_r by lia. ring. }
  assert (dlen (m * m') = dlen (k * k') + (106 - dlen k - dlen k')) as Dm by (apply dlen_mul_pow; [exact Em|lia]).
  assert (105 <= dlen (m * m')) as Dge.
  { pose proof (dlen_bounds (m * m')) as B. pose proof (dlen_bounds m) as B1. pose proof (dlen_bounds m') as B2. rewrite Dk in B1. rewrite Dk' in B2.
    destruct (Z_le_gt_dec 105 (dlen (m * m'))) as [|G]; [assumption|exfalso].
    assert (2 ^ dlen (m * m') <= 2 ^ 104) by (apply Z.pow_le_mono_r; lia).
    rewrite Pos2Z.inj_mul in B. change (2 ^ (53 - 1)) with (2 ^ 52) in *.
    assert (2 ^ 104 <= Zpos m * Zpos m'); [|lia]. change (2 ^ 104) with (2 ^ 52 * 2 ^ 52). apply Z.mul_le_mono_nonneg; lia. }
  assert (fexp 53 1024 (dlen (m * m') + (dlen k - 53 + (dlen k' - 53))) = dlen (k * k') - 53) as Hf by (unfold fexp, emin; lia).
  rewrite (round_aux_exact 53 1024 (xorb s s') (m * m') q (dlen k - 53 + (dlen k' - 53)) (dlen (m * m') - 53)); [f_equal; lia | | lia | lia | lia].
  rewrite Em, Ec, <- Z.mul_assoc, <- Z.pow_add_r by lia. f_equal. f_equal. lia.
Qed.

(* ---- rounding of a quotient N / D ------------------------------------------------ *)

(* the record is the integer part of N / D with its round and sticky bits *)
Definition rec_inv (r : shr_record) (N D : Z) : Prop :=
  0 < D /\ 0 <= shr_m r /\
  let f := 2 * (N - shr_m r * D) in
  match shr_r r, shr_s r with
  | false, false => f = 0
  | false, true => 0 < f < D
  | true, false => f = D
  | true, true => D < f < 2 * D
  end.

Lemma new_location_inv m' m2 : 0 < m2 -> 0 <= m' -> rec_inv (shr_record_of_loc (m' / m2) (new_location m2 (m' mod m2))) m' m2.
Proof.
  intros H2 Hm. pose proof (Z.mod_pos_bound m' m2 H2) as B. pose proof (Z.div_mod m' m2 ltac:(lia)) as E.
  assert (0 <= m' / m2) as Hq by (apply Z.div_pos; lia).
  set (q := m' / m2) in *. set (r := m' mod m2) in *.
  assert (2 * (m' - q * m2) = 2 * r) as F by lia.
  unfold new_location. destruct (Z.even m2) eqn:Ev.
  - unfold new_location_even. unfold Zeq_bool. destruct (Z.compare_spec r 0); cbn [shr_record_of_loc]; try (repeat split; cbn [shr_m shr_r shr_s]; lia).
    destruct (Z.compare_spec (2 * r) m2); cbn [shr_record_of_loc]; repeat split; cbn [shr_m shr_r shr_s]; try lia; rewrite F; lia.
  - unfold new_location_odd, Zeq_bool. destruct (Z.compare_spec r 0); cbn [shr_record_of_loc]; try (repeat split; cbn [shr_m shr_r shr_s]; lia).
    assert (exists t, m2 = 2 * t + 1) as [t Et].
    { exists (m2 / 2). pose proof (Z.div_mod m2 2 ltac:(lia)) as Dm. rewrite Zmod_even, Ev in Dm. exact Dm. }
    destruct (Z.compare_spec (2 * r + 1) m2); cbn [shr_record_of_loc]; repeat split; cbn [shr_m shr_r shr_s]; try lia; rewrite F; lia.
Qed.

Lemma shr_1_inv r N D : rec_inv r N D -> rec_inv (shr_1 r) N (2 * D).
Proof.
  destruct r as [m rr ss]. unfold rec_inv. cbn [shr_m shr_r shr_s]. intros (HD & Hm & H).
  destruct m as [|p|p]; [| |lia].
  - cbn [shr_1]. destruct rr, ss; cbn [shr_1 shr_m shr_r shr_s orb]; repeat split; lia.
  - destruct p as [p|p|]; destruct rr, ss; cbn [shr_1 shr_m shr_r shr_s orb]; repeat split; try lia;
      try (rewrite (Pos2Z.inj_xI p) in H); try (rewrite (Pos2Z.inj_xO p) in H); nia.
Qed.
Lemma shr_iter_inv n : forall r N D, rec_inv r N D -> rec_inv (Nat.iter n shr_1 r) N (2 ^ Z.of_nat n * D).
Proof.
  induction n as [|n IH]; intros r N D H.
  - replace (2 ^ Z.of_nat 0 * D) with D by (cbn [Z.of_nat]; change (2 ^ 0) with 1; lia). exact H.
  - replace (2 ^ Z.of_nat (S n) * D) with (2 * (2 ^ Z.of_nat n * D)) by (rewrite Nat2Z.inj_succ, Z.pow_succ_r by lia; ring).
    apply (shr_1_inv (Nat.iter n shr_1 r)). now apply IH.
Qed.
Lemma shr_inv r e k N D : 0 <= k -> rec_inv r N D ->
  exists r', shr r e k = (r', e + k) /\ rec_inv r' N (2 ^ k * D).
Proof.
  intros Hk H. destruct k as [|p|p]; try lia.
  - exists r. cbn [shr]. rewrite Z.add_0_r. split; [reflexivity|]. change (2 ^ 0) with 1. rewrite Z.mul_1_l. exact H.
  - cbn [shr]. rewrite iter_pos_nat. eexists; split; [reflexivity|]. rewrite <- (positive_nat_Z p). now apply shr_iter_inv.
Qed.
Lemma rne_inv r N D : rec_inv r N D ->
  let m := round_nearest_even (shr_m r) (loc_of_shr_record r) in
  2 * Z.abs (m * D - N) <= D /\ shr_m r <= m <= shr_m r + 1 /\ (shr_m r < m -> shr_m r * D < N).
Proof.
  destruct r as [q rr ss]. unfold rec_inv. cbn [shr_m shr_r shr_s]. intros (HD & Hm & H).
  destruct rr, ss; cbn [loc_of_shr_record round_nearest_even shr_m shr_r shr_s]; try destruct (Z.even q); nia.
Qed.

(* a float whose magnitude is m * 2^e with 2^52 <= m <= 2^53 *)
Definition fin (s : bool) (m e : Z) : spec_float :=
  if m =? 2 ^ 53 then S754_finite s (2 ^ 52) (e + 1) else S754_finite s (Z.to_pos m) e.

Lemma second_shr m e : 2 ^ 52 <= m <= 2 ^ 53 -> -1000 <= e <= 900 ->
  (let '(mrs'', e'') := shr_fexp 53 1024 m e loc_Exact in
   match shr_m mrs'' with
   | Z0 => S754_zero false
   | Zpos q => if e'' <=? 1024 - 53 then S754_finite false q e'' else S754_infinity false
   | Zneg _ => S754_nan
   end) = fin false m e.
Proof.
  intros Hm He. unfold fin. destruct (Z.eqb_spec m (2 ^ 53)) as [->|N].
  - unfold shr_fexp. change (Zdigits2 (2 ^ 53)) with 54. assert (fexp 53 1024 (54 + e) - e = 1) as -> by (unfold fexp, emin; lia).
    cbn [shr_record_of_loc shr]. change (SpecFloat.iter_pos shr_1 1 {| shr_m := 2 ^ 53; shr_r := false; shr_s := false |}) with {| shr_m := 2 ^ 52; shr_r := false; shr_s := false |}.
    cbn [shr_m]. destruct (2 ^ 52) eqn:E; try discriminate. assert (e + 1 <=? 1024 - 53 = true) as -> by (apply Z.leb_le; lia).
    f_equal. apply Pos2Z.inj. rewrite <- E. reflexivity.
  - destruct m as [|p|p]; try lia. unfold shr_fexp. cbn [Zdigits2]. change (Zpos (digits2_pos p)) with (dlen p).
    assert (dlen p = 53) as -> by (apply dlen_unique; [change (53 - 1) with 52; lia|lia]).
    assert (fexp 53 1024 (53 + e) - e = 0) as -> by (unfold fexp, emin; lia).
    cbn [shr_record_of_loc shr shr_m Z.to_pos]. assert (e <=? 1024 - 53 = true) as -> by (apply Z.leb_le; lia). reflexivity.
Qed.
Lemma second_shr_s s m e : 2 ^ 52 <= m <= 2 ^ 53 -> -1000 <= e <= 900 ->
  (let '(mrs'', e'') := shr_fexp 53 1024 m e loc_Exact in
   match shr_m mrs'' with
   | Z0 => S754_zero s
   | Zpos q => if e'' <=? 1024 - 53 then S754_finite s q e'' else S754_infinity s
   | Zneg _ => S754_nan
   end) = fin s m e.
Proof.
  intros Hm He. pose proof (second_shr m e Hm He) as H. destruct (shr_fexp 53 1024 m e loc_Exact) as [mrs e2].
  destruct (shr_m mrs) as [|q|q]; unfold fin in *; destruct (m =? 2 ^ 53); try discriminate H;
    destruct (e2 <=? 1024 - 53); try discriminate H; injection H as -> ->; reflexivity.
Qed.

(* binary_round_aux is rounding to nearest of (N / D) * 2^e *)
Lemma round_aux_near s q e l N D :
  rec_inv (shr_record_of_loc (Zpos q) l) N D -> 53 <= dlen q -> -1000 <= dlen q + e - 53 <= 900 ->
  exists m, binary_round_aux 53 1024 s (Zpos q) e l = fin s m (e + (dlen q - 53)) /\
    2 ^ 52 <= m <= 2 ^ 53 /\ 2 * Z.abs (m * (2 ^ (dlen q - 53) * D) - N) <= 2 ^ (dlen q - 53) * D.
Proof.
  intros I Hd He. unfold binary_round_aux. unfold shr_fexp at 1. cbn [Zdigits2]. change (Zpos (digits2_pos q)) with (dlen q).
  assert (fexp 53 1024 (dlen q + e) - e = dlen q - 53) as -> by (unfold fexp, emin; lia).
  destruct (shr_inv (shr_record_of_loc (Zpos q) l) e (dlen q - 53) N D ltac:(lia) I) as (r' & -> & I').
  pose proof (rne_inv r' _ _ I') as (R1 & R2 & R3). cbv zeta. set (m := round_nearest_even (shr_m r') (loc_of_shr_record r')) in *.
  assert (0 < 2 ^ (dlen q - 53)) as Hp by (apply Z.pow_pos_nonneg; lia).
  assert (0 < D) as HD by apply I.
  assert (Zpos q * D <= N < (Zpos q + 1) * D) as BN.
  { destruct I as (_ & _ & I). destruct l as [|c]; [|destruct c]; cbn [shr_record_of_loc shr_m shr_r shr_s] in I; lia. }
  pose proof (dlen_bounds q) as Bq.
  assert (2 ^ (dlen q - 1) = 2 ^ 52 * 2 ^ (dlen q - 53)) as P1 by (rewrite <- Z.pow_add_r by lia; f_equal; lia).
  assert (2 ^ dlen q = 2 ^ 53 * 2 ^ (dlen q - 53)) as P2 by (rewrite <- Z.pow_add_r by lia; f_equal; lia).
  set (w := 2 ^ (dlen q - 53)) in *.
  assert (2 ^ 52 * (w * D) <= N) as L1 by nia.
  assert (N < 2 ^ 53 * (w * D)) as L2 by nia.
  assert (0 < w * D) as HwD by nia. 
  assert (shr_m r' * (w * D) <= N < (shr_m r' + 1) * (w * D)) as BR.
  { destruct I' as (_ & _ & I'). cbv zeta in I'. clear - I' HwD. set (u := w * D) in *. clearbody u. destruct (shr_r r'), (shr_s r'); nia. }
  assert (2 ^ 52 <= shr_m r' < 2 ^ 53) as Bm by nia.
  exists m. split; [apply second_shr_s; lia|]. split; [lia|exact R1].
Qed.

Lemma fin_is s m e : 2 ^ 52 <= m <= 2 ^ 53 -> sf_is (fin s m e) (if s then - m else m) e.
Proof.
  intros H. unfold fin. destruct (Z.eqb_spec m (2 ^ 53)) as [->|N].
  - cbn [sf_is]. rewrite Z.min_l by lia. rewrite Z.sub_diag. replace (e + 1 - e) with 1 by lia. destruct s; reflexivity.
  - cbn [sf_is]. rewrite Z.min_id, Z.sub_diag. change (2 ^ 0) with 1. rewrite !Z.mul_1_r. destruct m as [|p|p]; try lia. destruct s; reflexivity.
Qed.

(* the quotient of two integers below 2^53: m * 2^(-E), within half a unit of a / b *)
Lemma fdiv_near s k s' k' : Zpos k < 2 ^ 53 -> Zpos k' < 2 ^ 53 ->
  exists m E, fdiv (canon s k) (canon s' k') = fin (xorb s s') m (- E) /\ 0 <= E <= 200 /\ 2 ^ 52 <= m <= 2 ^ 53 /\
    2 ^ 52 * Zpos k' <= Zpos k * 2 ^ E /\ 2 * Z.abs (m * Zpos k' - Zpos k * 2 ^ E) <= Zpos k'.
Proof.
  intros Ha Hb. destruct (canon_m k Ha) as [Ek Dk]. destruct (canon_m k' Hb) as [Ek' Dk'].
  pose proof (dlen_le k 53 Ha). pose proof (dlen_le k' 53 Hb). pose proof (dlen_pos k). pose proof (dlen_pos k').
  unfold canon. cbn [SFdiv]. set (m1 := Z.to_pos (Zpos k * 2 ^ (53 - dlen k))) in *. set (m2 := Z.to_pos (Zpos k' * 2 ^ (53 - dlen k'))) in *.
  unfold SFdiv_core_binary. cbn [Zdigits2]. change (Zpos (digits2_pos m1)) with (dlen m1). change (Zpos (digits2_pos m2)) with (dlen m2). rewrite Dk, Dk'.
  set (t := dlen k - dlen k').
  assert (Z.min (fexp 53 1024 (53 + (dlen k - 53) - (53 + (dlen k' - 53)))) (dlen k - 53 - (dlen k' - 53)) = t - 53) as -> by (unfold fexp, emin, t; lia).
  assert (dlen k - 53 - (dlen k' - 53) - (t - 53) = 53) as -> by (unfold t; lia).
  change (match 53 with | 0 => Zpos m1 | Zpos _ => Z.shiftl (Zpos m1) 53 | Zneg _ => 0 end) with (Z.shiftl (Zpos m1) 53).
  rewrite Z.shiftl_mul_pow2 by lia.
  pose proof (dlen_bounds m1) as B1. pose proof (dlen_bounds m2) as B2. rewrite Dk in B1. rewrite Dk' in B2. change (53 - 1) with 52 in *.
  assert (0 < Zpos m2) as Hm2 by lia. 
  pose proof (new_location_inv (Zpos m1 * 2 ^ 53) (Zpos m2) Hm2 ltac:(lia)) as I.
  assert (Z.div_eucl (Zpos m1 * 2 ^ 53) (Zpos m2) = (Zpos m1 * 2 ^ 53 / Zpos m2, (Zpos m1 * 2 ^ 53) mod Zpos m2)) as ->.
  { unfold Z.div, Z.modulo. now destruct (Z.div_eucl (Zpos m1 * 2 ^ 53) (Zpos m2)). }
  set (Q := Zpos m1 * 2 ^ 53 / Zpos m2) in *. set (l := new_location (Zpos m2) ((Zpos m1 * 2 ^ 53) mod Zpos m2)) in *.
  assert (2 ^ 52 <= Q) as Q1 by (apply Z.div_le_lower_bound; nia).
  assert (Q < 2 ^ 54) as Q2 by (apply Z.div_lt_upper_bound; nia).
  destruct Q as [|q|q] eqn:EQ; try lia.
  assert (53 <= dlen q <= 54) as Dq.
  { split; [|apply dlen_le; exact Q2]. pose proof (dlen_bounds q). destruct (Z_le_gt_dec 53 (dlen q)) as [|G]; [assumption|].
    assert (2 ^ dlen q <= 2 ^ 52) by (apply Z.pow_le_mono_r; lia). lia. }
  destruct (round_aux_near (xorb s s') q (t - 53) l _ _ I) as (m & Em & Bm & Rm); [lia|unfold t; lia|].
  pose proof (dlen_bounds q) as Bq.
  set (E := - (t - 53 + (dlen q - 53))).
  assert (0 < 2 ^ (dlen q - 53)) as Hw by (apply Z.pow_pos_nonneg; lia).
  assert (Zpos q * Zpos m2 <= Zpos m1 * 2 ^ 53) as Lq.
  { rewrite <- EQ. unfold Q. rewrite Z.mul_comm. apply Z.mul_div_le. lia. }
  assert (2 ^ (dlen q - 1) = 2 ^ 52 * 2 ^ (dlen q - 53)) as P1 by (rewrite <- Z.pow_add_r by lia; f_equal; lia).
  exists m, E.
  assert (0 <= E) as HE.
  { destruct (Z_le_gt_dec 0 E) as [|G]; [assumption|exfalso]. unfold E in G. unfold t in *. lia. }
  split; [rewrite Em; f_equal; unfold E; lia|]. split; [split; [exact HE|unfold E, t; lia]|]. split; [exact Bm|].
  (* scale by 2^x: m1 2^53 = k 2^E * z, 2^(dlen q - 53) m2 = k' z *)
  set (z := 2 ^ (53 - dlen k') * 2 ^ (dlen q - 53)).
  assert (2 ^ (dlen q - 53) * Zpos m2 = Zpos k' * z) as Z2 by (rewrite Ek'; unfold z; ring).
  assert (Zpos m1 * 2 ^ 53 = Zpos k * 2 ^ E * z) as Z1.
  { rewrite Ek. unfold z. rewrite <- !Z.mul_assoc, <- !Z.pow_add_r by lia. f_equal. f_equal. unfold E, t. lia. }
  assert (0 < z) as Hz by (unfold z; apply Z.mul_pos_pos; apply Z.pow_pos_nonneg; lia).
  rewrite Z2, Z1 in Rm. replace (m * (Zpos k' * z) - Zpos k * 2 ^ E * z) with ((m * Zpos k' - Zpos k * 2 ^ E) * z) in Rm by ring.
  rewrite Z.abs_mul, (Z.abs_eq z) in Rm by lia.
  split; [|nia].
  assert (2 ^ 52 * Zpos k' * z <= Zpos k * 2 ^ E * z); [|nia].
  rewrite <- Z1. replace (2 ^ 52 * Zpos k' * z) with (2 ^ 52 * (Zpos k' * z)) by ring. rewrite <- Z2. nia.
Qed.

Lemma fdiv_exact s k s' k' c : Zpos k < 2 ^ 53 -> Zpos k' < 2 ^ 53 -> Zpos k = Zpos k' * Zpos c ->
  fdiv (canon s k) (canon s' k') = canon (xorb s s') c.
Proof.
  intros Ha Hb E. assert (Zpos c < 2 ^ 53) as Hc by nia.
  destruct (fdiv_near s k s' k' Ha Hb) as (m & x & -> & Hx & Hm & _ & R).
  rewrite E in R. assert (0 < 2 ^ x) as Hp by (apply Z.pow_pos_nonneg; lia).
  assert (m = Zpos c * 2 ^ x) as Em.
  { replace (m * Zpos k' - Zpos k' * Zpos c * 2 ^ x) with ((m - Zpos c * 2 ^ x) * Zpos k') in R by ring. rewrite Z.abs_mul in R. nia. }
  pose proof (dlen_le c 53 Hc) as D. pose proof (dlen_pos c).
  destruct m as [|p|p]; try lia. assert (dlen p = dlen c + x) as Dp by (apply dlen_mul_pow; [exact Em|lia]).
  unfold fin, canon. destruct (Z.eqb_spec (Zpos p) (2 ^ 53)) as [E53|N].
  - assert (dlen p = 54) as D54 by (apply dlen_unique; [rewrite E53; change (54 - 1) with 53; lia|lia]).
    assert (53 - dlen c = x - 1) as -> by lia. f_equal; [|lia]. apply Pos2Z.inj.
    assert (0 <= x - 1) as Hx1 by lia. assert (0 < 2 ^ (x - 1)) by (apply Z.pow_pos_nonneg; lia). rewrite Z2Pos.id by nia.
    assert (2 ^ x = 2 * 2 ^ (x - 1)) as Px by (rewrite <- Z.pow_succ_r by lia; f_equal; lia).
    rewrite Px in Em. change (Zpos (2 ^ 52)) with (2 ^ 52). change (2 ^ 53) with (2 * 2 ^ 52) in E53. lia.
  - assert (dlen p = 53) as D53.
    { apply dlen_unique; [change (53 - 1) with 52; lia|lia]. }
    assert (53 - dlen c = x) as -> by lia. f_equal; [|lia]. cbn [Z.to_pos]. rewrite <- Em. reflexivity.
Qed.
