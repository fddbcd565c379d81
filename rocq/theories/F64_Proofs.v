(* Proofs about the integer <-> f64 casts. *)
From Verif Require Import Base Int_Model F64_Model Int_Proofs.
Local Open Scope Z_scope.

(* the integers that are binary64 values (exponent range ignored): 53-bit
   significand times a power of two *)
Definition double_int (z : Z) : Prop := exists m e, 0 <= e /\ Z.abs m < 2 ^ 53 /\ z = m * 2 ^ e.

Lemma rne_spec a m : 0 < m -> 0 <= a ->
  a / m <= rne a m <= a / m + 1 /\ 2 * Z.abs (a - rne a m * m) <= m /\
  (a mod m = 0 -> rne a m = a / m).
Proof.
  intros Hm Ha. pose proof (Z.div_mod a m ltac:(lia)) as HD.
  pose proof (Z.mod_pos_bound a m Hm) as HR. unfold rne.
  set (q := a / m) in *. set (r := a mod m) in *. cbv zeta.
  destruct (Z.ltb_spec (2 * r) m).
  { split; [lia|]. split; [|lia]. replace (a - q * m) with r by lia. lia. }
  destruct (Z.ltb_spec m (2 * r)).
  { split; [lia|]. split; [|lia]. replace (a - (q + 1) * m) with (r - m) by lia. lia. }
  destruct (Z.even q).
  - split; [lia|]. split; [|lia]. replace (a - q * m) with r by lia. lia.
  - split; [lia|]. split; [|lia]. replace (a - (q + 1) * m) with (r - m) by lia. lia.
Qed.

Lemma log2_bounds a : 2 ^ 53 <= a ->
  let e := Z.log2 a - 52 in 1 <= e /\ 2 ^ 52 * 2 ^ e <= a < 2 ^ 53 * 2 ^ e.
Proof.
  intros H e. assert (HL : 53 <= Z.log2 a) by (apply Z.log2_le_pow2; [lia|exact H]).
  destruct (Z.log2_spec a ltac:(lia)) as [L U].
  rewrite <- !Z.pow_add_r by (unfold e; lia).
  replace (52 + e) with (Z.log2 a) by (unfold e; lia).
  replace (53 + e) with (Z.succ (Z.log2 a)) by (unfold e; lia). unfold e; lia.
Qed.

(* the result lies between the powers of two around the argument *)
Lemma f64_of_nonneg_range a : 2 ^ 53 <= a ->
  let e := Z.log2 a - 52 in
  exists q, f64_of_nonneg a = q * 2 ^ e /\ 2 ^ 52 <= q <= 2 ^ 53 /\
    2 * Z.abs (a - q * 2 ^ e) <= 2 ^ e.
Proof.
  intros H e. destruct (log2_bounds a H) as (He & L & U). fold e in He, L, U.
  assert (HP : 0 < 2 ^ e) by (apply Z.pow_pos_nonneg; lia).
  exists (rne a (2 ^ e)). split; [|].
  - unfold f64_of_nonneg. destruct (Z.ltb_spec a (2 ^ 53)); [lia|]. reflexivity.
  - destruct (rne_spec a (2 ^ e) HP ltac:(lia)) as (R1 & R2 & R3). split; [|exact R2].
    assert (2 ^ 52 <= a / 2 ^ e) by (apply Z.div_le_lower_bound; lia).
    assert (a / 2 ^ e < 2 ^ 53) by (apply Z.div_lt_upper_bound; lia). lia.
Qed.

Lemma multiple_nearest a q k m : 0 < m -> 2 * Z.abs (a - q * m) <= m -> Z.abs (a - q * m) <= Z.abs (a - k * m).
Proof.
  intros Hm H. destruct (Z.eq_dec k q) as [->|Hk]; [lia|].
  assert (m <= Z.abs (k - q) * m) by nia.
  assert (Z.abs (k - q) * m = Z.abs (k * m - q * m)).
  { replace (k * m - q * m) with ((k - q) * m) by lia. rewrite Z.abs_mul. rewrite (Z.abs_eq m) by lia. reflexivity. }
  lia.
Qed.

Lemma f64_of_nonneg_double a : 0 <= a -> double_int (f64_of_nonneg a).
Proof.
  intros H. destruct (Z.lt_ge_cases a (2 ^ 53)) as [Hs|Hb].
  - exists a, 0. unfold f64_of_nonneg. destruct (Z.ltb_spec a (2 ^ 53)); [|lia]. lia.
  - destruct (f64_of_nonneg_range a Hb) as (q & E & Hq & _).
    destruct (log2_bounds a Hb) as (He & _). set (e := Z.log2 a - 52) in *.
    destruct (Z.eq_dec q (2 ^ 53)) as [->|Hne].
    + exists (2 ^ 52), (e + 1). rewrite E. split; [lia|]. split; [reflexivity|].
      rewrite Z.pow_add_r by lia. change (2 ^ 1) with 2. change (2 ^ 53) with (2 ^ 52 * 2). lia.
    + exists q, e. split; [lia|]. split; [lia|exact E].
Qed.

Lemma f64_of_nonneg_nearest a d : 0 <= a -> double_int d ->
  Z.abs (a - f64_of_nonneg a) <= Z.abs (a - d).
Proof.
  intros H (m & e' & He' & Hm & ->). destruct (Z.lt_ge_cases a (2 ^ 53)) as [Hs|Hb].
  - unfold f64_of_nonneg. destruct (Z.ltb_spec a (2 ^ 53)); lia.
  - destruct (f64_of_nonneg_range a Hb) as (q & E & Hq & HN). rewrite E.
    destruct (log2_bounds a Hb) as (He & L & U). set (e := Z.log2 a - 52) in *.
    assert (HP : 0 < 2 ^ e) by (apply Z.pow_pos_nonneg; lia).
    destruct (Z.le_gt_cases e e') as [Hle|Hgt].
    + replace (m * 2 ^ e') with (m * 2 ^ (e' - e) * 2 ^ e).
      * apply multiple_nearest; assumption.
      * rewrite <- Z.mul_assoc, <- Z.pow_add_r by lia. do 2 f_equal; lia.
    + pose proof (multiple_nearest a q (2 ^ 52) (2 ^ e) HP HN) as HX.
      assert (HD : Z.abs (m * 2 ^ e') <= 2 ^ 52 * 2 ^ e).
      { rewrite Z.abs_mul, (Z.abs_eq (2 ^ e')) by (apply Z.pow_nonneg; lia).
        assert (HE : 2 ^ e = 2 ^ e' * 2 ^ (e - e')).
        { rewrite <- Z.pow_add_r by lia. f_equal; lia. }
        assert (2 ^ 1 <= 2 ^ (e - e')) by (apply Z.pow_le_mono_r; lia).
        assert (0 < 2 ^ e') by (apply Z.pow_pos_nonneg; lia). rewrite HE. nia. }
      lia.
Qed.

Lemma f64_of_nonneg_pos a : 0 <= a -> 0 <= f64_of_nonneg a.
Proof.
  intros H. destruct (Z.lt_ge_cases a (2 ^ 53)) as [Hs|Hb].
  - unfold f64_of_nonneg. destruct (Z.ltb_spec a (2 ^ 53)); lia.
  - destruct (f64_of_nonneg_range a Hb) as (q & E & Hq & _). rewrite E.
    assert (0 <= 2 ^ (Z.log2 a - 52)) by (apply Z.pow_nonneg; lia). nia.
Qed.

Lemma double_int_opp z : double_int z -> double_int (- z).
Proof. intros (m & e & He & Hm & ->). exists (- m), e. split; [lia|]. split; lia. Qed.

(* "x as f64" is a binary64 value and no binary64 value is closer *)
Lemma f64_of_int_double z : double_int (f64_of_int z).
Proof.
  unfold f64_of_int. destruct (Z.ltb_spec z 0).
  - apply double_int_opp, f64_of_nonneg_double; lia.
  - apply f64_of_nonneg_double; lia.
Qed.
Lemma f64_of_int_nearest z d : double_int d -> Z.abs (z - f64_of_int z) <= Z.abs (z - d).
Proof.
  intros HD. unfold f64_of_int. destruct (Z.ltb_spec z 0).
  - pose proof (f64_of_nonneg_nearest (- z) (- d) ltac:(lia) (double_int_opp d HD)). lia.
  - apply f64_of_nonneg_nearest; [lia|exact HD].
Qed.
Lemma f64_of_int_exact z : double_int z -> f64_of_int z = z.
Proof. intros H. pose proof (f64_of_int_nearest z z H). lia. Qed.
Lemma f64_of_int_idem z : f64_of_int (f64_of_int z) = f64_of_int z.
Proof. apply f64_of_int_exact, f64_of_int_double. Qed.
Lemma f64_of_int_small z : Z.abs z <= 2 ^ 53 -> f64_of_int z = z.
Proof.
  intros H. apply f64_of_int_exact. destruct (Z.eq_dec (Z.abs z) (2 ^ 53)) as [E|E].
  - exists (Z.sgn z), 53. split; [lia|]. rewrite <- E at 2.
    split; [destruct z; simpl; lia|destruct z; lia].
  - exists z, 0. split; [lia|]. split; lia.
Qed.

Lemma rne_mono a b m : 0 < m -> 0 <= a <= b -> rne a m <= rne b m.
Proof.
  intros Hm H. destruct (rne_spec a m Hm ltac:(lia)) as (A1 & _). destruct (rne_spec b m Hm ltac:(lia)) as (B1 & _).
  assert (HQ : a / m <= b / m) by (apply Z.div_le_mono; lia).
  destruct (Z.eq_dec (a / m) (b / m)) as [E|E]; [|lia].
  pose proof (Z.div_mod a m ltac:(lia)). pose proof (Z.div_mod b m ltac:(lia)).
  assert (HR : a mod m <= b mod m) by nia.
  unfold rne. rewrite <- E. cbv zeta.
  repeat match goal with |- context [?x <? ?y] => destruct (Z.ltb_spec x y) end; try lia;
  destruct (Z.even (a / m)); lia.
Qed.

Lemma f64_of_nonneg_mono a b : 0 <= a <= b -> f64_of_nonneg a <= f64_of_nonneg b.
Proof.
  intros H. destruct (Z.lt_ge_cases b (2 ^ 53)) as [Hb|Hb].
  { unfold f64_of_nonneg. destruct (Z.ltb_spec a (2 ^ 53)), (Z.ltb_spec b (2 ^ 53)); lia. }
  destruct (f64_of_nonneg_range b Hb) as (qb & Eb & Hqb & _).
  destruct (log2_bounds b Hb) as (Heb & _). rewrite Eb.
  destruct (Z.lt_ge_cases a (2 ^ 53)) as [Ha|Ha].
  { unfold f64_of_nonneg. destruct (Z.ltb_spec a (2 ^ 53)); [|lia].
    assert (2 ^ 1 <= 2 ^ (Z.log2 b - 52)) by (apply Z.pow_le_mono_r; lia).
    change (2 ^ 53) with (2 * 2 ^ 52) in *. change (2 ^ 1) with 2 in *. nia. }
  destruct (f64_of_nonneg_range a Ha) as (qa & Ea & Hqa & _).
  destruct (log2_bounds a Ha) as (Hea & _). rewrite Ea.
  assert (HL : Z.log2 a <= Z.log2 b) by (apply Z.log2_le_mono; lia).
  destruct (Z.eq_dec (Z.log2 a) (Z.log2 b)) as [E|E].
  - rewrite <- Ea, <- Eb. unfold f64_of_nonneg.
    destruct (Z.ltb_spec a (2 ^ 53)); [lia|]. destruct (Z.ltb_spec b (2 ^ 53)); [lia|].
    cbv zeta. rewrite E. assert (HP : 0 < 2 ^ (Z.log2 b - 52)) by (apply Z.pow_pos_nonneg; lia).
    apply Z.mul_le_mono_nonneg_r; [lia|]. apply rne_mono; lia.
  - assert (2 ^ (Z.log2 a - 52 + 1) <= 2 ^ (Z.log2 b - 52)) by (apply Z.pow_le_mono_r; lia).
    assert (HE : 2 ^ (Z.log2 a - 52 + 1) = 2 ^ (Z.log2 a - 52) * 2) by (rewrite Z.pow_add_r by lia; reflexivity).
    assert (0 < 2 ^ (Z.log2 a - 52)) by (apply Z.pow_pos_nonneg; lia).
    change (2 ^ 53) with (2 * 2 ^ 52) in *. nia.
Qed.
Lemma f64_of_int_mono a b : a <= b -> f64_of_int a <= f64_of_int b.
Proof.
  intros H. unfold f64_of_int. destruct (Z.ltb_spec a 0), (Z.ltb_spec b 0); try lia.
  - pose proof (f64_of_nonneg_mono (- b) (- a) ltac:(lia)). lia.
  - pose proof (f64_of_nonneg_pos (- a) ltac:(lia)). pose proof (f64_of_nonneg_pos b ltac:(lia)). lia.
  - apply f64_of_nonneg_mono; lia.
Qed.

Lemma pow2_double n : 0 <= n -> double_int (2 ^ n).
Proof. intros H. exists 1, n. split; [lia|]. split; [reflexivity|lia]. Qed.

Lemma sat_id t z : representable t z -> sat t z = z.
Proof. unfold representable, sat. lia. Qed.

(* storing an f64 result in an integer array and reading it back as f64 *)
Lemma f64_through t z : 0 < bits t -> representable t z ->
  f64_of_int (through_f64 t z) = f64_of_int z.
Proof.
  intros HT HR. unfold through_f64.
  destruct (Z.le_gt_cases (f64_of_int z) (i_max t)) as [HU|HU];
  destruct (Z.le_gt_cases (i_min t) (f64_of_int z)) as [HL|HL].
  - rewrite sat_id by (split; assumption). apply f64_of_int_idem.
  - exfalso. pose proof (f64_of_int_mono _ _ (proj1 HR)) as M.
    rewrite (f64_of_int_exact (i_min t)) in M; [lia|]. unfold i_min. destruct (signed t).
    + apply double_int_opp, pow2_double; lia.
    + exists 0, 0. split; [lia|]. split; [reflexivity|lia].
  - replace (sat t (f64_of_int z)) with (i_max t) by (unfold sat, representable in *; lia).
    pose proof (f64_of_int_mono _ _ (proj2 HR)) as M.
    set (b := if signed t then bits t - 1 else bits t).
    assert (EB : i_max t = 2 ^ b - 1) by (unfold i_max, b; destruct (signed t); reflexivity).
    assert (HB : 0 <= b) by (unfold b; destruct (signed t); lia).
    pose proof (f64_of_int_mono (i_max t) (2 ^ b) ltac:(lia)) as M2.
    rewrite (f64_of_int_exact (2 ^ b)) in M2 by (apply pow2_double; exact HB). lia.
  - unfold representable in HR. lia.
Qed.
Lemma through_f64_small t z : representable t z -> Z.abs z <= 2 ^ 53 -> through_f64 t z = z.
Proof. intros HR H. unfold through_f64. rewrite f64_of_int_small by exact H. apply sat_id; exact HR. Qed.
Lemma through_f64_rep t z : 0 < bits t -> representable t (through_f64 t z).
Proof.
  intros HT. unfold representable, through_f64, sat.
  assert (i_min t <= i_max t) by (rewrite range_size by exact HT; assert (0 < 2 ^ bits t) by (apply Z.pow_pos_nonneg; lia); lia).
  lia.
Qed.
