(* Exactness of binary64 rounding (Coq.Floats.SpecFloat) on representable values. *)
From Coq Require Import SpecFloat.
From Verif Require Import Base.
Local Open Scope Z_scope.

(* the float r is the number k * 2^e *)
Definition sf_is (r : spec_float) (k e : Z) : Prop :=
  match r with
  | S754_zero _ => k = 0
  | S754_finite s m e' => (if s then Zneg m else Zpos m) * 2 ^ (e' - Z.min e e') = k * 2 ^ (e - Z.min e e')
  | _ => False
  end.

Definition dlen (p : positive) : Z := Zpos (digits2_pos p).

Lemma dlen_bounds p : 2 ^ (dlen p - 1) <= Zpos p < 2 ^ dlen p.
Proof.
  unfold dlen. induction p as [p IH|p IH|]; cbn [digits2_pos]; [| |cbn; lia].
  1,2: rewrite Pos2Z.inj_succ; replace (Z.succ (Zpos (digits2_pos p)) - 1) with (Z.succ (Zpos (digits2_pos p) - 1)) by lia;
    rewrite !Z.pow_succ_r by lia; lia.
Qed.
Lemma dlen_unique p d : 2 ^ (d - 1) <= Zpos p < 2 ^ d -> 1 <= d -> dlen p = d.
Proof.
  intros H Hd. pose proof (dlen_bounds p) as B. assert (1 <= dlen p) by (unfold dlen; lia).
  destruct (Z.lt_trichotomy (dlen p) d) as [L|[L|L]]; [|exact L|].
  - assert (2 ^ dlen p <= 2 ^ (d - 1)) by (apply Z.pow_le_mono_r; lia). lia.
  - assert (2 ^ d <= 2 ^ (dlen p - 1)) by (apply Z.pow_le_mono_r; lia). lia.
Qed.
Lemma dlen_mul_pow p q k : Zpos q = Zpos p * 2 ^ k -> 0 <= k -> dlen q = dlen p + k.
Proof.
  intros E Hk. pose proof (dlen_bounds p) as B. assert (1 <= dlen p) by (unfold dlen; lia).
  apply dlen_unique; [|lia]. rewrite E.
  replace (dlen p + k - 1) with (dlen p - 1 + k) by lia. rewrite !Z.pow_add_r by lia.
  assert (0 < 2 ^ k) by (apply Z.pow_pos_nonneg; lia). nia.
Qed.
Lemma shift_pos_mul k p : Zpos (shift_pos k p) = Zpos p * 2 ^ Zpos k.
Proof. rewrite shift_pos_correct, Zpower_pos_nat, Z.mul_comm. f_equal. now rewrite <- Zpower_pos_nat. Qed.

Lemma iter_pos_nat {A} (f : A -> A) p : forall x, SpecFloat.iter_pos f p x = Nat.iter (Pos.to_nat p) f x.
Proof.
  assert (forall a b x, Nat.iter a f (Nat.iter b f x) = Nat.iter (a + b) f x) as Ha.
  { intros a b x. induction a as [|a IH]; [reflexivity|]. cbn [Nat.add]. change (f (Nat.iter a f (Nat.iter b f x)) = f (Nat.iter (a + b) f x)). now rewrite IH. }
  induction p as [p IH|p IH|]; intro x; cbn [SpecFloat.iter_pos].
  - rewrite !IH. change (f x) with (Nat.iter 1 f x). rewrite !Ha. f_equal. lia.
  - rewrite !IH, Ha. f_equal. lia.
  - reflexivity.
Qed.
Lemma shr_iter n q : Nat.iter n shr_1 (Build_shr_record (Zpos q * 2 ^ Z.of_nat n) false false) = Build_shr_record (Zpos q) false false.
Proof.
  assert (forall n (f : shr_record -> shr_record) x, Nat.iter (S n) f x = Nat.iter n f (f x)) as Hs.
  { intros k f x. induction k as [|k IH]; [reflexivity|]. change (f (Nat.iter (S k) f x) = f (Nat.iter k f (f x))). now rewrite IH. }
  induction n as [|n IH]; [cbn; now rewrite Pos.mul_1_r|].
  rewrite Hs, Nat2Z.inj_succ, Z.pow_succ_r by lia.
  replace (Zpos q * (2 * 2 ^ Z.of_nat n)) with (2 * (Zpos q * 2 ^ Z.of_nat n)) by ring.
  assert (0 < Zpos q * 2 ^ Z.of_nat n) as Hp by (apply Z.mul_pos_pos; [lia | apply Z.pow_pos_nonneg; lia]).
  destruct (Zpos q * 2 ^ Z.of_nat n) as [|p|p] eqn:E; try lia.
  change (2 * Zpos p) with (Zpos p~0). cbn [shr_1 orb]. exact IH.
Qed.
Lemma shr_exact q k e : 0 <= k ->
  shr (Build_shr_record (Zpos q * 2 ^ k) false false) e k = (Build_shr_record (Zpos q) false false, e + k).
Proof.
  intro Hk. destruct k as [|p|p]; try lia.
  - cbn [shr]. change (2 ^ 0) with 1. now rewrite Z.mul_1_r, Z.add_0_r.
  - cbn [shr]. rewrite iter_pos_nat. f_equal. rewrite <- (positive_nat_Z p) at 1. apply shr_iter.
Qed.

Lemma round_aux_exact prec emax s m q e k :
  Zpos m = Zpos q * 2 ^ k -> 0 <= k -> fexp prec emax (dlen m + e) = e + k -> e + k <= emax - prec ->
  binary_round_aux prec emax s (Zpos m) e loc_Exact = S754_finite s q (e + k).
Proof.
  intros E Hk Hf He. unfold binary_round_aux, shr_fexp. cbn [Zdigits2 shr_record_of_loc].
  change (Zpos (digits2_pos m)) with (dlen m). rewrite Hf. replace (e + k - e) with k by lia.
  rewrite E, shr_exact by exact Hk. cbn [shr_m loc_of_shr_record round_nearest_even].
  cbn [Zdigits2]. change (Zpos (digits2_pos q)) with (dlen q).
  assert (dlen q + (e + k) = dlen m + e) as -> by (rewrite (dlen_mul_pow q m k E Hk); lia).
  rewrite Hf, Z.sub_diag. cbn [shr shr_m]. apply Z.leb_le in He. now rewrite He.
Qed.

(* integers of at most 53 bits are converted exactly *)
Lemma normalize_exact k : 0 < k < 2 ^ 53 ->
  exists m d, binary_normalize 53 1024 k 0 false = S754_finite false m (d - 53) /\ 1 <= d <= 53 /\
              Zpos m = k * 2 ^ (53 - d) /\ dlen m = 53.
Proof.
  intros Hk. destruct k as [|p|p]; try lia. cbn [binary_normalize].
  pose proof (dlen_bounds p) as B. set (d := dlen p) in *.
  assert (1 <= d) as Hd1 by (unfold d, dlen; lia).
  assert (d <= 53) as Hd2.
  { destruct (Z_le_gt_dec d 53) as [|G]; [assumption|]. assert (2 ^ 53 <= 2 ^ (d - 1)) by (apply Z.pow_le_mono_r; lia). lia. }
  unfold binary_round. change (Zpos (digits2_pos p)) with (dlen p). fold d.
  assert (fexp 53 1024 (d + 0) = d - 53) as Hf by (unfold fexp, emin; lia). rewrite Hf.
  exists (fst (shl_align p 0 (d - 53))), d.
  assert (Zpos (fst (shl_align p 0 (d - 53))) = Zpos p * 2 ^ (53 - d) /\ snd (shl_align p 0 (d - 53)) = d - 53) as [E1 E2].
  { unfold shl_align. rewrite Z.sub_0_r. destruct (d - 53) as [|z|z] eqn:Ez; try lia.
    - replace (53 - d) with 0 by lia. cbn [fst snd]. change (2 ^ 0) with 1. lia.
    - cbn [fst snd]. rewrite shift_pos_mul. replace (53 - d) with (Zpos z) by lia. now split. }
  destruct (shl_align p 0 (d - 53)) as [mz ez]. cbn [fst snd] in *. subst ez.
  assert (dlen mz = 53) as Hm by (rewrite (dlen_mul_pow p mz (53 - d) E1) by lia; fold d; lia).
  repeat split; try assumption.
  rewrite (round_aux_exact 53 1024 false mz mz (d - 53) 0); [f_equal; lia | change (2 ^ 0) with 1; lia | lia | | lia].
  rewrite Hm. unfold fexp, emin. lia.
Qed.
