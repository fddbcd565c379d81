(* Full period of a linear congruential generator modulo 2^n with multiplier
   congruent to 1 modulo 4 and odd increment. *)
From Verif Require Import Base.
From Coq Require Import Znumtheory Zpow_facts.
Local Open Scope Z_scope.

(* 1 + m + ... + m^(k-1) *)
Fixpoint geo (m : Z) (k : nat) : Z := match k with O => 0 | S k' => 1 + m * geo m k' end.
(* x, mx+c, m(mx+c)+c, ... without reduction *)
Fixpoint lcg (m c x : Z) (k : nat) : Z := match k with O => x | S k' => m * lcg m c x k' + c end.

Lemma geo_pow m k : (m - 1) * geo m k = m ^ Z.of_nat k - 1.
Proof.
  induction k as [|k IH]; [cbn; lia|].
  rewrite Nat2Z.inj_succ, Z.pow_succ_r by lia. cbn [geo].
  replace ((m - 1) * (1 + m * geo m k)) with (m - 1 + m * ((m - 1) * geo m k)) by ring.
  rewrite IH. ring.
Qed.
Lemma lcg_closed m c x k : lcg m c x k = x + geo m k * ((m - 1) * x + c).
Proof. induction k as [|k IH]; cbn [lcg geo]; [ring | rewrite IH; ring]. Qed.
Lemma lcg_add m c x j k : lcg m c x (j + k) = lcg m c (lcg m c x k) j.
Proof. induction j as [|j IH]; cbn [lcg Nat.add]; [reflexivity | now rewrite IH]. Qed.
Lemma geo_add m j k : geo m (j + k) = geo m j + m ^ Z.of_nat j * geo m k.
Proof.
  induction j as [|j IH]; [cbn [geo Nat.add]; change (m ^ Z.of_nat 0) with 1; ring|].
  rewrite Nat2Z.inj_succ, Z.pow_succ_r by lia. cbn [geo Nat.add]. rewrite IH. ring.
Qed.
Lemma mod4_pow m k : m mod 4 = 1 -> (m ^ Z.of_nat k) mod 4 = 1.
Proof.
  intro H. induction k as [|k IH]; [reflexivity|].
  rewrite Nat2Z.inj_succ, Z.pow_succ_r by lia. rewrite Z.mul_mod, H, IH by lia. reflexivity.
Qed.
Lemma odd_geo m k : m mod 4 = 1 -> Z.odd (geo m k) = Nat.odd k.
Proof.
  intro H. assert (Z.odd m = true) as Hm.
  { apply Z.odd_spec. exists (2 * (m / 4)). pose proof (Z.div_mod m 4). lia. }
  induction k as [|k IH]; [reflexivity|]. cbn [geo].
  rewrite Z.odd_add, Z.odd_mul, Hm, IH, Nat.odd_succ. cbn [andb]. rewrite <- Nat.negb_odd.
  destruct (Nat.odd k); reflexivity.
Qed.

Lemma divide_odd_cancel n a b : Z.odd b = true -> (2 ^ Z.of_nat n | a * b) -> (2 ^ Z.of_nat n | a).
Proof.
  intros Hb Hd. apply Gauss with b; [now rewrite Z.mul_comm|].
  apply rel_prime_sym. apply rel_prime_Zpower_r; [lia|]. apply rel_prime_sym.
  apply prime_rel_prime; [exact prime_2|]. intro D. apply Z.odd_spec in Hb.
  destruct Hb as [q Hq]. destruct D as [r Hr]. lia.
Qed.

Lemma geo_divide m (Hm : m mod 4 = 1) : forall n k, (2 ^ Z.of_nat n | geo m k) <-> (2 ^ Z.of_nat n | Z.of_nat k).
Proof.
  induction n as [|n IH]; intro k; [cbn; split; intro; apply Z.divide_1_l|].
  rewrite Nat2Z.inj_succ, Z.pow_succ_r by lia.
  destruct (Nat.odd k) eqn:Ho.
  - split; intro D; exfalso.
    + assert (Z.odd (geo m k) = true) as Hg by now rewrite odd_geo.
      apply Z.odd_spec in Hg. destruct Hg as [q Hq]. destruct D as [r Hr]. nia.
    + apply Nat.odd_spec in Ho. destruct Ho as [q Hq]. destruct D as [r Hr]. nia.
  - assert (Nat.even k = true) as He by (rewrite <- Nat.negb_odd, Ho; reflexivity).
    apply Nat.even_spec in He. destruct He as [j Hj]. subst k.
    replace (2 * j)%nat with (j + j)%nat by lia. rewrite geo_add.
    pose proof (mod4_pow m j Hm) as H4.
    set (p := m ^ Z.of_nat j) in *.
    assert (exists q, Z.odd q = true /\ 1 + p = 2 * q) as (q & Hq & Hpq).
    { exists (1 + 2 * (p / 4)). split; [rewrite Z.odd_add, Z.odd_mul; reflexivity|].
      pose proof (Z.div_mod p 4). lia. }
    replace (geo m j + p * geo m j) with (2 * (geo m j * q)) by (rewrite Z.mul_assoc, (Z.mul_comm 2), <- Z.mul_assoc, <- Hpq; ring).
    replace (Z.of_nat (j + j)) with (2 * Z.of_nat j) by lia.
    split; intro D.
    + apply Z.mul_divide_mono_l. apply IH. apply divide_odd_cancel with q; [exact Hq|].
      now apply (proj1 (Z.mul_divide_cancel_l _ _ 2 ltac:(lia))) in D.
    + apply Z.mul_divide_mono_l. apply Z.divide_mul_l. apply IH.
      now apply (proj1 (Z.mul_divide_cancel_l _ _ 2 ltac:(lia))) in D.
Qed.

Section Period.
Variables m c : Z.
Hypothesis Hm : m mod 4 = 1.
Hypothesis Hc : Z.odd c = true.

Lemma odd_factor x : Z.odd ((m - 1) * x + c) = true.
Proof using Hm Hc.
  rewrite Z.odd_add, Z.odd_mul, Hc. replace (Z.odd (m - 1)) with false; [reflexivity|].
  symmetry. rewrite <- Z.negb_even. apply negb_false_iff, Z.even_spec. exists (2 * (m / 4)). pose proof (Z.div_mod m 4). lia.
Qed.
Lemma lcg_return n x k : (2 ^ Z.of_nat n | lcg m c x k - x) <-> (2 ^ Z.of_nat n | Z.of_nat k).
Proof using Hm Hc.
  rewrite lcg_closed. replace (x + geo m k * ((m - 1) * x + c) - x) with (geo m k * ((m - 1) * x + c)) by ring.
  rewrite <- (geo_divide m Hm). split; intro D.
  - exact (divide_odd_cancel _ _ _ (odd_factor x) D).
  - now apply Z.divide_mul_l.
Qed.
Lemma lcg_reach n x t : exists k, Z.of_nat k < 2 ^ Z.of_nat n /\ (2 ^ Z.of_nat n | lcg m c x k - t).
Proof using Hm Hc.
  induction n as [|n (k & Hk & D)]; [exists O; split; [cbn; lia | cbn; apply Z.divide_1_l]|].
  rewrite Nat2Z.inj_succ, Z.pow_succ_r by lia.
  assert (0 < 2 ^ Z.of_nat n) as Hp by (apply Z.pow_pos_nonneg; lia).
  destruct D as [q Hq].
  destruct (Z.even q) eqn:He.
  - exists k. split; [lia|]. apply Z.even_spec in He. destruct He as [r Hr]. exists r. rewrite Hq, Hr. ring.
  - set (P := Z.to_nat (2 ^ Z.of_nat n)).
    assert (Z.of_nat P = 2 ^ Z.of_nat n) as HP by (unfold P; lia).
    exists (P + k)%nat. split; [lia|].
    rewrite lcg_add. set (y := lcg m c x k) in *.
    assert (2 ^ Z.of_nat n | lcg m c y P - y) as [r Hr] by (apply lcg_return; rewrite HP; apply Z.divide_refl).
    assert (Z.odd r = true) as Hodd.
    { destruct (Z.odd r) eqn:E; [reflexivity|]. exfalso.
      assert (Z.even r = true) as E' by (rewrite <- Z.negb_odd, E; reflexivity).
      apply Z.even_spec in E'. destruct E' as [s Hs].
      assert (2 ^ Z.of_nat (S n) | lcg m c y P - y) as D2.
      { exists s. rewrite Nat2Z.inj_succ, Z.pow_succ_r by lia. rewrite Hr, Hs. ring. }
      apply lcg_return in D2. rewrite HP, Nat2Z.inj_succ, Z.pow_succ_r in D2 by lia.
      apply Z.divide_pos_le in D2; lia. }
    assert (Z.odd q = true) as Hqo by (rewrite <- Z.negb_even, He; reflexivity).
    apply Z.odd_spec in Hodd, Hqo. destruct Hodd as [s Hs], Hqo as [u Hu].
    exists (s + u + 1). replace (lcg m c y P - t) with ((lcg m c y P - y) + (y - t)) by ring.
    rewrite Hr, Hq, Hs, Hu. ring.
Qed.
End Period.

(* ---- the reduced generator --------------------------------------------------- *)
Lemma iter_lcg m c n (f : Z -> Z) : (forall x, f x = ((x * m) mod 2 ^ n + c) mod 2 ^ n) -> 0 <= n ->
  forall k x, Nat.iter k f x mod 2 ^ n = lcg m c x k mod 2 ^ n.
Proof.
  intros Hf Hn k x. induction k as [|k IH]; [reflexivity|].
  assert (2 ^ n <> 0) by (apply Z.pow_nonzero; lia).
  cbn [Nat.iter lcg]. change (Nat.iter (S k) f x) with (f (Nat.iter k f x)). rewrite Hf, Z.mod_mod, Z.add_mod_idemp_l by assumption.
  rewrite <- Z.add_mod_idemp_l by assumption. rewrite <- Z.mul_mod_idemp_l, IH by assumption.
  rewrite Z.mul_mod_idemp_l, Z.add_mod_idemp_l by assumption. f_equal. ring.
Qed.
Lemma mod_eq_divide a b p : p <> 0 -> (a mod p = b mod p <-> (p | a - b)).
Proof.
  intro Hp. split; intro H.
  - apply Z.mod_divide; [exact Hp|]. rewrite Zminus_mod, H, Z.sub_diag. now apply Z.mod_0_l.
  - destruct H as [q Hq]. replace a with (b + q * p) by lia. now apply Z.mod_add.
Qed.
Lemma odd_inverse n a : Z.odd a = true -> exists b, 0 <= b < 2 ^ Z.of_nat n /\ (a * b) mod 2 ^ Z.of_nat n = 1 mod 2 ^ Z.of_nat n.
Proof.
  intro Ha. assert (0 < 2 ^ Z.of_nat n) as Hp by (apply Z.pow_pos_nonneg; lia).
  assert (rel_prime a (2 ^ Z.of_nat n)) as R.
  { apply rel_prime_Zpower_r; [lia|]. apply rel_prime_sym, prime_rel_prime; [exact prime_2|].
    intros [r Hr]. apply Z.odd_spec in Ha. destruct Ha as [q Hq]. lia. }
  apply rel_prime_bezout in R. destruct R as [u v E].
  exists (u mod 2 ^ Z.of_nat n). split; [apply Z.mod_pos_bound; lia|].
  rewrite Z.mul_mod_idemp_r by lia. replace (a * u) with (1 + (- v) * 2 ^ Z.of_nat n) by lia. now rewrite Z.mod_add by lia.
Qed.
