(* Writing a double with p+1 >= 17 significant digits and reading it back. *)
From Coq Require Import Ascii String SpecFloat QArith Qabs Qpower Lqa Lia.
From Verif Require Import Base Int_Model F64_Model Rng_Model Date_Model Date_Str Gu_Model Io_Spec Io_Model Io_Proofs New_Spec New_Model SF_Proofs Txt_Model.
Local Open Scope Q_scope.

Notation "'qz' a" := (inject_Z a) (at level 9, a at level 9).
Definition pw (b k : Z) : Q := Qpower (qz b) k.

Lemma qz_pos b : (0 < b)%Z -> 0 < qz b.
Proof. intros H. change 0 with (qz 0). rewrite <- Zlt_Qlt. exact H. Qed.
Lemma qz_ne b : (0 < b)%Z -> ~ qz b == 0.
Proof. intros H. pose proof (qz_pos b H). lra. Qed.
Lemma pw_pos b k : (0 < b)%Z -> 0 < pw b k.
Proof. intros H. apply Qpower_0_lt. apply qz_pos, H. Qed.
Lemma pw_add b k l : (0 < b)%Z -> pw b (k + l) == pw b k * pw b l.
Proof. intros H. apply Qpower_plus. apply qz_ne, H. Qed.
Lemma pw_0 b : pw b 0 == 1.
Proof. reflexivity. Qed.
Lemma pw_1 b : pw b 1 == qz b.
Proof. apply Qpower_1_r. Qed.
Lemma pw_z b k : (0 <= k)%Z -> pw b k == qz (b ^ k).
Proof. intros H. unfold pw. rewrite Zpower_Qpower by exact H. reflexivity. Qed.
Lemma pw_opp b k : (0 < b)%Z -> pw b k * pw b (- k) == 1.
Proof. intros H. rewrite <- pw_add by exact H. replace (k + - k)%Z with 0%Z by lia. reflexivity. Qed.
Lemma pw_lt b k l : (1 < b)%Z -> (k < l)%Z -> pw b k < pw b l.
Proof.
  intros H L. replace l with (k + (l - k))%Z by lia. rewrite pw_add by lia. pose proof (pw_pos b k ltac:(lia)).
  assert (1 < pw b (l - k)).
  { rewrite pw_z by lia. change 1 with (qz 1). rewrite <- Zlt_Qlt. apply Z.pow_gt_1; lia. }
  nra.
Qed.
Lemma pw_le b k l : (1 < b)%Z -> (k <= l)%Z -> pw b k <= pw b l.
Proof. intros H L. destruct (Z.eq_dec k l) as [->|N]; [lra|]. apply Qlt_le_weak, pw_lt; lia. Qed.
Lemma pw_lt_inv b k l : (1 < b)%Z -> pw b k < pw b l -> (k < l)%Z.
Proof. intros H L. destruct (Z_lt_le_dec k l) as [|G]; [assumption|]. pose proof (pw_le b l k H G). lra. Qed.

(* the fraction q stands for the number x *)
Definition frac (q : Z * Z) (x : Q) : Prop := (0 < snd q)%Z /\ qz (fst q) == x * qz (snd q).

Lemma frac_ext q x y : x == y -> frac q x -> frac q y.
Proof. intros E [H1 H2]. split; [exact H1|]. rewrite H2, E. reflexivity. Qed.
Lemma frac_scaled b k q x : (0 < b)%Z -> frac q x -> frac (scaled b k q) (x * pw b (- k)).
Proof.
  intros Hb [H1 H2]. unfold scaled, frac. destruct (Z.leb_spec 0 k) as [L|L]; cbn [fst snd].
  - split; [apply Z.mul_pos_pos; [exact H1|apply Z.pow_pos_nonneg; lia]|].
    rewrite inject_Z_mult, <- pw_z by exact L. rewrite H2. pose proof (pw_opp b k Hb) as E.
    transitivity (x * qz (snd q) * (pw b k * pw b (- k))); [rewrite E; ring|ring].
  - split; [exact H1|]. rewrite inject_Z_mult, <- pw_z by lia. rewrite H2. ring.
Qed.
Lemma rne_half a m : (0 < m)%Z -> (- m <= 2 * (rne a m * m + - a) <= m)%Z.
Proof.
  intros H. unfold rne. pose proof (Z.div_mod a m ltac:(lia)). pose proof (Z.mod_pos_bound a m H).
  destruct (Z.ltb_spec (2 * (a mod m)) m); [nia|]. destruct (Z.ltb_spec m (2 * (a mod m))); [nia|]. destruct (Z.even (a / m)); nia.
Qed.
Lemma frac_rne q x : frac q x -> - (1 # 2) <= qz (rne_q q) - x <= 1 # 2.
Proof.
  intros [H1 H2]. unfold rne_q. pose proof (rne_half (fst q) (snd q) H1) as [L U]. pose proof (qz_pos _ H1) as P.
  rewrite Zle_Qle in L, U. rewrite inject_Z_mult, inject_Z_plus, inject_Z_opp, inject_Z_mult, H2 in U.
  rewrite inject_Z_mult, inject_Z_plus, !inject_Z_opp, inject_Z_mult, H2 in L. change (qz 2) with 2 in *.
  set (r := qz (rne (fst q) (snd q))) in *. set (m := qz (snd q)) in *. split.
  - apply (Qmult_lt_0_le_reg_r _ _ (2 * m)); [lra|]. lra.
  - apply (Qmult_lt_0_le_reg_r _ _ (2 * m)); [lra|]. lra.
Qed.
Lemma frac_rne_is q x c : frac q x -> - (1 # 2) < qz c - x -> qz c - x < 1 # 2 -> rne_q q = c.
Proof.
  intros F L U. destruct (frac_rne q x F) as [L' U'].
  assert (qz (rne_q q) < qz (c + 1)) as A by (rewrite inject_Z_plus; change (qz 1) with 1; lra).
  assert (qz c < qz (rne_q q + 1)) as B by (rewrite inject_Z_plus; change (qz 1) with 1; lra).
  rewrite <- Zlt_Qlt in A, B. lia.
Qed.
Lemma frac_fraction m e : frac (fraction m e) (qz (Zpos m) * pw 2 e).
Proof.
  unfold fraction. eapply frac_ext; [|apply frac_scaled; [lia|]].
  2:{ split; [cbn; lia|]. cbn [fst snd]. instantiate (1 := qz (Zpos m)). change (qz 1) with 1. ring. }
  replace (- - e)%Z with e by lia. reflexivity.
Qed.
Lemma frac_pos q x : frac q x -> 0 < x -> (0 < fst q)%Z.
Proof.
  intros [H1 H2] P. rewrite Zlt_Qlt. rewrite H2. change (qz 0) with 0. pose proof (qz_pos _ H1). nra.
Qed.

(* ---- the exponents ---- *)
Lemma log2_q_spec q x : frac q x -> 0 < x -> pw 2 (log2_q q) <= x /\ x < pw 2 (log2_q q + 1).
Proof.
  intros F P. pose proof (frac_pos q x F P) as PA. destruct F as [PB E]. unfold log2_q.
  set (l := (Z.log2 (fst q) - Z.log2 (snd q))%Z).
  destruct (Z.log2_spec (fst q) PA) as [A1 A2]. destruct (Z.log2_spec (snd q) PB) as [B1 B2].
  pose proof (Z.log2_nonneg (fst q)). pose proof (Z.log2_nonneg (snd q)).
  rewrite Zle_Qle in A1, B1. rewrite Zlt_Qlt in A2, B2. rewrite <- pw_z in A1, A2, B1, B2 by lia.
  pose proof (qz_pos _ PB) as QB. pose proof (pw_pos 2 (Z.log2 (snd q)) ltac:(lia)) as P2.
  assert (x < pw 2 (l + 1)) as UP.
  { apply (Qmult_lt_r _ _ (qz (snd q)) QB). rewrite <- E.
    apply Qlt_le_trans with (pw 2 (Z.succ (Z.log2 (fst q)))); [exact A2|].
    replace (Z.succ (Z.log2 (fst q))) with ((l + 1) + Z.log2 (snd q))%Z by (unfold l; lia). rewrite pw_add by lia.
    apply Qmult_le_l; [apply pw_pos; lia|exact B1]. }
  assert (pw 2 (l - 1) < x) as LO.
  { apply (Qmult_lt_r _ _ (qz (snd q)) QB). rewrite <- E.
    apply Qlt_le_trans with (pw 2 (Z.log2 (fst q))); [|exact A1].
    replace (Z.log2 (fst q)) with ((l - 1) + Z.succ (Z.log2 (snd q)))%Z by (unfold l; lia). rewrite pw_add by lia.
    apply Qmult_lt_l; [apply pw_pos; lia|exact B2]. }
  assert (frac q x) as F by (split; assumption). pose proof (frac_scaled 2 l q x ltac:(lia) F) as [S1 S2].
  pose proof (qz_pos _ S1) as QS. pose proof (pw_opp 2 l ltac:(lia)) as OP. pose proof (pw_pos 2 l ltac:(lia)). pose proof (pw_pos 2 (- l) ltac:(lia)).
  destruct (Z.ltb_spec (fst (scaled 2 l q)) (snd (scaled 2 l q))) as [L|L].
  - split; [lra|]. replace (l - 1 + 1)%Z with l by lia. rewrite Zlt_Qlt in L. rewrite S2 in L.
    assert (x * pw 2 (- l) < 1) by (apply (Qmult_lt_r _ _ (qz (snd (scaled 2 l q))) QS); lra).
    setoid_replace x with (x * pw 2 (- l) * pw 2 l) by (transitivity (x * (pw 2 l * pw 2 (- l))); [rewrite OP; ring|ring]). nra.
  - split; [|exact UP]. rewrite Zle_Qle in L. rewrite S2 in L.
    assert (1 <= x * pw 2 (- l)) by (apply (Qmult_lt_0_le_reg_r _ _ (qz (snd (scaled 2 l q))) QS); lra).
    setoid_replace x with (x * pw 2 (- l) * pw 2 l) by (transitivity (x * (pw 2 l * pw 2 (- l))); [rewrite OP; ring|ring]). nra.
Qed.
Lemma log2_q_is q x l : frac q x -> pw 2 l <= x -> x < pw 2 (l + 1) -> log2_q q = l.
Proof.
  intros F L U. pose proof (pw_pos 2 l ltac:(lia)). destruct (log2_q_spec q x F ltac:(lra)) as [L' U'].
  assert (pw 2 l < pw 2 (log2_q q + 1)) as A by lra. assert (pw 2 (log2_q q) < pw 2 (l + 1)) as B by lra.
  apply pw_lt_inv in A, B; lia.
Qed.

(* digits of a positive number *)
Lemma digits_len n : (0 < n)%Z -> (10 ^ (Z.of_nat (List.length (digits n)) - 1) <= n < 10 ^ Z.of_nat (List.length (digits n)))%Z.
Proof.
  intros H. destruct (digits_spec n ltac:(lia)) as (ds & -> & FD & HN & HP & HK). split.
  - destruct (Z_le_gt_dec (10 ^ (Z.of_nat (List.length ds) - 1)) n) as [|G]; [assumption|exfalso].
    destruct (List.length ds) as [|[|k]] eqn:EL; [lia| |].
    + cbn in G. lia.
    + specialize (HK (S k) ltac:(lia)). replace (Z.of_nat (S (S k)) - 1)%Z with (Z.of_nat (S k)) in G by lia. specialize (HK ltac:(lia)). lia.
  - specialize (HN 0%Z). clear HK HP.
    assert (forall s z w, Forall is_dig s -> number s z = Some w -> (0 <= z)%Z -> (w < (z + 1) * 10 ^ Z.of_nat (List.length s))%Z) as K.
    { induction s as [|c s IH]; intros z w FS E Hz; cbn [number] in E.
      - injection E as <-. cbn. lia.
      - inversion FS as [|? ? (d & Hd & ->) FS']; subst. rewrite digit_val in E by exact Hd. specialize (IH _ _ FS' E ltac:(lia)).
        cbn [List.length]. rewrite Nat2Z.inj_succ, Z.pow_succ_r by lia. nia. }
    specialize (K ds 0%Z _ FD HN ltac:(lia)). lia.
Qed.

Lemma decimal_exponent_spec q x : frac q x -> pw 10 (-400) <= x ->
  pw 10 (decimal_exponent q) <= x /\ x < pw 10 (decimal_exponent q + 1).
Proof.
  intros [PB E] LO. unfold decimal_exponent. pose proof (qz_pos _ PB) as QB.
  set (N := (fst q * 10 ^ 400 / snd q)%Z).
  pose proof (Z.div_mod (fst q * 10 ^ 400) (snd q) ltac:(lia)) as DM. pose proof (Z.mod_pos_bound (fst q * 10 ^ 400) (snd q) PB) as MB. fold N in DM.
  pose proof (pw_pos 10 400 ltac:(lia)) as P4.
  assert (qz (fst q * 10 ^ 400) == x * pw 10 400 * qz (snd q)) as EX.
  { rewrite inject_Z_mult, E, pw_z by lia. ring. }
  assert (qz N <= x * pw 10 400) as L1.
  { apply (Qmult_lt_0_le_reg_r _ _ (qz (snd q)) QB). rewrite <- EX, <- inject_Z_mult, <- Zle_Qle. lia. }
  assert (x * pw 10 400 < qz (N + 1)) as L2.
  { apply (Qmult_lt_r _ _ (qz (snd q)) QB). rewrite <- EX, <- inject_Z_mult, <- Zlt_Qlt. lia. }
  assert (1 <= x * pw 10 400) as L3.
  { rewrite <- (pw_opp 10 400) by lia. rewrite (Qmult_comm x). apply Qmult_le_l; [exact P4|exact LO]. }
  assert (0 < N)%Z as PN.
  { assert (qz 1 < qz (N + 1)) as A by (change (qz 1) with 1; lra). rewrite <- Zlt_Qlt in A. lia. }
  pose proof (digits_len N PN) as [D1 D2]. set (L := Z.of_nat (List.length (digits N))) in *.
  assert (1 <= L)%Z as HL.
  { destruct (Z_le_gt_dec 1 L) as [|G]; [assumption|]. assert (L = 0)%Z as E0 by lia. rewrite E0 in D2. cbn in D2. lia. }
  pose proof (pw_opp 10 400 ltac:(lia)) as OP. pose proof (pw_pos 10 (-400) ltac:(lia)) as P5. change (- (400))%Z with (-400)%Z in OP.
  split.
  - replace (L - 401)%Z with ((L - 1) + -400)%Z by lia. rewrite pw_add by lia.
    assert (pw 10 (L - 1) <= x * pw 10 400) as A. { apply Qle_trans with (qz N); [|exact L1]. rewrite pw_z by lia. rewrite <- Zle_Qle. exact D1. }
    setoid_replace x with (x * pw 10 400 * pw 10 (-400)) by (transitivity (x * (pw 10 400 * pw 10 (-400))); [rewrite OP; ring|ring]).
    apply Qmult_le_r; [exact P5|exact A].
  - replace (L - 401 + 1)%Z with (L + -400)%Z by lia. rewrite pw_add by lia.
    assert (x * pw 10 400 < pw 10 L) as A. { apply Qlt_le_trans with (qz (N + 1)); [exact L2|]. rewrite pw_z by lia. rewrite <- Zle_Qle. lia. }
    setoid_replace x with (x * pw 10 400 * pw 10 (-400)) by (transitivity (x * (pw 10 400 * pw 10 (-400))); [rewrite OP; ring|ring]).
    apply Qmult_lt_r; [exact P5|exact A].
Qed.

(* ---- reading ---- *)
(* the double m * 2^e is the one nearest to every y close to it *)
Lemma nearest_is s m e q y : frac q y ->
  (Zpos m < 2 ^ 53)%Z -> (-1074 <= e <= 971)%Z -> (2 ^ 52 <= Zpos m \/ e = -1074)%Z ->
  let x := qz (Zpos m) * pw 2 e in
  - pw 2 (e - 1) < y - x -> y - x < pw 2 (e - 1) -> ((Zpos m = 2 ^ 52)%Z -> - pw 2 (e - 2) < y - x) ->
  nearest s q = S754_finite s m e.
Proof.
  intros F HM HE HC x LO UP LB.
  pose proof (pw_pos 2 e ltac:(lia)) as PE. pose proof (pw_pos 2 (e - 1) ltac:(lia)) as PE1. pose proof (pw_pos 2 (e - 2) ltac:(lia)) as PE2.
  assert (pw 2 e == 2 * pw 2 (e - 1)) as E1. { replace e with (1 + (e - 1))%Z at 1 by lia. rewrite pw_add, pw_1 by lia. reflexivity. }
  assert (pw 2 (e - 1) == 2 * pw 2 (e - 2)) as E2. { replace (e - 1)%Z with (1 + (e - 2))%Z by lia. rewrite pw_add, pw_1 by lia. reflexivity. }
  assert (1 <= qz (Zpos m)) as M1. { change 1 with (qz 1). rewrite <- Zle_Qle. lia. }
  assert (qz (Zpos m) <= qz (2 ^ 53 - 1)) as M2. { rewrite <- Zle_Qle. lia. }
  assert (pw 2 (e + 53) == qz (2 ^ 53) * pw 2 e) as E53. { replace (e + 53)%Z with (53 + e)%Z by lia. rewrite pw_add, (pw_z 2 53) by lia. reflexivity. }
  assert (pw 2 (e + 52) == qz (2 ^ 52) * pw 2 e) as E52. { replace (e + 52)%Z with (52 + e)%Z by lia. rewrite pw_add, (pw_z 2 52) by lia. reflexivity. }
  assert (qz (2 ^ 53) == qz (2 ^ 53 - 1) + 1) as EZ by reflexivity.
  assert (x <= qz (2 ^ 53 - 1) * pw 2 e) as XU by (unfold x; apply Qmult_le_r; [exact PE|exact M2]).
  assert (pw 2 e <= x) as XL by (unfold x; nra).
  assert (y < pw 2 (e + 53)) as YU by (rewrite E53, EZ; lra).
  assert (0 < y) as YP by lra.
  destruct (log2_q_spec q y F YP) as [G1 G2]. set (l := log2_q q) in *.
  assert (l < e + 53)%Z as LE by (apply (pw_lt_inv 2); [lia|lra]).
  assert (forall t, pw 2 t * pw 2 (- t) == 1) as OP by (intros t; apply pw_opp; lia).
  destruct (Qlt_le_dec y (pw 2 (e + 52))) as [YS|YB]; [destruct (Z.eq_dec e (-1074)) as [EE|EN]|].
  - (* the smallest exponent *)
    unfold nearest. fold l. replace (Z.max (l - 52) (-1074)) with e by lia.
    rewrite (frac_rne_is (scaled 2 e q) (y * pw 2 (- e)) (Zpos m)); [|apply frac_scaled; [lia|exact F]| |].
    + destruct (Z.eqb_spec (Zpos m) (2 ^ 53)) as [EB|_]; [lia|]. destruct (Z.ltb_spec 971 e) as [|_]; [lia|]. reflexivity.
    + pose proof (pw_pos 2 (- e) ltac:(lia)) as PN. specialize (OP e).
      setoid_replace (qz (Zpos m) - y * pw 2 (- e)) with ((x - y) * pw 2 (- e)) by (unfold x; transitivity (qz (Zpos m) * (pw 2 e * pw 2 (- e)) - y * pw 2 (- e)); [rewrite OP; ring|ring]).
      setoid_replace (- (1 # 2)) with (- pw 2 (e - 1) * pw 2 (- e)) by (transitivity (- (1 # 2) * (pw 2 e * pw 2 (- e))); [rewrite OP; ring|rewrite E1; ring]).
      apply Qmult_lt_r; [exact PN|lra].
    + pose proof (pw_pos 2 (- e) ltac:(lia)) as PN. specialize (OP e).
      setoid_replace (qz (Zpos m) - y * pw 2 (- e)) with ((x - y) * pw 2 (- e)) by (unfold x; transitivity (qz (Zpos m) * (pw 2 e * pw 2 (- e)) - y * pw 2 (- e)); [rewrite OP; ring|ring]).
      setoid_replace (1 # 2) with (pw 2 (e - 1) * pw 2 (- e)) by (transitivity ((1 # 2) * (pw 2 e * pw 2 (- e))); [rewrite OP; ring|rewrite E1; ring]).
      apply Qmult_lt_r; [exact PN|lra].
  - (* just below a power of two *)
    assert (Zpos m = 2 ^ 52)%Z as EM.
    { destruct HC as [HC|]; [|contradiction]. destruct (Z.eq_dec (Zpos m) (2 ^ 52)) as [|N]; [assumption|exfalso].
      assert (qz (2 ^ 52) + 1 <= qz (Zpos m)) as A. { change 1 with (qz 1). rewrite <- inject_Z_plus, <- Zle_Qle. lia. }
      assert ((qz (2 ^ 52) + 1) * pw 2 e <= x) by (unfold x; apply Qmult_le_r; [exact PE|exact A]). lra. }
    specialize (LB EM). assert (x == pw 2 (e + 52)) as EX by (unfold x; rewrite EM, E52; reflexivity).
    assert (pw 2 (e + 52) == 2 * pw 2 (e + 51)) as E51. { replace (e + 52)%Z with (1 + (e + 51))%Z by lia. rewrite pw_add, pw_1 by lia. reflexivity. }
    assert (pw 2 (e - 2) < pw 2 (e + 51)) by (apply pw_lt; lia).
    assert (l = e + 51)%Z as EL. { apply (log2_q_is q y); [exact F|lra|]. replace (e + 51 + 1)%Z with (e + 52)%Z by lia. exact YS. }
    unfold nearest. fold l. rewrite EL. replace (Z.max (e + 51 - 52) (-1074)) with (e - 1)%Z by lia.
    specialize (OP (e - 1)%Z). pose proof (pw_pos 2 (- (e - 1)) ltac:(lia)) as PN.
    assert (qz (2 ^ 53) == x * pw 2 (- (e - 1))) as E3.
    { unfold x. rewrite EM. rewrite E1. change (qz (2 ^ 53)) with (2 * qz (2 ^ 52)).
      transitivity (2 * qz (2 ^ 52) * (pw 2 (e - 1) * pw 2 (- (e - 1)))); [rewrite OP; ring|ring]. }
    rewrite (frac_rne_is (scaled 2 (e - 1) q) (y * pw 2 (- (e - 1))) (2 ^ 53)); [|apply frac_scaled; [lia|exact F]| |].
    + change (2 ^ 53)%Z with 9007199254740992%Z at 1. cbv beta iota.
      destruct (Z.eqb_spec 9007199254740992 (2 ^ 53)) as [_|N]; [|exfalso; apply N; reflexivity].
      replace (e - 1 + 1)%Z with e by lia. destruct (Z.ltb_spec 971 e) as [|_]; [lia|]. f_equal.
      change (2 ^ 52)%Z with 4503599627370496%Z in EM. injection EM as ->. reflexivity.
    + rewrite E3. setoid_replace (x * pw 2 (- (e - 1)) - y * pw 2 (- (e - 1))) with ((x - y) * pw 2 (- (e - 1))) by ring.
      assert (0 < x - y) by lra. assert (0 < (x - y) * pw 2 (- (e - 1))) by nra. lra.
    + rewrite E3. setoid_replace (x * pw 2 (- (e - 1)) - y * pw 2 (- (e - 1))) with ((x - y) * pw 2 (- (e - 1))) by ring.
      setoid_replace (1 # 2) with (pw 2 (e - 2) * pw 2 (- (e - 1))) by (transitivity ((1 # 2) * (pw 2 (e - 1) * pw 2 (- (e - 1)))); [rewrite OP; ring|rewrite E2; ring]).
      apply Qmult_lt_r; [exact PN|lra].
  - assert (l = e + 52)%Z as EL. { apply (log2_q_is q y); [exact F|exact YB|]. replace (e + 52 + 1)%Z with (e + 53)%Z by lia. exact YU. }
    unfold nearest. fold l. rewrite EL. replace (Z.max (e + 52 - 52) (-1074)) with e by lia.
    rewrite (frac_rne_is (scaled 2 e q) (y * pw 2 (- e)) (Zpos m)); [|apply frac_scaled; [lia|exact F]| |].
    + destruct (Z.eqb_spec (Zpos m) (2 ^ 53)) as [EB|_]; [lia|]. destruct (Z.ltb_spec 971 e) as [|_]; [lia|]. reflexivity.
    + pose proof (pw_pos 2 (- e) ltac:(lia)) as PN. specialize (OP e).
      setoid_replace (qz (Zpos m) - y * pw 2 (- e)) with ((x - y) * pw 2 (- e)) by (unfold x; transitivity (qz (Zpos m) * (pw 2 e * pw 2 (- e)) - y * pw 2 (- e)); [rewrite OP; ring|ring]).
      setoid_replace (- (1 # 2)) with (- pw 2 (e - 1) * pw 2 (- e)) by (transitivity (- (1 # 2) * (pw 2 e * pw 2 (- e))); [rewrite OP; ring|rewrite E1; ring]).
      apply Qmult_lt_r; [exact PN|lra].
    + pose proof (pw_pos 2 (- e) ltac:(lia)) as PN. specialize (OP e).
      setoid_replace (qz (Zpos m) - y * pw 2 (- e)) with ((x - y) * pw 2 (- e)) by (unfold x; transitivity (qz (Zpos m) * (pw 2 e * pw 2 (- e)) - y * pw 2 (- e)); [rewrite OP; ring|ring]).
      setoid_replace (1 # 2) with (pw 2 (e - 1) * pw 2 (- e)) by (transitivity ((1 # 2) * (pw 2 e * pw 2 (- e))); [rewrite OP; ring|rewrite E1; ring]).
      apply Qmult_lt_r; [exact PN|lra].
Qed.

(* ---- writing ---- *)
Lemma sci_spec p q x : frac q x -> pw 10 (-400) <= x ->
  exists k0, pw 10 k0 <= x /\
    (10 ^ Z.of_nat p <= fst (sci p q) < 10 ^ (Z.of_nat p + 1))%Z /\
    - ((1 # 2) * pw 10 (k0 - Z.of_nat p)) <= qz (fst (sci p q)) * pw 10 (snd (sci p q) - Z.of_nat p) - x <= (1 # 2) * pw 10 (k0 - Z.of_nat p).
Proof.
  intros F LO. destruct (decimal_exponent_spec q x F LO) as [L U]. unfold sci. set (k := decimal_exponent q) in *. set (P := Z.of_nat p).
  exists k. split; [exact L|].
  pose proof (frac_scaled 10 (k - P) q x ltac:(lia) F) as FS. set (r := rne_q (scaled 10 (k - P) q)).
  destruct (frac_rne _ _ FS) as [R1 R2]. fold r in R1, R2.
  set (y := x * pw 10 (- (k - P))) in *. pose proof (pw_pos 10 (k - P) ltac:(lia)) as PK. pose proof (pw_pos 10 (- (k - P)) ltac:(lia)) as PK'.
  pose proof (pw_opp 10 (k - P) ltac:(lia)) as OP.
  assert (x == y * pw 10 (k - P)) as EY by (unfold y; transitivity (x * (pw 10 (k - P) * pw 10 (- (k - P)))); [rewrite OP; ring|ring]).
  assert (0 <= P)%Z as HP by (unfold P; lia).
  assert (qz (10 ^ P) <= y) as YL.
  { rewrite <- pw_z by exact HP. replace P with (k + - (k - P))%Z at 1 by lia. rewrite pw_add by lia. apply Qmult_le_r; [exact PK'|exact L]. }
  assert (y < qz (10 ^ (P + 1))) as YU.
  { rewrite <- pw_z by lia. replace (P + 1)%Z with ((k + 1) + - (k - P))%Z by lia. rewrite pw_add by lia. apply Qmult_lt_r; [exact PK'|exact U]. }
  assert (10 ^ P <= r)%Z as RL.
  { assert (qz (10 ^ P) < qz (r + 1)) as A by (rewrite inject_Z_plus; change (qz 1) with 1; lra). rewrite <- Zlt_Qlt in A. lia. }
  assert (r <= 10 ^ (P + 1))%Z as RU.
  { assert (qz r < qz (10 ^ (P + 1) + 1)) as A by (rewrite inject_Z_plus; change (qz 1) with 1; lra). rewrite <- Zlt_Qlt in A. lia. }
  assert (- ((1 # 2) * pw 10 (k - P)) <= qz r * pw 10 (k - P) - x <= (1 # 2) * pw 10 (k - P)) as ER.
  { rewrite EY. setoid_replace (qz r * pw 10 (k - P) - y * pw 10 (k - P)) with ((qz r - y) * pw 10 (k - P)) by ring. split; nra. }
  assert (0 < 10 ^ P)%Z by (apply Z.pow_pos_nonneg; lia).
  destruct (Z.eqb_spec r (10 ^ (P + 1))) as [E|E]; cbn [fst snd].
  - split; [rewrite Z.pow_add_r by lia; lia|].
    assert (qz (10 ^ P) * pw 10 (k + 1 - P) == qz r * pw 10 (k - P)) as ->; [|exact ER].
    rewrite E. replace (k + 1 - P)%Z with (1 + (k - P))%Z by lia. rewrite pw_add, pw_1 by lia. rewrite Z.pow_add_r by lia.
    rewrite inject_Z_mult. change (qz (10 ^ 1)) with (qz 10). ring.
  - split; [lia|exact ER].
Qed.

Lemma bounded_inv m e : SpecFloat.bounded 53 1024 m e = true ->
  (Zpos m < 2 ^ 53 /\ -1074 <= e <= 971 /\ (2 ^ 52 <= Zpos m \/ e = -1074))%Z.
Proof.
  unfold SpecFloat.bounded, canonical_mantissa, fexp. intros H. apply andb_prop in H as [H1 H2]. apply Zeq_bool_eq in H1. apply Zle_bool_imp_le in H2.
  change (emin 53 1024) with (-1074)%Z in H1. change (1024 - 53)%Z with 971%Z in H2.
  pose proof (dlen_bounds m) as B. unfold dlen in B. set (d := Zpos (digits2_pos m)) in *. assert (1 <= d)%Z by (unfold d; lia).
  assert (d <= 53)%Z by lia. pose proof (Z.pow_le_mono_r 2 d 53 ltac:(lia) ltac:(lia)).
  split; [lia|]. split; [lia|]. destruct (Z.eq_dec d 53) as [E|N]; [left; rewrite E in B; cbn in B; cbn; lia|right; lia].
Qed.
Lemma small_double : pw 10 (-400) <= pw 2 (-1074).
Proof.
  assert (pw 10 400 == qz (10 ^ 400)) as E1 by (apply pw_z; lia). assert (pw 2 1074 == qz (2 ^ 1074)) as E2 by (apply pw_z; lia).
  pose proof (pw_opp 10 400 ltac:(lia)) as O1. pose proof (pw_opp 2 1074 ltac:(lia)) as O2.
  pose proof (pw_pos 10 (-400) ltac:(lia)) as P1. pose proof (pw_pos 2 (-1074) ltac:(lia)) as P2.
  assert (pw 2 1074 <= pw 10 400) as L. { rewrite E1, E2. rewrite <- Zle_Qle. apply Z.leb_le. vm_compute. reflexivity. }
  change (- (400))%Z with (-400)%Z in O1. change (- (1074))%Z with (-1074)%Z in O2. clear E1 E2.
  set (a := pw 10 (-400)) in *. set (b := pw 2 (-1074)) in *. set (A := pw 10 400) in *. set (B := pw 2 1074) in *.
  setoid_replace a with (a * (B * b)) by (rewrite O2; ring). setoid_replace b with (b * (A * a)) at 2 by (rewrite O1; ring).
  setoid_replace (a * (B * b)) with (a * b * B) by ring. setoid_replace (b * (A * a)) with (a * b * A) by ring.
  apply Qmult_le_l; [nra|exact L].
Qed.

(* p+1 >= 17 digits determine a double *)
Lemma sci_nearest s p m e : (16 <= p)%nat -> SpecFloat.bounded 53 1024 m e = true ->
  let '(d, k) := sci p (fraction m e) in
  (10 ^ Z.of_nat p <= d < 10 ^ (Z.of_nat p + 1))%Z /\ of_decimal s d (k - Z.of_nat p) = S754_finite s m e.
Proof.
  intros Hp HB. destruct (bounded_inv m e HB) as (HM & HE & HC). pose proof (frac_fraction m e) as F. set (x := qz (Zpos m) * pw 2 e) in *.
  pose proof (pw_pos 2 e ltac:(lia)) as PE.
  assert (1 <= qz (Zpos m)) as M1. { change 1 with (qz 1). rewrite <- Zle_Qle. lia. }
  assert (pw 10 (-400) <= x) as LO.
  { apply Qle_trans with (pw 2 (-1074)); [apply small_double|]. apply Qle_trans with (pw 2 e); [apply pw_le; lia|unfold x; nra]. }
  destruct (sci_spec p _ x F LO) as (k0 & K & D & ER). destruct (sci p (fraction m e)) as [d k]. cbn [fst snd] in *. split; [exact D|].
  set (P := Z.of_nat p) in *. assert (16 <= P)%Z as HP by (unfold P; lia).
  assert (0 < 10 ^ P)%Z as PP by (apply Z.pow_pos_nonneg; lia).
  unfold of_decimal. destruct (Z.eqb_spec d 0) as [E|_]; [lia|].
  pose proof (pw_pos 10 (- P) ltac:(lia)) as PN. pose proof (pw_pos 10 k0 ltac:(lia)) as PK.
  (* the error is at most x / (2 * 10^16) *)
  assert (pw 10 (k0 - P) * qz (10 ^ 16) <= x) as EX.
  { apply Qle_trans with (pw 10 k0); [|exact K]. replace k0 with ((k0 - P) + P)%Z at 2 by lia. rewrite pw_add by lia.
    apply Qmult_le_l; [apply pw_pos; lia|]. rewrite <- (pw_z 10 16) by lia. apply pw_le; lia. }
  set (h := pw 10 (k0 - P)) in *. assert (0 < h) by (apply pw_pos; lia).
  assert (pw 2 e == 2 * pw 2 (e - 1)) as E1. { replace e with (1 + (e - 1))%Z at 1 by lia. rewrite pw_add, pw_1 by lia. reflexivity. }
  assert (pw 2 (e - 1) == 2 * pw 2 (e - 2)) as E2. { replace (e - 1)%Z with (1 + (e - 2))%Z by lia. rewrite pw_add, pw_1 by lia. reflexivity. }
  assert (qz (Zpos m) <= qz (2 ^ 53)) as M2. { rewrite <- Zle_Qle. lia. }
  assert (h < pw 2 e) as HH.
  { assert (x <= qz (2 ^ 53) * pw 2 e) by (unfold x; apply Qmult_le_r; assumption).
    assert (qz (2 ^ 53) * pw 2 e < qz (10 ^ 16) * pw 2 e) as A by (apply Qmult_lt_r; [exact PE|rewrite <- Zlt_Qlt; reflexivity]).
    assert (h * qz (10 ^ 16) < pw 2 e * qz (10 ^ 16)) as B by lra. apply Qmult_lt_r in B; [exact B|]. reflexivity. }
  apply nearest_is with (y := qz d * pw 10 (k - P)); try assumption.
  - eapply frac_ext; [|apply frac_scaled; [lia|]].
    2:{ split; [cbn; lia|]. cbn [fst snd]. instantiate (1 := qz d). change (qz 1) with 1. ring. }
    replace (- - (k - P))%Z with (k - P)%Z by lia. reflexivity.
  - fold x. lra.
  - fold x. lra.
  - intros EM. fold x. assert (x == qz (2 ^ 52) * pw 2 e) as EXX by (unfold x; rewrite EM; reflexivity).
    assert (h < pw 2 (e - 1)) as HH'.
    { assert (qz (2 ^ 52) * pw 2 e == qz (2 ^ 53) * pw 2 (e - 1)) as EQ by (rewrite E1; change (qz (2 ^ 53)) with (2 * qz (2 ^ 52)); ring).
      assert (0 < pw 2 (e - 1)) by (apply pw_pos; lia).
      assert (qz (2 ^ 53) * pw 2 (e - 1) < qz (10 ^ 16) * pw 2 (e - 1)) as A by (apply Qmult_lt_r; [assumption|rewrite <- Zlt_Qlt; reflexivity]).
      assert (h * qz (10 ^ 16) < pw 2 (e - 1) * qz (10 ^ 16)) as B by lra. apply Qmult_lt_r in B; [exact B|]. reflexivity. }
    lra.
Qed.

(* ---- the text ---- *)
Local Open Scope nat_scope.
Local Open Scope list_scope.
Lemma dig_numeric c : is_dig c -> numeric c = true.
Proof. intros H. apply dig_value in H. unfold numeric, is_digit. change (Z.of_N (N_of_ascii c)) with (value c). destruct (Z.leb_spec 48 (value c)); [|lia]. destruct (Z.leb_spec (value c) 57); [reflexivity|lia]. Qed.
Lemma span_digits_app ds r : Forall is_dig ds -> (match r with c :: _ => numeric c = false | [] => True end) -> span_digits (ds ++ r) = (ds, r).
Proof.
  intros H HR. induction H as [|c ds Hc _ IH]; cbn [app].
  - destruct r as [|c r]; [reflexivity|]. cbn [span_digits]. rewrite HR. reflexivity.
  - cbn [span_digits]. rewrite (dig_numeric c Hc), IH. reflexivity.
Qed.
Lemma number_some ds : Forall is_dig ds -> forall z, exists w, number ds z = Some w.
Proof.
  induction 1 as [|c ds Hc _ IH]; intros z; cbn [number]; [eauto|]. destruct Hc as (d & Hd & ->). rewrite digit_val by exact Hd. apply IH.
Qed.
Lemma digits_number n : (0 <= n)%Z -> Forall is_dig (digits n) /\ number (digits n) 0 = Some n /\ digits n <> [].
Proof.
  intros H. destruct (digits_spec n H) as (ds & -> & FD & HN & HP & _). split; [exact FD|]. split; [rewrite HN; f_equal; lia|]. destruct ds; [cbn in HP; lia|discriminate].
Qed.
Lemma digits_exact n k : (10 ^ Z.of_nat k <= n < 10 ^ (Z.of_nat k + 1))%Z -> List.length (digits n) = S k.
Proof.
  intros H. assert (0 < 10 ^ Z.of_nat k)%Z by (apply Z.pow_pos_nonneg; lia). destruct (digits_len n ltac:(lia)) as [L U].
  set (l := Z.of_nat (List.length (digits n))) in *.
  assert (Z.of_nat k < l)%Z. { destruct (Z_lt_le_dec (Z.of_nat k) l) as [|G]; [assumption|]. pose proof (Z.pow_le_mono_r 10 l (Z.of_nat k) ltac:(lia) G). lia. }
  assert (l <= Z.of_nat k + 1)%Z. { destruct (Z_lt_le_dec (Z.of_nat k + 1) l) as [G|]; [|assumption]. pose proof (Z.pow_le_mono_r 10 (Z.of_nat k + 1) (l - 1) ltac:(lia) ltac:(lia)). lia. }
  lia.
Qed.
Lemma dig_sign c s : is_dig c -> take_sign (c :: s) = (false, c :: s).
Proof. intros H. cbn [take_sign]. rewrite !(dig_eqb c) by (try exact H; vm_compute; intros [? ?]; auto). reflexivity. Qed.
Lemma parse_exponent_show k : parse_exponent (txt "e" ++ show_int k) = Some k.
Proof.
  unfold show_int. change (txt "e") with ["e"%char]. cbn [app parse_exponent]. change (one_of (txt "eE") "e") with true. cbv iota.
  destruct (Z.ltb_spec k 0) as [L|L].
  - destruct (digits_number (- k) ltac:(lia)) as (FD & HN & NE). cbn [take_sign]. change (Ascii.eqb "-" "-") with true. cbv iota.
    rewrite HN. destruct (digits (- k)); [congruence|]. cbn [option_map]. f_equal. lia.
  - destruct (digits_number k L) as (FD & HN & NE). destruct (digits k) as [|c s] eqn:E; [congruence|]. inversion FD; subst.
    rewrite dig_sign by assumption. rewrite HN. reflexivity.
Qed.
Lemma parse_decimal_text c r n k : Forall is_dig (c :: r) -> number (c :: r) 0 = Some n ->
  parse_decimal (with_point (c :: r) ++ txt "e" ++ show_int k) = Some (n, (k - Z.of_nat (List.length r))%Z).
Proof.
  intros FD HN. unfold parse_decimal. assert (forall t, (match txt "e" ++ t with x :: _ => numeric x = false | [] => True end)) as NE by (intros; reflexivity).
  destruct r as [|x r]; cbn [with_point].
  - rewrite span_digits_app by (try exact FD; apply NE). change (txt "e" ++ show_int k) with ("e"%char :: show_int k).
    cbv iota beta. change (Ascii.eqb "e" ".") with false. cbv iota. change ([c] ++ []) with [c]. cbv iota. rewrite HN.
    change ("e"%char :: show_int k) with (txt "e" ++ show_int k). rewrite parse_exponent_show. reflexivity.
  - inversion FD as [|? ? Hc HR]; subst.
    change ((c :: "."%char :: x :: r) ++ txt "e" ++ show_int k) with ([c] ++ ("."%char :: ((x :: r) ++ (txt "e" ++ show_int k)))).
    rewrite span_digits_app; [|constructor; [exact Hc|constructor]|reflexivity]. change (Ascii.eqb "." ".") with true. cbv iota.
    rewrite span_digits_app by (try exact HR; apply NE). change ([c] ++ (x :: r)) with (c :: x :: r). cbv iota. rewrite HN, parse_exponent_show. reflexivity.
Qed.
Lemma parse_f64_signed s t n e : (match t with c :: _ => is_dig c | [] => False end) -> parse_decimal t = Some (n, e) ->
  parse_f64 (sign_text s ++ t) = Some (of_decimal s n e).
Proof.
  intros HD HP. unfold parse_f64. destruct t as [|c t]; [contradiction|]. destruct s; cbn [sign_text].
  - change (txt "-" ++ c :: t) with ("-"%char :: c :: t). cbn [take_sign]. change (Ascii.eqb "-" "-") with true. cbv iota. rewrite HP. reflexivity.
  - cbn [app]. rewrite dig_sign by exact HD. rewrite HP. reflexivity.
Qed.
Lemma sci_text p d k : (10 ^ Z.of_nat p <= d < 10 ^ (Z.of_nat p + 1))%Z ->
  exists c r, digits d = c :: r /\ Forall is_dig (c :: r) /\ List.length r = p /\ number (c :: r) 0 = Some d /\
  parse_decimal (with_point (digits d) ++ txt "e" ++ show_int k) = Some (d, (k - Z.of_nat p)%Z).
Proof.
  intros H. assert (0 < 10 ^ Z.of_nat p)%Z by (apply Z.pow_pos_nonneg; lia). destruct (digits_number d ltac:(lia)) as (FD & HN & NE). pose proof (digits_exact d p H) as EL.
  destruct (digits d) as [|c r]; [congruence|]. exists c, r. cbn [List.length] in EL. injection EL as EL. split; [reflexivity|]. split; [exact FD|]. split; [exact EL|]. split; [exact HN|].
  rewrite (parse_decimal_text c r d k FD HN), EL. reflexivity.
Qed.
(* {:.pe} with p >= 16 is read back as the same double *)
Theorem show_sci_parse p x : 16 <= p -> valid_binary 53 1024 x = true -> parse_f64 (show_sci p x) = Some x.
Proof.
  intros Hp HV. destruct x as [s|s| |s m e]; cbn [show_sci].
  - assert (repeat "0"%char (p + 1) = "0"%char :: repeat "0"%char p) as E by (rewrite Nat.add_1_r; reflexivity). rewrite E.
    assert (Forall is_dig ("0"%char :: repeat "0"%char p)) as FD.
    { rewrite <- E. apply Forall_forall. intros y Hy. apply repeat_spec in Hy as ->. exists 0%Z. split; [lia|reflexivity]. }
    rewrite (parse_f64_signed s _ 0%Z (0 - Z.of_nat (List.length (repeat "0"%char p)))%Z).
    + reflexivity.
    + destruct (repeat "0"%char p); inversion FD; assumption.
    + change (txt "e0") with (txt "e" ++ show_int 0). apply parse_decimal_text; [exact FD|]. rewrite <- E. apply number_zeros.
  - destruct s; reflexivity.
  - reflexivity.
  - pose proof (sci_nearest s p m e Hp HV) as K. destruct (sci p (fraction m e)) as [d k]. destruct K as [D E].
    destruct (sci_text p d k D) as (c & r & ED & FD & EL & HN & HP).
    rewrite (parse_f64_signed s _ d (k - Z.of_nat p)%Z); [rewrite E; reflexivity| |exact HP].
    rewrite ED. destruct r; inversion FD; assumption.
Qed.
