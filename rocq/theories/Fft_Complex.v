(* The complex numbers over Coq's reals, with e^(-2 pi i / n) as the forward root:
   the hypotheses of the transform theorems hold there. *)
From Coq Require Import Reals Lra Lia Ring.
From Verif Require Import Base Fft_Spec Fft_Model Fft_Proofs.
Local Open Scope R_scope.

Definition Cx : Type := R * R.
Definition c0 : Cx := (0, 0).
Definition c1 : Cx := (1, 0).
Definition cadd (x y : Cx) : Cx := (fst x + fst y, snd x + snd y).
Definition cmul (x y : Cx) : Cx := (fst x * fst y - snd x * snd y, fst x * snd y + snd x * fst y).
Definition copp (x : Cx) : Cx := (- fst x, - snd x).
Definition csub (x y : Cx) : Cx := cadd x (copp y).
Definition cconj (x : Cx) : Cx := (fst x, - snd x).
Definition cre (x : Cx) : Cx := (fst x, 0).
Definition cis (t : R) : Cx := (cos t, sin t).
(* e^(-2 pi i / n), e^(2 pi i / n), 1 / n *)
Definition cw (n : nat) : Cx := cis (- (2 * PI / INR n)).
Definition cwi (n : nat) : Cx := cis (2 * PI / INR n).
Definition cscale (n : nat) : Cx := (1 / INR n, 0).

Lemma cx_ring : ring_theory c0 c1 cadd cmul csub copp (@eq Cx).
Proof.
  constructor; intros; unfold csub, cadd, cmul, copp, c0, c1; try (destruct x); try (destruct y); try (destruct z); cbn; try reflexivity; f_equal; ring.
Qed.
Lemma cx_conjugation : conjugation c0 c1 cadd cmul cconj cre.
Proof.
  unfold conjugation, cconj, cadd, cmul, cre, c0, c1. split; [|split; [|split; [|split]]]; intros; cbn; try (f_equal; ring).
  destruct x as [a b]. cbn in *. injection H as H. f_equal. lra.
Qed.

Lemma cis_mul s t : cmul (cis s) (cis t) = cis (s + t).
Proof. unfold cmul, cis. cbn. rewrite cos_plus, sin_plus. f_equal; ring. Qed.
Lemma cis_0 : cis 0 = c1.
Proof. unfold cis, c1. rewrite cos_0, sin_0. reflexivity. Qed.
Lemma cis_pow t k : cpow c1 cmul (cis t) k = cis (INR k * t).
Proof.
  induction k as [|k IH]; [cbn [cpow]; rewrite Rmult_0_l; symmetry; apply cis_0|].
  cbn [cpow]. rewrite IH, cis_mul, S_INR. f_equal. ring.
Qed.
Lemma cis_period k : cis (INR k * (2 * PI)) = c1.
Proof.
  induction k as [|k IH]; [rewrite Rmult_0_l; apply cis_0|]. rewrite S_INR.
  replace ((INR k + 1) * (2 * PI)) with (INR k * (2 * PI) + 2 * PI) by ring. rewrite <- cis_mul, IH.
  unfold cis. rewrite cos_2PI, sin_2PI. unfold cmul, c1. cbn. f_equal; ring.
Qed.
Lemma cis_ne t : 0 < t < 2 * PI -> cos t < 1.
Proof.
  intros [H1 H2]. replace t with (2 * (t / 2)) by field. rewrite cos_2a_sin.
  assert (H : 0 < sin (t / 2)) by (apply sin_gt_0; lra). nra.
Qed.

Add Ring CxRing : cx_ring.
Lemma geom (q : Cx) n : cmul (csub q c1) (csum c0 cadd n (fun j => cpow c1 cmul q j)) = csub (cpow c1 cmul q n) c1.
Proof. induction n as [|n IH]; cbn [csum cpow]; [ring|]. transitivity (cadd (cmul (csub q c1) (csum c0 cadd n (fun j => cpow c1 cmul q j))) (cmul (csub q c1) (cpow c1 cmul q n))); [ring|]. rewrite IH. ring. Qed.
(* a factor whose real part is not 0 can be cancelled *)
Lemma cancel (x y : Cx) : fst x <> 0 -> cmul x y = c0 -> y = c0.
Proof.
  destruct x as [a b], y as [c d]. unfold cmul, c0. cbn. intros Ha H. injection H as H1 H2.
  assert (N : a * a + b * b <> 0) by nra.
  assert (c * (a * a + b * b) = 0) by (replace (c * (a * a + b * b)) with (a * (a * c - b * d) + b * (a * d + b * c)) by ring; rewrite H1, H2; ring).
  assert (d * (a * a + b * b) = 0) by (replace (d * (a * a + b * b)) with (a * (a * d + b * c) - b * (a * c - b * d)) by ring; rewrite H1, H2; ring).
  f_equal; [destruct (Rmult_integral c _ H)|destruct (Rmult_integral d _ H0)]; auto; contradiction.
Qed.

Lemma INR_pos n : (0 < n)%nat -> 0 < INR n.
Proof. intros H. apply lt_0_INR, H. Qed.

Lemma cx_roots_i n : (0 < n)%nat -> roots c0 c1 cadd cmul n (cwi n) (cw n).
Proof.
  intros Hn. pose proof (INR_pos n Hn) as HP. unfold roots, cw, cwi. split; [|split].
  - rewrite cis_mul. rewrite <- cis_0. f_equal. ring.
  - rewrite cis_pow. replace (INR n * (2 * PI / INR n)) with (INR 1 * (2 * PI)) by (cbn; field; lra). apply cis_period.
  - intros m Hm. set (t := 2 * PI / INR n). apply (cancel (csub (cis (INR m * t)) c1)).
    + cbn. assert (cos (INR m * t) < 1); [|lra]. apply cis_ne.
      assert (0 < INR m) by (apply INR_pos; lia). assert (INR m < INR n) by (apply lt_INR; lia). pose proof PI_RGT_0 as HPI.
      assert (E : INR m * t = 2 * PI * (INR m / INR n)) by (unfold t; field; lra). rewrite E.
      assert (0 < INR m / INR n) by (apply Rdiv_lt_0_compat; lra).
      assert (INR m / INR n < 1). { apply (Rmult_lt_reg_r (INR n)); [lra|]. unfold Rdiv. rewrite Rmult_assoc, Rinv_l by lra. lra. }
      nra.
    + transitivity (cmul (csub (cis (INR m * t)) c1) (csum c0 cadd n (fun j => cpow c1 cmul (cis (INR m * t)) j))).
      * f_equal. induction n as [|k IH]; [lia|]. clear. generalize (S k). intros K. induction K as [|K IH]; cbn [csum]; [reflexivity|]. rewrite IH. f_equal.
        rewrite !cis_pow, mult_INR. f_equal. ring.
      * rewrite geom, cis_pow. replace (INR n * (INR m * t)) with (INR m * (2 * PI)) by (unfold t; field; lra). rewrite cis_period. ring.
Qed.
Lemma cx_roots n : (0 < n)%nat -> roots c0 c1 cadd cmul n (cw n) (cwi n).
Proof. intros H. apply (roots_sym _ _ _ _ _ _ cx_ring), cx_roots_i, H. Qed.
Lemma cx_conj_root n : cconj (cw n) = cwi n.
Proof. unfold cconj, cw, cwi, cis. cbn. rewrite cos_neg, sin_neg, Ropp_involutive. reflexivity. Qed.
Lemma cx_nat n : cnat c0 c1 cadd n = (INR n, 0).
Proof.
  induction n as [|n IH]; [reflexivity|]. unfold cnat in *. cbn [csum]. rewrite IH. unfold cadd, c1. cbn [fst snd]. rewrite S_INR. f_equal; ring.
Qed.
Lemma cx_scale n : (0 < n)%nat -> cmul (cscale n) (cnat c0 c1 cadd n) = c1.
Proof. intros H. apply INR_pos in H. rewrite cx_nat. unfold cmul, cscale, c1. cbn. f_equal; field; lra. Qed.
