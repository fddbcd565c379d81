(* Proofs about fixed-width integer arithmetic. *)
From Verif Require Import Base Int_Model.
Local Open Scope Z_scope.

Definition ity_ok (t : ity) : Prop := 0 < bits t.

Lemma range_size t : ity_ok t -> i_max t = i_min t + 2 ^ bits t - 1.
Proof.
  unfold ity_ok, i_max, i_min. intros H. destruct (signed t); [|lia].
  replace (bits t) with (Z.succ (bits t - 1)) at 3 by lia. rewrite Z.pow_succ_r by lia. lia.
Qed.
Lemma pow_bits_pos t : 0 < 2 ^ bits t \/ bits t < 0.
Proof. destruct (Z.lt_ge_cases (bits t) 0); [right; lia|left; apply Z.pow_pos_nonneg; lia]. Qed.

Lemma wrap_rep t z : ity_ok t -> representable t (wrap t z).
Proof.
  intros H. unfold representable. rewrite range_size by exact H. unfold wrap.
  assert (HP : 0 < 2 ^ bits t) by (apply Z.pow_pos_nonneg; unfold ity_ok in H; lia).
  pose proof (Z.mod_pos_bound (z - i_min t) (2 ^ bits t) HP). lia.
Qed.
Lemma wrap_cong t z : ity_ok t -> (wrap t z - z) mod 2 ^ bits t = 0.
Proof.
  intros H. unfold wrap.
  assert (HP : 0 < 2 ^ bits t) by (apply Z.pow_pos_nonneg; unfold ity_ok in H; lia).
  rewrite (Z.mod_eq (z - i_min t)) by lia.
  replace (z - i_min t - 2 ^ bits t * ((z - i_min t) / 2 ^ bits t) + i_min t - z)
    with (- ((z - i_min t) / 2 ^ bits t) * 2 ^ bits t) by lia.
  apply Z.mod_mul; lia.
Qed.
Lemma wrap_unique t z w : ity_ok t -> representable t w -> (w - z) mod 2 ^ bits t = 0 -> w = wrap t z.
Proof.
  intros H HR HM. unfold representable in HR. rewrite range_size in HR by exact H.
  assert (HP : 0 < 2 ^ bits t) by (apply Z.pow_pos_nonneg; unfold ity_ok in H; lia).
  apply Z.mod_divide in HM; [|lia]. destruct HM as [q Hq]. unfold wrap.
  replace (z - i_min t) with (w - i_min t + (- q) * 2 ^ bits t) by lia.
  rewrite Z.mod_add by lia. rewrite Z.mod_small by lia. lia.
Qed.
Lemma wrap_id t z : ity_ok t -> representable t z -> wrap t z = z.
Proof. intros H HR. symmetry. apply wrap_unique; [exact H|exact HR|]. rewrite Z.sub_diag. apply Z.mod_0_l. 
  assert (0 < 2 ^ bits t) by (apply Z.pow_pos_nonneg; unfold ity_ok in H; lia). lia. Qed.
Lemma wrap_eq t z w : ity_ok t -> (z - w) mod 2 ^ bits t = 0 -> wrap t z = wrap t w.
Proof.
  intros H HM. apply wrap_unique; [exact H|apply wrap_rep; exact H|].
  assert (HP : 0 < 2 ^ bits t) by (apply Z.pow_pos_nonneg; unfold ity_ok in H; lia).
  pose proof (wrap_cong t z H) as HC.
  apply Z.mod_divide in HM; [|lia]. apply Z.mod_divide in HC; [|lia]. destruct HM as [p Hp], HC as [q Hq].
  replace (wrap t z - w) with ((p + q) * 2 ^ bits t) by lia. apply Z.mod_mul; lia.
Qed.
Lemma wrap_arg t z : ity_ok t -> exists q, wrap t z = z + q * 2 ^ bits t.
Proof.
  intros H. pose proof (wrap_cong t z H) as HC.
  assert (HP : 0 < 2 ^ bits t) by (apply Z.pow_pos_nonneg; unfold ity_ok in H; lia).
  apply Z.mod_divide in HC; [|lia]. destruct HC as [q Hq]. exists q; lia.
Qed.
Lemma wrap_shift t z q : ity_ok t -> wrap t (z + q * 2 ^ bits t) = wrap t z.
Proof.
  intros H. apply wrap_eq; [exact H|]. replace (z + q * 2 ^ bits t - z) with (q * 2 ^ bits t) by lia.
  apply Z.mod_mul. assert (0 < 2 ^ bits t) by (apply Z.pow_pos_nonneg; unfold ity_ok in H; lia). lia.
Qed.
Lemma wrap_add_l t a b : ity_ok t -> wrap t (wrap t a + b) = wrap t (a + b).
Proof. intros H. destruct (wrap_arg t a H) as [q ->]. rewrite <- (wrap_shift t (a + b) q H). f_equal; lia. Qed.
Lemma wrap_add_r t a b : ity_ok t -> wrap t (a + wrap t b) = wrap t (a + b).
Proof. intros H. rewrite Z.add_comm, wrap_add_l by exact H. f_equal; lia. Qed.
Lemma wrap_sub_l t a b : ity_ok t -> wrap t (wrap t a - b) = wrap t (a - b).
Proof. intros H. apply (wrap_add_l t a (-b) H). Qed.
Lemma wrap_sub_r t a b : ity_ok t -> wrap t (a - wrap t b) = wrap t (a - b).
Proof. intros H. destruct (wrap_arg t b H) as [q ->]. rewrite <- (wrap_shift t (a - b) (-q) H). f_equal; lia. Qed.
Lemma wrap_mul_l t a b : ity_ok t -> wrap t (wrap t a * b) = wrap t (a * b).
Proof. intros H. destruct (wrap_arg t a H) as [q ->]. rewrite <- (wrap_shift t (a * b) (q * b) H). f_equal; lia. Qed.
Lemma wrap_mul_r t a b : ity_ok t -> wrap t (a * wrap t b) = wrap t (a * b).
Proof. intros H. rewrite Z.mul_comm, wrap_mul_l by exact H. f_equal; lia. Qed.
Lemma wrap_wrap t z : ity_ok t -> wrap t (wrap t z) = wrap t z.
Proof. intros H. apply wrap_id; [exact H|apply wrap_rep; exact H]. Qed.

Lemma wrap_pow_base t a e : ity_ok t -> 0 <= e -> wrap t (wrap t a ^ e) = wrap t (a ^ e).
Proof.
  intros H He. revert e He. apply natlike_ind; [reflexivity|]. intros e He IH.
  rewrite !Z.pow_succ_r by exact He. rewrite wrap_mul_l by exact H.
  rewrite <- (wrap_mul_r t a (wrap t a ^ e) H), IH, wrap_mul_r by exact H. reflexivity.
Qed.

Lemma wrapping_pow_pos_spec t e : ity_ok t -> forall a, representable t a ->
  wrapping_pow_pos t a e = wrap t (a ^ Zpos e).
Proof.
  intros H. induction e as [e IH|e IH|]; intros a Ha; cbn [wrapping_pow_pos].
  - rewrite IH by (apply wrap_rep; exact H). rewrite wrap_pow_base by (try exact H; lia).
    rewrite wrap_mul_r by exact H. f_equal. rewrite Pos2Z.inj_xI, Z.pow_add_r, Z.pow_mul_r by lia.
    rewrite Z.pow_1_r, Z.mul_comm. f_equal. f_equal. lia.
  - rewrite IH by (apply wrap_rep; exact H). rewrite wrap_pow_base by (try exact H; lia).
    f_equal. rewrite Pos2Z.inj_xO, Z.pow_mul_r by lia. f_equal. lia.
  - rewrite Z.pow_1_r, wrap_id by assumption. reflexivity.
Qed.
Lemma wrapping_pow_spec t a e : ity_ok t -> representable t a -> 0 <= e ->
  wrapping_pow t a e = wrap t (a ^ e).
Proof.
  intros H Ha He. destruct e as [|p|p]; [reflexivity|apply wrapping_pow_pos_spec; assumption|lia].
Qed.
