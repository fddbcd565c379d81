(* comparing binary64 values that are integers below 2^53 *)
From Coq Require Import SpecFloat.
From Verif Require Import Base Rng_Model SF_Proofs SF_Arith.
Local Open Scope Z_scope.

Lemma canon_cmp k k' : Zpos k < 2 ^ 53 -> Zpos k' < 2 ^ 53 ->
  match Z.compare (dlen k - 53) (dlen k' - 53) with
  | Lt => Lt | Gt => Gt
  | Eq => Pos.compare_cont Eq (Z.to_pos (Zpos k * 2 ^ (53 - dlen k))) (Z.to_pos (Zpos k' * 2 ^ (53 - dlen k')))
  end = (Zpos k ?= Zpos k').
Proof.
  intros H H'. destruct (canon_m k H) as [E _]. destruct (canon_m k' H') as [E' _].
  set (m := Z.to_pos (Zpos k * 2 ^ (53 - dlen k))) in *. set (m' := Z.to_pos (Zpos k' * 2 ^ (53 - dlen k'))) in *. clearbody m m'.
  pose proof (dlen_bounds k) as B. pose proof (dlen_bounds k') as B'. pose proof (dlen_pos k). pose proof (dlen_pos k').
  pose proof (dlen_le k 53 H). pose proof (dlen_le k' 53 H').
  destruct (Z.compare_spec (dlen k - 53) (dlen k' - 53)) as [EQ|L|G].
  - change (Pos.compare_cont Eq m m') with (Zpos m ?= Zpos m'). rewrite E, E'. replace (dlen k') with (dlen k) by lia.
    assert (0 < 2 ^ (53 - dlen k)) by (apply Z.pow_pos_nonneg; lia).
    rewrite !(Z.mul_comm _ (2 ^ (53 - dlen k))). symmetry. apply Zmult_compare_compat_l. lia.
  - symmetry. apply Z.compare_lt_iff. assert (2 ^ dlen k <= 2 ^ (dlen k' - 1)) by (apply Z.pow_le_mono_r; lia). lia.
  - symmetry. apply Z.compare_gt_iff. assert (2 ^ dlen k' <= 2 ^ (dlen k - 1)) by (apply Z.pow_le_mono_r; lia). lia.
Qed.

Lemma fcmp_int a b : Z.abs a < 2 ^ 53 -> Z.abs b < 2 ^ 53 -> SFcompare (f64_int a) (f64_int b) = Some (a ?= b).
Proof.
  intros Ha Hb. destruct a as [|k|k], b as [|k'|k'];
    rewrite ?f64_int_pos, ?f64_int_neg by assumption; try reflexivity; change (f64_int 0) with (S754_zero false); unfold canon; cbn [SFcompare]; try reflexivity.
  - rewrite <- canon_cmp by assumption. destruct (dlen k - 53 ?= dlen k' - 53); reflexivity.
  - pose proof (canon_cmp k k' Ha Hb) as C. change (Zneg k ?= Zneg k') with (CompOpp (Pos.compare k k')).
    change (Zpos k ?= Zpos k') with (Pos.compare k k') in C. rewrite <- C. destruct (dlen k - 53 ?= dlen k' - 53); reflexivity.
Qed.
Lemma fltb_int a b : Z.abs a < 2 ^ 53 -> Z.abs b < 2 ^ 53 -> SFltb (f64_int a) (f64_int b) = (a <? b).
Proof. intros Ha Hb. unfold SFltb. rewrite fcmp_int by assumption. unfold Z.ltb. destruct (a ?= b); reflexivity. Qed.
Lemma fleb_int a b : Z.abs a < 2 ^ 53 -> Z.abs b < 2 ^ 53 -> SFleb (f64_int a) (f64_int b) = (a <=? b).
Proof. intros Ha Hb. unfold SFleb. rewrite fcmp_int by assumption. unfold Z.leb. destruct (a ?= b); reflexivity. Qed.
Lemma feqb_int a b : Z.abs a < 2 ^ 53 -> Z.abs b < 2 ^ 53 -> SFeqb (f64_int a) (f64_int b) = (a =? b).
Proof. intros Ha Hb. unfold SFeqb. rewrite fcmp_int by assumption. rewrite Z.eqb_compare. reflexivity. Qed.
