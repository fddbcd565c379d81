(* Inclusions between the value sets of the dtypes, and values that are missing. *)
From Verif Require Import Base Date_Spec Date_Model Promo_Spec Promo_Model.
Local Open Scope Z_scope.

Lemma one_pos : 0 < one.
Proof. unfold one. apply Z.pow_pos_nonneg; lia. Qed.
Lemma one_at e : 0 <= e -> 2 ^ (e + 1074) = 2 ^ e * one.
Proof. intro H. unfold one. now rewrite Z.pow_add_r by lia. Qed.

Lemma int_incl lo hi lo' hi' x : lo' <= lo -> hi <= hi' -> int_holds lo hi x -> int_holds lo' hi' x.
Proof. intros H1 H2 (z & Hz & ->). exists z. split; [lia | reflexivity]. Qed.
Lemma float_incl p a b p' a' b' x : p <= p' -> a' <= a -> b <= b' -> float_holds p a b x -> float_holds p' a' b' x.
Proof.
  intros Hp Ha Hb (m & e & Hm & He & ->). exists m, e. pose proof (Z.pow_le_mono_r 2 p p' ltac:(lia) Hp). split; [lia|]. split; [lia | reflexivity].
Qed.
Lemma int_float lo hi p a b x : - 2 ^ p < lo -> hi < 2 ^ p -> a <= 0 <= b -> int_holds lo hi x -> float_holds p a b x.
Proof. intros H1 H2 H3 (z & Hz & ->). exists z, 0. split; [lia|]. split; [lia | reflexivity]. Qed.
Lemma float_zero p a b : 0 <= p -> a <= 0 <= b -> float_holds p a b 0.
Proof. intros Hp H. exists 0, 0. pose proof (Z.pow_pos_nonneg 2 p ltac:(lia) Hp). split; [lia|]. split; [lia | reflexivity]. Qed.

(* values that are missing *)
Lemma int_missing lo hi z : ~ lo <= z <= hi -> ~ int_holds lo hi (z * one).
Proof. intros H (w & Hw & E). pose proof one_pos. apply Z.mul_reg_r in E; [|lia]. subst. lia. Qed.
Lemma int_no_half lo hi : ~ int_holds lo hi (2 ^ 1073).
Proof.
  intros (w & Hw & E). unfold one in E. replace 1074 with (1073 + 1) in E by reflexivity. rewrite Z.pow_add_r in E by lia. change (2 ^ 1) with 2 in E.
  assert (0 < 2 ^ 1073) by (apply Z.pow_pos_nonneg; lia). set (P := 2 ^ 1073) in *. clearbody P. assert (P * (1 - 2 * w) = 0) as E' by lia. apply Z.mul_eq_0 in E' as [|]; lia.
Qed.
Lemma float_missing p a b z : 0 <= p -> 2 ^ p < z -> Z.odd z = true -> -1074 <= a -> ~ float_holds p a b (z * one).
Proof.
  intros Hp Hz Ho Ha (m & e & Hm & He & E). pose proof one_pos as P1. destruct (Z.le_gt_cases e 0) as [L|L].
  - (* m = z * 2^-e *)
    assert (one = 2 ^ (e + 1074) * 2 ^ (- e)) as EO. { unfold one. rewrite <- Z.pow_add_r by lia. f_equal. lia. }
    rewrite EO in E. assert (0 < 2 ^ (e + 1074)) as P2 by (apply Z.pow_pos_nonneg; lia). assert (0 < 2 ^ (- e)) as P3 by (apply Z.pow_pos_nonneg; lia).
    assert (m = z * 2 ^ (- e)) as Em. { apply Z.mul_reg_r with (2 ^ (e + 1074)); [lia|]. rewrite <- E. ring. }
    assert (z <= z * 2 ^ (- e)); [|lia]. rewrite <- (Z.mul_1_r z) at 1. apply Z.mul_le_mono_nonneg_l; lia.
  - rewrite one_at in E by lia. rewrite Z.mul_assoc in E. apply Z.mul_reg_r in E; [|lia]. subst z.
    replace e with (1 + (e - 1)) in Ho by ring. rewrite Z.pow_add_r in Ho by lia. rewrite !Z.odd_mul in Ho. change (Z.odd (2 ^ 1)) with false in Ho.
    rewrite andb_comm in Ho. discriminate.
Qed.
Lemma float_half p a b : 1 <= p -> a <= -1 <= b -> float_holds p a b (2 ^ 1073).
Proof. intros Hp H. exists 1, (-1). pose proof (Z.pow_le_mono_r 2 1 p ltac:(lia) Hp). change (2 ^ 1) with 2 in *. split; [lia|]. split; [lia|]. change (-1 + 1074) with 1073. ring. Qed.
Lemma float_int p a b z : - 2 ^ p < z < 2 ^ p -> a <= 0 <= b -> float_holds p a b (z * one).
Proof. intros Hz H. exists z, 0. split; [lia|]. split; [lia | reflexivity]. Qed.
Lemma int_int lo hi z : lo <= z <= hi -> int_holds lo hi (z * one).
Proof. intro H. exists z. split; [exact H | reflexivity]. Qed.

(* ---- the casts --------------------------------------------------------------------------- *)
Ltac incl :=
  let x := fresh "x" in let y := fresh "y" in let Hx := fresh "Hx" in let Hy := fresh "Hy" in
  intros (x & y) (Hx & Hy); split; unfold f16_holds, f32_holds, f64_holds in *;
  first [exact Hy | exact Hx | (subst y; apply float_zero; lia)
        | (eapply int_incl; [| |exact Hx]; lia) | (eapply float_incl; [| | |exact Hx]; lia) | (eapply float_incl; [| | |exact Hy]; lia)
        | (eapply int_float; [| | |exact Hx]; lia)].
(* casts the code calls safe although integers of that width do not fit *)
Definition int_to_complex (f t : kind) : bool :=
  match f, t with
  | (Int32 | Uint32), Complex64 | (Int64 | Uint64), (Complex64 | Complex128) => true
  | _, _ => false
  end.
Lemma safe_holds f t : numeric f = true -> numeric t = true -> int_to_complex f t = false -> can_cast_safe f t = true -> forall v, holds f v -> holds t v.
Proof.
  intros Nf Nt Nc H. destruct f; try discriminate Nf; destruct t; try discriminate Nt; try discriminate Nc; vm_compute in H; try discriminate H; incl.
Qed.
Lemma unsafe_missing f t : numeric f = true -> numeric t = true -> can_cast_safe f t = false -> exists v, holds f v /\ ~ holds t v.
Proof.
  intros Nf Nt H.
  Ltac missing z := exists (z * one, 0); split; [split; [first [apply int_int; lia | apply float_int; lia] | first [reflexivity | apply float_zero; lia]] | intros (X & _); revert X;
     first [apply int_missing; lia | apply float_missing; [lia | lia | reflexivity | lia]]].
  Ltac half := exists (2 ^ 1073, 0); split; [split; [apply float_half; lia | first [reflexivity | apply float_zero; lia]] | intros (X & _); revert X; apply int_no_half].
  Ltac imag := exists (0, 1 * one); split; [split; [apply float_zero; lia | apply float_int; lia] | intros (_ & X); pose proof one_pos; lia].
  destruct f; try discriminate Nf; destruct t; try discriminate Nt; vm_compute in H; try discriminate H;
  first [imag | half | missing (-1) | missing 2 | missing (2 ^ 7) | missing (2 ^ 8) | missing (2 ^ 15) | missing (2 ^ 16) | missing (2 ^ 31) | missing (2 ^ 32) | missing (2 ^ 63)
        | missing (2 ^ 11 + 1) | missing (2 ^ 24 + 1) | missing (2 ^ 53 + 1) ].
Qed.

(* ---- rounding integers to double ------------------------------------------------------- *)
Lemma float_opp p a b x : float_holds p a b x -> float_holds p a b (- x).
Proof. intros (m & e & Hm & He & ->). exists (- m), e. split; [lia|]. split; [lia | ring]. Qed.
Lemma f64_near_pos z : 0 <= z <= 2 ^ 64 -> exists x, f64_holds x /\ Z.abs (x - z * one) * 2 ^ 52 <= z * one.
Proof.
  intro Hz. pose proof one_pos as P. destruct (Z.lt_ge_cases z (2 ^ 53)) as [L|L].
  - exists (z * one). split; [apply float_int; lia|]. rewrite Z.sub_diag. cbn [Z.abs]. nia.
  - set (e := Z.log2 z - 52). assert (53 <= Z.log2 z <= 64) as Hl.
    { split; [change 53 with (Z.log2 (2 ^ 53)); apply Z.log2_le_mono; lia | change 64 with (Z.log2 (2 ^ 64)); apply Z.log2_le_mono; lia]. }
    destruct (Z.log2_spec z ltac:(lia)) as (S1 & S2). assert (0 < 2 ^ e) as Pe by (apply Z.pow_pos_nonneg; unfold e; lia).
    assert (2 ^ Z.log2 z = 2 ^ e * 2 ^ 52) as E1 by (rewrite <- Z.pow_add_r by (unfold e; lia); f_equal; unfold e; lia).
    assert (2 ^ Z.succ (Z.log2 z) = 2 ^ e * 2 ^ 53) as E2 by (rewrite <- Z.pow_add_r by (unfold e; lia); f_equal; unfold e; lia).
    pose proof (Z.div_mod z (2 ^ e) ltac:(lia)) as D. pose proof (Z.mod_pos_bound z (2 ^ e) Pe) as M.
    exists (z / 2 ^ e * 2 ^ (e + 1074)). split.
    + exists (z / 2 ^ e), e. split; [|split; [unfold e; lia | reflexivity]].
      assert (0 <= z / 2 ^ e) by (apply Z.div_pos; lia). assert (z / 2 ^ e < 2 ^ 53) by (apply Z.div_lt_upper_bound; lia). lia.
    + rewrite one_at by (unfold e; lia). set (q := z / 2 ^ e) in *. set (r := z mod 2 ^ e) in *. set (k := 2 ^ e) in *.
      replace (q * (k * one) - z * one) with (- (r * one)) by (rewrite D; ring). rewrite Z.abs_opp, Z.abs_eq by nia.
      assert (r * 2 ^ 52 <= z) as HR by lia. replace (r * one * 2 ^ 52) with (r * 2 ^ 52 * one) by ring. apply Z.mul_le_mono_nonneg_r; lia.
Qed.
Lemma f64_near z : - 2 ^ 64 <= z <= 2 ^ 64 -> exists x, f64_holds x /\ Z.abs (x - z * one) * 2 ^ 52 <= Z.abs (z * one).
Proof.
  intro Hz. pose proof one_pos. destruct (Z.le_gt_cases 0 z) as [L|L].
  - rewrite (Z.abs_eq (z * one)) by nia. apply f64_near_pos. lia.
  - destruct (f64_near_pos (- z) ltac:(lia)) as (x & Hx & HE). exists (- x). split; [now apply float_opp|].
    rewrite (Z.abs_neq (z * one)) by nia. replace (- x - z * one) with (- (x - (- z) * one)) by ring. rewrite Z.abs_opp. lia.
Qed.
