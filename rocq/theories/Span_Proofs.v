From Coq Require Import SpecFloat.
From Verif Require Import Base Lists Int_Model Int_Proofs F64_Model F64_Proofs Arr_Model Rng_Model Date_Model SF_Proofs SF_Arith New_Spec New_Model Span_Spec Span_Model.
Local Open Scope Z_scope.

(* ---- reading integers back ---- *)
Lemma sf_trunc_is r z : sf_is r z 0 -> sf_trunc r = z.
Proof.
  destruct r as [s|s| |s m e]; cbn [sf_is sf_trunc]; try contradiction; [lia|].
  intro H. destruct (0 <=? e) eqn:E.
  - apply Z.leb_le in E. rewrite Z.min_l, Z.sub_0_r in H by lia. rewrite Z.shiftl_mul_pow2 by lia. change (2 ^ (0 - 0)) with 1 in H.
    destruct s; [change (Zneg m) with (- Zpos m) in H|]; nia.
  - apply Z.leb_gt in E. rewrite Z.min_r, Z.sub_diag in H by lia. change (2 ^ 0) with 1 in H. replace (0 - e) with (- e) in H by lia.
    rewrite Z.shiftr_div_pow2 by lia. assert (0 < 2 ^ (- e)) as Hp by (apply Z.pow_pos_nonneg; lia).
    destruct s.
    + assert (Zpos m = (- z) * 2 ^ (- e)) as -> by lia. rewrite Z.div_mul by lia. lia.
    + assert (Zpos m = z * 2 ^ (- e)) as -> by lia. rewrite Z.div_mul by lia. lia.
Qed.
Lemma f64_int_trunc z : Z.abs z < 2 ^ 53 -> sf_trunc (f64_int z) = z.
Proof. intro H. apply sf_trunc_is. now apply f64_int_is. Qed.

Lemma f64_int_fin z : Z.abs z < 2 ^ 53 -> z = 0 \/ exists s m e, f64_int z = S754_finite s m e.
Proof.
  intro H. destruct (Z.eq_dec z 0) as [|N]; [now left|right]. destruct (zsplit z N) as (s & k & ->). rewrite zsgn_abs in H.
  rewrite f64_int_sgn by exact H. unfold canon. eauto.
Qed.
Lemma as_int_small t z : Z.abs z < 2 ^ 53 -> representable t z -> as_int t (f64_int z) = z.
Proof.
  intros H R. pose proof (f64_int_trunc z H) as T. destruct (f64_int_fin z H) as [->|(s & m & e & E)].
  - change (sat t 0 = 0). now apply sat_id.
  - rewrite E in *. cbn [as_int]. rewrite T. now apply sat_id.
Qed.
(* a small integer written as a float is stored exactly *)
Lemma write_f64_small d z : Z.abs z < 2 ^ 53 -> fits d (PInt z) -> stores d (PInt z) (write_f64 d (f64_int z)).
Proof.
  intros H F. destruct d as [t| |]; cbn [fits stores write_f64] in *; [|contradiction|].
  - split; [exact F|]. now apply as_int_small.
  - now apply f64_int_is.
Qed.

(* start + i * step, computed in floats *)
Lemma term_int start i step : Z.abs start < 2 ^ 53 -> Z.abs i < 2 ^ 53 -> Z.abs step < 2 ^ 53 -> Z.abs (i * step) < 2 ^ 53 ->
  Z.abs (start + i * step) < 2 ^ 53 ->
  fadd64 (f64_int start) (fmul64 (f64_int i) (f64_int step)) = f64_int (start + i * step).
Proof.
  intros Hs Hi Hst Hp Hsum. change fadd64 with (SFadd 53 1024). change fmul64 with (SFmul 53 1024).
  destruct (Z.eq_dec (i * step) 0) as [E|N].
  - rewrite E, Z.add_0_r. assert (exists s, SFmul 53 1024 (f64_int i) (f64_int step) = S754_zero s) as [s ->].
    { apply Z.mul_eq_0 in E. destruct E as [->| ->].
      - destruct (f64_int_fin step Hst) as [->|(s & m & e & ->)]; cbn; eauto.
      - destruct (f64_int_fin i Hi) as [->|(s & m & e & ->)]; cbn; eauto. }
    destruct (f64_int_fin start Hs) as [->|(s' & m & e & ->)]; [destruct s; reflexivity|reflexivity].
  - rewrite fmul_int by assumption. apply fadd_int; assumption.
Qed.

(* the count: ceil of the rounded quotient is the ceil of the quotient *)
Lemma ceil_quot k k' : Zpos k < 2 ^ 53 -> Zpos k' < 2 ^ 53 -> forall s,
  ceil_usize (fdiv (canon s k) (canon s k')) = (Zpos k + Zpos k' - 1) / Zpos k'.
Proof.
  intros Ha Hb s. destruct (fdiv_near s k s k' Ha Hb) as (m & E & -> & HE & Hm & L & R). rewrite xorb_nilpotent.
  assert (0 < 2 ^ E) as HP by (apply Z.pow_pos_nonneg; lia).
  set (n := (Zpos k + Zpos k' - 1) / Zpos k').
  assert (Zpos k' * (n - 1) < Zpos k <= Zpos k' * n) as Hn.
  { unfold n. pose proof (Z.div_mod (Zpos k + Zpos k' - 1) (Zpos k') ltac:(lia)). pose proof (Z.mod_pos_bound (Zpos k + Zpos k' - 1) (Zpos k') ltac:(lia)). lia. }
  assert (1 <= n < 2 ^ 53) as Bn by nia.
  (* (n-1) 2^E < m <= n 2^E *)
  assert (m <= n * 2 ^ E) as U.
  { destruct (Z_le_gt_dec m (n * 2 ^ E)) as [|G]; [assumption|exfalso].
    assert (Zpos k * 2 ^ E <= Zpos k' * (n * 2 ^ E)) by nia.
    assert (Zpos k' <= m * Zpos k' - Zpos k * 2 ^ E) by nia. lia. }
  assert ((n - 1) * 2 ^ E < m) as V.
  { destruct (Z_lt_le_dec ((n - 1) * 2 ^ E) m) as [|G]; [assumption|exfalso].
    assert (m * Zpos k' <= Zpos k' * ((n - 1) * 2 ^ E)) as X1 by nia.
    assert (Zpos k' * (n - 1) + 1 <= Zpos k) as X2 by lia.
    assert ((Zpos k' * (n - 1) + 1) * 2 ^ E <= Zpos k * 2 ^ E) as X3 by (apply Z.mul_le_mono_nonneg_r; lia).
    assert (2 ^ E <= Zpos k * 2 ^ E - m * Zpos k') as X4 by nia.
    assert (2 * 2 ^ E <= Zpos k') as X5 by lia.
    assert (2 ^ 52 * (2 * 2 ^ E) <= Zpos k * 2 ^ E) as X6 by nia. nia. }
  assert (forall M X, 0 <= X -> (n - 1) * 2 ^ X < M <= n * 2 ^ X -> (M + 2 ^ X - 1) / 2 ^ X = n) as C.
  { intros M X HX HM. symmetry. apply Z.div_unique with (r := M - 1 - (n - 1) * 2 ^ X); [left|ring]. nia. }
  unfold fin. destruct (Z.eqb_spec m (2 ^ 53)) as [E53|N53]; cbn [ceil_usize].
  - assert (0 < E) as HE1. { destruct (Z.eq_dec E 0) as [->|]; [|lia]. change (2 ^ 0) with 1 in *. lia. }
    assert (2 ^ E = 2 * 2 ^ (E - 1)) as PE by (rewrite <- Z.pow_succ_r by lia; f_equal; lia).
    assert (Zpos (2 ^ 52) * 2 = m) as M2 by (rewrite E53; reflexivity).
    assert (0 < 2 ^ (E - 1)) as HP1 by (apply Z.pow_pos_nonneg; lia).
    rewrite Z.min_r.
    + destruct (0 <=? - E + 1) eqn:B.
      * apply Z.leb_le in B. assert (E = 1) by lia. subst E. change (- (1) + 1) with 0. rewrite Z.shiftl_0_r. change (2 ^ 1) with 2 in *. nia.
      * replace (- (- E + 1)) with (E - 1) by lia. apply C; [lia|]. rewrite PE in U, V. nia.
    + destruct (0 <=? - E + 1) eqn:B.
      * apply Z.leb_le in B. assert (E = 1) by lia. subst E. change (- (1) + 1) with 0. rewrite Z.shiftl_0_r. lia.
      * replace (- (- E + 1)) with (E - 1) by lia. rewrite C; [lia|lia|]. rewrite PE in U, V. nia.
  - assert (Zpos (Z.to_pos m) = m) as -> by (apply Z2Pos.id; lia). rewrite Z.opp_involutive.
    assert ((if 0 <=? - E then Z.shiftl m (- E) else (m + 2 ^ E - 1) / 2 ^ E) = n) as ->; [|lia].
    destruct (0 <=? - E) eqn:B; [|apply C; lia].
    apply Z.leb_le in B. assert (E = 0) by lia. subst E. change (- 0) with 0. rewrite Z.shiftl_0_r. change (2 ^ 0) with 1 in *. lia.
Qed.

(* number of terms before stop *)
Definition nterms (start stop step : Z) : Z :=
  if 0 <? step then Z.max 0 ((stop - start + step - 1) / step) else Z.max 0 ((start - stop - step - 1) / (- step)).
Lemma nterms_spec start stop step i : step <> 0 -> 0 <= i ->
  (i < nterms start stop step <-> before step stop (start + i * step)).
Proof.
  intros Hs Hi. unfold nterms, before. destruct (0 <? step) eqn:E.
  - apply Z.ltb_lt in E. pose proof (Z.div_mod (stop - start + step - 1) step ltac:(lia)). pose proof (Z.mod_pos_bound (stop - start + step - 1) step E).
    set (q := (stop - start + step - 1) / step) in *. split.
    + intro H1. left. split; [exact E|]. assert (i <= q - 1) by lia. nia.
    + intros [[_ H1]|[H1 _]]; [|lia]. assert (i < q); [|lia]. nia.
  - apply Z.ltb_ge in E. pose proof (Z.div_mod (start - stop - step - 1) (- step) ltac:(lia)). pose proof (Z.mod_pos_bound (start - stop - step - 1) (- step) ltac:(lia)).
    set (q := (start - stop - step - 1) / - step) in *. split.
    + intro H1. right. split; [lia|]. assert (i <= q - 1) by lia. nia.
    + intros [[H1 _]|[_ H1]]; [lia|]. assert (i < q); [|lia]. nia.
Qed.
Lemma arange_count start stop step : step <> 0 -> Z.abs start < 2 ^ 53 -> Z.abs stop < 2 ^ 53 -> Z.abs step < 2 ^ 53 -> Z.abs (stop - start) < 2 ^ 53 ->
  ceil_usize (fdiv64 (fsub64 (f64_int stop) (f64_int start)) (f64_int step)) = nterms start stop step.
Proof.
  intros Hs H1 H2 H3 H4. change fsub64 with (SFsub 53 1024). change fdiv64 with (SFdiv 53 1024).
  rewrite fsub_int by assumption. unfold nterms.
  destruct (Z.eq_dec (stop - start) 0) as [E0|N0].
  { rewrite E0. assert (ceil_usize (SFdiv 53 1024 (f64_int 0) (f64_int step)) = 0) as ->.
    { destruct (f64_int_fin step H3) as [->|(s & m & e & ->)]; [contradiction|]. reflexivity. }
    destruct (0 <? step) eqn:E.
    - apply Z.ltb_lt in E. rewrite Z.add_0_l, Z.div_small by lia. reflexivity.
    - apply Z.ltb_ge in E. replace (start - stop - step - 1) with (- step - 1) by lia. rewrite Z.div_small by lia. reflexivity. }
  destruct (zsplit _ N0) as (s & k & Ek). destruct (zsplit step Hs) as (s' & k' & Ek'). 
  rewrite Ek, zsgn_abs in H4. rewrite Ek', zsgn_abs in H3. rewrite Ek. subst step. rewrite !f64_int_sgn by assumption.
  destruct (Bool.bool_dec s s') as [->|Ns].
  - rewrite ceil_quot by assumption. assert (1 <= (Zpos k + Zpos k' - 1) / Zpos k') by (apply Z.div_le_lower_bound; lia).
    destruct s'; cbn [zsgn] in *.
    + change (0 <? Zneg k') with false. cbv iota. replace (start - stop - Zneg k' - 1) with (Zpos k + Zpos k' - 1) by lia. change (- Zneg k') with (Zpos k'). lia.
    + change (0 <? Zpos k') with true. cbv iota. lia.
  - destruct (fdiv_near s k s' k' H4 H3) as (m & E & -> & HE & Hm & _). assert (xorb s s' = true) as -> by (destruct s, s'; congruence || reflexivity).
    assert (ceil_usize (fin true m (- E)) = 0) as -> by (unfold fin; destruct (m =? 2 ^ 53); reflexivity).
    destruct s, s'; cbn [zsgn] in *; try congruence.
    + change (0 <? Zpos k') with true. cbv iota. assert ((Zneg k + Zpos k' - 1) / Zpos k' <= 0); [|lia].
      assert ((Zneg k + Zpos k' - 1) / Zpos k' < 1); [apply Z.div_lt_upper_bound; lia|lia].
    + change (0 <? Zneg k') with false. cbv iota. assert ((start - stop - Zneg k' - 1) / - Zneg k' < 1); [apply Z.div_lt_upper_bound; lia|lia].
Qed.

Lemma alloc_ok n item : 0 <= n -> 0 < item -> n * item < 2 ^ 63 -> alloc n item = Ok tt.
Proof.
  intros Hn Hi H. unfold alloc, wrap_usize, two64. rewrite Z.mod_small by (split; [nia|]; assert (2 ^ 63 < 2 ^ 64) by reflexivity; lia).
  assert (2 ^ 63 <=? n * item = false) as -> by (apply Z.leb_gt; exact H).
  assert (n * item <? 2 ^ 64 = true) as -> by (apply Z.ltb_lt; assert (2 ^ 63 < 2 ^ 64) by reflexivity; lia). reflexivity.
Qed.
Lemma ld_item_pos d : std d -> 1 <= ld_item d <= 8.
Proof. destruct d as [t| |]; cbn [std ld_item]; [|lia|lia]. intros [H|[H|[H|H]]]; rewrite H; cbv; split; discriminate. Qed.

Lemma arange_ok d start stop step : std d -> step <> 0 -> Z.abs start < 2 ^ 53 -> Z.abs stop < 2 ^ 53 -> Z.abs step < 2 ^ 53 -> Z.abs (stop - start) < 2 ^ 53 ->
  (forall i : nat, before step stop (start + Z.of_nat i * step) -> fits d (PInt (start + Z.of_nat i * step))) ->
  exists l, arange d (f64_int start) (f64_int stop) (f64_int step) = Ok l /\ progression d start stop step l.
Proof.
  intros Hd Hs H1 H2 H3 H4 HF. unfold arange. rewrite arange_count by assumption. set (n := nterms start stop step).
  assert (0 <= n < 2 ^ 53) as Bn.
  { split; [unfold n, nterms; destruct (0 <? step); lia|]. destruct (Z_lt_le_dec n (2 ^ 53)) as [|G]; [assumption|exfalso].
    assert (2 ^ 53 - 1 < n) as L by lia. apply nterms_spec in L; [|assumption|lia]. unfold before in L.
    destruct L as [[L1 L2]|[L1 L2]]; nia. }
  pose proof (ld_item_pos d Hd) as Bi. rewrite alloc_ok by (try lia; assert (2 ^ 53 * 8 < 2 ^ 63) by reflexivity; nia). cbn [bind].
  eexists; split; [reflexivity|]. split.
  - intro i. rewrite map_length, seq_length, <- nterms_spec by (assumption || lia). fold n. lia.
  - intros i c. rewrite nth_error_map', nth_error_seq. destruct (Nat.ltb_spec i (Z.to_nat n)) as [L|L]; [|discriminate].
    cbn [option_map Nat.add]. intro E. injection E as <-.
    assert (before step stop (start + Z.of_nat i * step)) as B by (apply nterms_spec; [assumption|lia|fold n; lia]).
    assert (Z.abs (Z.of_nat i * step) <= Z.abs (stop - start)) as Hp by (unfold before in B; nia).
    assert (Z.abs (start + Z.of_nat i * step) < 2 ^ 53) as Ht by (unfold before in B; nia).
    rewrite term_int by (assumption || lia). apply write_f64_small; [exact Ht|]. now apply HF.
Qed.

Lemma linspace_ok d start stop num : std d -> (1 < num)%nat -> Z.of_nat num < 2 ^ 53 -> Z.abs start < 2 ^ 53 -> Z.abs stop < 2 ^ 53 -> Z.abs (stop - start) < 2 ^ 53 ->
  (Z.of_nat num - 1 | stop - start) ->
  (forall z, Z.min start stop <= z <= Z.max start stop -> fits d (PInt z)) ->
  exists l, linspace d (f64_int start) (f64_int stop) num = Ok l /\ spaced d start stop num l.
Proof.
  intros Hd Hn Hb H1 H2 H4 [c Hc] HF. unfold linspace. pose proof (ld_item_pos d Hd) as Bi.
  rewrite alloc_ok by (try lia; assert (2 ^ 53 * 8 < 2 ^ 63) by reflexivity; nia). cbn [bind].
  assert ((1 <? num)%nat = true) as -> by (now apply Nat.ltb_lt).
  change fsub64 with (SFsub 53 1024). change fdiv64 with (SFdiv 53 1024). rewrite fsub_int by assumption.
  assert (Z.abs c < 2 ^ 53) as Bc by nia.
  assert (c <> 0 -> SFdiv 53 1024 (f64_int (stop - start)) (f64_int (Z.of_nat num - 1)) = f64_int c) as Hq.
  { intro Nc. destruct (zsplit c Nc) as (s & k & ->). rewrite zsgn_abs in Bc.
    destruct (Z.of_nat num - 1) as [|k'|k'] eqn:En; try lia.
    assert (stop - start = zsgn s (k * k')) as E2 by (rewrite Hc; destruct s; reflexivity). rewrite E2 in *. rewrite zsgn_abs in H4.
    rewrite f64_int_sgn by exact H4. rewrite f64_int_pos by lia. rewrite f64_int_sgn by exact Bc.
    rewrite (fdiv_exact s (k * k') false k' k); [now rewrite xorb_false_r | exact H4 | lia | lia]. }
  eexists; split; [reflexivity|]. split; [now rewrite map_length, seq_length|].
  intros i x. rewrite nth_error_map', nth_error_seq. destruct (Nat.ltb_spec i num) as [L|L]; [|discriminate].
  cbn [option_map Nat.add]. intro E. injection E as <-.
  exists (start + Z.of_nat i * c). split; [|nia].
  assert (Z.min start stop <= start + Z.of_nat i * c <= Z.max start stop) as R by nia.
  destruct (Z.eq_dec c 0) as [->|Nc].
  - rewrite Z.mul_0_r, Z.add_0_r in *. rewrite Z.mul_0_l in Hc. rewrite Hc.
    assert (SFdiv 53 1024 (f64_int 0) (f64_int (Z.of_nat num - 1)) = f64_int 0) as ->.
    { destruct (Z.of_nat num - 1) as [|k'|k'] eqn:En; try lia. rewrite f64_int_pos by lia. reflexivity. }
    replace (fadd64 (f64_int start) (fmul64 (f64_int (Z.of_nat i)) (f64_int 0))) with (f64_int start).
    + apply write_f64_small; [exact H1|]. apply HF. lia.
    + rewrite term_int; try lia. f_equal. lia.
  - rewrite (Hq Nc). rewrite term_int by (lia || nia). apply write_f64_small; [lia|]. apply HF. exact R.
Qed.
