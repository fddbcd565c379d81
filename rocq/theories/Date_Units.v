(* Conversion between the units of datetime64. *)
From Verif Require Import Base Int_Model Int_Proofs F64_Model Rng_Model Date_Spec Date_Model Date_Proofs.
Local Open Scope Z_scope.

Definition fixed (u : unit) : Prop := match u with Years | Months => False | _ => True end.
Lemma length_pos u : fixed u -> 0 < length_ns u.
Proof. destruct u; cbn; [easy | easy | lia ..]. Qed.
Lemma instant_fixed u v : fixed u -> instant u v = length_ns u * v.
Proof. destruct u; easy. Qed.

(* ---- the tick containing an instant is unique -------------------------------------- *)
Lemma number_year y : day_number (y, 1, 1) = days_before_year y - 719162.
Proof. unfold day_number. change (days_before_year 1970) with 719162. change (days_in_months y (Z.to_nat (1 - 1))) with 0. lia. Qed.
Lemma valid_first y m : 1 <= m <= 12 -> valid (y, m, 1).
Proof. intro H. split; [exact H|]. pose proof (month_length_range y m). lia. Qed.
Lemma year_unique y m d y' : valid (y, m, d) ->
  (day_number (y', 1, 1) <= day_number (y, m, d) < day_number (y' + 1, 1, 1) <-> y' = y).
Proof.
  intro V. pose proof (in_year y m d V) as H. change (days_before_year 1970) with 719162 in H. rewrite !number_year. split; [|intros ->; lia].
  intro H1. assert (~ y < y') by (intro; pose proof (before_year_mono (y + 1) y'); lia).
  assert (~ y' < y) by (intro; pose proof (before_year_mono (y' + 1) y); lia). lia.
Qed.
(* the first of month number k, counted from January of year 0 *)
Definition month_start (k : Z) : Z := day_number (k / 12, k mod 12 + 1, 1).
Lemma month_step k : month_start (k + 1) = month_start k + month_length (k / 12) (k mod 12 + 1).
Proof.
  unfold month_start. pose proof (Z.mod_pos_bound k 12 ltac:(lia)).
  set (L := month_length (k / 12) (k mod 12 + 1)).
  assert (day_number (k / 12, k mod 12 + 1, L) = day_number (k / 12, k mod 12 + 1, 1) + L - 1) as E by (unfold day_number; lia).
  assert (valid (k / 12, k mod 12 + 1, L)) as V by (split; [lia|]; pose proof (month_length_range (k / 12) (k mod 12 + 1)); unfold L; lia).
  assert (tomorrow (k / 12, k mod 12 + 1, L) = ((k + 1) / 12, (k + 1) mod 12 + 1, 1)) as ET.
  { unfold tomorrow. fold L. rewrite Z.ltb_irrefl. pose proof (Z.div_mod k 12 ltac:(lia)). destruct (Z.ltb_spec (k mod 12 + 1) 12).
    - assert ((k + 1) / 12 = k / 12) as -> by (symmetry; apply Z.div_unique with (k mod 12 + 1); lia).
      assert ((k + 1) mod 12 = k mod 12 + 1) as -> by (symmetry; apply Z.mod_unique with (k / 12); lia). reflexivity.
    - assert ((k + 1) / 12 = k / 12 + 1) as -> by (symmetry; apply Z.div_unique with 0; lia).
      assert ((k + 1) mod 12 = 0) as -> by (symmetry; apply Z.mod_unique with (k / 12 + 1); lia). reflexivity. }
  rewrite <- ET, day_number_tomorrow by exact V. lia.
Qed.
Lemma month_mono_nat k n : month_start k + Z.of_nat n <= month_start (k + Z.of_nat n).
Proof.
  induction n as [|n IH]; [change (Z.of_nat 0) with 0; rewrite !Z.add_0_r; lia|]. replace (k + Z.of_nat (S n)) with (k + Z.of_nat n + 1) by lia. rewrite month_step.
  pose proof (month_length_range ((k + Z.of_nat n) / 12) ((k + Z.of_nat n) mod 12 + 1)). lia.
Qed.
Lemma month_mono k k' : k <= k' -> month_start k + (k' - k) <= month_start k'.
Proof. intro H. pose proof (month_mono_nat k (Z.to_nat (k' - k))) as E. rewrite Z2Nat.id in E by lia. replace (k + (k' - k)) with k' in E by ring. exact E. Qed.
Lemma month_unique y m d k : valid (y, m, d) ->
  (month_start k <= day_number (y, m, d) < month_start (k + 1) <-> k = 12 * y + (m - 1)).
Proof.
  intros (Hm & Hd).
  assert ((12 * y + (m - 1)) / 12 = y) as E1 by (symmetry; apply Z.div_unique with (m - 1); lia).
  assert ((12 * y + (m - 1)) mod 12 = m - 1) as E2 by (symmetry; apply Z.mod_unique with y; lia).
  assert (month_start (12 * y + (m - 1)) <= day_number (y, m, d) < month_start (12 * y + (m - 1) + 1)) as H.
  { rewrite month_step. unfold month_start. rewrite E1, E2. replace (m - 1 + 1) with m by ring. unfold day_number. lia. }
  split; [|intros ->; exact H]. intro H1.
  assert (~ k < 12 * y + (m - 1)) by (intro; pose proof (month_mono (k + 1) (12 * y + (m - 1))); lia).
  assert (~ 12 * y + (m - 1) < k) by (intro; pose proof (month_mono (12 * y + (m - 1) + 1) k); lia). lia.
Qed.
Lemma instant_months v : instant Months v = day_ns * month_start (23640 + v).
Proof.
  cbn [instant]. unfold month_start. assert ((23640 + v) / 12 = 1970 + v / 12) as -> by (replace (23640 + v) with (v + 1970 * 12) by ring; rewrite Z.div_add; lia).
  assert ((23640 + v) mod 12 = v mod 12) as -> by (replace (23640 + v) with (v + 1970 * 12) by ring; now rewrite Z.mod_add). reflexivity.
Qed.

Lemma day_pos : 0 < day_ns.  Proof. reflexivity. Qed.
Lemma scaled_bounds a b t : 0 < t -> forall x, t * a <= x < t * b <-> a <= x / t < b.
Proof.
  intros Ht x. split; intros (H1 & H2).
  - split; [apply Z.div_le_lower_bound; lia | apply Z.div_lt_upper_bound; lia].
  - pose proof (Z.div_mod x t ltac:(lia)) as E. pose proof (Z.mod_pos_bound x t Ht). split; [nia|]. assert (x / t + 1 <= b) by lia. nia.
Qed.
Lemma contains_fixed u' v' u v : fixed u' -> (contains u' v' u v <-> v' = instant u v / length_ns u').
Proof.
  intro F. unfold contains. rewrite !(instant_fixed u') by exact F. rewrite scaled_bounds by now apply length_pos. lia.
Qed.
Lemma contains_years v' u v : contains Years v' u v <-> day_number (1970 + v', 1, 1) <= instant u v / day_ns < day_number (1970 + v' + 1, 1, 1).
Proof. unfold contains. rewrite <- scaled_bounds by exact day_pos. cbn [instant]. replace (1970 + (v' + 1)) with (1970 + v' + 1) by ring. reflexivity. Qed.
Lemma contains_months v' u v : contains Months v' u v <-> month_start (23640 + v') <= instant u v / day_ns < month_start (23640 + v' + 1).
Proof. unfold contains. rewrite !instant_months. replace (23640 + (v' + 1)) with (23640 + v' + 1) by ring. apply scaled_bounds, day_pos. Qed.
Theorem contains_unique u' v1 v2 u v : contains u' v1 u v -> contains u' v2 u v -> v1 = v2.
Proof.
  destruct u'; try (rewrite !contains_fixed by exact I; congruence).
  - rewrite !contains_years. intros H1 H2.
    assert (~ 1970 + v1 < 1970 + v2) by (intro; rewrite !number_year in *; pose proof (before_year_mono (1970 + v1 + 1) (1970 + v2)); lia).
    assert (~ 1970 + v2 < 1970 + v1) by (intro; rewrite !number_year in *; pose proof (before_year_mono (1970 + v2 + 1) (1970 + v1)); lia). lia.
  - rewrite !contains_months. intros H1 H2.
    assert (~ v1 < v2) by (intro; pose proof (month_mono (23640 + v1 + 1) (23640 + v2)); lia).
    assert (~ v2 < v1) by (intro; pose proof (month_mono (23640 + v2 + 1) (23640 + v1)); lia). lia.
Qed.
Theorem contains_self u v : contains u v u v.
Proof.
  unfold contains. split; [lia|]. pose proof day_pos. destruct u.
  - cbn [instant]. apply Z.mul_lt_mono_pos_l; [exact day_pos|]. rewrite !number_year. replace (1970 + (v + 1)) with (1970 + v + 1) by ring. rewrite year_step. destruct (leap (1970 + v)); lia.
  - rewrite !instant_months. apply Z.mul_lt_mono_pos_l; [exact day_pos|]. pose proof (month_mono (23640 + v) (23640 + (v + 1))). lia.
  - cbn [instant length_ns]. lia. - cbn [instant length_ns]; lia. - cbn [instant length_ns]; lia. - cbn [instant length_ns]; lia.
  - cbn [instant length_ns]; lia. - cbn [instant length_ns]; lia. - cbn [instant length_ns]; lia. - cbn [instant length_ns]; lia.
Qed.

(* ---- the code ------------------------------------------------------------------------ *)
(* truncation is exact for non-negative values and for multiples *)
Lemma quot_floor a b : 0 < b -> 0 <= a \/ a mod b = 0 -> a /! b = a / b.
Proof.
  intros Hb [H|H]; [apply Z.quot_div_nonneg; lia|].
  pose proof (Z.div_mod a b ltac:(lia)) as E. rewrite H, Z.add_0_r, Z.mul_comm in E. rewrite E at 1. apply Z.quot_mul. lia.
Qed.
Lemma conv_fixed f t v v' : 0 < f -> 0 < t -> f mod t = 0 \/ t mod f = 0 -> i64 v' -> v' = f * v / t -> 0 <= v \/ t * v' = f * v ->
  (if t <=? f then v *! (f /! t) else v /! (t /! f)) = v'.
Proof.
  intros Hf Ht HD HV E Hex. destruct (Z.leb_spec t f) as [L|L].
  - assert (f mod t = 0) as Hm by (destruct HD as [?|HD]; [assumption|]; destruct (Z.eq_dec t f) as [->|]; [now apply Z.mod_same; lia|]; rewrite Z.mod_small in HD; lia).
    rewrite quot_floor by lia. pose proof (Z.div_mod f t ltac:(lia)) as Ef. rewrite Hm, Z.add_0_r in Ef.
    assert (v' = v * (f / t)) as EV. { rewrite E. rewrite Ef at 1. replace (t * (f / t) * v) with (v * (f / t) * t) by ring. apply Z.div_mul. lia. }
    rewrite <- EV. apply w64_id, HV.
  - assert (t mod f = 0) as Hm by (destruct HD as [HD|?]; [|assumption]; rewrite Z.mod_small in HD; lia).
    rewrite (quot_floor t f) by lia. pose proof (Z.div_mod t f ltac:(lia)) as Et. rewrite Hm, Z.add_0_r in Et.
    assert (0 < t / f) as Hk by (apply Z.div_str_pos; lia).
    assert (v' = v / (t / f)) as EV by (rewrite E; rewrite Et at 1; apply Z.div_mul_cancel_l; lia).
    rewrite quot_floor; [now symmetry | exact Hk|]. destruct Hex as [?|Hex]; [now left | right].
    assert (v = (t / f) * v') as -> by (apply Z.mul_reg_l with f; [lia|]; rewrite Z.mul_assoc, <- Et; now symmetry).
    rewrite Z.mul_comm. apply Z.mod_mul. lia.
Qed.
Lemma days_to_fixed n u v' : fixed u -> i64 v' -> v' = day_ns * n / length_ns u -> 0 <= n \/ length_ns u * v' = day_ns * n -> days_to_unit n u = v'.
Proof.
  intros F HV E Hex. unfold i64 in HV. destruct u; cbn [fixed] in F; try easy; cbn [days_to_unit length_ns] in *; change day_ns with 86400000000000 in *.
  - assert (v' = n / 7) as E1. { rewrite E. change (7 * 86400000000000) with (86400000000000 * 7). apply Z.div_mul_cancel_l; lia. }
    rewrite quot_floor; [now symmetry | lia|]. destruct Hex as [?|Hex]; [now left | right]. div_lia.
  - rewrite E, Z.mul_comm, Z.div_mul by lia. reflexivity.
  - assert (v' = n * 24) by (rewrite E; change (60 * 60 * 1000000000) with 3600000000000; div_lia). rewrite w64_id by lia. lia.
  - assert (v' = n * 1440) by (rewrite E; change (60 * 1000000000) with 60000000000; div_lia). rewrite (w64_id (n * 24)), w64_id by lia. lia.
  - assert (v' = n * 86400) by (rewrite E; div_lia). rewrite w64_id by lia. lia.
  - assert (v' = n * 86400000) by (rewrite E; div_lia). rewrite (w64_id (n * 86400)), w64_id by lia. lia.
  - assert (v' = n * 86400000000) by (rewrite E; div_lia). rewrite (w64_id (n * 86400)), w64_id by lia. lia.
  - assert (v' = n * 86400000000000) by (rewrite E; rewrite Z.div_1_r; lia). rewrite (w64_id (n * 86400)), w64_id by lia. lia.
Qed.
Lemma unit_days u v : fixed u -> i64 (instant u v / day_ns) -> 0 <= v \/ instant u v mod day_ns = 0 -> unit_to_days v u = instant u v / day_ns.
Proof.
  intros F HB Hex. unfold i64 in HB. destruct u; cbn [fixed] in F; try easy; cbn [unit_to_days instant length_ns] in *; change day_ns with 86400000000000 in *.
  - replace (7 * 86400000000000 * v) with (v * 7 * 86400000000000) in * by ring. rewrite Z.div_mul in * by lia. apply w64_id. lia.
  - rewrite Z.mul_comm, Z.div_mul by lia. reflexivity.
  - change (60 * 60 * 1000000000) with 3600000000000 in *. rewrite quot_floor; [div_lia | lia|]. destruct Hex as [?|Hex]; [now left | right; div_lia].
  - change (60 * 1000000000) with 60000000000 in *. rewrite quot_floor; [div_lia | lia|]. destruct Hex as [?|Hex]; [now left | right; div_lia].
  - rewrite quot_floor; [div_lia | lia|]. destruct Hex as [?|Hex]; [now left | right; div_lia].
  - rewrite quot_floor; [div_lia | lia|]. destruct Hex as [?|Hex]; [now left | right; div_lia].
  - rewrite quot_floor; [div_lia | lia|]. destruct Hex as [?|Hex]; [now left | right; div_lia].
  - change (86400 * 1000000000) with 86400000000000. rewrite Z.mul_1_l in *. rewrite quot_floor; [reflexivity | lia|]. destruct Hex as [?|Hex]; [now left | right; exact Hex].
Qed.

Lemma unit_eqb_spec a b : unit_eqb a b = true <-> a = b.
Proof. destruct a, b; cbn; split; intro; (reflexivity || discriminate). Qed.
Section Convert.
Variables (v : Z).
Hypothesis Hnat : v <> NAT.
Lemma nat_no : (v =? NAT) = false.
Proof. now apply Z.eqb_neq. Qed.
Lemma conv_YF u' : fixed u' -> convert v Years u' = days_to_unit (ymd_to_days (1970 +! v) 1 1) u'.
Proof. intro F. unfold convert. rewrite nat_no. destruct u'; easy. Qed.
Lemma conv_MF u' : fixed u' -> convert v Months u' =
  days_to_unit (ymd_to_days ((1970 * 12 +! v) /! 12) ((1970 * 12 +! v) %! 12 +! 1) 1) u'.
Proof. intro F. unfold convert. rewrite nat_no. destruct u'; easy. Qed.
Lemma conv_FY u : fixed u -> convert v u Years = let '(y, _, _) := days_to_ymd (unit_to_days v u) in y -! 1970.
Proof. intro F. unfold convert. rewrite nat_no. destruct u; easy. Qed.
Lemma conv_FM u : fixed u -> convert v u Months = let '(y, m, _) := days_to_ymd (unit_to_days v u) in (y -! 1970) *! 12 +! (m -! 1).
Proof. intro F. unfold convert. rewrite nat_no. destruct u; easy. Qed.
Lemma conv_FF u u' : fixed u -> fixed u' -> unit_eqb u u' = false ->
  convert v u u' = if length_ns u' <=? length_ns u then v *! (length_ns u /! length_ns u') else v /! (length_ns u' /! length_ns u).
Proof. intros F F' E. unfold convert. rewrite nat_no, E. destruct u, u'; easy. Qed.
Lemma units_divide u u' : fixed u -> fixed u' -> length_ns u mod length_ns u' = 0 \/ length_ns u' mod length_ns u = 0.
Proof. destruct u, u'; cbn [fixed]; intros F F'; try easy; ((left; reflexivity) || (right; reflexivity)). Qed.

Theorem convert_spec u u' v' : i64 v -> - 2 ^ 63 * day_ns <= instant u v < (2 ^ 63 - 719468) * day_ns -> (u = Months -> -23640 <= v) ->
  i64 v' -> contains u' v' u v -> (0 <= v \/ instant u' v' = instant u v) -> convert v u u' = v'.
Proof.
  intros HV HB HMn HV' HC Hex. pose proof day_pos as DP. destruct (unit_eqb u u') eqn:EU.
  { apply unit_eqb_spec in EU as <-. unfold convert. rewrite nat_no. assert (unit_eqb u u = true) as -> by now apply unit_eqb_spec.
    exact (contains_unique u v v' u v (contains_self u v) HC). }
  assert (fixed u \/ u = Years \/ u = Months) as KU by (destruct u; cbn; tauto).
  assert (fixed u' \/ u' = Years \/ u' = Months) as KU' by (destruct u'; cbn; tauto).
  unfold i64 in HV, HV'.
  assert (- 2 ^ 63 <= instant u v / day_ns < 2 ^ 63 - 719468) as HN.
  { split; [apply Z.div_le_lower_bound; lia | apply Z.div_lt_upper_bound; lia]. }
  destruct KU as [F|[->| ->]].
  - (* from a fixed unit *)
    destruct KU' as [F'|[->| ->]].
    + rewrite conv_FF by assumption. rewrite contains_fixed, (instant_fixed u) in HC by assumption. rewrite !instant_fixed in Hex by assumption.
      apply conv_fixed; [now apply length_pos | now apply length_pos | now apply units_divide | exact HV' | exact HC | exact Hex].
    + rewrite conv_FY by exact F. rewrite (unit_days u v F); [| unfold i64; lia |].
      2:{ destruct Hex as [?|Hex]; [now left | right]. rewrite <- Hex. cbn [instant]. rewrite Z.mul_comm. apply Z.mod_mul. lia. }
      destruct (ymd_valid (instant u v / day_ns) HN) as (V & E). destruct (days_to_ymd (instant u v / day_ns)) as [[y m] d].
      rewrite contains_years, <- E in HC. apply (year_unique y m d) in HC; [|exact V].
      rewrite w64_id by lia. lia.
    + rewrite conv_FM by exact F. rewrite (unit_days u v F); [| unfold i64; lia |].
      2:{ destruct Hex as [?|Hex]; [now left | right]. rewrite <- Hex. rewrite instant_months, Z.mul_comm. apply Z.mod_mul. lia. }
      destruct (ymd_valid (instant u v / day_ns) HN) as (V & E). destruct (days_to_ymd (instant u v / day_ns)) as [[y m] d].
      rewrite contains_months, <- E in HC. apply (month_unique y m d) in HC; [|exact V].
      pose proof (year_of_number y m d V ltac:(lia)). destruct V as (Hm & _).
      rewrite (w64_id (y - 1970)), (w64_id (m - 1)), (w64_id ((y - 1970) * 12)), w64_id by lia. lia.
  - (* from years *)
    assert (valid (1970 + v, 1, 1)) as V by (apply valid_first; lia).
    cbn [instant] in HB, HN. assert (- 2 ^ 63 <= day_number (1970 + v, 1, 1) < 2 ^ 63 - 719468) as HN' by nia.
    pose proof (year_of_number _ _ _ V ltac:(lia)) as HY.
    destruct KU' as [F'|[->| ->]]; [|discriminate|].
    + rewrite conv_YF by exact F'. rewrite (w64_id (1970 + v)) by lia. rewrite ymd_number by lia.
      rewrite contains_fixed in HC by exact F'. rewrite (instant_fixed u' v' F') in Hex. cbn [instant] in HC, Hex. apply days_to_fixed; try assumption.
      destruct Hex as [Hv|Hex]; [left | now right]. rewrite number_year. pose proof (before_year_mono 1970 (1970 + v)). change (days_before_year 1970) with 719162 in *. lia.
    + assert (v' = v * 12) as E.
      { apply contains_months in HC. cbn [instant] in HC. rewrite Z.mul_comm, Z.div_mul in HC by lia. apply (month_unique _ _ _ _ V) in HC. lia. }
      unfold convert. rewrite nat_no. cbn [unit_eqb]. rewrite <- E. apply w64_id. lia.
  - (* from months *)
    specialize (HMn eq_refl). pose proof (Z.mod_pos_bound v 12 ltac:(lia)) as Hm.
    set (V := (1970 + v / 12, v mod 12 + 1, 1)).
    assert (valid V) as VV by (apply valid_first; lia).
    cbn [instant] in HB, HN. fold V in HB, HN. assert (- 2 ^ 63 <= day_number V < 2 ^ 63 - 719468) as HN' by nia.
    pose proof (year_of_number _ _ _ VV ltac:(fold V; lia)) as HY.
    destruct KU' as [F'|[->| ->]]; [| |discriminate].
    + rewrite conv_MF by exact F'. pose proof (Z.div_mod v 12 ltac:(lia)) as EV. change (1970 * 12) with 23640. rewrite !(w64_id (23640 + v)) by lia.
      rewrite Z.quot_div_nonneg, Z.rem_mod_nonneg by lia.
      assert ((23640 + v) / 12 = 1970 + v / 12) as -> by (replace (23640 + v) with (v + 1970 * 12) by ring; rewrite Z.div_add; lia).
      assert ((23640 + v) mod 12 = v mod 12) as -> by (replace (23640 + v) with (v + 1970 * 12) by ring; rewrite Z.mod_add by lia; reflexivity).
      rewrite (w64_id (v mod 12 + 1)) by lia. rewrite ymd_number by (fold V; lia). fold V.
      rewrite contains_fixed in HC by exact F'. rewrite (instant_fixed u' v' F') in Hex. cbn [instant] in HC, Hex. fold V in HC, Hex. apply days_to_fixed; try assumption.
      destruct Hex as [Hv|Hex]; [left | now right].
      assert (0 <= v / 12) by (apply Z.div_pos; lia). pose proof (in_year _ _ _ VV) as HI. fold V in HI. pose proof (before_year_mono 1970 (1970 + v / 12)).
      change (days_before_year 1970) with 719162 in *. lia.
    + assert (v' = v / 12) as E.
      { apply contains_years in HC. cbn [instant] in HC. fold V in HC. rewrite (Z.mul_comm day_ns), Z.div_mul in HC by lia. apply (year_unique _ _ _ _ VV) in HC. lia. }
      unfold convert. rewrite nat_no. cbn [unit_eqb]. rewrite E. apply quot_floor; [lia|].
      destruct Hex as [?|Hex]; [now left | right]. cbn [instant] in Hex. fold V in Hex. apply Z.mul_reg_l in Hex; [|lia].
      apply number_inj in Hex; [|apply valid_first; lia | exact VV]. injection Hex as E1 E2. lia.
Qed.
End Convert.
