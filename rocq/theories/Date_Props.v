(* Dates and times: the calendar, units, NaT, arithmetic, text, business days
   (C55-C57, C72-C75). *)
From Coq Require Import Ascii String SpecFloat.
From Verif Require Import Base Lists Int_Model Int_Proofs F64_Model Rng_Model Date_Spec Date_Model Date_Proofs Date_Units Date_Str Date_Bus.
Local Open Scope Z_scope.

(* ==== C55 calendar ================================================================= *)
(* The code's date of day n: 1970-01-01 for day 0, and the day after in the Gregorian
   calendar for every further day, in both directions.  Days are i64.  _partial: all
   but the last 719468 of them (after year 25252734927766554), where the code's
   arithmetic wraps around. *)
Definition in_calendar (n : Z) : Prop := - 2 ^ 63 <= n < 2 ^ 63 - 719468.
Theorem C55_epoch : days_to_ymd 0 = (1970, 1, 1).
Proof. vm_compute. reflexivity. Qed.
Theorem C55_next_partial : forall n, in_calendar n -> in_calendar (n + 1) -> days_to_ymd (n + 1) = tomorrow (days_to_ymd n).
Proof.
  unfold in_calendar. intros n H H'. destruct (ymd_valid n H) as (V & E). destruct (ymd_valid (n + 1) H') as (V' & E').
  apply number_inj; [exact V' | now apply tomorrow_valid|]. rewrite day_number_tomorrow, E, E' by exact V. reflexivity.
Qed.
Theorem C55_valid_partial : forall n, in_calendar n -> valid (days_to_ymd n).
Proof. intros n H. apply ymd_valid, H. Qed.
(* day -> date -> day *)
Theorem C55_round_trip_partial : forall n, in_calendar n -> let '(y, m, d) := days_to_ymd n in ymd_to_days y m d = n.
Proof.
  intros n H. destruct (ymd_valid n H) as (V & E). destruct (days_to_ymd n) as [[y m] d]. pose proof V as (Hm & Hd).
  pose proof (month_length_range y m). unfold in_calendar in H. pose proof (year_of_number y m d V ltac:(lia)). rewrite ymd_number by lia. exact E.
Qed.
(* date -> day -> date, for every valid date *)
Theorem C55_date_round_trip_partial : forall y m d, valid (y, m, d) -> in_calendar (day_number (y, m, d)) ->
  days_to_ymd (ymd_to_days y m d) = (y, m, d).
Proof.
  intros y m d V H. pose proof V as (Hm & Hd). pose proof (month_length_range y m). unfold in_calendar in H. pose proof (year_of_number y m d V ltac:(lia)).
  rewrite ymd_number by lia. destruct (ymd_valid (day_number (y, m, d)) H) as (V' & E'). now apply number_inj.
Qed.
(* different days have different dates, and the order is the calendar's *)
Theorem C55_count_partial : forall y m d, valid (y, m, d) -> in_calendar (day_number (y, m, d)) -> ymd_to_days y m d = day_number (y, m, d).
Proof.
  intros y m d V H. pose proof V as (Hm & Hd). pose proof (month_length_range y m). unfold in_calendar in H. pose proof (year_of_number y m d V ltac:(lia)).
  apply ymd_number; lia.
Qed.
Theorem C55_end_refuted : let n := 2 ^ 63 - 719469 in i64 (n + 1) /\ days_to_ymd n = (25252734927766554, 9, 25) /\ days_to_ymd (n + 1) = (25252734927766554, 9, 27).
Proof. unfold i64. vm_compute. repeat split; congruence. Qed.
Example C55_nonvacuous : days_to_ymd 11016 = (2000, 2, 29) /\ tomorrow (2000, 2, 29) = (2000, 3, 1) /\ days_to_ymd (-1) = (1969, 12, 31) /\
  days_to_ymd (-719529) = (-1, 12, 31) /\ ymd_to_days 1900 3 1 = ymd_to_days 1900 2 28 + 1.
Proof. vm_compute. repeat split. Qed.

(* ==== C56 converting between units =================================================== *)
(* The result is the tick of the new unit that contains the old tick's beginning.
   _partial: not for instants before 1970 that are not on a tick of the new unit
   (refuted below), not for months before year 0, and only if the answer fits i64. *)
Definition in_span (i : Z) : Prop := - 2 ^ 63 * day_ns <= i < (2 ^ 63 - 719468) * day_ns.
Theorem C56_convert_partial : forall u u' v v', v <> nat_value -> i64 v -> in_span (instant u v) -> (u = Months -> -23640 <= v) ->
  i64 v' -> contains u' v' u v -> 0 <= v \/ instant u' v' = instant u v -> convert v u u' = v'.
Proof. intros u u' v v' HN. exact (convert_spec v HN u u' v'). Qed.
(* there and back: whenever a tick of u' begins at the same instant *)
Theorem C56_round_trip : forall u u' v v', v <> nat_value -> v' <> nat_value -> i64 v -> i64 v' -> in_span (instant u v) ->
  (u = Months -> -23640 <= v) -> (u' = Months -> -23640 <= v') -> instant u' v' = instant u v ->
  convert v u u' = v' /\ convert v' u' u = v.
Proof.
  intros u u' v v' HN HN' HV HV' HS HM HM' E. split.
  - apply convert_spec; try assumption; [|now right]. unfold contains. rewrite <- E. apply (contains_self u' v').
  - apply convert_spec; try assumption; [rewrite E; exact HS | | now right]. unfold contains. rewrite E. apply (contains_self u v).
Qed.
Theorem C56_nat : forall u u', convert nat_value u u' = nat_value.
Proof. reflexivity. Qed.
(* before 1970 an instant inside a tick lands in the next one *)
Theorem C56_before_1970_refuted : forall u u' v v', fixed u -> fixed u' -> i64 v -> v <> nat_value -> v < 0 ->
  length_ns u < length_ns u' -> contains u' v' u v -> instant u' v' <> instant u v -> convert v u u' = v' + 1.
Proof.
  intros u u' v v' F F' HV HN Hv HL HC HX. unfold convert. destruct (Z.eqb_spec v NAT) as [|_]; [contradiction|].
  assert (exists k, 0 < k /\ length_ns u' = k * length_ns u /\ (forall v, convert v u u' = if v =? NAT then NAT else v /! k)) as (k & Hk & EL & EC).
  { assert (forall k, to_ns_factor u = Some (length_ns u) -> to_ns_factor u' = Some (length_ns u') -> k = length_ns u' /! length_ns u -> 0 < k -> length_ns u' = k * length_ns u ->
      exists k, 0 < k /\ length_ns u' = k * length_ns u /\ (forall v, convert v u u' = if v =? NAT then NAT else v /! k)) as HK.
    { intros k E1 E2 Ek Hk Em. exists k. split; [exact Hk|]. split; [exact Em|]. intro w. unfold convert. destruct (w =? NAT); [reflexivity|].
      destruct (unit_eqb u u') eqn:EU; [apply unit_eqb_spec in EU; subst; lia|].
      rewrite E1, E2. destruct (Z.leb_spec (length_ns u') (length_ns u)); [lia|]. rewrite <- Ek. destruct u, u'; cbn in F, F'; try contradiction; reflexivity. }
    destruct u, u'; cbn in F, F'; try contradiction; cbn [length_ns] in HL; try (unfold day_ns in HL; lia);
      (eapply HK; [reflexivity | reflexivity | reflexivity | vm_compute; reflexivity | vm_compute; reflexivity]). }
  specialize (EC v). unfold convert in EC. destruct (Z.eqb_spec v NAT) as [|_]; [contradiction|]. rewrite EC.
  pose proof (length_pos u F) as P. unfold contains in HC. rewrite (instant_fixed u v F), (instant_fixed u' v' F'), (instant_fixed u' (v' + 1) F') in HC. rewrite (instant_fixed u v F), (instant_fixed u' v' F') in HX. rewrite EL in HC, HX.
  assert (k * v' <= v < k * (v' + 1)) as HB.
  { replace (k * length_ns u * v') with (length_ns u * (k * v')) in HC by ring. replace (k * length_ns u * (v' + 1)) with (length_ns u * (k * (v' + 1))) in HC by ring.
    split; [apply (Z.mul_le_mono_pos_l _ _ (length_ns u) P); exact (proj1 HC) | apply (Z.mul_lt_mono_pos_l (length_ns u) _ _ P); exact (proj2 HC)]. }
  assert (v <> k * v') as HX' by (intros ->; apply HX; ring).
  assert (- v / k = - v' - 1) as Q. { symmetry. apply Z.div_unique with (k * (v' + 1) - v); [left; lia | ring]. }
  pose proof (Z.quot_opp_l v k ltac:(lia)) as QO. rewrite Z.quot_div_nonneg in QO by lia. lia.
Qed.
Theorem C56_year_refuted : contains Years (-1) Seconds (-1) /\ convert (-1) Seconds Years = 0 /\ contains Years (-1) Months (-1) /\ convert (-1) Months Years = 0.
Proof. unfold contains. vm_compute. repeat split; congruence. Qed.
(* a conversion that does not fit wraps around instead of giving NaT or an error *)
Theorem C56_overflow_refuted : ~ i64 (instant Years 1000) /\ i64 (convert 1000 Years Nano) /\ convert 1000 Years Nano <> nat_value.
Proof. unfold i64. vm_compute. repeat split; try congruence. intros (H & K). discriminate K. Qed.
Theorem C56_early_months_refuted : contains Days (-719862) Months (-23651) /\ convert (-23651) Months Days = -719864.
Proof. unfold contains. vm_compute. repeat split; congruence. Qed.
Example C56_nonvacuous : convert 30 Years Days = 10957 /\ convert 10957 Days Years = 30 /\ convert (-719528) Days Months = -23640 /\
  convert 100 Hours Days = 4 /\ contains Days 4 Hours 100.
Proof. unfold contains. vm_compute. repeat split; congruence. Qed.

(* ==== C57 NaT ========================================================================= *)
(* _partial: conversion, text, business days, and arithmetic with out= keep NaT *)
Theorem C57_kept_partial : forall op b u u' cal fuel n,
  trait_op op nat_value b = nat_value /\ trait_op op b nat_value = nat_value /\
  convert nat_value u u' = nat_value /\ as_string nat_value u u' = chars "NaT" /\ parse (chars "NaT") u = nat_value /\
  is_business_day nat_value cal = false /\ busday_offset fuel nat_value n cal = Ok nat_value.
Proof.
  intros op b u u' cal fuel n. unfold trait_op. change nat_value with NAT. rewrite Z.eqb_refl, orb_true_r. cbn [orb].
  repeat split; try reflexivity. unfold as_string. assert ((if unit_eqb u u' then NAT else convert NAT u u') = NAT) as -> by now destruct (unit_eqb u u'). reflexivity.
Qed.
(* and arithmetic with out= gives NaT only from NaT, unless the exact result is the
   NaT pattern itself *)
Theorem C57_only_partial : forall op a b, a <> nat_value -> b <> nat_value -> nat_value < op a b < 2 ^ 63 -> trait_op op a b = op a b.
Proof.
  unfold nat_value. intros op a b Ha Hb Ho. unfold trait_op. destruct (Z.eqb_spec a NAT); [contradiction|]. destruct (Z.eqb_spec b NAT); [contradiction|].
  cbn [orb]. apply w64_id. lia.
Qed.
(* a + b, a - b without out= do not test for NaT *)
Theorem C57_arithmetic_refuted : forall u b, 0 < b < 2 ^ 63 ->
  exists r, dt_binop Add (DT u) (TD u) nat_value b = Some (DT u, r) /\ r <> nat_value.
Proof.
  intros u b H. exists (nat_value + b). split; [|unfold nat_value; lia]. cbn [dt_binop]. unfold fast_op. rewrite w64_id by (unfold nat_value; lia). reflexivity.
Qed.
(* so the result depends on whether a result array is supplied *)
Theorem C57_path_refuted : forall b, 0 < b < 2 ^ 63 -> trait_op Z.add nat_value b <> fast_op Z.add nat_value b.
Proof.
  intros b H. destruct (C57_kept_partial Z.add b Days Days (mkCal [] []) 0%nat 0) as (-> & _). unfold fast_op. rewrite w64_id by (unfold nat_value; lia). unfold nat_value. lia.
Qed.
(* NaT == NaT, and NaT is before every datetime *)
Theorem C57_compare_refuted : forall u, dt_compare Z.eqb u u nat_value nat_value = true /\ forall x, i64 x -> x <> nat_value -> dt_compare Z.ltb u u nat_value x = true.
Proof.
  intro u. unfold dt_compare. assert (unit_eqb u u = true) as -> by now apply unit_eqb_spec. split; [reflexivity|].
  intros x Hx HN. apply Z.ltb_lt. unfold i64, nat_value in *. lia.
Qed.
(* max ignores NaT, min is NaT *)
Theorem C57_max_refuted : forall x, i64 x -> reduce_max [nat_value; x] = x /\ reduce_min [nat_value; x] = nat_value.
Proof. unfold i64, reduce_max, reduce_min, nat_value. intros x H. cbn [fold_left]. lia. Qed.
Example C57_nonvacuous : trait_op Z.add 5 nat_value = nat_value /\ trait_op Z.add 5 7 = 12 /\ parse (chars "NaT") Seconds = - 2 ^ 63.
Proof. vm_compute. repeat split. Qed.

(* ==== C72 arithmetic =================================================================== *)
(* datetime +- timedelta, datetime - datetime and timedelta +- timedelta act on the
   instants.  _partial: operands of one unit, of fixed length, no NaT, no overflow. *)
Definition span_ns (u : unit) (d : Z) : Z := length_ns u * d.
Theorem C72_arithmetic_partial : forall u, fixed u -> forall a b d e, i64 (a + d) -> i64 (a - d) -> i64 (a - b) -> i64 (d + e) -> i64 (d - e) ->
  (exists r, dt_binop Add (DT u) (TD u) a d = Some (DT u, r) /\ dt_binop Add (TD u) (DT u) d a = Some (DT u, r) /\ instant u r = instant u a + span_ns u d) /\
  (exists r, dt_binop Sub (DT u) (TD u) a d = Some (DT u, r) /\ instant u r = instant u a - span_ns u d) /\
  (exists r, dt_binop Sub (DT u) (DT u) a b = Some (TD u, r) /\ span_ns u r = instant u a - instant u b) /\
  (exists r, dt_binop Add (TD u) (TD u) d e = Some (TD u, r) /\ span_ns u r = span_ns u d + span_ns u e) /\
  (exists r, dt_binop Sub (TD u) (TD u) d e = Some (TD u, r) /\ span_ns u r = span_ns u d - span_ns u e) /\
  dt_binop Add (DT u) (DT u) a b = None.
Proof.
  unfold i64, span_ns. intros u F a b d e H1 H2 H3 H4 H5. rewrite !instant_fixed by exact F. cbn [dt_binop]. assert (unit_eqb u u = true) as -> by now apply unit_eqb_spec. unfold fast_op.
  rewrite (Z.add_comm d a). rewrite !w64_id by assumption.
  repeat split; eexists; (split; [reflexivity|]); try (split; [reflexivity|]); try (rewrite instant_fixed by exact F); ring.
Qed.
(* the difference, added back, gives the other datetime: for every pair of values of
   every unit, NaT and overflow included *)
Theorem C72_difference : forall u a b, i64 a -> i64 b ->
  exists d, dt_binop Sub (DT u) (DT u) b a = Some (TD u, d) /\ dt_binop Add (DT u) (TD u) a d = Some (DT u, b) /\ dt_binop Sub (DT u) (TD u) b d = Some (DT u, a).
Proof.
  unfold i64. intros u a b Ha Hb. cbn [dt_binop]. assert (unit_eqb u u = true) as -> by now apply unit_eqb_spec. unfold fast_op. exists (w64 (b - a)). split; [reflexivity|].
  unfold w64. rewrite wrap_add_r, wrap_sub_r by reflexivity. replace (a + (b - a)) with b by ring. replace (b - (b - a)) with a by ring.
  fold (w64 a) (w64 b). now rewrite !w64_id by assumption.
Qed.
(* differing units: the tick counts are combined as they are *)
Theorem C72_units_refuted : exists r, dt_binop Add (DT Days) (TD Hours) 0 24 = Some (DT Days, r) /\ instant Days r <> instant Days 0 + span_ns Hours 24.
Proof. exists 24. split; [vm_compute; reflexivity | vm_compute; discriminate]. Qed.
(* and the difference of two datetimes of differing units is a datetime *)
Theorem C72_difference_units_refuted : dt_binop Sub (DT Days) (DT Hours) 10 24 = Some (DT Days, -14) /\ dt_binop Sub (TD Days) (TD Hours) (2 ^ 53 + 1) 0 = Some (TD Days, 2 ^ 53).
Proof. vm_compute. split; reflexivity. Qed.
Example C72_nonvacuous : dt_binop Sub (DT Seconds) (DT Seconds) 100 250 = Some (TD Seconds, -150) /\ instant Seconds 100 - instant Seconds 250 = span_ns Seconds (-150).
Proof. vm_compute. split; reflexivity. Qed.

(* ==== C73 comparison =================================================================== *)
Lemma instant_lt u v v' : v < v' -> instant u v < instant u v'.
Proof.
  intro H. pose proof day_pos. assert (fixed u \/ u = Years \/ u = Months) as [F|[-> | ->]] by (destruct u; cbn; tauto).
  - rewrite !instant_fixed by exact F. pose proof (length_pos u F). nia.
  - pose proof (contains_self Years v) as C. unfold contains in C. enough (instant Years (v + 1) <= instant Years v') by lia.
    cbn [instant]. rewrite !number_year. pose proof (before_year_mono (1970 + (v + 1)) (1970 + v') ltac:(lia)). apply Z.mul_le_mono_nonneg_l; lia.
  - rewrite !instant_months. pose proof (month_mono (23640 + v) (23640 + v')). apply Z.mul_lt_mono_pos_l; lia.
Qed.
Lemma instant_le u v v' : instant u v <= instant u v' <-> v <= v'.
Proof.
  split; intro H.
  - destruct (Z.le_gt_cases v v') as [L|L]; [exact L|]. pose proof (instant_lt u v' v ltac:(lia)). lia.
  - destruct (Z.eq_dec v v') as [->|]; [lia|]. pose proof (instant_lt u v v' ltac:(lia)). lia.
Qed.
(* Comparing datetimes of two units compares their instants.  _partial: no NaT; the
   second operand begins a tick of the first one's unit ... *)
Theorem C73_exact_partial : forall u u' a b b', b <> nat_value -> i64 b -> i64 b' -> in_span (instant u' b) -> (u' = Months -> -23640 <= b) ->
  instant u b' = instant u' b ->
  dt_compare Z.ltb u u' a b = (instant u a <? instant u' b) /\
  dt_compare Z.leb u u' a b = (instant u a <=? instant u' b) /\
  dt_compare Z.eqb u u' a b = (instant u a =? instant u' b).
Proof.
  intros u u' a b b' HN HV HV' HS HM E.
  assert ((if unit_eqb u u' then b else convert b u' u) = b') as EB.
  { assert (convert b u' u = b') as EC.
    { apply convert_spec; try assumption; [|now right]. unfold contains. rewrite <- E. apply (contains_self u b'). }
    destruct (unit_eqb u u') eqn:EU; [|exact EC]. apply unit_eqb_spec in EU as <-. unfold convert in EC. destruct (Z.eqb_spec b NAT); [contradiction|].
    assert (unit_eqb u u = true) as X by now apply unit_eqb_spec. now rewrite X in EC. }
  unfold dt_compare. rewrite EB, <- E. pose proof (instant_le u a b') as L1. pose proof (instant_le u b' a) as L2.
  repeat split; [destruct (Z.ltb_spec a b'), (Z.ltb_spec (instant u a) (instant u b')) | destruct (Z.leb_spec a b'), (Z.leb_spec (instant u a) (instant u b')) |
     destruct (Z.eqb_spec a b'), (Z.eqb_spec (instant u a) (instant u b'))]; try reflexivity; lia.
Qed.
(* ... or: <= (and so >) with a second operand not before 1970 *)
Theorem C73_order_partial : forall u u' a b b', b <> nat_value -> i64 b -> i64 b' -> in_span (instant u' b) -> (u' = Months -> -23640 <= b) ->
  0 <= b -> contains u b' u' b -> dt_compare Z.leb u u' a b = (instant u a <=? instant u' b).
Proof.
  intros u u' a b b' HN HV HV' HS HM H0 HC.
  assert ((if unit_eqb u u' then b else convert b u' u) = b') as EB.
  { assert (convert b u' u = b') as EC by (apply convert_spec; try assumption; now left).
    destruct (unit_eqb u u') eqn:EU; [|exact EC]. apply unit_eqb_spec in EU as <-. unfold convert in EC. destruct (Z.eqb_spec b NAT); [contradiction|].
    assert (unit_eqb u u = true) as X by now apply unit_eqb_spec. now rewrite X in EC. }
  unfold dt_compare. rewrite EB. unfold contains in HC. pose proof (instant_le u a b') as L1. pose proof (instant_le u (b' + 1) a) as L2.
  destruct (Z.leb_spec a b'), (Z.leb_spec (instant u a) (instant u' b)); try reflexivity; lia.
Qed.
(* == of 1970-01-01 and 1970-01-01T05 is true one way round and false the other *)
Theorem C73_equal_refuted : instant Days 0 <> instant Hours 5 /\ dt_compare Z.eqb Days Hours 0 5 = true /\ dt_compare Z.eqb Hours Days 5 0 = false.
Proof. vm_compute. repeat split; congruence. Qed.
Theorem C73_less_refuted : instant Days 0 < instant Hours 5 /\ dt_compare Z.ltb Days Hours 0 5 = false.
Proof. vm_compute. split; reflexivity. Qed.
Example C73_nonvacuous : dt_compare Z.ltb Days Hours 1 48 = true /\ instant Days 2 = instant Hours 48.
Proof. vm_compute. split; reflexivity. Qed.

(* ==== C74 text ========================================================================== *)
(* Reading back what was written gives the same datetime.  _partial: years 0 and
   later, units down to milliseconds. *)
Theorem C74_round_trip_partial : forall v u, i64 v -> instant Years (-1970) <= instant u v < (2 ^ 63 - 719468) * day_ns ->
  In u [Years; Months; Weeks; Days; Hours; Minutes; Seconds; Milli] -> parse (as_string v u u) u = v.
Proof.
  intros v u HV HI HU. rewrite <- (text_round_trip v u HV HI HU) at 2. unfold as_string. assert (unit_eqb u u = true) as -> by now apply unit_eqb_spec.
  destruct (Z.eqb_spec v NAT) as [E|]; [|reflexivity]. exfalso. subst v. rewrite first_instant in HI. unfold NAT, day_ns in HI.
  destruct HU as [<-|[<-|[<-|[<-|[<-|[<-|[<-|[<-|[]]]]]]]]]; try (cbn [instant length_ns] in HI; unfold day_ns in HI; lia).
  - pose proof (instant_le Years (-1970) (- 2 ^ 63)) as L. rewrite first_instant in L. unfold day_ns in L. lia.
  - pose proof (instant_le Months (-23640) (- 2 ^ 63)) as L. change (instant Months (-23640)) with (day_ns * -719528) in L. unfold day_ns in L. lia.
Qed.
Theorem C74_nat : forall u, parse (as_string nat_value u u) u = nat_value.
Proof. intro u. unfold as_string. assert (unit_eqb u u = true) as -> by now apply unit_eqb_spec. reflexivity. Qed.
(* different datetimes are written differently *)
Theorem C74_injective_partial : forall v v' u, i64 v -> i64 v' -> instant Years (-1970) <= instant u v < (2 ^ 63 - 719468) * day_ns ->
  instant Years (-1970) <= instant u v' < (2 ^ 63 - 719468) * day_ns -> In u [Years; Months; Weeks; Days; Hours; Minutes; Seconds; Milli] ->
  as_string v u u = as_string v' u u -> v = v'.
Proof. intros v v' u HV HV' HI HI' HU E. rewrite <- (C74_round_trip_partial v u HV HI HU), <- (C74_round_trip_partial v' u HV' HI' HU), E. reflexivity. Qed.
(* microseconds and nanoseconds are read through a double and truncated *)
Theorem C74_micro_refuted : as_string 249 Micro Micro = chars "1970-01-01T00:00:00.000249" /\ parse (as_string 249 Micro Micro) Micro = 248.
Proof. vm_compute. split; reflexivity. Qed.
Theorem C74_nano_refuted : as_string 15 Nano Nano = chars "1970-01-01T00:00:00.000000015" /\ parse (as_string 15 Nano Nano) Nano = 14.
Proof. vm_compute. split; reflexivity. Qed.
(* years before 0 are written with a minus sign and read as NaT *)
Theorem C74_negative_year_refuted : as_string (-1971) Years Years = chars "-001" /\ parse (as_string (-1971) Years Years) Years = nat_value.
Proof. vm_compute. split; reflexivity. Qed.
Example C74_nonvacuous : as_string (-1) Milli Milli = chars "1969-12-31T23:59:59.999" /\ parse (chars "1969-12-31T23:59:59.999") Milli = -1 /\
  as_string 19737 Days Days = chars "2024-01-15" /\ as_string (-23640) Months Months = chars "0000-01".
Proof. vm_compute. repeat split. Qed.

(* ==== C75 business days ==================================================================== *)
(* a day is a business day iff its weekday is marked and it is not a holiday *)
Theorem C75_day : forall n cal, n <> nat_value ->
  (is_business_day n cal = true <-> nth (Z.to_nat (weekday n)) (c_mask cal) false = true /\ ~ In n (c_holidays cal)).
Proof.
  intros n cal HN. rewrite business_model by exact HN. unfold business. rewrite andb_true_iff, negb_true_iff.
  assert (existsb (Z.eqb n) (c_holidays cal) = false <-> ~ In n (c_holidays cal)) as ->; [|tauto].
  split; intro H; [intro C | apply not_true_iff_false; intro C].
  - apply not_true_iff_false in H. apply H. apply existsb_exists. exists n. split; [exact C | apply Z.eqb_refl].
  - apply existsb_exists in C as (x & Hx & E). apply Z.eqb_eq in E. subst x. now apply H.
Qed.
(* the count of a range [start, stop) is the number of its business days, and splits *)
Theorem C75_count_partial : forall start stop cal, nat_value < start -> start <= stop -> stop < 2 ^ 63 -> stop - start < 2 ^ 63 ->
  busday_count start stop cal = count_days (fun n => is_business_day n cal) start (Z.to_nat (stop - start)).
Proof.
  unfold nat_value. intros start stop cal H1 H2 H3 H4. rewrite count_spec by (unfold i64, NAT; lia).
  assert (forall n b, - 2 ^ 63 < b -> count_days (business cal) b n = count_days (fun n => is_business_day n cal) b n) as K.
  { induction n as [|n IH]; intros b Hb; [reflexivity|]. cbn [count_days]. rewrite business_model by (unfold NAT; lia). now rewrite IH by lia. }
  apply K. lia.
Qed.
Theorem C75_count_splits_partial : forall a b c cal, nat_value < a -> a <= b -> b <= c -> c < 2 ^ 63 -> c - a < 2 ^ 63 ->
  busday_count a c cal = busday_count a b cal + busday_count b c cal.
Proof.
  unfold nat_value. intros a b c cal H1 H2 H3 H4 H5. rewrite !count_spec by (unfold i64, NAT; lia).
  replace (Z.to_nat (c - a)) with (Z.to_nat (b - a) + Z.to_nat (c - b))%nat by lia. rewrite count_app. f_equal. f_equal. lia.
Qed.
(* stop before start: numpy gives the negated count, this gives 0 *)
Theorem C75_reversed_refuted : busday_count 0 7 (mkCal [true; true; true; true; true; false; false] []) = 5 /\
  busday_count 7 0 (mkCal [true; true; true; true; true; false; false] []) = 0.
Proof. vm_compute. split; reflexivity. Qed.

(* Moving n business days on: with at least one working weekday the loop ends, on the
   n-th business day after the start. *)
Definition reach (cal : calendar) (n : Z) : Z := 7 * (Z.of_nat (List.length (c_holidays cal)) + 1) * n.
Theorem C75_forward : forall cal w date n, (w < 7)%nat -> nth w (c_mask cal) false = true -> 0 <= n < 2 ^ 63 ->
  nat_value < date -> date + reach cal n < 2 ^ 63 ->
  exists e, busday_offset (Z.to_nat (reach cal n)) date n cal = Ok e /\ date <= e /\
    count_days (fun d => is_business_day d cal) (date + 1) (Z.to_nat (e - date)) = n /\ (0 < n -> is_business_day e cal = true).
Proof.
  unfold nat_value, reach. intros cal w date n Hw Hm Hn Hd Hr. set (span := 7 * (Z.of_nat (List.length (c_holidays cal)) + 1)) in *.
  destruct (offset_total cal w 1 (or_introl eq_refl) Hw Hm (Z.to_nat n) date) as (e & He).
  { fold span. rewrite Z2Nat.id by lia. lia. }
  fold span in He. rewrite Z2Nat.id in He by lia. exists e.
  assert (busday_offset (Z.to_nat (span * n)) date n cal = Ok e) as Ho.
  { unfold busday_offset. destruct (Z.eqb_spec date NAT) as [E|_]; [unfold NAT in E; lia|]. rewrite Z.abs_eq, w64_id by lia. destruct (Z.leb_spec 0 n); [exact He | lia]. }
  split; [exact Ho|]. apply offset_forward in He as (B & S1 & S2); [|lia| |lia].
  2:{ rewrite Z2Nat.id; [lia|]. unfold span. lia. }
  split; [lia|]. split.
  - rewrite <- S1. unfold steps_forward. assert (forall k b, - 2 ^ 63 < b -> count_days (business cal) b k = count_days (fun n => is_business_day n cal) b k) as K.
    { induction k as [|k IH]; intros b Hb; [reflexivity|]. cbn [count_days]. rewrite business_model by (unfold NAT; lia). now rewrite IH by lia. }
    symmetry. apply K. lia.
  - intro. rewrite business_model by (unfold NAT; lia). apply S2. lia.
Qed.
(* n on and n back from a business day is where it began *)
Theorem C75_inverse : forall cal fuel fuel' date n e e', nat_value < date - Z.of_nat fuel' -> date + Z.of_nat fuel < 2 ^ 63 -> 0 <= n < 2 ^ 63 ->
  is_business_day date cal = true -> busday_offset fuel date n cal = Ok e -> busday_offset fuel' e (- n) cal = Ok e' -> e' = date.
Proof.
  unfold nat_value. intros cal fuel fuel' date n e e' Hd Hf Hn HB H1 H2. unfold busday_offset in H1, H2.
  destruct (Z.eqb_spec date NAT) as [E|_]; [unfold NAT in E; lia|]. rewrite Z.abs_eq, w64_id in H1 by lia. destruct (Z.leb_spec 0 n) as [_|]; [|lia].
  rewrite Z.abs_opp, Z.abs_eq, w64_id in H2 by lia. rewrite business_model in HB by (unfold NAT; lia).
  destruct (Z.eq_dec n 0) as [->|Hn0].
  { assert (forall f c s, offset_loop f c 0 s cal = Ok c) as K by (now intros [|f] c s). rewrite K in H1. injection H1 as <-.
    destruct (Z.eqb_spec date NAT) as [E|_]; [unfold NAT in E; lia|]. rewrite K in H2. now injection H2. }
  apply offset_forward in H1 as (B1 & S1 & G1); [|lia|lia|lia]. specialize (G1 ltac:(lia)).
  destruct (Z.eqb_spec e NAT) as [E|_]; [unfold NAT in E; lia|]. destruct (Z.leb_spec 0 (- n)) as [|_]; [lia|].
  apply offset_back in H2 as (B2 & S2 & G2); [|lia|lia|lia]. specialize (G2 ltac:(lia)). unfold steps_forward in S1. unfold steps_back in S2.
  assert (count_days (business cal) date (Z.to_nat (e - date)) = n) as S3.
  { pose proof (count_snoc (business cal) date (Z.to_nat (e - date))) as X. cbn [count_days] in X. rewrite HB in X.
    replace (date + Z.of_nat (Z.to_nat (e - date))) with e in X by lia. rewrite G1 in X. lia. }
  destruct (Z.lt_trichotomy e' date) as [L|[L|L]]; [exfalso| exact L | exfalso].
  - replace (Z.to_nat (e - e')) with (S (Z.to_nat (date - e' - 1)) + Z.to_nat (e - date))%nat in S2 by lia. rewrite count_app in S2.
    replace (e' + Z.of_nat (S (Z.to_nat (date - e' - 1)))) with date in S2 by lia. cbn [count_days] in S2. rewrite G2 in S2.
    pose proof (count_range (business cal) (e' + 1) (Z.to_nat (date - e' - 1))). lia.
  - replace (Z.to_nat (e - date)) with (S (Z.to_nat (e' - date - 1)) + Z.to_nat (e - e'))%nat in S3 by lia. rewrite count_app in S3.
    replace (date + Z.of_nat (S (Z.to_nat (e' - date - 1)))) with e' in S3 by lia. cbn [count_days] in S3. rewrite HB in S3.
    pose proof (count_range (business cal) (date + 1) (Z.to_nat (e' - date - 1))). lia.
Qed.
(* a calendar without business days: the loop never ends (numpy refuses the calendar) *)
Theorem C75_no_business_day_refuted : forall fuel date n hs, date <> nat_value -> 0 < n < 2 ^ 63 ->
  busday_offset fuel date n (mkCal [false; false; false; false; false; false; false] hs) = Err.
Proof.
  intros fuel date n hs HN Hn. unfold busday_offset. destruct (Z.eqb_spec date NAT) as [|_]; [contradiction|]. rewrite Z.abs_eq, w64_id by lia.
  destruct (Z.leb_spec 0 n) as [_|]; [|lia]. apply offset_never; [now left | | lia]. intro d. unfold is_business_day. cbn [c_mask c_holidays].
  destruct (d =? NAT); [reflexivity|]. destruct (existsb _ _); [reflexivity|].
  assert (forall k, nth k [false; false; false; false; false; false; false] false = false) as K by (now intros [|[|[|[|[|[|[|[]]]]]]]]). apply K.
Qed.
Example C75_nonvacuous : let cal := mkCal [true; true; true; true; true; false; false] [4] in
  weekday 0 = 3 /\ is_business_day 1 cal = true /\ busday_offset (Z.to_nat (reach cal 3)) 1 3 cal = Ok 7 /\
  busday_offset 50 7 (-3) cal = Ok 1 /\ busday_count 1 7 cal = 3.
Proof. vm_compute. repeat split. Qed.

Print Assumptions C55_epoch.
Print Assumptions C55_next_partial.
Print Assumptions C55_valid_partial.
Print Assumptions C55_round_trip_partial.
Print Assumptions C55_date_round_trip_partial.
Print Assumptions C55_count_partial.
Print Assumptions C56_convert_partial.
Print Assumptions C56_round_trip.
Print Assumptions C56_nat.
Print Assumptions C56_before_1970_refuted.
Print Assumptions C56_year_refuted.
Print Assumptions C56_overflow_refuted.
Print Assumptions C56_early_months_refuted.
Print Assumptions C57_kept_partial.
Print Assumptions C57_only_partial.
Print Assumptions C57_arithmetic_refuted.
Print Assumptions C57_path_refuted.
Print Assumptions C57_compare_refuted.
Print Assumptions C57_max_refuted.
Print Assumptions C72_arithmetic_partial.
Print Assumptions C72_difference.
Print Assumptions C72_units_refuted.
Print Assumptions C72_difference_units_refuted.
Print Assumptions C73_exact_partial.
Print Assumptions C73_order_partial.
Print Assumptions C73_equal_refuted.
Print Assumptions C73_less_refuted.
Print Assumptions C74_round_trip_partial.
Print Assumptions C74_nat.
Print Assumptions C74_injective_partial.
Print Assumptions C74_micro_refuted.
Print Assumptions C74_nano_refuted.
Print Assumptions C74_negative_year_refuted.
Print Assumptions C75_day.
Print Assumptions C75_count_partial.
Print Assumptions C75_count_splits_partial.
Print Assumptions C75_reversed_refuted.
Print Assumptions C75_forward.
Print Assumptions C75_inverse.
Print Assumptions C75_no_business_day_refuted.
