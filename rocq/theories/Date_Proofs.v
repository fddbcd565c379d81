(* The civil calendar functions, and the calendar they compute. *)
From Verif Require Import Base Int_Model Int_Proofs F64_Model Rng_Model Date_Spec Date_Model.
Local Open Scope Z_scope.
Ltac div_lia := Z.div_mod_to_equations; lia.

(* ---- the calendar itself ------------------------------------------------------ *)
Lemma leap_spec y : (leap y = true <-> y mod 4 = 0 /\ (y mod 100 <> 0 \/ y mod 400 = 0)).
Proof.
  unfold leap. destruct (Z.eqb_spec (y mod 4) 0), (Z.eqb_spec (y mod 100) 0), (Z.eqb_spec (y mod 400) 0); cbn; intuition (congruence || lia).
Qed.
Lemma month_length_range y m : 28 <= month_length y m <= 31.
Proof. unfold month_length. destruct (m =? 2); [destruct (leap y); lia|]. destruct (_ || _); lia. Qed.
Lemma year_step y : days_before_year (y + 1) = days_before_year y + 365 + (if leap y then 1 else 0).
Proof.
  unfold days_before_year. replace (y + 1 - 1) with y by ring.
  assert (forall k, 0 < k -> y / k = (y - 1) / k + (if y mod k =? 0 then 1 else 0)) as H.
  { intros k Hk. pose proof (Z.div_mod y k ltac:(lia)) as E. pose proof (Z.mod_pos_bound y k Hk).
    destruct (Z.eqb_spec (y mod k) 0) as [E0|E0].
    - assert ((y - 1) / k = y / k - 1) by (symmetry; apply Z.div_unique with (k - 1); lia). lia.
    - assert ((y - 1) / k = y / k) by (symmetry; apply Z.div_unique with (y mod k - 1); lia). lia. }
  rewrite (H 4), (H 100), (H 400) by lia.
  assert (y mod 400 = 0 -> y mod 100 = 0) by div_lia. assert (y mod 100 = 0 -> y mod 4 = 0) by div_lia.
  unfold leap. destruct (Z.eqb_spec (y mod 4) 0), (Z.eqb_spec (y mod 100) 0), (Z.eqb_spec (y mod 400) 0); cbn [andb orb negb]; lia.
Qed.
Definition cum (m : Z) : Z := (153 * (m - 3) + 2) / 5. (* days from 1 March to the first of month m, m = 3..14 *)
Lemma months_cum y m : 3 <= m <= 12 -> days_in_months y (Z.to_nat (m - 1)) = 59 + (if leap y then 1 else 0) + cum m.
Proof.
  intro H. assert (m = 3 \/ m = 4 \/ m = 5 \/ m = 6 \/ m = 7 \/ m = 8 \/ m = 9 \/ m = 10 \/ m = 11 \/ m = 12) as K by lia.
  destruct (leap y) eqn:L;
  repeat (destruct K as [->|K]; [cbv -[leap]; rewrite ?L; reflexivity|]); rewrite K; cbv -[leap]; rewrite ?L; reflexivity.
Qed.
Lemma months_jan y : days_in_months y 0 = 0.  Proof. reflexivity. Qed.
Lemma day_number_tomorrow d : valid d -> day_number (tomorrow d) = day_number d + 1.
Proof.
  destruct d as [[y m] d]. intros (Hm & Hd). unfold tomorrow. destruct (Z.ltb_spec d (month_length y m)) as [H|H].
  - unfold day_number. lia.
  - assert (d = month_length y m) as -> by lia. destruct (Z.ltb_spec m 12) as [H1|H1].
    + unfold day_number. replace (Z.to_nat (m + 1 - 1)) with (S (Z.to_nat (m - 1))) by lia. cbn [days_in_months].
      replace (Z.of_nat (S (Z.to_nat (m - 1)))) with m by lia. lia.
    + assert (m = 12) as -> by lia. unfold day_number. rewrite year_step.
      change (Z.to_nat (1 - 1)) with 0%nat. rewrite (months_cum y 12) by lia. cbn [days_in_months]. change (cum 12) with 275. change (month_length y 12) with 31. destruct (leap y); lia.
Qed.
Lemma tomorrow_valid d : valid d -> valid (tomorrow d).
Proof.
  destruct d as [[y m] d]. intros (Hm & Hd). unfold tomorrow, valid.
  destruct (Z.ltb_spec d (month_length y m)); [lia|]. pose proof (month_length_range y (m + 1)). pose proof (month_length_range (y + 1) 1).
  destruct (Z.ltb_spec m 12); lia.
Qed.

(* ---- ymd_to_days ------------------------------------------------------------------ *)
Lemma w64_id z : - 2 ^ 63 <= z < 2 ^ 63 -> w64 z = z.
Proof. intro H. unfold w64. apply wrap_id; [reflexivity|]. change (- 2 ^ 63 <= z <= 2 ^ 63 - 1). lia. Qed.

(* the year beginning on 1 March *)
Definition march_days (y : Z) : Z := 365 * y + y / 4 - y / 100 + y / 400.
Lemma floor_quot a b k : k = b - 1 -> - 2 ^ 63 + b <= a < 2 ^ 63 -> 0 < b <= 2 ^ 30 -> (if 0 <=? a then a /! b else (a -! k) /! b) = a / b.
Proof.
  intros -> Ha Hb2. destruct (Z.leb_spec 0 a).
  - apply Z.quot_div_nonneg; lia.
  - rewrite w64_id by lia. assert (a - (b - 1) = - (b - 1 - a)) as -> by ring. rewrite Z.quot_opp_l by lia. rewrite Z.quot_div_nonneg by lia.
    pose proof (Z.div_mod a b ltac:(lia)) as E. pose proof (Z.mod_pos_bound a b ltac:(lia)).
    assert ((b - 1 - a) / b = - (a / b)); [|lia]. symmetry. apply Z.div_unique with (b - 1 - a mod b); lia.
Qed.
Lemma yoe_split y : 0 <= y mod 400 < 400 /\
  146097 * (y / 400) + ((y mod 400) * 365 + (y mod 400) / 4 - (y mod 400) / 100) = march_days y.
Proof.
  unfold march_days. pose proof (Z.mod_pos_bound y 400 ltac:(lia)). split; [assumption|].
  pose proof (Z.div_mod y 400 ltac:(lia)) as E. set (e := y / 400) in *. set (r := y mod 400) in *. clearbody e r.
  assert (y / 4 = 100 * e + r / 4) as ->. { rewrite E. replace (400 * e + r) with (r + (100 * e) * 4) by ring. rewrite Z.div_add by lia. lia. }
  assert (y / 100 = 4 * e + r / 100) as ->. { rewrite E. replace (400 * e + r) with (r + (4 * e) * 100) by ring. rewrite Z.div_add by lia. lia. }
  lia.
Qed.
(* month m counted 3..14, January and February belonging to the year before *)
Definition shifted_days (Y m d : Z) : Z := march_days Y + cum m + d - 1 - 719468.
Lemma ymd_shift y m d : - 2 ^ 56 <= y <= 2 ^ 56 -> 1 <= m <= 12 -> 1 <= d <= 1000 ->
  - 2 ^ 63 <= (if m <=? 2 then shifted_days (y - 1) (m + 12) d else shifted_days y m d) < 2 ^ 63 - 719468 ->
  ymd_to_days y m d = if m <=? 2 then shifted_days (y - 1) (m + 12) d else shifted_days y m d.
Proof.
  intros Hy Hm Hd Hr. unfold ymd_to_days.
  set (Y := if m <=? 2 then y -! 1 else y). set (mm := if m <=? 2 then m +! 12 else m).
  assert (Y = if m <=? 2 then y - 1 else y) as HY by (unfold Y; destruct (m <=? 2); [now rewrite w64_id by lia | reflexivity]).
  assert (mm = if m <=? 2 then m + 12 else m) as Hmm by (unfold mm; destruct (m <=? 2); [now rewrite w64_id by lia | reflexivity]).
  assert ((if m <=? 2 then shifted_days (y - 1) (m + 12) d else shifted_days y m d) = shifted_days Y mm d) as ES
    by (rewrite HY, Hmm; destruct (m <=? 2); reflexivity).
  rewrite ES in *. clear ES.
  assert (- 2 ^ 57 <= Y <= 2 ^ 57 /\ 3 <= mm <= 14) as (RY & Rm) by (rewrite HY, Hmm; destruct (Z.leb_spec m 2); lia).
  clearbody Y mm. clear HY Hmm Hy Hm y m. cbv zeta.
  rewrite (floor_quot Y 400 399) by lia. pose proof (yoe_split Y) as (R & E).
  assert (- 2 ^ 50 <= Y / 400 <= 2 ^ 50) as Re by div_lia.
  rewrite (w64_id (Y / 400 * 400)) by lia. rewrite (w64_id (Y - _)) by (div_lia).
  assert (Y - Y / 400 * 400 = Y mod 400) as -> by (rewrite Z.mod_eq by lia; ring).
  set (r := Y mod 400) in *. set (e := Y / 400) in *. clearbody r e.
  rewrite !(Z.quot_div_nonneg r) by lia.
  assert (0 <= r / 4 <= 100 /\ 0 <= r / 100 <= 4) as (R4 & R100) by div_lia.
  rewrite (w64_id (mm - 3)), (w64_id (153 * _)), (w64_id (_ + 2)) by lia.
  rewrite Z.quot_div_nonneg by lia. fold (cum mm). assert (0 <= cum mm <= 400) as Rc by (unfold cum; div_lia).
  rewrite (w64_id (cum mm + d)), (w64_id (_ + d - 1)), (w64_id (r * 365)), (w64_id (r * 365 + _)), (w64_id (_ - r / 100)), (w64_id (r * 365 + _ - _ + _)) by lia.
  unfold shifted_days in *. rewrite (w64_id (e * 146097)), (w64_id (e * 146097 + _)), w64_id by lia. lia.
Qed.
Lemma march_before y : march_days y = days_before_year (y + 1).
Proof. unfold march_days, days_before_year. replace (y + 1 - 1) with y by ring. ring. Qed.
Lemma shifted_number y m d : 1 <= m <= 12 ->
  day_number (y, m, d) = if m <=? 2 then shifted_days (y - 1) (m + 12) d else shifted_days y m d.
Proof.
  intro Hm. unfold day_number. change (days_before_year 1970) with 719162. unfold shifted_days. rewrite !march_before.
  replace (y - 1 + 1) with y by ring. destruct (Z.leb_spec m 2) as [H|H].
  - assert (m = 1 \/ m = 2) as [-> | ->] by lia.
    + change (cum (1 + 12)) with 306. change (days_in_months y (Z.to_nat (1 - 1))) with 0. lia.
    + change (cum (2 + 12)) with 337. change (days_in_months y (Z.to_nat (2 - 1))) with 31. lia.
  - rewrite months_cum by lia. rewrite year_step. destruct (leap y); lia.
Qed.
Theorem ymd_number y m d : - 2 ^ 56 <= y <= 2 ^ 56 -> 1 <= m <= 12 -> 1 <= d <= 1000 -> - 2 ^ 63 <= day_number (y, m, d) < 2 ^ 63 - 719468 ->
  ymd_to_days y m d = day_number (y, m, d).
Proof. intros Hy Hm Hd Hr. rewrite shifted_number in * by assumption. now apply ymd_shift. Qed.

(* ---- days_to_ymd -------------------------------------------------------------------- *)
(* the shifted year and the day in it *)
Definition ylen (Y : Z) : Z := march_days (Y + 1) - march_days Y.
Lemma ylen_leap Y : ylen Y = 365 + if leap (Y + 1) then 1 else 0.
Proof. unfold ylen. rewrite !march_before, year_step. lia. Qed.
(* decomposition of the day of era *)
Lemma yoe_exact doe : 0 <= doe < 146097 -> exists yoe doy, 0 <= yoe < 400 /\ 0 <= doy < ylen yoe /\ doe = march_days yoe + doy - yoe / 400 /\
  (doe - doe / 1460 + doe / 36524 - doe / 146096) / 365 = yoe.
Proof.
  intro H. set (c := Z.min (doe / 36524) 3). set (r1 := doe - 36524 * c).
  assert (0 <= c <= 3 /\ 0 <= r1 <= 36524 /\ (c < 3 -> r1 < 36524)) as (Hc & Hr1 & Hr1') by (unfold r1, c; div_lia).
  assert (c < 3 \/ r1 < 36524 \/ doe = 146096) as Hl by lia.
  assert (doe / 36524 - doe / 146096 = c) as Ec by (unfold c; div_lia).
  clearbody c. set (q := r1 / 1461). set (r2 := r1 - 1461 * q).
  assert (0 <= q <= 24 /\ 0 <= r2 < 1461) as (Hq & Hr2) by (unfold r2, q; div_lia). clearbody q.
  set (r := Z.min (r2 / 365) 3). set (doy := r2 - 365 * r).
  assert (0 <= r <= 3 /\ 0 <= doy <= 365 /\ (doy = 365 -> r = 3)) as (Hr & Hdoy & H365) by (unfold doy, r; div_lia). clearbody r.
  assert (doe = 36524 * c + 1461 * q + 365 * r + doy) as Ed by (unfold doy, r2, r1; ring).
  assert (doy = 365 -> q < 24 \/ c = 3) as Hlast by (intro E; unfold doy, r2 in *; lia).
  clearbody doy. exists (100 * c + 4 * q + r), doy.
  assert (0 <= 100 * c + 4 * q + r < 400) as HY by lia.
  assert ((100 * c + 4 * q + r) / 400 = 0) as E0 by (apply Z.div_small; lia).
  assert (march_days (100 * c + 4 * q + r) = 365 * (100 * c + 4 * q + r) + 24 * c + q) as Em.
  { unfold march_days. rewrite E0. replace ((100 * c + 4 * q + r) / 4) with (25 * c + q) by div_lia. replace ((100 * c + 4 * q + r) / 100) with c by div_lia. lia. }
  split; [exact HY|]. split; [|split].
  - split; [lia|]. rewrite ylen_leap. destruct (Z.eq_dec doy 365) as [E|E]; [|destruct (leap _); lia].
    assert (leap (100 * c + 4 * q + r + 1) = true) as ->; [|lia]. apply leap_spec. rewrite (H365 E). split; [div_lia|].
    specialize (Hlast E). destruct (Z_lt_dec q 24) as [Hq24|]; [left | right].
    + replace (100 * c + 4 * q + 3 + 1) with (4 * q + 4 + c * 100) by ring. rewrite Z.mod_add, Z.mod_small by lia. lia.
    + assert (q = 24) as -> by lia. assert (c = 3) as -> by lia. reflexivity.
  - rewrite Em, E0. lia.
  - assert (doe / 1460 = 25 * c + q + (24 * c + q + 365 * r + doy) / 1460) as -> by div_lia.
    assert (doe - (25 * c + q + (24 * c + q + 365 * r + doy) / 1460) + doe / 36524 - doe / 146096 = 365 * (100 * c + 4 * q + r) + (doy - (24 * c + q + 365 * r + doy) / 1460)) as -> by lia.
    symmetry. apply Z.div_unique with (doy - (24 * c + q + 365 * r + doy) / 1460); [|lia]. left.
    assert (0 <= (24 * c + q + 365 * r + doy) / 1460 <= 1) by div_lia.
    assert (doy = 0 -> (24 * c + q + 365 * r + doy) / 1460 = 0) by (intro; div_lia).
    assert (doy = 365 -> (24 * c + q + 365 * r + doy) / 1460 = 1) by (intro; div_lia). lia.
Qed.
Lemma mp_exact doy : 0 <= doy <= 365 -> exists m, 3 <= m <= 14 /\ (5 * doy + 2) / 153 = m - 3 /\ cum m <= doy < cum (m + 1).
Proof.
  intro H. exists ((5 * doy + 2) / 153 + 3). split; [div_lia|]. split; [lia|]. unfold cum.
  replace ((5 * doy + 2) / 153 + 3 - 3) with ((5 * doy + 2) / 153) by ring. replace ((5 * doy + 2) / 153 + 3 + 1 - 3) with ((5 * doy + 2) / 153 + 1) by ring.
  set (q := (5 * doy + 2) / 153). assert (153 * q <= 5 * doy + 2 < 153 * q + 153) by (unfold q; div_lia). clearbody q. div_lia.
Qed.
Definition civil (Y m d : Z) : date := if m <=? 12 then (Y, m, d) else (Y + 1, m - 12, d).
Theorem ymd_exact n : - 2 ^ 63 <= n < 2 ^ 63 - 719468 -> exists Y m d, 3 <= m <= 14 /\ 1 <= d /\
  cum m + d - 1 < Z.min (cum (m + 1)) (ylen Y) /\ days_to_ymd n = civil Y m d /\ n = shifted_days Y m d /\ - 2 ^ 56 <= Y <= 2 ^ 56 - 1.
Proof.
  intro Hn. unfold days_to_ymd. rewrite (w64_id (n + 719468)) by lia. rewrite (floor_quot (n + 719468) 146097 146096) by lia.
  set (z := n + 719468). set (era := z / 146097). set (doe := z - era * 146097).
  assert (0 <= doe < 146097) as Hdoe by (unfold doe, era; div_lia).
  assert (- 2 ^ 46 <= era <= 2 ^ 46) as Hera by (unfold era, z; div_lia).
  rewrite (w64_id (era * 146097)) by (unfold doe, z in Hdoe; lia). fold doe. rewrite (w64_id doe) by lia.
  destruct (yoe_exact doe Hdoe) as (yoe & doy & Hyoe & Hdoy & Ed & Ey).
  rewrite !(Z.quot_div_nonneg doe) by lia.
  assert (0 <= doe / 1460 <= 200 /\ 0 <= doe / 36524 <= 4 /\ 0 <= doe / 146096 <= 1) as (B1 & B2 & B3) by div_lia.
  rewrite (w64_id (doe - doe / 1460)), (w64_id (doe - doe / 1460 + doe / 36524)), (w64_id (doe - doe / 1460 + doe / 36524 - doe / 146096)) by lia.
  assert (0 <= doe - doe / 1460 + doe / 36524 - doe / 146096) as B4 by div_lia.
  rewrite (Z.quot_div_nonneg (doe - doe / 1460 + doe / 36524 - doe / 146096)) by lia. rewrite Ey.
  rewrite (w64_id (era * 400)), (w64_id (yoe + era * 400)) by lia. rewrite !(Z.quot_div_nonneg yoe) by lia.
  assert (0 <= yoe / 4 <= 100 /\ 0 <= yoe / 100 <= 4) as (B5 & B6) by div_lia.
  rewrite (w64_id (365 * yoe)), (w64_id (365 * yoe + yoe / 4)), (w64_id (365 * yoe + yoe / 4 - yoe / 100)) by lia.
  assert (doe - (365 * yoe + yoe / 4 - yoe / 100) = doy) as E1 by (rewrite Ed; unfold march_days; ring).
  rewrite E1.
  assert (ylen yoe <= 366) as HL by (rewrite ylen_leap; destruct (leap (yoe + 1)); lia).
  rewrite (w64_id doy), (w64_id (5 * doy)), (w64_id (5 * doy + 2)) by lia. rewrite (Z.quot_div_nonneg (5 * doy + 2)) by lia.
  destruct (mp_exact doy ltac:(lia)) as (m & Hm & -> & Hc).
  rewrite (w64_id (153 * (m - 3))), (w64_id (153 * (m - 3) + 2)) by lia. rewrite Z.quot_div_nonneg by lia. fold (cum m).
  assert (0 <= cum m <= 400) as Bc by (unfold cum; div_lia).
  rewrite (w64_id (doy - cum m)), (w64_id (doy - cum m + 1)), (w64_id (m - 3 + 3)), (w64_id (m - 3 - 9)), (w64_id (yoe + era * 400 + 1)) by lia.
  exists (yoe + era * 400), m, (doy - cum m + 1).
  assert (ylen (yoe + era * 400) = ylen yoe) as EL.
  { unfold ylen, march_days. replace (yoe + era * 400 + 1) with (yoe + 1 + era * 400) by ring.
    assert (forall t k, 0 < k -> (t + era * 400) / k = (t + era * (400 / k) * k) / k -> (t + era * 400) / k = t / k + era * (400 / k)) as HD.
    { intros t k Hk ->. apply Z.div_add. lia. }
    rewrite !(HD _ 4), !(HD _ 100), !(HD _ 400) by (try lia; f_equal; change (400 / 4) with 100; change (400 / 100) with 4; change (400 / 400) with 1; ring).
    change (400 / 4) with 100; change (400 / 100) with 4; change (400 / 400) with 1. ring. }
  split; [exact Hm|]. split; [lia|]. split; [rewrite EL; lia|]. split.
  - unfold civil. destruct (Z.ltb_spec (m - 3) 10), (Z.leb_spec m 12); try lia.
    + destruct (Z.leb_spec (m - 3 + 3) 2); [lia|]. replace (m - 3 + 3) with m by ring. reflexivity.
    + destruct (Z.leb_spec (m - 3 - 9) 2); [|lia]. replace (m - 3 - 9) with (m - 12) by ring. reflexivity.
  - split; [|lia]. unfold shifted_days. replace (march_days (yoe + era * 400)) with (march_days yoe - yoe / 400 + era * 146097).
    + unfold doe, z in Ed. lia.
    + rewrite (Z.div_small yoe 400) by lia. pose proof (yoe_split (yoe + era * 400)) as (_ & E).
      rewrite Z.mod_add, Z.div_add, Z.mod_small, Z.div_small in E by lia. unfold march_days at 1. rewrite (Z.div_small yoe 400) by lia. lia.
Qed.
Lemma civil_valid Y m d : 3 <= m <= 14 -> 1 <= d -> cum m + d - 1 < Z.min (cum (m + 1)) (ylen Y) -> valid (civil Y m d).
Proof.
  intros Hm Hd H. rewrite ylen_leap in H. unfold civil.
  assert (m = 3 \/ m = 4 \/ m = 5 \/ m = 6 \/ m = 7 \/ m = 8 \/ m = 9 \/ m = 10 \/ m = 11 \/ m = 12 \/ m = 13 \/ m = 14 \/ False) as K by lia.
  do 12 (destruct K as [K|K]; [subst m; unfold cum in H; change (13 - 12) with 1; change (14 - 12) with 2; cbn -[leap Z.add Z.mul Z.sub Z.div Z.min] in *; unfold month_length; cbn -[leap Z.add]; destruct (leap (Y + 1)); div_lia|]).
  destruct K.
Qed.
Lemma civil_number Y m d : 3 <= m <= 14 -> day_number (civil Y m d) = shifted_days Y m d.
Proof.
  intro Hm. unfold civil. destruct (Z.leb_spec m 12).
  - rewrite shifted_number by lia. destruct (Z.leb_spec m 2); [lia | reflexivity].
  - rewrite shifted_number by lia. destruct (Z.leb_spec (m - 12) 2); [|lia]. f_equal; lia.
Qed.
Theorem ymd_valid n : - 2 ^ 63 <= n < 2 ^ 63 - 719468 -> valid (days_to_ymd n) /\ day_number (days_to_ymd n) = n.
Proof.
  intro Hn. destruct (ymd_exact n Hn) as (Y & m & d & Hm & Hd & HB & E & En & _). rewrite E. split.
  - now apply civil_valid.
  - rewrite civil_number by exact Hm. now symmetry.
Qed.
(* distinct valid dates have distinct numbers: they are ordered lexicographically *)
Lemma before_year_mono y y' : y <= y' -> days_before_year y <= days_before_year y'.
Proof. unfold days_before_year. intro H. div_lia. Qed.
Lemma in_year y m d : valid (y, m, d) -> days_before_year y <= day_number (y, m, d) + days_before_year 1970 < days_before_year (y + 1).
Proof.
  intros (Hm & Hd). unfold day_number. rewrite year_step.
  assert (m = 1 \/ m = 2 \/ 3 <= m <= 12) as [->|[->|H]] by lia.
  - cbn [days_in_months Z.sub Z.to_nat]. change (Z.to_nat (1 - 1)) with 0%nat. cbn [days_in_months]. change (month_length y 1) with 31 in Hd. destruct (leap y); lia.
  - change (Z.to_nat (2 - 1)) with 1%nat. cbn [days_in_months]. change (month_length y (Z.of_nat 1)) with 31. pose proof (month_length_range y 2). destruct (leap y); lia.
  - rewrite months_cum by lia.
    assert (month_length y m <= 306 - cum m); [|assert (0 <= cum m) by (unfold cum; div_lia); destruct (leap y); lia].
    assert (m = 3 \/ m = 4 \/ m = 5 \/ m = 6 \/ m = 7 \/ m = 8 \/ m = 9 \/ m = 10 \/ m = 11 \/ m = 12) as K by lia.
    repeat (destruct K as [->|K]; [cbn; lia|]). subst m. cbn. lia.
Qed.
Lemma months_mono y n k : days_in_months y n + 28 * Z.of_nat k <= days_in_months y (n + k).
Proof.
  induction k as [|k IH]; [rewrite Nat.add_0_r; lia|]. rewrite Nat.add_succ_r. cbn [days_in_months]. pose proof (month_length_range y (Z.of_nat (S (n + k)))). lia.
Qed.
Lemma number_inj d d' : valid d -> valid d' -> day_number d = day_number d' -> d = d'.
Proof.
  destruct d as [[y m] d], d' as [[y' m'] d']. intros V V' E.
  assert (y = y') as ->.
  { pose proof (in_year y m d V). pose proof (in_year y' m' d' V'). rewrite E in *.
    assert (~ y < y') by (intro; pose proof (before_year_mono (y + 1) y'); lia). assert (~ y' < y) by (intro; pose proof (before_year_mono (y' + 1) y); lia). lia. }
  assert (forall a b da db, 1 <= a <= 12 -> 1 <= b <= 12 -> a < b -> 1 <= da <= month_length y' a -> 1 <= db ->
    days_in_months y' (Z.to_nat (a - 1)) + (da - 1) < days_in_months y' (Z.to_nat (b - 1)) + (db - 1)) as HM.
  { intros a b da db Ha Hb Hab Hda Hdb. pose proof (months_mono y' (S (Z.to_nat (a - 1))) (Z.to_nat (b - a - 1))) as HH.
    replace (S (Z.to_nat (a - 1)) + Z.to_nat (b - a - 1))%nat with (Z.to_nat (b - 1)) in HH by lia. cbn [days_in_months] in HH.
    replace (Z.of_nat (S (Z.to_nat (a - 1)))) with a in HH by lia. lia. }
  destruct V as (Hm & Hd), V' as (Hm' & Hd'). unfold day_number in E.
  assert (m = m') as ->.
  { assert (~ m < m') by (intro L; pose proof (HM m m' d d' Hm Hm' L Hd ltac:(lia)); lia).
    assert (~ m' < m) by (intro L; pose proof (HM m' m d' d Hm' Hm L Hd' ltac:(lia)); lia). lia. }
  f_equal. lia.
Qed.
Lemma year_of_number y m d : valid (y, m, d) -> - 2 ^ 63 <= day_number (y, m, d) < 2 ^ 63 -> - 2 ^ 56 <= y <= 2 ^ 56 - 1.
Proof.
  intros V Hn. pose proof (in_year y m d V) as H. change (days_before_year 1970) with 719162 in H. unfold days_before_year in H. div_lia.
Qed.
