(* Writing datetimes as text and reading them back. *)
From Coq Require Import Ascii String SpecFloat.
From Verif Require Import Base Lists Int_Model Int_Proofs F64_Model Rng_Model Date_Spec Date_Model Date_Proofs Date_Units.
Local Open Scope Z_scope.

(* ---- decimal numbers ------------------------------------------------------------- *)
Definition is_dig (c : ascii) : Prop := exists d, 0 <= d <= 9 /\ c = digit d.
Lemma digit_val d : 0 <= d <= 9 -> is_digit (digit d) = Some d.
Proof.
  intro H. assert (d = 0 \/ d = 1 \/ d = 2 \/ d = 3 \/ d = 4 \/ d = 5 \/ d = 6 \/ d = 7 \/ d = 8 \/ d = 9 \/ False) as K by lia.
  repeat (destruct K as [->|K]; [vm_compute; reflexivity|]). destruct K.
Qed.
Lemma digit_not c x : is_dig c -> In x ["-"; "+"; "T"; ":"; "."; "N"; "n"]%char -> (c =? x)%char = false.
Proof.
  intros (d & H & ->) Hx. assert (d = 0 \/ d = 1 \/ d = 2 \/ d = 3 \/ d = 4 \/ d = 5 \/ d = 6 \/ d = 7 \/ d = 8 \/ d = 9 \/ False) as K by lia.
  cbn [In] in Hx.
  repeat (destruct K as [->|K]; [repeat (destruct Hx as [<-|Hx]; [vm_compute; reflexivity|]); destruct Hx|]). destruct K.
Qed.
Lemma number_app a b z : number (a ++ b) z = match number a z with Some y => number b y | None => None end.
Proof. revert z. induction a as [|c a IH]; intro z; cbn [app number]; [reflexivity|]. destruct (is_digit c); [apply IH | reflexivity]. Qed.
Lemma digits_fuel_spec f : forall n acc, 0 <= n -> n < 2 ^ Z.of_nat f -> (0 < f)%nat ->
  exists ds, digits_fuel f n acc = ds ++ acc /\ Forall is_dig ds /\ (forall z, number ds z = Some (z * 10 ^ Z.of_nat (List.length ds) + n)) /\
    (0 < List.length ds)%nat /\ (forall k, (0 < k)%nat -> n < 10 ^ Z.of_nat k -> (List.length ds <= k)%nat).
Proof.
  induction f as [|f IH]; intros n acc H0 H1 Hf; [lia|]. cbn [digits_fuel].
  pose proof (Z.mod_pos_bound n 10 ltac:(lia)) as Hm. pose proof (Z.div_mod n 10 ltac:(lia)) as E.
  destruct (Z.ltb_spec n 10) as [L|L].
  - exists [digit (n mod 10)]. split; [reflexivity|]. split; [constructor; [exists (n mod 10); split; [lia | reflexivity] | constructor]|].
    split; [|split; [cbn; lia | intros k Hk _; cbn; lia]].
    intro z. cbn [number List.length]. rewrite digit_val by lia. rewrite Z.mod_small by lia. f_equal. change (10 ^ Z.of_nat 1) with 10. lia.
  - assert (0 < f)%nat as Hf'. { destruct f; [cbn in H1; lia | lia]. }
    assert (n / 10 < 2 ^ Z.of_nat f) as HL.
    { rewrite Nat2Z.inj_succ, Z.pow_succ_r in H1 by lia. apply Z.div_lt_upper_bound; lia. }
    destruct (IH (n / 10) (digit (n mod 10) :: acc) ltac:(apply Z.div_pos; lia) HL Hf') as (ds & Ed & FD & HN & HP & HK).
    exists (ds ++ [digit (n mod 10)]). split; [rewrite Ed, <- app_assoc; reflexivity|]. split.
    { apply Forall_app. split; [exact FD|]. constructor; [exists (n mod 10); split; [lia | reflexivity] | constructor]. }
    split; [|rewrite app_length; cbn [List.length]; split; [lia|]].
    + intro z. rewrite number_app, HN. cbn [number]. rewrite digit_val by lia. f_equal. rewrite app_length, Nat2Z.inj_add, Z.pow_add_r by lia.
      change (10 ^ Z.of_nat (List.length [digit (n mod 10)])) with 10. lia.
    + intros k Hk Hn. destruct k as [|[|k]]; [lia | cbn in Hn; lia|].
      assert (List.length ds <= S k)%nat; [|lia]. apply HK; [lia|]. rewrite Nat2Z.inj_succ, Z.pow_succ_r in Hn by lia. apply Z.div_lt_upper_bound; lia.
Qed.
Lemma digits_spec n : 0 <= n -> exists ds, digits n = ds /\ Forall is_dig ds /\ (forall z, number ds z = Some (z * 10 ^ Z.of_nat (List.length ds) + n)) /\
    (0 < List.length ds)%nat /\ (forall k, (0 < k)%nat -> n < 10 ^ Z.of_nat k -> (List.length ds <= k)%nat).
Proof.
  intro H. unfold digits. destruct (digits_fuel_spec (S (Z.to_nat (Z.log2 n))) n [] H) as (ds & E & R); [|lia|].
  - destruct (Z.eq_dec n 0) as [->|]; [cbn; lia|]. rewrite Nat2Z.inj_succ, Z2Nat.id by apply Z.log2_nonneg.
    apply Z.log2_spec. lia.
  - exists ds. split; [now rewrite E, app_nil_r | exact R].
Qed.
Lemma number_zeros k : number (repeat "0"%char k) 0 = Some 0.
Proof. induction k as [|k IH]; [reflexivity|]. cbn [repeat number]. exact IH. Qed.
Lemma pad_spec w n : 0 <= n -> Forall is_dig (pad w n) /\ number (pad w n) 0 = Some n /\ (0 < List.length (pad w n))%nat /\
  ((0 < w)%nat -> n < 10 ^ Z.of_nat w -> List.length (pad w n) = w).
Proof.
  intro H. unfold pad. destruct (Z.ltb_spec n 0) as [|_]; [lia|]. destruct (digits_spec n H) as (ds & -> & FD & HN & HP & HK). split; [|split; [|split]].
  - apply Forall_app. split; [|exact FD]. apply Forall_forall. intros x Hx. apply repeat_spec in Hx as ->. exists 0. split; [lia | reflexivity].
  - rewrite number_app, number_zeros, HN. reflexivity.
  - rewrite app_length. lia.
  - intros Hw Hn. specialize (HK w Hw Hn). rewrite app_length, repeat_length. lia.
Qed.
Lemma parse_pad w n : 0 <= n < 2 ^ 63 -> parse_i64 (pad w n) = Some n.
Proof.
  intro H. destruct (pad_spec w n ltac:(lia)) as (FD & HN & HP & _). destruct (pad w n) as [|c s]; [cbn in HP; lia|].
  unfold parse_i64. inversion FD as [|? ? Hc Hs]; subst.
  rewrite (digit_not c "-"%char), (digit_not c "+"%char) by (try exact Hc; cbn; tauto). cbn [orb]. rewrite HN.
  destruct (Z.leb_spec (- 2 ^ 63) n); [|lia]. destruct (Z.ltb_spec n (2 ^ 63)); [reflexivity | lia].
Qed.

(* ---- splitting ------------------------------------------------------------------------ *)
Lemma split_none c s : Forall (fun x => (x =? c)%char = false) s -> split c s = [s].
Proof. induction s as [|x s IH]; intro H; [reflexivity|]. inversion H; subst. cbn [split]. rewrite H2, IH by assumption. reflexivity. Qed.
Lemma split_app c a b : Forall (fun x => (x =? c)%char = false) a -> split c (a ++ c :: b) = a :: split c b.
Proof.
  induction a as [|x a IH]; intro H; cbn [app split]; [now rewrite Ascii.eqb_refl|]. inversion H; subst. rewrite H2, IH by assumption. reflexivity.
Qed.
Lemma find_dot_app a b : Forall (fun x => (x =? ".")%char = false) a -> find_dot (a ++ "."%char :: b) = Some (a, b).
Proof. induction a as [|x a IH]; intro H; cbn [app find_dot]; [reflexivity|]. inversion H; subst. rewrite H2, IH by assumption. reflexivity. Qed.
Lemma find_dot_none a : Forall (fun x => (x =? ".")%char = false) a -> find_dot a = None.
Proof. induction a as [|x a IH]; intro H; cbn [find_dot]; [reflexivity|]. inversion H; subst. rewrite H2, IH by assumption. reflexivity. Qed.
Lemma pad_no w n x : 0 <= n -> In x ["-"; "+"; "T"; ":"; "."; "N"; "n"]%char -> Forall (fun c => (c =? x)%char = false) (pad w n).
Proof. intros Hn Hx. destruct (pad_spec w n Hn) as (FD & _). eapply Forall_impl; [|exact FD]. intros c Hc. now apply digit_not. Qed.

(* ---- dates ------------------------------------------------------------------------------ *)
(* texts whose date part is a given one: not NaT, and the fields are found *)
Lemma first_digit w n s k : 0 <= n -> In k ["NaT"; "nat"]%string -> list_ascii_eqb (pad w n ++ s) (chars k) = false.
Proof.
  intros Hn Hk. destruct (pad_spec w n Hn) as (FD & _ & HP & _). destruct (pad w n) as [|c t]; [cbn in HP; lia|].
  inversion FD as [|? ? Hc _]; subst. unfold list_ascii_eqb. destruct (list_eq_dec ascii_dec _ _) as [E|]; [|reflexivity]. exfalso.
  destruct Hk as [<-|[<-|[]]]; cbn in E; injection E as E _; subst c.
  - pose proof (digit_not "N"%char "N"%char Hc ltac:(cbn; tauto)). discriminate.
  - pose proof (digit_not "n"%char "n"%char Hc ltac:(cbn; tauto)). discriminate.
Qed.
Section Fields.
Variables (y m d : Z) (Hy : 0 <= y < 2 ^ 63) (Hm : 0 <= m < 2 ^ 63) (Hd : 0 <= d < 2 ^ 63).
Definition dtext : list ascii := pad 4 y ++ "-"%char :: pad 2 m ++ "-"%char :: pad 2 d.
Lemma split_date : split "-" dtext = [pad 4 y; pad 2 m; pad 2 d].
Proof using Hy Hm Hd.
  unfold dtext. rewrite split_app by (apply pad_no; [lia | cbn; tauto]). rewrite split_app by (apply pad_no; [lia | cbn; tauto]).
  rewrite split_none by (apply pad_no; [lia | cbn; tauto]). reflexivity.
Qed.
Lemma dtext_no x : In x ["T"; ":"; "."]%char -> Forall (fun c => (c =? x)%char = false) dtext.
Proof using Hy Hm Hd.
  intro Hx. assert (In x ["-"; "+"; "T"; ":"; "."; "N"; "n"]%char) as Hx' by (cbn in *; tauto).
  assert (("-" =? x)%char = false) as Hdash by (cbn in Hx; intuition (subst; reflexivity)).
  unfold dtext. apply Forall_app. split; [apply pad_no; [lia | exact Hx']|]. constructor; [exact Hdash|].
  apply Forall_app. split; [apply pad_no; [lia | exact Hx']|]. constructor; [exact Hdash|]. apply pad_no; [lia | exact Hx'].
Qed.
Lemma fields_date : field (split "-" dtext) 1 1 = m /\ field (split "-" dtext) 2 1 = d /\ parse_i64 (hd [] (split "-" dtext)) = Some y.
Proof using Hy Hm Hd. rewrite split_date. unfold field. cbn [nth_error hd]. rewrite !parse_pad by assumption. easy. Qed.
Lemma dtext_not_nat s : list_ascii_eqb (dtext ++ s) (chars "NaT") || list_ascii_eqb (dtext ++ s) (chars "nat") = false.
Proof using Hy Hm Hd. unfold dtext. rewrite <- app_assoc. rewrite !first_digit by (try lia; cbn; tauto). reflexivity. Qed.
End Fields.

Definition unit_value_of (u : unit) (year month days hours minutes seconds : Z) (sub : spec_float) : Z :=
  let secs := days *! 86400 +! hours *! 3600 +! minutes *! 60 +! seconds in
  match u with
  | Years => year -! 1970
  | Months => (year -! 1970) *! 12 +! (month -! 1)
  | Weeks => days /! 7
  | Days => days
  | Hours => days *! 24 +! hours
  | Minutes => days *! 24 *! 60 +! hours *! 60 +! minutes
  | Seconds => secs
  | Milli => secs *! 1000 +! scaled sub 1000
  | Micro => secs *! 1000000 +! scaled sub 1000000
  | Nano => secs *! 1000000000 +! scaled sub 1000000000
  end.
Lemma parse_date n u : - 2 ^ 63 <= n < 2 ^ 63 - 719468 -> (let '(y, m, d) := days_to_ymd n in 0 <= y) ->
  (let '(y, m, d) := days_to_ymd n in parse (date_string n) u = unit_value_of u y m n 0 0 0 (f64_int 0)) /\
  (forall t, Forall (fun c => (c =? "T")%char = false) t -> let '(y, m, d) := days_to_ymd n in
     parse (date_string n ++ "T"%char :: t) u = let '(h, mi, s, sub) := parse_time t in unit_value_of u y m n h mi s sub).
Proof.
  intros Hn Hy0. destruct (ymd_valid n Hn) as (V & E). unfold date_string. destruct (days_to_ymd n) as [[y m] d].
  pose proof (year_of_number y m d V ltac:(lia)) as HY. pose proof (month_length_range y m) as HL. assert (1 <= m <= 12 /\ 1 <= d <= month_length y m) as (Hm & Hd) by exact V.
  fold (dtext y m d). assert (0 <= y < 2 ^ 63) as By by lia. assert (0 <= m < 2 ^ 63) as Bm by lia. assert (0 <= d < 2 ^ 63) as Bd by lia.
  destruct (fields_date y m d By Bm Bd) as (F1 & F2 & F0). split.
  - unfold parse. pose proof (dtext_not_nat y m d By Bm Bd []) as HN. rewrite app_nil_r in HN. rewrite HN.
    rewrite (split_none "T"%char) by (apply dtext_no; try assumption; cbn; tauto). cbn [hd nth_error]. rewrite F0, F1, F2.
    rewrite ymd_number, E by lia. unfold unit_value_of. cbv beta iota zeta. reflexivity.
  - intros t Ht. unfold parse. rewrite (dtext_not_nat y m d By Bm Bd).
    rewrite (split_app "T"%char) by (apply dtext_no; try assumption; cbn; tauto). rewrite (split_none "T"%char) by exact Ht. cbn [hd nth_error]. rewrite F0, F1, F2.
    rewrite ymd_number, E by lia. destruct (parse_time t) as [[[h mi] s] sub]. unfold unit_value_of. cbv beta iota zeta. reflexivity.
Qed.

(* ---- times of day ------------------------------------------------------------------------ *)
Lemma time_h h : 0 <= h < 100 -> parse_time (pad 2 h) = (h, 0, 0, f64_int 0).
Proof.
  intro H. unfold parse_time. rewrite split_none by (apply pad_no; [lia | cbn; tauto]). cbn [nth_error]. unfold field. cbn [nth_error].
  rewrite parse_pad by lia. reflexivity.
Qed.
Lemma time_hm h m : 0 <= h < 100 -> 0 <= m < 100 -> parse_time (pad 2 h ++ ":"%char :: pad 2 m) = (h, m, 0, f64_int 0).
Proof.
  intros H H'. unfold parse_time. rewrite split_app by (apply pad_no; [lia | cbn; tauto]). rewrite split_none by (apply pad_no; [lia | cbn; tauto]).
  unfold field. cbn [nth_error]. rewrite !parse_pad by lia. reflexivity.
Qed.
Lemma time_hms h m s : 0 <= h < 100 -> 0 <= m < 100 -> 0 <= s < 100 ->
  parse_time (pad 2 h ++ ":"%char :: pad 2 m ++ ":"%char :: pad 2 s) = (h, m, s, f64_int 0).
Proof.
  intros H H' H2. unfold parse_time. do 2 rewrite split_app by (apply pad_no; [lia | cbn; tauto]). rewrite split_none by (apply pad_no; [lia | cbn; tauto]).
  unfold field. cbn [nth_error]. rewrite find_dot_none by (apply pad_no; [lia | cbn; tauto]). rewrite !parse_pad by lia. reflexivity.
Qed.
Lemma time_frac h m s w k : 0 <= h < 100 -> 0 <= m < 100 -> 0 <= s < 100 -> 0 <= k ->
  parse_time ((pad 2 h ++ ":"%char :: pad 2 m ++ ":"%char :: pad 2 s) ++ "."%char :: pad w k) = (h, m, s, parse_frac (pad w k)).
Proof.
  intros H H' H2 Hk. unfold parse_time. rewrite <- app_assoc. cbn [app]. rewrite <- app_assoc. cbn [app].
  do 2 rewrite split_app by (apply pad_no; [lia | cbn; tauto]). rewrite split_none.
  2:{ apply Forall_app. split; [apply pad_no; [lia | cbn; tauto]|]. constructor; [reflexivity|]. apply pad_no; [lia | cbn; tauto]. }
  unfold field. cbn [nth_error]. rewrite find_dot_app by (apply pad_no; [lia | cbn; tauto]). rewrite !parse_pad by lia. reflexivity.
Qed.
Lemma no_T_hms rem hour : 0 <= rem < 24 * hour -> 0 < hour -> hour mod 3600 = 0 ->
  hms rem hour = pad 2 (rem / hour) ++ ":"%char :: pad 2 (rem mod hour / (hour / 60)) ++ ":"%char :: pad 2 (rem mod (hour / 60) / (hour / 3600)).
Proof.
  intros H Hh Hd. assert (hour = 3600 * (hour / 3600)) as E by (pose proof (Z.div_mod hour 3600); lia).
  assert (hour / 60 = 60 * (hour / 3600)) as E1 by (rewrite E at 1; replace (3600 * (hour / 3600)) with (60 * (hour / 3600) * 60) by ring; apply Z.div_mul; lia).
  unfold hms. rewrite (Z.div_div hour 60 60) by lia. change (60 * 60) with 3600.
  rewrite !Z.rem_mod_nonneg by lia. rewrite !Z.quot_div_nonneg; try lia; try (pose proof (Z.mod_pos_bound rem (hour / 60)); lia); try (pose proof (Z.mod_pos_bound rem hour); lia).
  reflexivity.
Qed.
Lemma hms_ok rem hour : 0 <= rem < 24 * hour -> 0 < hour -> hour mod 3600 = 0 ->
  0 <= rem / hour < 100 /\ 0 <= rem mod hour / (hour / 60) < 100 /\ 0 <= rem mod (hour / 60) / (hour / 3600) < 100 /\
  rem = (rem / hour * 3600 + rem mod hour / (hour / 60) * 60 + rem mod (hour / 60) / (hour / 3600)) * (hour / 3600) + rem mod (hour / 3600).
Proof.
  intros H Hh Hd. set (k := hour / 3600). assert (hour = 3600 * k) as E by (unfold k; pose proof (Z.div_mod hour 3600); lia).
  assert (hour / 60 = 60 * k) as E1 by (rewrite E; replace (3600 * k) with (60 * k * 60) by ring; apply Z.div_mul; lia).
  rewrite E1. assert (0 < k) as Hk by lia.
  assert (rem mod hour / (60 * k) = rem / (60 * k) mod 60) as Em.
  { rewrite E. replace (3600 * k) with (60 * k * 60) by ring. rewrite (Z.rem_mul_r rem (60 * k) 60) by lia.
    rewrite (Z.mul_comm (60 * k) (_ mod _)), Z.div_add by lia. rewrite Z.div_small; [lia|]. apply Z.mod_pos_bound. lia. }
  assert (rem mod (60 * k) / k = rem / k mod 60) as Es.
  { replace (60 * k) with (k * 60) by ring. rewrite (Z.rem_mul_r rem k 60) by lia. rewrite (Z.mul_comm k (_ mod _)), Z.div_add by lia. rewrite Z.div_small; [lia|]. apply Z.mod_pos_bound. lia. }
  rewrite Em, Es. assert (rem / (60 * k) = rem / k / 60) as Q1 by (rewrite Z.div_div by lia; f_equal; ring).
  assert (rem / hour = rem / k / 60 / 60) as Q2 by (rewrite !Z.div_div by lia; f_equal; lia). rewrite Q2, Q1.
  pose proof (Z.div_mod rem k ltac:(lia)) as D0. assert (0 <= rem / k < 86400) as B.
  { split; [apply Z.div_pos; lia|]. apply Z.div_lt_upper_bound; lia. }
  set (t := rem / k) in *. clearbody t. pose proof (Z.mod_pos_bound (t / 60) 60). pose proof (Z.mod_pos_bound t 60).
  pose proof (Z.div_mod t 60). pose proof (Z.div_mod (t / 60) 60).
  assert (t = t / 60 / 60 * 3600 + (t / 60) mod 60 * 60 + t mod 60) as Et by lia.
  split; [|split; [lia|split; [lia|rewrite <- Et; lia]]]. split; [apply Z.div_pos; [apply Z.div_pos|]; lia|].
  apply Z.div_lt_upper_bound; [lia|]. apply Z.div_lt_upper_bound; lia.
Qed.
Lemma hms_no_T rem hour x : 0 <= rem < 24 * hour -> 0 < hour -> hour mod 3600 = 0 -> In x ["T"; "."]%char ->
  Forall (fun c => (c =? x)%char = false) (hms rem hour).
Proof.
  intros H Hh Hd Hx. rewrite no_T_hms by assumption. destruct (hms_ok rem hour H Hh Hd) as (B1 & B2 & B3 & _).
  assert (In x ["-"; "+"; "T"; ":"; "."; "N"; "n"]%char) as Hx' by (cbn in *; tauto).
  assert ((":" =? x)%char = false) as Hc by (cbn in Hx; intuition (subst; reflexivity)).
  apply Forall_app. split; [apply pad_no; [lia | exact Hx']|]. constructor; [exact Hc|].
  apply Forall_app. split; [apply pad_no; [lia | exact Hx']|]. constructor; [exact Hc|]. apply pad_no; [lia | exact Hx'].
Qed.

(* thousandths survive the trip through a double *)
Lemma thousandths : forallb (fun k => scaled (SFdiv f64_prec f64_emax (f64_int (Z.of_nat k)) (f64_int 1000)) 1000 =? Z.of_nat k) (seq 0 1000) = true.
Proof. vm_compute. reflexivity. Qed.
Lemma milli_exact k : 0 <= k < 1000 -> scaled (parse_frac (pad 3 k)) 1000 = k.
Proof.
  intro H. unfold parse_frac. destruct (pad_spec 3 k ltac:(lia)) as (_ & -> & _ & HL). rewrite HL by (try lia; exact (proj2 H)).
  change (10 ^ Z.of_nat 3) with 1000. pose proof thousandths as T. rewrite forallb_forall in T. specialize (T (Z.to_nat k)).
  rewrite Z2Nat.id in T by lia. apply Z.eqb_eq, T. apply in_seq. lia.
Qed.

(* ---- the round trip ------------------------------------------------------------------------- *)
Lemma year_nonneg n : - 719528 <= n < 2 ^ 63 - 719468 -> let '(y, m, d) := days_to_ymd n in 0 <= y.
Proof.
  intro H. destruct (ymd_valid n ltac:(lia)) as (V & E). destruct (days_to_ymd n) as [[y m] d].
  pose proof (in_year y m d V) as B. rewrite E in B. change (days_before_year 1970) with 719162 in B.
  destruct (Z.le_gt_cases 0 y) as [|L]; [assumption|]. pose proof (before_year_mono (y + 1) 0 ltac:(lia)) as M. change (days_before_year 0) with (-366) in M. lia.
Qed.
Lemma first_instant : instant Years (-1970) = day_ns * (-719528).
Proof. reflexivity. Qed.

Lemma back_time K v : 0 < K -> v = v / K * K + v mod K.
Proof. intro H. pose proof (Z.div_mod v K). lia. Qed.

Definition text_units : list unit := [Years; Months; Weeks; Days; Hours; Minutes; Seconds; Milli].
Theorem text_round_trip v u : i64 v -> instant Years (-1970) <= instant u v < (2 ^ 63 - 719468) * day_ns -> In u text_units -> parse (format v u) u = v.
Proof.
  unfold i64. intros Hv HI Hu. rewrite first_instant in HI. unfold text_units in Hu. cbn [In] in Hu.
  destruct Hu as [<-|[<-|[<-|[<-|[<-|[<-|[<-|[<-|[]]]]]]]]].
  - (* years *)
    cbn [instant] in HI. assert (- 719528 <= day_number (1970 + v, 1, 1) < 2 ^ 63 - 719468) as HB by (unfold day_ns in HI; lia).
    pose proof (valid_first (1970 + v) 1 ltac:(lia)) as V. pose proof (year_of_number _ _ _ V ltac:(lia)) as HY.
    assert (0 <= 1970 + v) as H0.
    { rewrite number_year in HB. destruct (Z.le_gt_cases 0 (1970 + v)) as [|L]; [assumption|]. pose proof (before_year_mono (1970 + v + 1) 0 ltac:(lia)) as M. change (days_before_year 0) with (-366) in M.
      pose proof (year_step (1970 + v)) as S. destruct (leap (1970 + v)); lia. }
    cbn [format]. rewrite w64_id by lia. unfold parse. pose proof (first_digit 4 (1970 + v) [] "NaT" ltac:(lia) ltac:(cbn; tauto)) as N1.
    pose proof (first_digit 4 (1970 + v) [] "nat" ltac:(lia) ltac:(cbn; tauto)) as N2. rewrite app_nil_r in N1, N2. rewrite N1, N2. cbn [orb].
    rewrite (split_none "T"%char) by (apply pad_no; [lia | cbn; tauto]). cbn [hd nth_error]. rewrite (split_none "-"%char) by (apply pad_no; [lia | cbn; tauto]). cbn [hd].
    rewrite parse_pad by lia. rewrite w64_id by lia. lia.
  - (* months *)
    rewrite instant_months in HI. assert (- 719528 <= month_start (23640 + v) < 2 ^ 63 - 719468) as HB by (unfold day_ns in HI; lia).
    set (t := 23640 + v) in *. unfold month_start in HB. pose proof (Z.mod_pos_bound t 12 ltac:(lia)) as Hm. pose proof (Z.div_mod t 12 ltac:(lia)) as Et.
    pose proof (valid_first (t / 12) (t mod 12 + 1) ltac:(lia)) as V. pose proof (year_of_number _ _ _ V ltac:(lia)) as HY.
    assert (0 <= t / 12) as H0.
    { pose proof (in_year _ _ _ V) as B. change (days_before_year 1970) with 719162 in B. destruct (Z.le_gt_cases 0 (t / 12)) as [|L]; [assumption|].
      pose proof (before_year_mono (t / 12 + 1) 0 ltac:(lia)) as M. change (days_before_year 0) with (-366) in M. lia. }
    cbn [format]. change (1970 * 12) with 23640. fold t. assert (w64 t = t) as -> by (apply w64_id; lia).
    rewrite Z.quot_div_nonneg, Z.rem_mod_nonneg by lia. assert (w64 (t mod 12 + 1) = t mod 12 + 1) as -> by (apply w64_id; lia).
    set (y := t / 12) in *. set (m := t mod 12 + 1) in *. unfold parse. rewrite !first_digit by (try lia; cbn; tauto). cbn [orb].
    rewrite (split_none "T"%char).
    2:{ apply Forall_app. split; [apply pad_no; [lia | cbn; tauto]|]. constructor; [reflexivity|]. apply pad_no; [lia | cbn; tauto]. }
    cbn [hd nth_error]. rewrite (split_app "-"%char) by (apply pad_no; [lia | cbn; tauto]). rewrite (split_none "-"%char) by (apply pad_no; [lia | cbn; tauto]).
    cbn [hd]. rewrite parse_pad by lia. unfold field. cbn [nth_error]. rewrite parse_pad by lia. cbn [opt_or].
    assert (w64 (y - 1970) = y - 1970) as -> by (apply w64_id; lia). assert (w64 ((y - 1970) * 12) = (y - 1970) * 12) as -> by (apply w64_id; lia).
    assert (w64 (m - 1) = m - 1) as -> by (apply w64_id; lia). rewrite w64_id by lia. lia.
  - (* weeks *)
    cbn [instant length_ns] in HI. assert (- 719528 <= v * 7 < 2 ^ 63 - 719468) as HB by (unfold day_ns in HI; lia).
    cbn [format]. rewrite w64_id by lia. destruct (parse_date (v * 7) Weeks ltac:(lia) (year_nonneg _ HB)) as (P & _). destruct (days_to_ymd (v * 7)) as [[y m] d].
    rewrite P. cbn [unit_value_of]. apply Z.quot_mul. lia.
  - (* days *)
    cbn [instant length_ns] in HI. assert (- 719528 <= v < 2 ^ 63 - 719468) as HB by (unfold day_ns in HI; lia).
    cbn [format]. destruct (parse_date v Days ltac:(lia) (year_nonneg _ HB)) as (P & _). destruct (days_to_ymd v) as [[y m] d]. exact P.
  - (* hours *)
    cbn [instant length_ns] in HI. assert (- 719528 * 24 <= v < (2 ^ 63 - 719468) * 24) as HB by (unfold day_ns in HI; lia).
    cbn [format]. set (n := v / 24). assert (- 719528 <= n < 2 ^ 63 - 719468) as Hn by (unfold n; split; [apply Z.div_le_lower_bound | apply Z.div_lt_upper_bound]; lia).
    destruct (parse_date n Hours ltac:(lia) (year_nonneg _ Hn)) as (_ & P). pose proof (Z.mod_pos_bound v 24 ltac:(lia)) as Hm. pose proof (Z.div_mod v 24 ltac:(lia)) as E.
    specialize (P (pad 2 (v mod 24)) ltac:(apply pad_no; [lia | cbn; tauto])). destruct (days_to_ymd n) as [[y m] d]. rewrite P, time_h by lia. cbn [unit_value_of].
    fold n in E. rewrite (w64_id (n * 24)) by lia. rewrite w64_id by lia. lia.
  - (* minutes *)
    cbn [instant length_ns] in HI. assert (- 719528 * 1440 <= v < (2 ^ 63 - 719468) * 1440) as HB by (unfold day_ns in HI; lia).
    cbn [format]. change (24 * 60) with 1440. set (n := v / 1440). assert (- 719528 <= n < 2 ^ 63 - 719468) as Hn by (unfold n; split; [apply Z.div_le_lower_bound | apply Z.div_lt_upper_bound]; lia).
    destruct (parse_date n Minutes ltac:(lia) (year_nonneg _ Hn)) as (_ & P). pose proof (Z.mod_pos_bound v 1440 ltac:(lia)) as Hm. pose proof (Z.div_mod v 1440 ltac:(lia)) as E.
    rewrite Z.quot_div_nonneg, Z.rem_mod_nonneg by lia. fold n in E. set (r := v mod 1440) in *.
    assert (0 <= r / 60 < 24) as Bh by (split; [apply Z.div_pos | apply Z.div_lt_upper_bound]; lia). pose proof (Z.mod_pos_bound r 60 ltac:(lia)) as Bm. pose proof (Z.div_mod r 60 ltac:(lia)) as Er.
    specialize (P (pad 2 (r / 60) ++ ":"%char :: pad 2 (r mod 60))). destruct (days_to_ymd n) as [[y m] d]. rewrite P by (apply Forall_app; split; [apply pad_no; [lia | cbn; tauto] | constructor; [reflexivity | apply pad_no; [lia | cbn; tauto]]]).
    rewrite time_hm by lia.
    cbn [unit_value_of]. rewrite (w64_id (n * 24)) by lia. rewrite (w64_id (n * 24 * 60)) by lia. rewrite (w64_id (r / 60 * 60)) by lia. rewrite (w64_id (n * 24 * 60 + r / 60 * 60)) by lia. rewrite w64_id by lia. lia.
  - (* seconds *)
    cbn [instant length_ns] in HI. assert (- 719528 * 86400 <= v < (2 ^ 63 - 719468) * 86400) as HB by (unfold day_ns in HI; lia).
    cbn [format]. change (24 * 60 * 60) with 86400. set (n := v / 86400). assert (- 719528 <= n < 2 ^ 63 - 719468) as Hn by (unfold n; split; [apply Z.div_le_lower_bound | apply Z.div_lt_upper_bound]; lia).
    destruct (parse_date n Seconds ltac:(lia) (year_nonneg _ Hn)) as (_ & P). pose proof (Z.mod_pos_bound v 86400 ltac:(lia)) as Hm. pose proof (Z.div_mod v 86400 ltac:(lia)) as E.
    fold n in E. set (r := v mod 86400) in *. specialize (P (hms r 3600) ltac:(apply hms_no_T; [lia | lia | reflexivity | cbn; tauto])).
    destruct (hms_ok r 3600 ltac:(lia) ltac:(lia) eq_refl) as (B1 & B2 & B3 & Er). rewrite no_T_hms in P |- * by (try lia; reflexivity).
    rewrite time_hms in P by assumption. destruct (days_to_ymd n) as [[y m] d]. rewrite P. cbn [unit_value_of].
    change (3600 / 3600) with 1 in *. rewrite Z.mod_1_r in Er. set (h := r / 3600) in *. set (mi := r mod 3600 / (3600 / 60)) in *. set (s := r mod (3600 / 60) / 1) in *. clearbody h mi s.
    rewrite (w64_id (n * 86400)) by lia. rewrite (w64_id (h * 3600)) by lia. rewrite (w64_id (n * 86400 + h * 3600)) by lia. rewrite (w64_id (mi * 60)) by lia.
    rewrite (w64_id (n * 86400 + h * 3600 + mi * 60)) by lia. rewrite w64_id by lia. lia.
  - (* milliseconds *)
    cbn [instant length_ns] in HI. assert (- 719528 * 86400000 <= v < (2 ^ 63 - 719468) * 86400000) as HB by (unfold day_ns in HI; lia).
    cbn [format]. change (24 * 60 * 60 * 1000) with 86400000. set (n := v / 86400000). assert (- 719528 <= n < 2 ^ 63 - 719468) as Hn by (unfold n; split; [apply Z.div_le_lower_bound | apply Z.div_lt_upper_bound]; lia).
    destruct (parse_date n Milli ltac:(lia) (year_nonneg _ Hn)) as (_ & P). pose proof (Z.mod_pos_bound v 86400000 ltac:(lia)) as Hm. pose proof (Z.div_mod v 86400000 ltac:(lia)) as E.
    fold n in E. set (r := v mod 86400000) in *. rewrite Z.rem_mod_nonneg by lia. pose proof (Z.mod_pos_bound r 1000 ltac:(lia)) as Bk.
    specialize (P (hms r 3600000 ++ "."%char :: pad 3 (r mod 1000))).
    destruct (hms_ok r 3600000 ltac:(lia) ltac:(lia) eq_refl) as (B1 & B2 & B3 & Er).
    assert (parse_time (hms r 3600000 ++ "."%char :: pad 3 (r mod 1000)) =
      (r / 3600000, r mod 3600000 / (3600000 / 60), r mod (3600000 / 60) / (3600000 / 3600), parse_frac (pad 3 (r mod 1000)))) as PT.
    { rewrite no_T_hms by (try lia; reflexivity). apply time_frac; try assumption. lia. }
    rewrite PT in P. destruct (days_to_ymd n) as [[y m] d]. rewrite P.
    2:{ apply Forall_app. split; [apply hms_no_T; [lia | lia | reflexivity | cbn; tauto]|]. constructor; [reflexivity|]. apply pad_no; [lia | cbn; tauto]. }
    cbn [unit_value_of]. rewrite milli_exact by lia. change (3600000 / 3600) with 1000 in *.
    set (h := r / 3600000) in *. set (mi := r mod 3600000 / (3600000 / 60)) in *. set (s := r mod (3600000 / 60) / 1000) in *. set (k := r mod 1000) in *. clearbody h mi s k.
    rewrite (w64_id (n * 86400)) by lia. rewrite (w64_id (h * 3600)) by lia. rewrite (w64_id (n * 86400 + h * 3600)) by lia. rewrite (w64_id (mi * 60)) by lia.
    rewrite (w64_id (n * 86400 + h * 3600 + mi * 60)) by lia. rewrite (w64_id (n * 86400 + h * 3600 + mi * 60 + s)) by lia.
    rewrite (w64_id ((n * 86400 + h * 3600 + mi * 60 + s) * 1000)) by lia. rewrite w64_id by lia. lia.
Qed.
