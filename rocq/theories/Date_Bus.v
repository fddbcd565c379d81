(* Business days: weekdays, counting and stepping. *)
From Verif Require Import Base Lists Int_Model Int_Proofs F64_Model Rng_Model Date_Spec Date_Model Date_Proofs.
Local Open Scope Z_scope.

Definition business (cal : calendar) (n : Z) : bool :=
  negb (existsb (Z.eqb n) (c_holidays cal)) && nth (Z.to_nat (weekday n)) (c_mask cal) false.
Lemma weekday_range n : 0 <= weekday n < 7.
Proof. unfold weekday. apply Z.mod_pos_bound. lia. Qed.
Lemma weekday_model n : (n %! 7 + 7 + 3) %! 7 = weekday n.
Proof.
  unfold weekday. pose proof (Z.quot_rem' n 7) as E. pose proof (Z.rem_bound_abs n 7 ltac:(lia)) as B.
  assert (0 <= n %! 7 + 7 + 3) as H by lia. rewrite (Z.rem_mod_nonneg (n %! 7 + 7 + 3)) by lia.
  rewrite E at 2. replace (7 * (n /! 7) + n %! 7 + 3) with (n %! 7 + 3 + (n /! 7) * 7) by ring. rewrite Z.mod_add by lia.
  replace (n %! 7 + 7 + 3) with (n %! 7 + 3 + 1 * 7) by ring. now rewrite Z.mod_add by lia.
Qed.
Lemma business_model n cal : n <> NAT -> is_business_day n cal = business cal n.
Proof.
  intro H. unfold is_business_day, business. destruct (Z.eqb_spec n NAT) as [|_]; [contradiction|].
  rewrite weekday_model. destruct (existsb _ _); reflexivity.
Qed.

(* ---- counting ------------------------------------------------------------------------- *)
Lemma count_app p b n m : count_days p b (n + m) = count_days p b n + count_days p (b + Z.of_nat n) m.
Proof.
  revert b. induction n as [|n IH]; intro b; cbn [count_days Nat.add]; [change (Z.of_nat 0) with 0; now rewrite Z.add_0_r|].
  rewrite IH, Nat2Z.inj_succ. replace (b + 1 + Z.of_nat n) with (b + Z.succ (Z.of_nat n)) by lia. lia.
Qed.
Lemma count_range p b n : 0 <= count_days p b n <= Z.of_nat n.
Proof. revert b. induction n as [|n IH]; intro b; cbn [count_days]; [lia|]. specialize (IH (b + 1)). destruct (p b); lia. Qed.
Lemma count_fold cal b n : forall k c, 0 <= c -> c + Z.of_nat n < 2 ^ 63 -> (forall i, (i < n)%nat -> b + Z.of_nat (k + i) <> NAT) ->
  fold_left (fun count j => if is_business_day (b + Z.of_nat j) cal then count +! 1 else count) (seq k n) c =
  c + count_days (business cal) (b + Z.of_nat k) n.
Proof.
  induction n as [|n IH]; intros k c Hc Hb Hn; cbn [seq fold_left count_days]; [lia|].
  rewrite business_model by (specialize (Hn 0%nat ltac:(lia)); now rewrite Nat.add_0_r in Hn).
  replace (b + Z.of_nat k + 1) with (b + Z.of_nat (S k)) by lia.
  assert (forall i, (i < n)%nat -> b + Z.of_nat (S k + i) <> NAT) as Hn'.
  { intros i Hi. specialize (Hn (S i) ltac:(lia)). now rewrite Nat.add_succ_comm. }
  destruct (business cal (b + Z.of_nat k)).
  - rewrite w64_id by lia. rewrite IH by (try lia; exact Hn'). lia.
  - rewrite IH by (try lia; exact Hn'). lia.
Qed.
Lemma count_spec cal start stop : i64 start -> i64 stop -> start <> NAT -> stop <> NAT -> start <= stop -> stop - start < 2 ^ 63 ->
  busday_count start stop cal = count_days (business cal) start (Z.to_nat (stop - start)).
Proof.
  unfold i64. intros Hs Ht N1 N2 Hle Hlt. unfold busday_count. destruct (Z.eqb_spec start NAT); [contradiction|]. destruct (Z.eqb_spec stop NAT); [contradiction|]. cbn [orb].
  destruct (Z.leb_spec stop start) as [H|H]; [replace (Z.to_nat (stop - start)) with 0%nat by lia; reflexivity|].
  unfold NAT in *. rewrite count_fold; [change (Z.of_nat 0) with 0; now rewrite Z.add_0_r | lia | lia|]. intros i _. unfold NAT. lia.
Qed.

(* ---- stepping -------------------------------------------------------------------------- *)
(* how many of the days that lie after b, on the way to e, are business days *)
Definition steps_forward (cal : calendar) (b e : Z) : Z := count_days (business cal) (b + 1) (Z.to_nat (e - b)).
Definition steps_back (cal : calendar) (b e : Z) : Z := count_days (business cal) e (Z.to_nat (b - e)).

Lemma offset_forward cal fuel : forall cur rem e, - 2 ^ 63 < cur -> cur + Z.of_nat fuel < 2 ^ 63 -> 0 <= rem ->
  offset_loop fuel cur rem 1 cal = Ok e ->
  cur <= e <= cur + Z.of_nat fuel /\ steps_forward cal cur e = rem /\ (0 < rem -> business cal e = true).
Proof.
  induction fuel as [|f IH]; intros cur rem e Hc Hf Hr H; cbn [offset_loop] in H.
  - destruct (Z.ltb_spec 0 rem) as [|L]; [discriminate|]. injection H as <-. unfold steps_forward. rewrite Z.sub_diag. cbn [Z.to_nat count_days]. lia.
  - destruct (Z.ltb_spec 0 rem) as [L|L].
    2:{ injection H as <-. unfold steps_forward. rewrite Z.sub_diag. cbn [Z.to_nat count_days]. lia. }
    rewrite w64_id in H by lia. rewrite business_model in H by (unfold NAT; lia).
    assert (forall rem', 0 <= rem' -> offset_loop f (cur + 1) rem' 1 cal = Ok e ->
       cur + 1 <= e <= cur + Z.of_nat (S f) /\ steps_forward cal cur e = (if business cal (cur + 1) then 1 else 0) + rem' /\ (0 < rem' -> business cal e = true) /\ (rem' <= 0 -> e = cur + 1)) as K.
    { intros rem' Hr' Ho. pose proof Ho as Ho'. apply IH in Ho as (B & Sc & G); [|lia|lia|lia]. split; [lia|]. split; [|split; [exact G|]].
      - unfold steps_forward in *. replace (Z.to_nat (e - cur)) with (S (Z.to_nat (e - (cur + 1)))) by lia. cbn [count_days]. rewrite Sc. reflexivity.
      - intro Z0. destruct f; cbn [offset_loop] in Ho'; destruct (Z.ltb_spec 0 rem'); try lia; congruence. }
    destruct (business cal (cur + 1)) eqn:EB; (apply K in H as (B & Hs & G & G0); [|lia]).
    + split; [lia|]. split; [lia|]. intros _. destruct (Z.le_gt_cases (rem - 1) 0) as [L0|L0]; [now rewrite (G0 L0)|apply G; lia].
    + split; [lia|]. split; [lia|]. intro. apply G. lia.
Qed.
Lemma count_snoc p b n : count_days p b (S n) = count_days p b n + (if p (b + Z.of_nat n) then 1 else 0).
Proof. replace (S n) with (n + 1)%nat by lia. rewrite count_app. cbn [count_days]. destruct (p _); lia. Qed.
Lemma offset_back cal fuel : forall cur rem e, - 2 ^ 63 < cur - Z.of_nat fuel -> cur < 2 ^ 63 -> 0 <= rem ->
  offset_loop fuel cur rem (-1) cal = Ok e ->
  cur - Z.of_nat fuel <= e <= cur /\ steps_back cal cur e = rem /\ (0 < rem -> business cal e = true).
Proof.
  induction fuel as [|f IH]; intros cur rem e Hc Hf Hr H; cbn [offset_loop] in H.
  - destruct (Z.ltb_spec 0 rem) as [|L]; [discriminate|]. injection H as <-. unfold steps_back. rewrite Z.sub_diag. cbn [Z.to_nat count_days]. lia.
  - destruct (Z.ltb_spec 0 rem) as [L|L].
    2:{ injection H as <-. unfold steps_back. rewrite Z.sub_diag. cbn [Z.to_nat count_days]. lia. }
    change (cur + -1) with (cur - 1) in H. rewrite w64_id in H by lia. rewrite business_model in H by (unfold NAT; lia).
    assert (forall rem', 0 <= rem' -> offset_loop f (cur - 1) rem' (-1) cal = Ok e ->
       cur - Z.of_nat (S f) <= e <= cur - 1 /\ steps_back cal cur e = (if business cal (cur - 1) then 1 else 0) + rem' /\ (0 < rem' -> business cal e = true) /\ (rem' <= 0 -> e = cur - 1)) as K.
    { intros rem' Hr' Ho. pose proof Ho as Ho'. apply IH in Ho as (B & Sc & G); [|lia|lia|lia]. split; [lia|]. split; [|split; [exact G|]].
      - unfold steps_back in *. replace (Z.to_nat (cur - e)) with (S (Z.to_nat (cur - 1 - e))) by lia. rewrite count_snoc, Sc.
        replace (e + Z.of_nat (Z.to_nat (cur - 1 - e))) with (cur - 1) by lia. lia.
      - intro Z0. destruct f; cbn [offset_loop] in Ho'; destruct (Z.ltb_spec 0 rem'); try lia; congruence. }
    destruct (business cal (cur - 1)) eqn:EB; (apply K in H as (B & Hs & G & G0); [|lia]).
    + split; [lia|]. split; [lia|]. intros _. destruct (Z.le_gt_cases (rem - 1) 0) as [L0|L0]; [now rewrite (G0 L0)|apply G; lia].
    + split; [lia|]. split; [lia|]. intro. apply G. lia.
Qed.

(* ---- termination: a weekly working day and finitely many holidays ------------------------ *)
(* an open-ended supply of business days: from any day, one within 7*(h+1) days *)
Lemma week_hit cal w : (w < 7)%nat -> nth w (c_mask cal) false = true -> forall b, exists k, 1 <= k <= 7 /\ nth (Z.to_nat (weekday (b + k))) (c_mask cal) false = true.
Proof.
  intros Hw Hm b. exists ((Z.of_nat w - weekday (b + 1)) mod 7 + 1). pose proof (Z.mod_pos_bound (Z.of_nat w - weekday (b + 1)) 7 ltac:(lia)) as B. split; [lia|].
  assert (weekday (b + ((Z.of_nat w - weekday (b + 1)) mod 7 + 1)) = Z.of_nat w) as ->; [|now rewrite Nat2Z.id].
  unfold weekday. replace (b + ((Z.of_nat w - (b + 1 + 3) mod 7) mod 7 + 1) + 3) with ((b + 1 + 3) + (Z.of_nat w - (b + 1 + 3) mod 7) mod 7) by ring.
  rewrite Zplus_mod_idemp_r. replace (b + 1 + 3 + (Z.of_nat w - (b + 1 + 3) mod 7)) with (Z.of_nat w + (b + 1 + 3 - (b + 1 + 3) mod 7)) by ring.
  rewrite Zplus_mod. replace ((b + 1 + 3 - (b + 1 + 3) mod 7) mod 7) with 0 by (rewrite Zminus_mod_idemp_r, Z.sub_diag; reflexivity).
  rewrite Z.add_0_r, Z.mod_mod by lia. apply Z.mod_small. lia.
Qed.
Lemma week_hit_back cal w : (w < 7)%nat -> nth w (c_mask cal) false = true -> forall b, exists k, 1 <= k <= 7 /\ nth (Z.to_nat (weekday (b - k))) (c_mask cal) false = true.
Proof.
  intros Hw Hm b. destruct (week_hit cal w Hw Hm (b - 8)) as (k & Hk & H). exists (8 - k). split; [lia|]. now replace (b - (8 - k)) with (b - 8 + k) by ring.
Qed.
(* stepping in either direction meets a business day; each holiday can spoil one week *)
Lemma next_hit cal w s : (s = 1 \/ s = -1) -> (w < 7)%nat -> nth w (c_mask cal) false = true -> forall hs b, (forall h, In h (c_holidays cal) -> In h hs \/ s * h <= s * b) ->
  exists k, 1 <= k <= 7 * (Z.of_nat (List.length hs) + 1) /\ business cal (b + s * k) = true.
Proof.
  intros Hs Hw Hm hs. remember (List.length hs) as L eqn:EL. revert hs EL. induction L as [|L IH]; intros hs EL b Hh.
  - destruct hs; [|discriminate].
    assert (exists k, 1 <= k <= 7 /\ nth (Z.to_nat (weekday (b + s * k))) (c_mask cal) false = true) as (k & Hk & E).
    { destruct Hs as [-> | ->]; [destruct (week_hit cal w Hw Hm b) as (k & Hk & E) | destruct (week_hit_back cal w Hw Hm b) as (k & Hk & E)]; exists k; (split; [lia|]).
      - now replace (b + 1 * k) with (b + k) by ring.
      - now replace (b + -1 * k) with (b - k) by ring. }
    exists k. split; [lia|]. unfold business. rewrite E, andb_true_r. apply negb_true_iff. destruct (existsb _ _) eqn:X; [|reflexivity].
    apply existsb_exists in X as (h & Hin & Eh). apply Z.eqb_eq in Eh. subst h. destruct (Hh _ Hin) as [[]|C]. destruct Hs as [-> | ->]; lia.
  - assert (exists k, 1 <= k <= 7 /\ nth (Z.to_nat (weekday (b + s * k))) (c_mask cal) false = true) as (k & Hk & E).
    { destruct Hs as [-> | ->]; [destruct (week_hit cal w Hw Hm b) as (k & Hk & E) | destruct (week_hit_back cal w Hw Hm b) as (k & Hk & E)]; exists k; (split; [lia|]).
      - now replace (b + 1 * k) with (b + k) by ring.
      - now replace (b + -1 * k) with (b - k) by ring. }
    destruct (existsb (Z.eqb (b + s * k)) (c_holidays cal)) eqn:X.
    + apply existsb_exists in X as (h & Hin & Eh). apply Z.eqb_eq in Eh. subst h.
      destruct (Hh _ Hin) as [HI|C]; [|destruct Hs as [-> | ->]; lia].
      apply in_split in HI as (l1 & l2 & ->). destruct (IH (l1 ++ l2)) with (b := b + s * k) as (k' & Hk' & E').
      * rewrite app_length in *. cbn [List.length] in EL. lia.
      * intros h Hh'. destruct (Hh h Hh') as [HI|C].
        -- apply in_app_or in HI as [HI|[<-|HI]]; [left; apply in_or_app; now left | right; lia | left; apply in_or_app; now right].
        -- right. destruct Hs as [-> | ->]; lia.
      * exists (k + k'). split; [lia|]. now replace (b + s * (k + k')) with (b + s * k + s * k') by ring.
    + exists k. split; [lia|]. unfold business. now rewrite X, E.
Qed.
Lemma run_until cal s fuel2 : (s = 1 \/ s = -1) -> forall k cur rem, (forall j, 0 <= j <= Z.of_nat k -> - 2 ^ 63 < cur + s * j < 2 ^ 63) ->
  0 < rem -> business cal (cur + s * Z.of_nat k) = true -> (0 < k)%nat ->
  (forall j, 0 < j < Z.of_nat k -> business cal (cur + s * j) = false) ->
  offset_loop (k + fuel2) cur rem s cal = offset_loop fuel2 (cur + s * Z.of_nat k) (rem - 1) s cal.
Proof.
  intros Hs. induction k as [|k IH]; intros cur rem HR Hr HB Hk HN; [lia|]. cbn [Nat.add offset_loop].
  destruct (Z.ltb_spec 0 rem) as [_|]; [|lia]. pose proof (HR 1 ltac:(lia)) as R1. rewrite Z.mul_1_r in R1. rewrite w64_id by lia.
  rewrite business_model by (unfold NAT; lia).
  destruct k as [|k].
  - change (Z.of_nat 1) with 1 in *. rewrite Z.mul_1_r in *. now rewrite HB.
  - pose proof (HN 1 ltac:(lia)) as N1. rewrite Z.mul_1_r in N1. rewrite N1. rewrite IH; try lia.
    + f_equal. lia.
    + intros j Hj. specialize (HR (j + 1) ltac:(lia)). lia.
    + replace (cur + s + s * Z.of_nat (S k)) with (cur + s * Z.of_nat (S (S k))) by lia. exact HB.
    + intros j Hj. specialize (HN (j + 1) ltac:(lia)). replace (cur + s + s * j) with (cur + s * (j + 1)) by ring. exact HN.
Qed.
Lemma least_hit (p : Z -> bool) (k : nat) : (0 < k)%nat -> p (Z.of_nat k) = true -> exists m, (0 < m <= k)%nat /\ p (Z.of_nat m) = true /\ forall j, 0 < j < Z.of_nat m -> p j = false.
Proof.
  induction k as [k IH] using lt_wf_ind. intros Hk Hp.
  destruct (existsb (fun j => p (Z.of_nat j)) (seq 1 (k - 1))) eqn:X.
  - apply existsb_exists in X as (j & Hj & Pj). apply in_seq in Hj. destruct (IH j ltac:(lia) ltac:(lia) Pj) as (m & Hm & Pm & L). exists m. split; [lia|]. auto.
  - exists k. split; [lia|]. split; [exact Hp|]. intros j Hj. destruct (p j) eqn:E; [|reflexivity].
    assert (existsb (fun j => p (Z.of_nat j)) (seq 1 (k - 1)) = true) as C; [|congruence].
    apply existsb_exists. exists (Z.to_nat j). split; [apply in_seq; lia|]. now rewrite Z2Nat.id by lia.
Qed.
Lemma offset_fuel_more cal s f1 : forall cur rem e f2, offset_loop f1 cur rem s cal = Ok e -> offset_loop (f1 + f2) cur rem s cal = Ok e.
Proof.
  induction f1 as [|f1 IH]; intros cur rem e f2 H; cbn [Nat.add offset_loop] in *.
  - destruct (Z.ltb_spec 0 rem) as [|L]; [discriminate|]. destruct f2; cbn [offset_loop]; destruct (Z.ltb_spec 0 rem); try lia; exact H.
  - destruct (0 <? rem); [now apply IH | exact H].
Qed.
Theorem offset_total cal w s : (s = 1 \/ s = -1) -> (w < 7)%nat -> nth w (c_mask cal) false = true ->
  let span := 7 * (Z.of_nat (List.length (c_holidays cal)) + 1) in
  forall n cur, (forall j, 0 <= j <= span * Z.of_nat n -> - 2 ^ 63 < cur + s * j < 2 ^ 63) ->
  exists e, offset_loop (Z.to_nat (span * Z.of_nat n)) cur (Z.of_nat n) s cal = Ok e.
Proof.
  intros Hs Hw Hm span. induction n as [|n IH]; intros cur HR.
  - exists cur. rewrite Z.mul_0_r. reflexivity.
  - destruct (next_hit cal w s Hs Hw Hm (c_holidays cal) cur ltac:(tauto)) as (k & Hk & HB). fold span in Hk.
    destruct (least_hit (fun j => business cal (cur + s * j)) (Z.to_nat k)) as (m & Hmk & Pm & Lm); [lia | now rewrite Z2Nat.id by lia|].
    destruct (IH (cur + s * Z.of_nat m)) as (e & He).
    { intros j Hj. specialize (HR (Z.of_nat m + j) ltac:(lia)). lia. }
    exists e. replace (Z.to_nat (span * Z.of_nat (S n))) with (m + (Z.to_nat (span * Z.of_nat n) + (Z.to_nat span - m)))%nat by lia.
    rewrite run_until; try assumption; try lia.
    + replace (Z.of_nat (S n) - 1) with (Z.of_nat n) by lia. apply offset_fuel_more. exact He.
    + intros j Hj. apply HR. lia.
Qed.
(* nothing to step over: the loop never ends *)
Lemma offset_never cal s : (s = 1 \/ s = -1) -> (forall n, is_business_day n cal = false) -> forall fuel cur rem, 0 < rem -> offset_loop fuel cur rem s cal = Err.
Proof.
  intros Hs HB. induction fuel as [|f IH]; intros cur rem Hr; cbn [offset_loop]; destruct (Z.ltb_spec 0 rem); try lia; [reflexivity|].
  rewrite HB. now apply IH.
Qed.
