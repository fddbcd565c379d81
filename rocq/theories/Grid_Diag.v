(* fill_diagonal, eye, diag_indices and the ranges of mgrid/ogrid. *)
From Coq Require Import SpecFloat.
From Verif Require Import Base Lists Int_Model Arr_Spec Arr_Model Arr_Wf Arr_Proofs Copy_Model Copy_Proofs Idx_Model Idx_Wf Idx_Assign Red_Model Red_Proofs Red_Scan
  Rng_Model Gu_Model New_Spec New_Model New_Proofs Span_Spec Span_Model Span_Proofs SF_Proofs SF_Arith SF_Cmp Grid_Spec Grid_Model Grid_Proofs.
Local Open Scope nat_scope.

(* ---- a series of stores at distinct addresses ------------------------------------- *)
Lemma stores_ok {X V} (rd : X -> res V) (v : X -> V) (A : X -> Z) item : (0 < item)%Z -> forall L buf,
  (forall x, In x L -> rd x = Ok (v x)) -> (forall x, In x L -> exists w, load buf item (A x) = Some w) ->
  NoDup L -> (forall x y, In x L -> In y L -> A x = A y -> x = y) ->
  exists buf', foldM (fun b x => bind (rd x) (fun w => store b item (A x) w)) L buf = Ok buf' /\ length buf' = length buf /\
    (forall x, In x L -> load buf' item (A x) = Some (v x)) /\
    (forall ad, (forall x, In x L -> ad <> A x) -> load buf' item ad = load buf item ad).
Proof.
  intros HI. induction L as [|x L IH]; intros buf HR HL HD HA.
  - exists buf. cbn [foldM]. split; [reflexivity|]. split; [reflexivity|]. split; [intros x []|reflexivity].
  - cbn [foldM]. rewrite (HR x (or_introl eq_refl)). cbn [bind]. destruct (HL x (or_introl eq_refl)) as [w Hw].
    destruct (store_ok buf item (A x) w (v x) HI Hw) as (b1 & E1 & L1 & G1). rewrite E1. cbn [bind]. inversion HD; subst.
    destruct (IH b1) as (b2 & E2 & L2 & S2 & O2).
    { intros; apply HR; right; assumption. }
    { intros y Hy. rewrite G1. destruct (A y =? A x)%Z; [eexists; reflexivity|apply HL; right; exact Hy]. }
    { assumption. } { intros y z Hy Hz. apply HA; right; assumption. }
    exists b2. split; [exact E2|]. split; [congruence|]. split.
    + intros y [<-|Hy]; [|apply S2; exact Hy]. rewrite O2.
      * rewrite G1, Z.eqb_refl. reflexivity.
      * intros z Hz Ez. assert (x = z) by (apply HA; [left; reflexivity|right; exact Hz|exact Ez]). subst. contradiction.
    + intros ad Hn. rewrite O2 by (intros y Hy; apply Hn; right; exact Hy). rewrite G1.
      destruct (Z.eqb_spec ad (A x)) as [->|]; [|reflexivity]. exfalso. apply (Hn x); [left; reflexivity|reflexivity].
Qed.

Lemma val_at_ok {V} (buf : list V) a vals k : wf buf a -> a_c a = true -> elems buf a = map Some vals -> size a <> 0 ->
  exists v, val_at (buf, a) k = Ok v /\ nth_error vals (k mod length vals) = Some v.
Proof.
  intros W HC E HS. assert (HL : length vals = size a).
  { apply (f_equal (@length _)) in E. unfold elems in E. rewrite !map_length, all_idx_length in E. symmetry. exact E. }
  unfold val_at. cbn [fst snd]. destruct (Nat.eqb_spec (size a) 0); [lia|]. rewrite HL.
  pose proof (Nat.mod_upper_bound k (size a) ltac:(lia)) as HM. set (m := k mod size a) in *. clearbody m.
  assert (Hi : inb (unrank (a_shape a) m) (a_shape a)) by (apply unrank_inb; exact HM).
  pose proof W as (HI & _ & _ & HLs & HG & HCC & _). destruct (HG _ Hi) as [v Hv]. exists v. split.
  - unfold read. unfold get, byte_offset_for in Hv. rewrite (c_contig_dot _ _ (a_item a) _ HLs Hi (HCC HC)) in Hv.
    rewrite rank_unrank in Hv by exact HM. rewrite (Z.mul_comm (a_item a)) in Hv || idtac. rewrite Hv. reflexivity.
  - pose proof (vals_at buf a vals _ E Hi) as EV. rewrite rm_rank_eq, rank_unrank in EV by exact HM. congruence.
Qed.

(* ---- fill_diagonal of a matrix ---------------------------------------------------------- *)
Definition dlim (wrap : bool) (nr nc : nat) : nat := if wrap then nr else Nat.min nr nc.
Definition drow (nc r : nat) : nat * nat := (r mod (nc + 1), r - r / (nc + 1)).
Lemma drow_next nc r : (r mod (nc + 1) < nc -> snd (drow nc (r + 1)) = snd (drow nc r) + 1) /\
  (nc <= r mod (nc + 1) -> snd (drow nc (r + 1)) = snd (drow nc r)).
Proof.
  unfold drow; cbn [snd]. pose proof (Nat.div_mod r (nc + 1) ltac:(lia)) as D. pose proof (Nat.mod_upper_bound r (nc + 1) ltac:(lia)) as B.
  set (q := r / (nc + 1)) in *. set (m := r mod (nc + 1)) in *. split; intros H.
  - replace ((r + 1) / (nc + 1)) with q; [nia|]. apply (Nat.div_unique _ _ q (m + 1)); lia.
  - replace ((r + 1) / (nc + 1)) with (q + 1); [nia|]. apply (Nat.div_unique _ _ (q + 1) 0); nia.
Qed.
Lemma fill_rows_fold {V} a s0 s1 nr nc (val : list V * arr) wrap : forall todo row buf, row + todo = nr ->
  (wrap = false -> 0 < nc -> 0 < todo -> row < Nat.min nr nc) ->
  fill_rows a s0 s1 nc (Nat.min nr nc) val wrap todo row (snd (drow nc row)) buf =
  foldM (fun b r => bind (val_at val (snd (drow nc r))) (fun v => store b (a_item a) (a_off a + (Z.of_nat r * s0 + Z.of_nat (r mod (nc + 1)) * s1)) v))
    (filter (fun r => r mod (nc + 1) <? nc) (seq row (dlim wrap nr nc - row))) buf.
Proof.
  induction todo as [|todo IH]; intros row buf HS HW.
  - replace (dlim wrap nr nc - row) with 0 by (unfold dlim; destruct wrap; lia). reflexivity.
  - cbn [fill_rows]. cbv zeta. destruct (drow_next nc row) as [N1 N2].
    destruct (Nat.ltb_spec (row mod (nc + 1)) nc) as [C|C].
    + assert (HL : row < dlim wrap nr nc) by (unfold dlim; destruct wrap; [lia|apply HW; (reflexivity || lia)]).
      replace (dlim wrap nr nc - row) with (S (dlim wrap nr nc - (row + 1))) by lia. cbn [seq filter].
      destruct (Nat.ltb_spec (row mod (nc + 1)) nc) as [_|]; [|lia]. cbn [foldM]. destruct (val_at val (snd (drow nc row))) as [v| | |]; cbn [bind]; try reflexivity.
      destruct (store buf _ _ v) as [b1| | |]; cbn [bind]; try reflexivity.
      destruct wrap; cbn [negb andb].
      * rewrite <- (N1 C). replace (S row) with (row + 1) by lia. apply IH; [lia|discriminate].
      * destruct (Nat.leb_spec (Nat.min nr nc) (row + 1)).
        -- replace (dlim false nr nc - (row + 1)) with 0 by (unfold dlim; lia). reflexivity.
        -- rewrite <- (N1 C). replace (S row) with (row + 1) by lia. apply IH; [lia|intros; lia].
    + destruct wrap; cbn [negb andb].
      * cbn [dlim] in *. replace (nr - row) with (S (nr - (row + 1))) by lia. cbn [seq filter].
        destruct (Nat.ltb_spec (row mod (nc + 1)) nc) as [|_]; [lia|]. rewrite <- (N2 C). replace (S row) with (row + 1) by lia. apply (IH (row + 1) buf); [lia|discriminate].
      * assert (nc = 0).
        { destruct nc as [|nc]; [reflexivity|]. specialize (HW eq_refl ltac:(lia) ltac:(lia)). rewrite Nat.mod_small in C by lia. lia. }
        subst nc. rewrite Nat.min_0_r. cbn [Nat.leb]. unfold dlim. rewrite Nat.min_0_r. cbn [Nat.sub]. reflexivity.
Qed.
Lemma diag_pos_row wrap nr nc i j t : i < nr -> j < nc ->
  (diag_pos wrap nc i j t <-> i < dlim wrap nr nc /\ j = i mod (nc + 1) /\ t = snd (drow nc i)).
Proof.
  intros Hi Hj. unfold diag_pos, drow, dlim. cbn [snd]. pose proof (Nat.div_mod i (nc + 1) ltac:(lia)) as D. pose proof (Nat.mod_upper_bound i (nc + 1) ltac:(lia)) as B.
  split.
  - intros [E W]. assert (EI : i = (i - t) * (nc + 1) + j).
    { assert (t <= i) by nia. nia. }
    assert (E1 : i / (nc + 1) = i - t) by (symmetry; apply (Nat.div_unique _ _ _ j); nia).
    assert (E2 : i mod (nc + 1) = j) by (symmetry; apply (Nat.mod_unique _ _ (i - t)); nia).
    assert (t <= i) by nia. split; [|split; [auto|lia]]. destruct wrap; [lia|]. specialize (W eq_refl).
    destruct (Nat.lt_ge_cases i nc); [lia|]. exfalso. nia.
  - intros (L & -> & ->). split; [nia|]. intros ->. rewrite Nat.div_small by lia. lia.
Qed.

Theorem fill2_ok {V} (buf vbuf : list V) a v vals wrap nr nc : wf buf a -> injective a -> a_shape a = [nr; nc] ->
  wf vbuf v -> a_c v = true -> elems vbuf v = map Some vals -> vals <> [] ->
  exists buf', fill_diagonal buf a (vbuf, v) wrap = Ok buf' /\ length buf' = length buf /\
    (forall i j, inb [i; j] [nr; nc] ->
       (forall t, diag_pos wrap nc i j t -> get buf' a [i; j] = nth_error vals (t mod length vals)) /\
       ((forall t, ~ diag_pos wrap nc i j t) -> get buf' a [i; j] = get buf a [i; j])) /\
    (forall ad, (forall i j, inb [i; j] [nr; nc] -> ad <> addr a [i; j]) -> load buf' (a_item a) ad = load buf (a_item a) ad).
Proof.
  intros W HJ HS WV HC EV HN. pose proof W as (HI & _ & _ & HLs & HG & _).
  assert (HZ : size v <> 0).
  { intros Z0. apply HN. apply (f_equal (@length _)) in EV. unfold elems in EV. rewrite !map_length, all_idx_length in EV. unfold size in Z0. destruct vals; [reflexivity|cbn in EV; lia]. }
  rewrite HS in HLs. destruct (a_strides a) as [|s0 [|s1 [|]]] eqn:HT; try discriminate. clear HLs.
  unfold fill_diagonal. rewrite HS, HT. change 0 with (snd (drow nc 0)) at 2.
  rewrite fill_rows_fold by lia. set (L := filter _ _).
  assert (AD : forall i j, (addr a [i; j] = a_off a + (Z.of_nat i * s0 + Z.of_nat j * s1))%Z).
  { intros i j. unfold addr, byte_offset_for. rewrite HT. cbn [dot]. lia. }
  assert (HL : forall r, In r L <-> r < dlim wrap nr nc /\ r mod (nc + 1) < nc).
  { intros r. unfold L. rewrite filter_In, in_seq, Nat.ltb_lt. rewrite Nat.sub_0_r. intuition lia. }
  assert (HB : forall r, In r L -> inb [r; r mod (nc + 1)] [nr; nc]).
  { intros r Hr. apply HL in Hr as [L1 L2]. unfold dlim in L1. constructor; [destruct wrap; lia|constructor; [exact L2|constructor]]. }
  assert (HD : NoDup L) by (apply NoDup_filter, seq_NoDup).
  clearbody L.
  destruct vals as [|v0 vals0] eqn:EVs; [congruence|]. rewrite <- EVs in *.
  destruct (stores_ok (fun r => val_at (vbuf, v) (snd (drow nc r))) (fun r => nth (snd (drow nc r) mod length vals) vals v0)
     (fun r => (a_off a + (Z.of_nat r * s0 + Z.of_nat (r mod (nc + 1)) * s1))%Z) (a_item a) HI L buf) as (buf' & E & Len & SV & OV).
  { intros r Hr. destruct (val_at_ok vbuf v vals (snd (drow nc r)) WV HC EV HZ) as (x & E1 & E2). rewrite E1. f_equal. symmetry. apply nth_error_nth. exact E2. }
  { intros r Hr. specialize (HB r Hr). rewrite <- HS in HB. destruct (HG _ HB) as [w Hw]. exists w. unfold get in Hw. fold (addr a [r; r mod (nc + 1)]) in Hw. rewrite AD in Hw. exact Hw. }
  { exact HD. }
  { intros x y Hx Hy Exy. pose proof (HB x Hx) as Bx. pose proof (HB y Hy) as By. rewrite <- HS in Bx, By. rewrite <- !AD in Exy. specialize (HJ _ _ Bx By Exy). congruence. }
  exists buf'. split; [exact E|]. split; [exact Len|]. split.
  - intros i j Hb. inversion Hb as [|? ? ? ? Hi Hb']; subst. inversion Hb' as [|? ? ? ? Hj _]; subst. split.
    + intros t Ht. apply (diag_pos_row wrap nr) in Ht as (T1 & T2 & T3); [|assumption|assumption].
      assert (HiL : In i L) by (apply HL; split; [exact T1|lia]).
      unfold get. fold (addr a [i; j]). rewrite AD, T2, (SV i HiL), T3. symmetry. apply nth_error_nth'. apply Nat.mod_upper_bound. cbn. lia.
    + intros Hn. unfold get. fold (addr a [i; j]). apply OV. intros r Hr Er. rewrite <- AD in Er.
      pose proof (HB r Hr) as Br. rewrite <- HS in Br, Hb. specialize (HJ _ _ Hb Br Er). injection HJ as -> ->.
      apply HL in Hr as [R1 R2]. apply (Hn (snd (drow nc r))). apply (diag_pos_row wrap nr); [assumption|assumption|auto].
  - intros ad Hn. apply OV. intros r Hr. rewrite <- AD. apply Hn, HB, Hr.
Qed.

(* ---- more than two axes ----------------------------------------------------------------------- *)
Lemma min_repeat n k : list_min (repeat n (S k)) = n.
Proof. cbn [repeat list_min]. induction k as [|k IH]; [reflexivity|]. cbn [repeat fold_left]. rewrite Nat.min_id. exact IH. Qed.
Lemma inb_repeat i n k : i < n -> inb (repeat i k) (repeat n k).
Proof. intros H. induction k; cbn; constructor; assumption. Qed.
Theorem fillN_ok {V} (buf vbuf : list V) a v vals wrap n k : wf buf a -> injective a -> a_shape a = repeat n (S (S (S k))) ->
  wf vbuf v -> a_c v = true -> elems vbuf v = map Some vals -> vals <> [] ->
  exists buf', fill_diagonal buf a (vbuf, v) wrap = Ok buf' /\ length buf' = length buf /\
    (forall idx, inb idx (a_shape a) ->
       (forall i, idx = repeat i (S (S (S k))) -> get buf' a idx = nth_error vals (i mod length vals)) /\
       ((forall i, idx <> repeat i (S (S (S k)))) -> get buf' a idx = get buf a idx)) /\
    (forall ad, (forall idx, inb idx (a_shape a) -> ad <> addr a idx) -> load buf' (a_item a) ad = load buf (a_item a) ad).
Proof.
  intros W HJ HS WV HC EV HN. pose proof W as (HI & _ & _ & HLs & HG & _).
  assert (HZ : size v <> 0).
  { intros Z0. apply HN. apply (f_equal (@length _)) in EV. unfold elems in EV. rewrite !map_length, all_idx_length in EV. unfold size in Z0. destruct vals; [reflexivity|cbn in EV; lia]. }
  assert (EF : fill_diagonal buf a (vbuf, v) wrap = foldM (fun buf i => bind (val_at (vbuf, v) i) (fun w =>
               store buf (a_item a) (addr a (repeat i (S (S (S k))))) w)) (seq 0 n) buf).
  { unfold fill_diagonal. unfold ndim. rewrite HS, repeat_length. cbn [repeat]. change (n :: n :: n :: repeat n k) with (repeat n (S (S (S k)))). rewrite min_repeat. reflexivity. }
  set (m := S (S (S k))) in *. rewrite EF. clear EF. 
  assert (HB : forall i, In i (seq 0 n) -> inb (repeat i m) (a_shape a)).
  { intros i Hi. apply in_seq in Hi. rewrite HS. apply inb_repeat. lia. }
  assert (RI : forall i j : nat, repeat i m = repeat j m -> i = j) by (intros i j E; unfold m in E; cbn in E; congruence).
  clearbody m.
  destruct vals as [|v0 vals0] eqn:EVs; [congruence|]. rewrite <- EVs in *.
  destruct (stores_ok (fun i => val_at (vbuf, v) i) (fun i => nth (i mod length vals) vals v0) (fun i => addr a (repeat i m)) (a_item a) HI (seq 0 n) buf) as (buf' & E & Len & SV & OV).
  { intros r Hr. destruct (val_at_ok vbuf v vals r WV HC EV HZ) as (x & E1 & E2). rewrite E1. f_equal. symmetry. apply nth_error_nth. exact E2. }
  { intros r Hr. destruct (HG _ (HB r Hr)) as [w Hw]. exists w. exact Hw. }
  { apply seq_NoDup. }
  { intros x y Hx Hy Exy. apply RI. apply HJ; auto. }
  exists buf'. split; [exact E|]. split; [exact Len|]. split.
  - intros idx Hi. split.
    + intros i ->. assert (Hin : In i (seq 0 n) \/ m = 0).
      { destruct m; [right; reflexivity|left]. rewrite HS in Hi. cbn in Hi. inversion Hi; subst. apply in_seq. lia. }
      destruct Hin as [Hin| ->]; [|specialize (RI 0 1 eq_refl); discriminate].
      unfold get. change (a_off a + byte_offset_for a (repeat i m))%Z with (addr a (repeat i m)). rewrite (SV i Hin). symmetry. apply nth_error_nth'. apply Nat.mod_upper_bound. subst vals. cbn. lia.
    + intros Hn. unfold get. fold (addr a idx). apply OV. intros i Hin Ei. apply (Hn i). apply HJ; auto.
  - intros ad Hn. apply OV. intros i Hin. apply Hn, HB, Hin.
Qed.

(* ---- eye, diag_indices --------------------------------------------------------------------- *)
Lemma eye_ok {V} (zero one : V) n : exists out, eye zero one n = Ok out /\ length out = n * n /\
  forall i j, i < n -> j < n -> nth_error out (i * n + j) = Some (if i =? j then one else zero).
Proof.
  unfold eye. destruct (write_all_spec (map (fun i => (i * n + i, one)) (seq 0 n)) (repeat zero (n * n))) as (out & E & L & S').
  { intros p v H. apply in_map_iff in H as (i & Ei & Hi). apply in_seq in Hi. injection Ei as <- _. rewrite repeat_length. nia. }
  rewrite repeat_length in L. exists out. split; [exact E|]. split; [exact L|]. intros i j Hi Hj. destruct (Nat.eqb_spec i j) as [<-|N].
  - apply S'; [apply in_map_iff; exists i; split; [reflexivity|apply in_seq; lia]|].
    intros v H. apply in_map_iff in H as (k & Ek & _). congruence.
  - rewrite (proj1 (S' _)); [apply nth_error_repeat; nia|]. intros v H. apply in_map_iff in H as (k & Ek & Hk). apply in_seq in Hk. injection Ek as Ek _.
    assert (k = i) by nia. subst. lia.
Qed.
Lemma diag_indices_ok n m : (Z.of_nat n <= 2 ^ 53)%Z ->
  length (diag_indices n m) = m /\ forall d l, nth_error (diag_indices n m) d = Some l ->
    length l = n /\ forall i, i < n -> exists c, nth_error l i = Some c /\ stores (LInt i64_ty) (PInt (Z.of_nat i)) c.
Proof.
  intros H. unfold diag_indices. split; [apply repeat_length|]. intros d l Hl. apply nth_error_In, repeat_spec in Hl. subst l.
  split; [rewrite map_length, seq_length; reflexivity|]. intros i Hi. rewrite nth_error_map', nth_error_seq.
  destruct (Nat.ltb_spec i n); [|lia]. cbn [option_map plus]. eexists. split; [reflexivity|]. apply write_f64_small; [lia|].
  cbn [fits]. unfold representable, i_min, i_max. cbn. lia.
Qed.

(* ---- ranges of mgrid and ogrid ------------------------------------------------------------------ *)
Local Open Scope Z_scope.
Lemma before_dec step stop x : step <> 0 -> (if 0 <? step then x <? stop else stop <? x) = true <-> before step stop x.
Proof. intros H. unfold before. destruct (Z.ltb_spec 0 step); rewrite Z.ltb_lt; lia. Qed.
Lemma range_loop_ok step stop : step <> 0 -> Z.abs stop < 2 ^ 51 -> Z.abs step < 2 ^ 51 -> forall m fuel v, (m < fuel)%nat -> Z.abs v < 2 ^ 52 ->
  (forall i, (i < m)%nat -> before step stop (v + Z.of_nat i * step)) -> ~ before step stop (v + Z.of_nat m * step) ->
  range_loop fuel (0 <? step) (f64_int stop) (f64_int step) (f64_int v) = Some (map (fun i => f64_int (v + Z.of_nat i * step)) (seq 0 m)).
Proof.
  intros Hs B1 B2. assert (P : 2 ^ 51 + 2 ^ 51 = 2 ^ 52 /\ 2 ^ 52 + 2 ^ 52 = 2 ^ 53) by (split; reflexivity).
  induction m as [|m IH]; intros [|fuel] v Hf Bv HB HE; try lia; cbn [range_loop];
    rewrite !fltb_int by lia; pose proof (before_dec step stop v Hs) as D.
  - rewrite Z.mul_0_l, Z.add_0_r in HE. destruct (if 0 <? step then v <? stop else stop <? v); [tauto|reflexivity].
  - assert (Hv : before step stop v) by (specialize (HB 0%nat ltac:(lia)); rewrite Z.mul_0_l, Z.add_0_r in HB; exact HB).
    rewrite (proj2 D Hv). assert (Z.abs (v + step) < 2 ^ 52) by (unfold before in Hv; lia).
    change fadd64 with (SFadd 53 1024). rewrite fadd_int by lia.
    rewrite (IH fuel (v + step)); [|lia|assumption| |].
    + cbn [option_map seq map]. rewrite Z.mul_0_l, Z.add_0_r. f_equal. f_equal. rewrite <- seq_shift, map_map. apply map_ext. intros i. f_equal. nia.
    + intros i Hi. specialize (HB (S i) ltac:(lia)). replace (v + step + Z.of_nat i * step) with (v + Z.of_nat (S i) * step) by nia. exact HB.
    + replace (v + step + Z.of_nat m * step) with (v + Z.of_nat (S m) * step) by nia. exact HE.
Qed.
Lemma integral_int z : Z.abs z < 2 ^ 53 -> integral (f64_int z) = true.
Proof.
  intros H. assert (C : forall s k, Zpos k < 2 ^ 53 -> integral (canon s k) = true).
  { intros s k Hk. unfold canon, integral. apply orb_true_iff. right. destruct (canon_m k Hk) as [-> _]. replace (- (dlen k - 53)) with (53 - dlen k) by lia.
    rewrite Z.mod_mul; [reflexivity|]. pose proof (dlen_le k 53 Hk). apply Z.pow_nonzero; lia. }
  destruct z as [|k|k]; [reflexivity| |].
  - rewrite f64_int_pos by exact H. apply C; exact H.
  - rewrite f64_int_neg by exact H. apply C; exact H.
Qed.
Lemma range_int_ok start stop step : step <> 0 -> Z.abs start < 2 ^ 51 -> Z.abs stop < 2 ^ 51 -> Z.abs step < 2 ^ 51 ->
  exists l, progression (LInt i64_ty) start stop step l /\
    forall fuel, (length l < fuel)%nat -> range_array fuel (mkG (f64_int start) (f64_int stop) (GInt step)) = Some (LInt i64_ty, l).
Proof.
  intros Hs B0 B1 B2. assert (P : 2 ^ 51 + 2 ^ 51 = 2 ^ 52 /\ 2 ^ 52 + 2 ^ 52 = 2 ^ 53) by (split; reflexivity).
  set (m := Z.to_nat (nterms start stop step)). assert (N0 : 0 <= nterms start stop step) by (unfold nterms; destruct (0 <? step); lia).
  assert (HB : forall i : nat, (i < m)%nat <-> before step stop (start + Z.of_nat i * step)).
  { intros i. rewrite <- nterms_spec by lia. unfold m. lia. }
  exists (map (write_f64 (LInt i64_ty)) (map (fun i => f64_int (start + Z.of_nat i * step)) (seq 0 m))). rewrite !map_length, seq_length. split.
  - split.
    + intros i. rewrite !map_length, seq_length. apply HB.
    + intros i c. rewrite !nth_error_map', nth_error_seq. destruct (Nat.ltb_spec i m) as [L|]; [|discriminate]. cbn [option_map Nat.add]. intros E. injection E as <-.
      apply HB in L. assert (Z.abs (start + Z.of_nat i * step) < 2 ^ 53) by (unfold before in L; nia). apply write_f64_small; [assumption|].
      cbn [fits]. unfold representable, i_min, i_max, i64_ty. cbn [signed bits]. assert (2 ^ 53 < 2 ^ (64 - 1)) by reflexivity. lia.
  - intros fuel Hf. unfold range_array. cbn [g_step g_start g_stop]. rewrite !integral_int by lia. cbn [andb].
    pose proof (range_loop_ok step stop Hs B1 B2 m fuel start Hf ltac:(lia) (fun i Hi => proj1 (HB i) Hi)) as RL.
    assert (HE : ~ before step stop (start + Z.of_nat m * step)) by (rewrite <- HB; lia). specialize (RL HE).
    destruct (Z.ltb_spec 0 step).
    + rewrite RL. reflexivity.
    + destruct (Z.ltb_spec step 0); [|lia]. rewrite RL. reflexivity.
Qed.
Lemma f64_usize_int n : (Z.of_nat n < 2 ^ 53) -> f64_usize (f64_int (Z.of_nat n)) = Z.of_nat n.
Proof.
  intros H. pose proof (f64_int_trunc (Z.of_nat n) ltac:(lia)) as T. destruct (Z.of_nat n) as [|k|k] eqn:E; [reflexivity| |lia].
  rewrite f64_int_pos in * by lia. unfold canon in *. cbn [f64_usize]. rewrite T. assert (2 ^ 53 < 2 ^ 64) by reflexivity. lia.
Qed.
Lemma range_complex_ok start stop num fuel : (1 < num)%nat -> Z.of_nat num < 2 ^ 53 -> Z.abs start < 2 ^ 53 -> Z.abs stop < 2 ^ 53 -> Z.abs (stop - start) < 2 ^ 53 ->
  (Z.of_nat num - 1 | stop - start) ->
  exists l, range_array fuel (mkG (f64_int start) (f64_int stop) (GComplex (f64_int (Z.of_nat num)))) = Some (LF64, l) /\ spaced LF64 start stop num l.
Proof.
  intros Hn Hb H1 H2 H3 HD. destruct (linspace_ok LF64 start stop num I Hn Hb H1 H2 H3 HD) as (l & E & S').
  { intros z Hz. cbn [fits]. lia. }
  exists l. split; [|exact S']. unfold range_array. cbn [g_step g_start g_stop]. rewrite f64_usize_int, Nat2Z.id by exact Hb.
  unfold linspace in E. destruct (alloc (Z.of_nat num) (ld_item LF64)); cbn [bind] in E; try discriminate.
  destruct (Nat.ltb_spec 1 num); [|lia]. injection E as <-. destruct num as [|[|num]]; [lia|lia|]. reflexivity.
Qed.
