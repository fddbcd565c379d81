(* Proofs about ediff1d, trim_zeros, unstack, block, unwrap. *)
From Verif Require Import Base Lists Arr_Spec Arr_Model Arr_Wf Arr_Proofs Copy_Model Copy_Proofs Idx_Model Idx_Wf Idx_Assign Elem_Model Elem_Proofs
  Red_Spec Red_Model Red_Proofs Red_Scan Sort_Lanes Gu_Model Gu_Proofs Man_Model Man_Proofs Man_Edit Man_Ops Man_Ops2 Sel_Spec Sel_Proofs Sel_Ops Lay_Copy Msk_Spec Msk_Model Msk_Proofs Msk_More.
Local Open Scope nat_scope.

(* ---------- ediff1d ---------- *)
Lemma consecutive_length {A} (sub : A -> A -> A) l : length (consecutive sub l) = length l - 1.
Proof. induction l as [|x [|y l] IH]; try reflexivity. cbn [consecutive length] in *. lia. Qed.
Lemma consecutive_nth {A} (sub : A -> A -> A) : forall l k x y, nth_error l k = Some x -> nth_error l (S k) = Some y ->
  nth_error (consecutive sub l) k = Some (sub y x).
Proof.
  induction l as [|u [|w l] IH]; intros k x y Hx Hy; [destruct k; discriminate|destruct k as [|[|]]; discriminate|].
  destruct k as [|k].
  - cbn in Hx, Hy. injection Hx as <-. injection Hy as <-. reflexivity.
  - change (nth_error (consecutive sub (w :: l)) k = Some (sub y x)). apply IH; assumption.
Qed.

Lemma edge_arr {V} (x : @nd V) vals : wf (fst x) (snd x) -> elems (fst x) (snd x) = map Some vals -> edge_vals (EdgeArr (operand_of x)) = Ok vals.
Proof. intros W E. cbn [edge_vals operand_of o_arr o_read]. exact (read_offsets (fst x) (snd x) vals W E). Qed.

Lemma ediff1d_spec {V} (sub : V -> V -> V) buf a vals b bv e ev : wf buf a -> elems buf a = map Some vals ->
  edge_vals b = Ok bv -> edge_vals e = Ok ev -> ediff1d sub buf a b e = Ok (bv ++ consecutive sub vals ++ ev).
Proof.
  intros W E EB EE. pose proof (elems_len _ _ _ E) as HL. unfold ediff1d. rewrite EB, EE. cbn [bind].
  destruct (Nat.ltb_spec 1 (size a)) as [H1|H1].
  - assert (HM : mapM (fun i =>
            bind (if a_c a then Ok (Z.of_nat i * a_item a)%Z else at_ (iter_offsets a) i) (fun o =>
            bind (if a_c a then Ok (Z.of_nat (i - 1) * a_item a)%Z else at_ (iter_offsets a) (i - 1)) (fun o' =>
            bind (read buf a o) (fun cur => bind (read buf a o') (fun prev => Ok (sub cur prev))))))
            (seq 1 (size a - 1)) = Ok (consecutive sub vals)).
    { apply mapM_list, Forall2_of_nth; [rewrite seq_length, consecutive_length; lia|].
      intros k x y Hx Hy. rewrite nth_error_seq in Hx. destruct (Nat.ltb_spec k (size a - 1)) as [Hk|]; [|discriminate]. injection Hx as <-.
      destruct (elem_at buf a vals (S k) W E ltac:(lia)) as (v & o & Hv & Ho & HR & EO & _).
      destruct (elem_at buf a vals k W E ltac:(lia)) as (v' & o' & Hv' & Ho' & HR' & EO' & _).
      rewrite (consecutive_nth sub vals k v' v Hv' Hv) in Hy. injection Hy as <-.
      replace (S k - 1) with k by lia. unfold at_. rewrite Ho, Ho'.
      destruct (a_c a) eqn:EC; cbn [bind].
      - rewrite (contig_offset buf a (S k) W EC) in EO by lia. rewrite (contig_offset buf a k W EC) in EO' by lia. rewrite <- EO, <- EO', HR, HR'. reflexivity.
      - rewrite HR, HR'. reflexivity. }
    rewrite HM. reflexivity.
  - destruct vals as [|x [|y vals]]; try reflexivity. simpl in HL. lia.
Qed.

(* ---------- trim_zeros ---------- *)
Lemma find_nonzero_spec test (t : nat -> bool) : forall l, (forall i, In i l -> test i = Ok (t i)) -> find_nonzero test l = Ok (find t l).
Proof.
  induction l as [|i l IH]; intros H; [reflexivity|]. cbn [find_nonzero find]. rewrite (H i (or_introl eq_refl)). cbn [bind].
  destruct (t i); [reflexivity|]. apply IH. intros; apply H; right; assumption.
Qed.
Lemma find_seq t : forall n s, match find t (seq s n) with
  | Some i => s <= i < s + n /\ t i = true /\ (forall j, s <= j < i -> t j = false)
  | None => forall j, s <= j < s + n -> t j = false end.
Proof.
  induction n as [|n IH]; intros s; cbn [seq find]; [intros; lia|]. destruct (t s) eqn:E.
  - split; [lia|]. split; [exact E|]. intros; lia.
  - specialize (IH (S s)). destruct (find t (seq (S s) n)) as [i|].
    + destruct IH as (H1 & H2 & H3). split; [lia|]. split; [exact H2|]. intros j Hj. destruct (Nat.eq_dec j s) as [->|]; [exact E|]. apply H3. lia.
    + intros j Hj. destruct (Nat.eq_dec j s) as [->|]; [exact E|]. apply IH. lia.
Qed.
Lemma find_rev_seq t : forall n, match find t (rev (seq 0 n)) with
  | Some i => i < n /\ t i = true /\ (forall j, i < j < n -> t j = false)
  | None => forall j, j < n -> t j = false end.
Proof.
  induction n as [|n IH]; [cbn; intros; lia|]. rewrite seq_S, rev_app_distr. cbn [rev app find Nat.add]. destruct (t n) eqn:E.
  - split; [lia|]. split; [exact E|]. intros; lia.
  - destruct (find t (rev (seq 0 n))) as [i|].
    + destruct IH as (H1 & H2 & H3). split; [lia|]. split; [exact H2|]. intros j Hj. destruct (Nat.eq_dec j n) as [->|]; [exact E|]. apply H3. lia.
    + intros j Hj. destruct (Nat.eq_dec j n) as [->|]; [exact E|]. apply IH. lia.
Qed.

Lemma elems_1d {V} (buf : list V) a n : a_shape a = [n] -> elems buf a = map (fun i => get buf a [i]) (seq 0 n).
Proof.
  intros HS. unfold elems. rewrite HS. cbn [all_idx map]. rewrite <- (map_map (fun i => [i]) (get buf a)). f_equal.
Qed.
Lemma Forall_nth_lt {A} (P : A -> Prop) (l : list A) : (forall k x, nth_error l k = Some x -> P x) -> Forall P l.
Proof. intros H. apply Forall_forall. intros x Hx. apply In_nth_error in Hx as [k Hk]. eapply H, Hk. Qed.

(* the bounds found by the two scans *)
Lemma trim_bounds {A} (nz : A -> bool) (front back : bool) (l : list A) d : l <> [] ->
  let t i := nz (nth i l d) in
  let n := length l in
  let first := if front then match find t (seq 0 n) with Some i => i | None => n end else 0 in
  let last := if back then match find t (rev (seq 0 n)) with Some i => i + 1 | None => first end else n in
  first <= n /\ last <= n /\
  (last <= first -> trimmed (fun x => negb (nz x)) front back l []) /\
  (first < last -> trimmed (fun x => negb (nz x)) front back l (firstn (last - first) (skipn first l))).
Proof.
  intros NE t n first last. assert (HN : 0 < n) by (unfold n; destruct l; [congruence|cbn; lia]).
  assert (NT : forall k x, nth_error l k = Some x -> t k = nz x) by (intros k x Hx; unfold t; rewrite (nth_error_nth _ _ d Hx); reflexivity).
  assert (LT : forall k x, nth_error l k = Some x -> k < n) by (intros k x Hx; apply nth_error_Some; congruence).
  pose proof (find_seq t n 0) as HF. pose proof (find_rev_seq t n) as HB.
  assert (CASES : (forall j, j < n -> t j = false) /\ find t (seq 0 n) = None /\ find t (rev (seq 0 n)) = None \/
                  exists i j, find t (seq 0 n) = Some i /\ find t (rev (seq 0 n)) = Some j /\ i <= j /\ j < n /\ t i = true /\ t j = true /\
                    (forall k, k < i -> t k = false) /\ (forall k, j < k < n -> t k = false)).
  { destruct (find t (seq 0 n)) as [i|], (find t (rev (seq 0 n))) as [j|].
    - right. exists i, j. destruct HF as (F1 & F2 & F3), HB as (B1 & B2 & B3). split; [reflexivity|]. split; [reflexivity|].
      assert (i <= j). { destruct (Nat.le_gt_cases i j); [assumption|]. assert (t i = false) by (apply B3; lia). congruence. }
      split; [assumption|]. split; [exact B1|]. split; [exact F2|]. split; [exact B2|]. split; [intros; apply F3; lia|exact B3].
    - exfalso. destruct HF as (F1 & F2 & _). rewrite HB in F2 by lia. discriminate.
    - exfalso. destruct HB as (B1 & B2 & _). rewrite HF in B2 by lia. discriminate.
    - left. split; [|auto]. intros j Hj. apply HF. lia. }
  destruct CASES as [(ALL & E1 & E2)|(i & j & E1 & E2 & Hij & Hj & Ti & Tj & BI & BJ)].
  - assert (AZ : Forall (fun x => negb (nz x) = true) l).
    { apply Forall_nth_lt. intros k x Hx. rewrite <- (NT k x Hx), ALL by (eapply LT, Hx). reflexivity. }
    unfold last, first. rewrite E1, E2. destruct front, back; (split; [lia|]; split; [lia|]; split; intros HH; try lia).
    + exists l, []. rewrite !app_nil_r. split; [reflexivity|]. split; [exact AZ|]. split; [constructor|]. split; [discriminate|]. split; [discriminate|]. split; [auto|]. split; auto.
    + exists l, []. rewrite !app_nil_r. split; [reflexivity|]. split; [exact AZ|]. split; [constructor|]. split; [discriminate|]. split; [auto|]. split; [auto|]. split; auto.
    + exists [], l. split; [reflexivity|]. split; [constructor|]. split; [exact AZ|]. split; [auto|]. split; [discriminate|]. split; [auto|]. split; auto.
    + rewrite Nat.sub_0_r. cbn [skipn]. rewrite firstn_all2 by (unfold n; lia). exists [], []. rewrite app_nil_r. split; [reflexivity|].
      split; [constructor|]. split; [constructor|]. split; [auto|]. split; [auto|]. split; [discriminate|]. split; [discriminate|]. intros [H|H]; discriminate.
  - assert (HF1 : first <= i) by (unfold first; rewrite E1; destruct front; lia).
    assert (HL1 : j + 1 <= last <= n) by (unfold last; rewrite E2; destruct back; lia).
    assert (FF : front = true -> first = i) by (intros ->; unfold first; rewrite E1; reflexivity).
    assert (FN : front = false -> first = 0) by (intros ->; reflexivity).
    assert (BB : back = true -> last = j + 1) by (intros ->; unfold last; rewrite E2; reflexivity).
    assert (BN : back = false -> last = n) by (intros ->; reflexivity).
    clearbody first last. split; [lia|]. split; [lia|]. split; [lia|]. intros _.
    assert (NTH : forall k, k < last - first -> nth_error (firstn (last - first) (skipn first l)) k = nth_error l (first + k)).
    { intros k Hk. rewrite nth_error_firstn_lt by exact Hk. apply nth_error_skipn. }
    assert (LEN : length (firstn (last - first) (skipn first l)) = last - first) by (rewrite firstn_length, skipn_length; fold n; lia).
    exists (firstn first l), (skipn last l).
    split.
    { replace (skipn last l) with (skipn (last - first) (skipn first l)).
      - rewrite firstn_skipn, firstn_skipn. reflexivity.
      - clear - HL1 HF1 Hij. replace last with (first + (last - first)) at 2 by lia. generalize (last - first) as m. clear. revert l.
        induction first as [|f IH]; intros l m; [reflexivity|]. destruct l as [|x l]; [destruct m; reflexivity|]. cbn [skipn Nat.add]. apply IH. }
    split.
    { apply Forall_nth_lt. intros k x Hx. assert (k < first) by (assert (k < length (firstn first l)) by (apply nth_error_Some; congruence); rewrite firstn_length in *; lia).
      rewrite nth_error_firstn_lt in Hx by assumption. rewrite <- (NT k x Hx), BI by lia. reflexivity. }
    split.
    { apply Forall_nth_lt. intros k x Hx. rewrite nth_error_skipn in Hx. rewrite <- (NT _ x Hx), BJ; [reflexivity|]. split; [lia|eapply LT, Hx]. }
    split; [intros H; rewrite (FN H); reflexivity|].
    split; [intros H; rewrite (BN H); apply skipn_all2; unfold n; lia|].
    split.
    { intros H. right. pose proof (NTH 0 ltac:(lia)) as H0. replace (first + 0) with i in H0 by (rewrite (FF H); lia).
      destruct (firstn (last - first) (skipn first l)) as [|x r']; [cbn in LEN; lia|].
      exists x, r'. split; [reflexivity|]. cbn [nth_error] in H0. rewrite <- (NT i x) by (symmetry; exact H0). rewrite Ti. reflexivity. }
    split.
    { intros H. right. pose proof (NTH (last - first - 1) ltac:(lia)) as H0. replace (first + (last - first - 1)) with j in H0 by (rewrite (BB H) in *; lia).
      set (r := firstn (last - first) (skipn first l)) in *. assert (HRN : r <> []) by (destruct r; [cbn in LEN; lia|discriminate]).
      destruct (exists_last HRN) as (r' & x & Er). exists x, r'. split; [exact Er|].
      assert (HLR : length r' = last - first - 1) by (rewrite Er, app_length in LEN; cbn in LEN; lia).
      rewrite Er, nth_error_app2 in H0 by lia. replace (last - first - 1 - length r') with 0 in H0 by lia. cbn [nth_error] in H0.
      rewrite <- (NT j x) by (symmetry; exact H0). rewrite Tj. reflexivity. }
    intros _ HA. exfalso. destruct (nth_error l i) as [x|] eqn:Ex.
    + rewrite Forall_forall in HA. specialize (HA x (nth_error_In _ _ Ex)). cbv beta in HA. rewrite <- (NT i x Ex), Ti in HA. discriminate.
    + apply nth_error_None in Ex. fold n in Ex. lia.
Qed.

Lemma trim_zeros_spec {V} (nonzero : V -> bool) typed word front back buf a n stride vals : wf buf a ->
  a_shape a = [n] -> a_strides a = [stride] -> (0 <= stride)%Z -> elems buf a = map Some vals ->
  exists buf' a' r, trim_zeros nonzero typed word front back buf a = Ok (buf', a') /\ a_shape a' = [length r] /\
    elems buf' a' = map Some r /\ trimmed (fun v => negb (nonzero v)) front back vals r.
Proof.
  intros W HS HT HP E. pose proof (elems_len _ _ _ E) as HL. pose proof W as (HI & _).
  assert (SZ : size a = n) by (unfold size; rewrite HS; cbn [prod]; lia).
  unfold trim_zeros. unfold ndim. rewrite HS. cbn [length Nat.eqb negb]. rewrite SZ.
  destruct (Nat.eqb_spec n 0) as [H0|H0].
  { exists buf, a, vals. split; [reflexivity|]. split; [rewrite HS; f_equal; lia|]. split; [exact E|].
    destruct vals; [|cbn in HL; lia]. exists [], []. split; [reflexivity|]. split; [constructor|]. split; [constructor|]. auto 10. }
  destruct vals as [|d vals']; [cbn in HL; lia|]. set (vals := d :: vals') in *.
  set (test := fun i => bind (if a_c a && typed then Ok (Z.of_nat i * a_item a)%Z else at_ (iter_offsets a) i) _).
  assert (HTE : forall i, i < n -> test i = Ok (nonzero (nth i vals d))).
  { intros i Hi. unfold test. destruct (elem_at buf a vals i W E ltac:(lia)) as (v & o & Hv & Ho & HR & EO & _).
    rewrite (nth_error_nth _ _ d Hv). destruct (a_c a && typed) eqn:EC; cbn [bind].
    - apply andb_true_iff in EC as [EC _]. rewrite (contig_offset buf a i W EC) in EO by lia. rewrite <- EO, HR. reflexivity.
    - unfold at_. rewrite Ho. cbn [bind]. rewrite HR. reflexivity. }
  rewrite (find_nonzero_spec test (fun i => nonzero (nth i vals d)) (seq 0 n)) by (intros i Hi; apply in_seq in Hi; apply HTE; lia).
  rewrite (find_nonzero_spec test (fun i => nonzero (nth i vals d)) (rev (seq 0 n))) by (intros i Hi; apply in_rev, in_seq in Hi; apply HTE; lia).
  cbn [bind].
  pose proof (trim_bounds nonzero front back vals d ltac:(discriminate)) as TB. cbv zeta in TB. rewrite HL, SZ in TB.
  set (first := if front then match find _ (seq 0 n) with Some i => i | None => n end else 0) in *.
  assert (E1 : (if front then Ok (match find (fun i => nonzero (nth i vals d)) (seq 0 n) with Some i => i | None => n end) else Ok 0) = Ok first) by (unfold first; destruct front; reflexivity).
  rewrite E1. cbn [bind].
  set (last := if back then match find _ (rev (seq 0 n)) with Some i => i + 1 | None => first end else n) in *.
  assert (E2 : (if back then Ok (match find (fun i => nonzero (nth i vals d)) (rev (seq 0 n)) with Some i => i + 1 | None => first end) else Ok n) = Ok last) by (unfold last; destruct back; reflexivity).
  rewrite E2. cbn [bind]. clearbody first last. destruct TB as (B1 & B2 & T1 & T2).
  destruct (Nat.leb_spec last first) as [HLE|HLT].
  - exists [], (fresh [0] (a_item a)), []. split; [reflexivity|]. split; [reflexivity|]. split; [reflexivity|]. exact (T1 HLE).
  - destruct (slice_axis_piece buf a 0 n stride first (last - first) W) as (p & EP & WP & SP & IP & _ & LP).
    { rewrite HS. reflexivity. } { rewrite HT. reflexivity. } { left. exact HP. } { lia. }
    replace (Z.of_nat first + Z.of_nat (last - first))%Z with (Z.of_nat last) in EP by lia. rewrite EP. cbn [bind].
    destruct (copy_buf_spec buf p word WP) as (out & EO & EE & LO). rewrite EO. cbn [bind].
    rewrite HS in SP. cbn [upd] in SP. set (r := firstn (last - first) (skipn first vals)).
    assert (LR : length r = last - first) by (unfold r; rewrite firstn_length, skipn_length; fold vals; lia).
    assert (RV : out = r).
    { apply map_Some_inj. rewrite <- EE, (elems_1d buf p (last - first) SP).
      specialize (LP [] ltac:(rewrite HS; constructor)). unfold lane in LP. rewrite SP in LP. cbn [nth insert_at] in LP. rewrite LP.
      rewrite (elems_1d buf a n HS) in E. unfold r.
      apply nth_error_ext. intros k. rewrite nth_error_map', nth_error_seq.
      destruct (Nat.ltb_spec k (last - first)) as [Hk|Hk].
      - rewrite nth_error_map', nth_error_firstn_lt, nth_error_skipn by exact Hk. cbn [option_map]. 
        pose proof (f_equal (fun l => nth_error l (first + k)) E) as EN. cbv beta in EN. rewrite !nth_error_map', nth_error_seq in EN.
        destruct (Nat.ltb_spec (first + k) n); [|lia]. exact EN.
      - symmetry. apply nth_error_None. rewrite map_length. fold r. lia. }
    exists out, (fresh (a_shape p) (a_item p)), r. split; [reflexivity|]. split; [cbn [fresh a_shape]; rewrite SP, LR; reflexivity|].
    split; [|exact (T2 HLT)]. rewrite RV. rewrite (elems_1d _ _ (last - first)) by (cbn [fresh a_shape]; exact SP).
    apply nth_error_ext. intros k. rewrite !nth_error_map', nth_error_seq. destruct (Nat.ltb_spec k (last - first)) as [Hk|Hk].
    + cbn [option_map Nat.add]. rewrite fresh_get by (rewrite IP; exact HI). rewrite SP. cbn [rank prod].
      replace (k * 1 + 0) with k by lia. destruct (nth_error r k) eqn:EN; [reflexivity|]. apply nth_error_None in EN. lia.
    + cbn [option_map]. destruct (nth_error r k) eqn:EN; [|reflexivity]. assert (k < length r) by (apply nth_error_Some; congruence). lia.
Qed.

Lemma nth_insert_at axis (j : nat) oi : axis <= length oi -> nth axis (insert_at axis j oi) 0 = j.
Proof. intros H. apply (insert_at_parts axis j oi H). Qed.

Lemma Forall2_nth' {A B} (P : A -> B -> Prop) l m : Forall2 P l m -> forall k x, nth_error l k = Some x -> exists y, nth_error m k = Some y /\ P x y.
Proof.
  induction 1 as [|x y l m H F IH]; intros [|k] u Hu; try discriminate; [injection Hu as <-; exists y; auto|apply IH, Hu].
Qed.

(* ---------- unstack ---------- *)
Lemma unstack_spec {V} (buf : list V) a ax axis n stride : wf buf a -> norm_axis (ndim a) ax = Some axis ->
  nth_error (a_shape a) axis = Some n -> nth_error (a_strides a) axis = Some stride -> (0 <= stride)%Z \/ n <= 1 ->
  exists l, unstack a ax = Ok l /\ length l = n /\
    forall i p, nth_error l i = Some p -> is_view buf a p (remove_at axis (a_shape a)) (insert_at axis i).
Proof.
  intros W HA Hn Hs HP. unfold unstack.
  assert (HX : axis < length (a_shape a)) by (apply nth_error_Some; congruence).
  destruct (Nat.eqb_spec (ndim a) 0) as [H0|_]; [unfold ndim in H0; lia|]. rewrite HA. rewrite (at_ok _ _ _ Hn). cbn [bind].
  set (f := fun i => bind _ _).
  assert (HF : forall i, i < n -> exists p, f i = Ok p /\ is_view buf a p (remove_at axis (a_shape a)) (insert_at axis i)).
  { intros i Hi. unfold f.
    destruct (slice_axis_is_view buf a axis (Z.of_nat i) (Z.of_nat i + 1) 1 n stride W Hn Hs) as (q & m & EQ & Hm & SQ & WQ & GQ).
    { left. lia. } { destruct HP as [HP|HP]; [left; exact HP|right; lia]. }
    assert (m = 1).
    { assert (~ 1 < m) by (intros H; apply (proj1 (Hm 1)) in H; unfold in_slice in H; lia).
      assert (0 < m) by (apply (proj2 (Hm 0)); unfold in_slice; lia). lia. }
    subst m. rewrite EQ. cbn [bind]. exists (squeeze_axis q axis). split; [reflexivity|].
    destruct (squeeze_axis_is_view buf q axis WQ) as [SV _].
    destruct SV as (SP & WP & GP). { rewrite SQ. apply nth_error_upd_eq, HX. }
    assert (RS : remove_at axis (a_shape q) = remove_at axis (a_shape a)) by (rewrite SQ; apply remove_at_upd).
    split; [rewrite SP, RS; reflexivity|]. split; [exact WP|]. intros idx Hi'.
    assert (HI2 : inb idx (remove_at axis (a_shape q))) by (rewrite RS; exact Hi').
    destruct (GP idx HI2) as [G1 G2]. destruct (GQ (insert_at axis 0 idx)) as [G3 G4].
    { rewrite <- SQ. exact G1. }
    assert (EI : slice_idx axis (Z.of_nat i) 1 (insert_at axis 0 idx) = insert_at axis i idx).
    { assert (HLI : axis <= length idx) by (apply inb_length in Hi'; rewrite Hi'; pose proof (remove_at_length axis (a_shape a) HX); lia).
      unfold slice_idx. rewrite upd_insert_at by exact HLI. f_equal. rewrite nth_insert_at by exact HLI. lia. }
    rewrite EI in G3, G4. split; [exact G3|]. rewrite G2. exact G4. }
  assert (HM : forall l, (forall i, In i l -> i < n) -> exists ps, mapM f l = Ok ps /\ Forall2 (fun i p => is_view buf a p (remove_at axis (a_shape a)) (insert_at axis i)) l ps).
  { induction l as [|i l IH]; intros HL; [exists []; split; [reflexivity|constructor]|].
    destruct (HF i (HL i (or_introl eq_refl))) as (p & E & VW). destruct IH as (ps & E' & F); [intros; apply HL; right; assumption|].
    exists (p :: ps). cbn [mapM]. rewrite E, E'. split; [reflexivity|constructor; assumption]. }
  destruct (HM (seq 0 n)) as (ps & E & F). { intros i Hi. apply in_seq in Hi. lia. }
  exists ps. rewrite E. split; [reflexivity|].
  assert (LP : length ps = n) by (rewrite <- (seq_length n 0); symmetry; clear - F; induction F; cbn; congruence).
  split; [exact LP|]. intros i p Hp. assert (Hi : i < n) by (rewrite <- LP; apply nth_error_Some; congruence).
  destruct (Forall2_nth' _ _ _ F i i) as (p' & Hp' & VW); [rewrite nth_error_seq; destruct (Nat.ltb_spec i n); [reflexivity|lia]|].
  rewrite Hp in Hp'. injection Hp' as <-. exact VW.
Qed.

(* ---------- block ---------- *)
Lemma nth_error_pieces {A B} (f : A -> list B) : forall l q x j, nth_error l q = Some x -> j < length (f x) ->
  nth_error (concat (map f l)) (start (map (fun y => length (f y)) l) q + j) = nth_error (f x) j.
Proof.
  induction l as [|y l IH]; intros [|q] x j Hx Hj; try discriminate; cbn [map concat].
  - injection Hx as ->. unfold start. cbn [firstn list_sum Nat.add]. apply nth_error_app1, Hj.
  - unfold start. cbn [firstn]. change (list_sum (length (f y) :: firstn q (map (fun y => length (f y)) l)))
      with (length (f y) + start (map (fun y => length (f y)) l) q).
    rewrite nth_error_app2 by lia. replace (length (f y) + _ + j - length (f y)) with (start (map (fun y => length (f y)) l) q + j) by lia.
    apply IH; assumption.
Qed.

Definition part_ok {V} (it : Z) (axis : nat) (osh : list nat) (x : @nd V) (n : nat) : Prop :=
  wf (fst x) (snd x) /\ a_item (snd x) = it /\ a_shape (snd x) = insert_at axis n osh.

Lemma list_max_const {A} (f : A -> nat) d l : l <> [] -> (forall x, In x l -> f x = d) -> list_max (map f l) = d.
Proof.
  induction l as [|x l IH]; intros NE H; [congruence|]. cbn [map]. change (list_max (f x :: map f l)) with (Nat.max (f x) (list_max (map f l))).
  rewrite (H x (or_introl eq_refl)). destruct l as [|y l]; [cbn; lia|]. rewrite IH; [lia|discriminate|intros; apply H; right; assumption].
Qed.

Lemma join_blocks_spec {V} (zero : V) it axis osh (l : list (@nd V)) ns : l <> [] -> axis <= length osh ->
  Forall2 (part_ok it axis osh) l ns ->
  (Z.of_nat (prod (insert_at axis (list_sum ns) osh)) * it < 2 ^ 63)%Z ->
  exists y, join_blocks zero axis l = Ok y /\ part_ok it axis osh y (list_sum ns) /\
    forall q x n j oi, nth_error l q = Some x -> nth_error ns q = Some n -> j < n -> inb oi osh ->
      get (fst y) (snd y) (insert_at axis (start ns q + j) oi) = get (fst x) (snd x) (insert_at axis j oi).
Proof.
  intros NE HA F HB. destruct l as [|x0 l']; [congruence|]. destruct ns as [|n0 ns']; [inversion F|].
  assert (H0 : part_ok it axis osh x0 n0) by (inversion F; assumption). destruct H0 as (W0 & I0 & S0).
  pose proof W0 as (HI & _).
  destruct l' as [|x1 l''].
  - inversion F as [|? ? ? ? _ F']; subst. inversion F'; subst. exists x0. split; [reflexivity|]. cbn [list_sum fold_right] in *.
    replace (n0 + 0) with n0 by lia. split; [repeat (split; [first [assumption|reflexivity]|]); assumption|].
    intros [|q] x n j oi Hx Hn Hj Ho; [|destruct q; discriminate]. injection Hx as <-. unfold start. cbn [firstn list_sum fold_right Nat.add]. reflexivity.
  - set (l := x0 :: x1 :: l'') in *. set (ns := n0 :: ns') in *.
    assert (ALL : forall x, In x l -> exists n, part_ok it axis osh x n).
    { intros x Hx. apply In_nth_error in Hx as [k Hk]. destruct (Forall2_nth' _ _ _ F k x Hk) as (n & _ & P). exists n; exact P. }
    change (join_blocks zero axis l) with
      (bind (if axis <? list_max (map (fun b => ndim (snd b)) l) then Ok axis else if list_max (map (fun b => ndim (snd b)) l) =? 0 then Panic else Ok (list_max (map (fun b => ndim (snd b)) l) - 1)) (fun axis =>
       bind (concat_nd zero l axis) (fun r => Ok (snd r, fresh (fst r) (a_item (snd x0)))))).
    assert (EMX : list_max (map (fun b : @nd V => ndim (snd b)) l) = S (length osh)).
    { apply list_max_const; [discriminate|]. intros x Hx. destruct (ALL x Hx) as (n & _ & _ & SX). unfold ndim. rewrite SX. apply insert_at_length. }
    set (mx := list_max _) in *. rewrite EMX. destruct (Nat.ltb_spec axis (S (length osh))) as [_|]; [|lia]. cbn [bind].
    destruct (concat_nd_spec zero l x0 axis eq_refl) as [CN _]. { intros x Hx. destruct (ALL x Hx) as (n & W & _). exact W. }
    destruct CN as (out & EO & LO & LN).
    { rewrite S0. split; [rewrite insert_at_length; lia|]. intros x Hx. destruct (ALL x Hx) as (n & _ & _ & SX). rewrite SX.
      rewrite !insert_at_length. rewrite !remove_insert_at by lia. split; reflexivity. }
    assert (AL : map (axis_len axis) l = ns).
    { assert (G : forall (l : list (@nd V)) ns, Forall2 (part_ok it axis osh) l ns -> map (axis_len axis) l = ns).
      { induction 1 as [|x n lx lns (_ & _ & SX) FF IH]; [reflexivity|]. cbn [map]. rewrite IH. f_equal. unfold axis_len. rewrite SX. apply nth_insert_at, HA. }
      apply G, F. }
    rewrite AL, S0 in *. rewrite upd_insert_at in * by exact HA. rewrite remove_insert_at in LN by exact HA.
    rewrite EO. cbn [bind fst snd]. rewrite I0. eexists. split; [reflexivity|].
    assert (HI' : (0 < it)%Z) by (rewrite <- I0; exact HI).
    split.
    { split; [cbn [fst snd]; apply fresh_wf; [exact HI'|rewrite LO; exact HB|exact LO]|]. split; reflexivity. }
    intros q x n j oi Hx Hn Hj Ho. cbn [fst snd]. destruct (Forall2_nth' _ _ _ F q x Hx) as (n' & Hn' & (_ & _ & SX)). rewrite Hn in Hn'. injection Hn' as <-.
    pose proof (LN it oi HI' Ho) as LNN.
    pose proof (f_equal (fun l => nth_error l (start ns q + j)) LNN) as EN. cbv beta in EN.
    assert (LEN : map (fun y : @nd V => length (lane (fst y) (snd y) axis oi)) l = ns).
    { rewrite <- AL. apply map_ext. intros y. rewrite lane_length. reflexivity. }
    pose proof (nth_error_pieces (fun x : @nd V => lane (fst x) (snd x) axis oi) l q x j Hx) as NP. cbv beta in NP. rewrite LEN in NP.
    specialize (fun H => eq_trans EN (NP H)). clear EN. intros EN. specialize (EN ltac:(rewrite lane_length, SX; rewrite nth_insert_at by exact HA; exact Hj)).
    assert (ST : start ns q + j < list_sum ns).
    { clear - Hn Hj. revert q Hn. induction ns as [|m ns IH]; intros [|q] Hn; try discriminate; unfold start in *; cbn [firstn list_sum fold_right].
      - injection Hn as ->. lia.
      - specialize (IH q Hn). change (fold_right Nat.add 0 (firstn q ns)) with (list_sum (firstn q ns)). change (fold_right Nat.add 0 ns) with (list_sum ns). lia. }
    unfold lane in EN. rewrite !nth_error_map', !nth_error_seq in EN. cbn [fresh a_shape] in EN. rewrite SX in EN. rewrite !nth_insert_at in EN by exact HA.
    destruct (Nat.ltb_spec (start ns q + j) (list_sum ns)) as [_|]; [|lia]. destruct (Nat.ltb_spec j n) as [_|]; [|lia].
    cbn [option_map Nat.add] in EN. injection EN as EN. exact EN.
Qed.

(* ---------- unwrap ---------- *)
Lemma unwrap_from_length half d : forall l p c, length (unwrap_from half d p c l) = length l.
Proof. induction l as [|x l IH]; intros p c; [reflexivity|]. cbn [unwrap_from length]. rewrite IH. reflexivity. Qed.
Lemma unwrap_from_multiple half d : forall l p c, (exists m, c = m * (2 * half))%Z -> forall k x y,
  nth_error l k = Some x -> nth_error (unwrap_from half d p c l) k = Some y -> exists m, (y = x + m * (2 * half))%Z.
Proof.
  induction l as [|u l IH]; intros p c [m Hm] k x y Hx Hy; [destruct k; discriminate|]. cbn [unwrap_from] in Hy.
  set (c' := (if (d <? Z.abs (u - p))%Z then _ else c)) in Hy.
  assert (HC : exists m, (c' = m * (2 * half))%Z).
  { unfold c'. destruct (d <? Z.abs (u - p))%Z; [|exists m; exact Hm]. exists (m - (u - p + half) / (2 * half))%Z. rewrite Hm. ring. }
  destruct k as [|k].
  - cbn in Hx, Hy. injection Hx as <-. injection Hy as <-. destruct HC as [m' ->]. exists m'. reflexivity.
  - exact (IH u c' HC k x y Hx Hy).
Qed.
Lemma unwrap_from_steps half d : (0 < half)%Z -> forall l p c k x x' y y',
  nth_error (p :: l) k = Some x -> nth_error l k = Some x' ->
  nth_error ((p + c)%Z :: unwrap_from half d p c l) k = Some y -> nth_error (unwrap_from half d p c l) k = Some y' ->
  ((Z.abs (x' - x) <= d /\ y' - y = x' - x) \/ (d < Z.abs (x' - x) /\ Z.abs (y' - y) <= half))%Z.
Proof.
  intros HH. induction l as [|u l IH]; intros p c k x x' y y' Hx Hx' Hy Hy'; [destruct k; discriminate|]. cbn [unwrap_from] in Hy, Hy'.
  set (c' := (if (d <? Z.abs (u - p))%Z then _ else c)) in *.
  destruct k as [|k].
  - cbn in Hx, Hx', Hy, Hy'. injection Hx as <-. injection Hx' as <-. injection Hy as <-. injection Hy' as <-.
    unfold c'. destruct (Z.ltb_spec d (Z.abs (u - p))) as [H|H].
    + right. split; [exact H|]. pose proof (Z.div_mod (u - p + half) (2 * half) ltac:(lia)). pose proof (Z.mod_pos_bound (u - p + half) (2 * half) ltac:(lia)).
      set (q := ((u - p + half) / (2 * half))%Z) in *. set (r := ((u - p + half) mod (2 * half))%Z) in *. lia.
    + left. split; [exact H|]. lia.
  - exact (IH u c' k x x' y y' Hx Hx' Hy Hy').
Qed.
Lemma unwrap_lane_spec half d l : (0 < half)%Z -> unwrapped half d l (unwrap_lane half d l).
Proof.
  intros HH. destruct l as [|x l].
  - split; [reflexivity|]. split; [intros; discriminate|]. split; intros [|k]; intros; discriminate.
  - unfold unwrap_lane. split; [cbn [length]; rewrite unwrap_from_length; reflexivity|]. split; [intros y H; exact H|]. split.
    + intros [|k] u y Hu Hy.
      * cbn in Hu, Hy. injection Hu as <-. injection Hy as <-. exists 0%Z. lia.
      * apply (unwrap_from_multiple half d l x 0 (ex_intro _ 0%Z eq_refl) k u y Hu Hy).
    + intros k u u' y y' Hu Hu' Hy Hy'. rewrite Nat.add_1_r in Hu', Hy'.
      apply (unwrap_from_steps half d HH l x 0 k u u' y y' Hu Hu'); [rewrite Z.add_0_r; exact Hy|exact Hy'].
Qed.
Lemma unwrap_lane_length half d l : length (unwrap_lane half d l) = length l.
Proof. destruct l; [reflexivity|]. cbn [unwrap_lane length]. rewrite unwrap_from_length. reflexivity. Qed.

Lemma unwrap_lanes half d sh axis n st : nth_error sh axis = Some n -> nth_error (c_strides sh 8) axis = Some st ->
  forall os out, length out = prod sh -> NoDup os -> (forall oi, In oi os -> inb oi (remove_at axis sh)) ->
  exists out', foldM (unwrap_one half d n st) (map (fun oi => dot oi (remove_at axis (c_strides sh 8))) os) out = Ok out' /\
    length out' = prod sh /\
    (forall oi lv, In oi os -> lane out (fresh sh 8) axis oi = map Some lv -> lane out' (fresh sh 8) axis oi = map Some (unwrap_lane half d lv)) /\
    (forall oi, inb oi (remove_at axis sh) -> ~ In oi os -> lane out' (fresh sh 8) axis oi = lane out (fresh sh 8) axis oi).
Proof.
  intros Hn Hs. assert (Hit : (0 < 8)%Z) by lia. induction os as [|o os IH]; intros out HLO ND HO; cbn [map foldM].
  - exists out. split; [reflexivity|]. split; [exact HLO|]. split; [intros oi lv []|reflexivity].
  - inversion ND as [|? ? Hni ND']; subst. pose proof (HO o (or_introl eq_refl)) as Ho.
    assert (exists lv, lane out (fresh sh 8) axis o = map Some lv) as [lv Elv].
    { unfold lane. apply seq_somes. intros j Hj. cbn [fresh a_shape] in Hj. rewrite (nth_error_nth _ _ 0 Hn) in Hj.
      rewrite fresh_get by exact Hit.
      assert (HR : rank sh (insert_at axis j o) < length out) by (rewrite HLO; apply rank_lt, (lane_inb _ _ _ _ n); assumption).
      destruct (nth_error out (rank sh (insert_at axis j o))) eqn:EN; [eauto|apply nth_error_None in EN; lia]. }
    assert (LL : length lv = n).
    { pose proof (f_equal (@length _) Elv) as EL. rewrite lane_length, map_length in EL. rewrite <- EL. apply nth_error_nth, Hn. }
    assert (AD : forall k, (dot o (remove_at axis (c_strides sh 8)) + Z.of_nat k * st)%Z = (8 * Z.of_nat (rank sh (insert_at axis k o)))%Z).
    { intros k. apply (lane_addr sh 8 axis n); assumption. }
    destruct (write_lane sh axis n 8 Hit Hn out o (unwrap_lane half d lv) HLO Ho) as (out1 & E1 & L1 & A1 & B1).
    { rewrite unwrap_lane_length. exact LL. }
    assert (EU : unwrap_one half d n st out (dot o (remove_at axis (c_strides sh 8))) = Ok out1).
    { unfold unwrap_one. assert (EM : mapM (fun k => of_load (load out 8 (dot o (remove_at axis (c_strides sh 8)) + Z.of_nat k * st))) (seq 0 n) = Ok lv).
      { apply mapM_list, Forall2_of_nth; [rewrite seq_length; lia|]. intros k x y Hx Hy. rewrite nth_error_seq in Hx.
        destruct (Nat.ltb_spec k n) as [Hk|]; [|discriminate]. injection Hx as <-. rewrite AD, load_at by exact Hit.
        pose proof (f_equal (fun l => nth_error l k) Elv) as EN. cbv beta in EN. unfold lane in EN. rewrite !nth_error_map', nth_error_seq in EN.
        cbn [fresh a_shape] in EN. rewrite (nth_error_nth _ _ 0 Hn) in EN. destruct (Nat.ltb_spec k n); [|lia].
        rewrite Hy in EN. cbn [option_map Nat.add] in EN. injection EN as EN. rewrite fresh_get in EN by exact Hit. cbn [Nat.add]. rewrite EN. reflexivity. }
      rewrite EM. cbn [bind]. rewrite <- E1. f_equal. f_equal. apply map_ext. intros k. rewrite AD.
      replace (8 * Z.of_nat (rank sh (insert_at axis k o)))%Z with (Z.of_nat (rank sh (insert_at axis k o)) * 8)%Z by ring.
      rewrite Z.div_mul by lia. apply Nat2Z.id. }
    destruct (IH out1 L1 ND' (fun oi H => HO oi (or_intror H))) as (out2 & E2 & L2 & A2 & B2).
    exists out2. rewrite EU. cbn [bind]. split; [exact E2|]. split; [exact L2|]. split.
    + intros oi lv' [<-|H] E.
      * rewrite B2 by assumption. rewrite A1. assert (lv' = lv) as -> by (apply map_Some_inj; congruence). reflexivity.
      * apply A2; [exact H|]. rewrite (B1 oi (HO oi (or_intror H))); [exact E|]. intros E0. apply Hni. rewrite <- E0. exact H.
    + intros oi Hi H. rewrite B2; [|exact Hi|intros H'; apply H; right; exact H'].
      apply B1; [exact Hi|]. intros ->. apply H; left; reflexivity.
Qed.

Lemma unwrap_spec half d (buf : list Z) a ax axis n : (0 < half)%Z -> wf buf a -> a_item a = 8%Z -> norm_axis (ndim a) ax = Some axis ->
  nth_error (a_shape a) axis = Some n ->
  exists out, unwrap half d buf a ax = Ok out /\ length out = size a /\
    forall oi lv, inb oi (remove_at axis (a_shape a)) -> lane buf a axis oi = map Some lv ->
      exists r, lane out (fresh (a_shape a) 8) axis oi = map Some r /\ unwrapped half d lv r.
Proof.
  intros HH W H8 HA Hn. unfold unwrap.
  assert (HX : axis < length (a_shape a)) by (apply nth_error_Some; congruence).
  destruct (Nat.eqb_spec (ndim a) 0) as [H0|_]; [unfold ndim in H0; lia|]. rewrite HA, (at_ok _ _ _ Hn). cbn [bind].
  destruct (wf_elems buf a W) as (vals & E & LV). rewrite (read_offsets buf a vals W E). cbn [bind].
  assert (CL : forall oi, inb oi (remove_at axis (a_shape a)) -> lane vals (fresh (a_shape a) 8) axis oi = lane buf a axis oi).
  { intros oi Ho. rewrite <- H8. apply (copy_lane buf vals a axis oi n); try assumption. rewrite H8. lia. }
  destruct (Nat.leb_spec n 1) as [H1|H1].
  - exists vals. split; [reflexivity|]. split; [exact LV|]. intros oi lv Ho EL. exists lv. split; [rewrite CL by exact Ho; exact EL|].
    assert (LL : length lv = n). { pose proof (f_equal (@length _) EL) as EN. rewrite lane_length, map_length in EN. rewrite <- EN. apply nth_error_nth, Hn. }
    replace lv with (unwrap_lane half d lv) at 2; [apply unwrap_lane_spec, HH|]. destruct lv as [|x [|]]; try reflexivity. cbn in LL. lia.
  - cbn [fresh a_strides].
    assert (exists st, nth_error (c_strides (a_shape a) 8) axis = Some st) as [st Hs].
    { destruct (nth_error (c_strides (a_shape a) 8) axis) eqn:EN; [eauto|]. apply nth_error_None in EN. rewrite c_strides_length in EN. lia. }
    rewrite (at_ok _ _ _ Hs). cbn [bind]. rewrite axis_offsets_spec by (cbn [fresh a_strides a_shape]; apply c_strides_length).
    cbn [fresh a_strides a_shape].
    destruct (unwrap_lanes half d (a_shape a) axis n st Hn Hs (all_idx (remove_at axis (a_shape a))) vals LV (all_idx_nodup _)) as (out & EO & LO & A & _).
    { intros oi H. apply in_all_idx, H. }
    exists out. split; [exact EO|]. split; [exact LO|]. intros oi lv Ho EL. exists (unwrap_lane half d lv). split; [|apply unwrap_lane_spec, HH].
    apply A; [apply in_all_idx, Ho|]. rewrite CL by exact Ho. exact EL.
Qed.
