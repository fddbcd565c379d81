(* Proofs about assignment through views, reshape arguments and flat iteration. *)
From Verif Require Import Base Lists Arr_Spec Arr_Model Arr_Wf Arr_Proofs Arr_Hist
  Idx_Spec Idx_Model Idx_Wf Idx_Proofs.
Local Open Scope nat_scope.

Lemma idx_ok_iff idx sh : idx_ok idx sh = true <-> inb idx sh.
Proof.
  revert sh; induction idx as [|i idx IH]; intros [|s sh]; cbn; split; intros H;
    try discriminate; try constructor; try (inversion H; fail).
  - apply andb_true_iff in H as [H1 H2]. apply Nat.ltb_lt in H1. exact H1.
  - apply andb_true_iff in H as [H1 H2]. apply IH; exact H2.
  - inversion H; subst. apply andb_true_iff; split; [apply Nat.ltb_lt; assumption|apply IH; assumption].
Qed.

Lemma list_eqb_refl l : list_eqb l l = true.
Proof. induction l; cbn; [reflexivity|]. rewrite Nat.eqb_refl. exact IHl. Qed.
Lemma list_eqb_eq l m : list_eqb l m = true <-> l = m.
Proof.
  split; [|intros ->; apply list_eqb_refl].
  revert m; induction l as [|x l IH]; intros [|y m]; cbn; try discriminate; [reflexivity|].
  intros H. apply andb_true_iff in H as [H1 H2]. apply Nat.eqb_eq in H1. f_equal; auto.
Qed.

Lemma store_ok {V} (buf : list V) item ad w v :
  (0 < item)%Z -> load buf item ad = Some w ->
  exists buf', store buf item ad v = Ok buf' /\ length buf' = length buf /\
    forall ad', load buf' item ad' = if (ad' =? ad)%Z then Some v else load buf item ad'.
Proof.
  intros HI HL. destruct (load_some buf item ad w HI HL) as (H0 & H1 & H2).
  unfold store. rewrite H1, Z.eqb_refl.
  replace (0 <=? ad)%Z with true by lia. replace (ad / item <? Z.of_nat (length buf))%Z with true by lia.
  cbn [andb]. eexists; split; [reflexivity|]. split; [apply upd_length|].
  intros ad'. unfold load. destruct (Z.eqb_spec ad' ad) as [->|N].
  - destruct (Z.ltb_spec ad 0); [lia|]. rewrite H1, Z.eqb_refl. rewrite nth_error_upd_eq; [reflexivity|].
    assert (0 <= ad / item)%Z by (apply Z.div_pos; lia). lia.
  - destruct (Z.ltb_spec ad' 0); [reflexivity|].
    destruct (Z.eqb_spec (ad' mod item) 0) as [E|]; [|reflexivity].
    apply nth_error_upd_neq. intros EQ.
    assert (0 <= ad / item)%Z by (apply Z.div_pos; lia).
    assert (0 <= ad' / item)%Z by (apply Z.div_pos; lia).
    assert (ad / item = ad' / item)%Z by lia.
    pose proof (Z.div_mod ad item ltac:(lia)). pose proof (Z.div_mod ad' item ltac:(lia)). nia.
Qed.

(* ---------- the copy loop ---------- *)
Definition loadable {V} (buf : list V) (item : Z) (ads : list Z) : Prop :=
  forall ad, In ad ads -> exists v, load buf item ad = Some v.

Lemma fill_array_loop_safe {V} (conv : V -> V) (dst src : arr) item :
  a_item dst = item -> a_item src = item -> (0 < item)%Z -> a_shape dst = a_shape src ->
  forall idxs buf,
  Forall (fun i => inb i (a_shape dst)) idxs ->
  loadable buf item (map (addr dst) idxs) -> loadable buf item (map (addr src) idxs) ->
  exists buf', fill_array_loop conv idxs buf dst src = Ok buf' /\ length buf' = length buf /\
    (forall ad, ~ In ad (map (addr dst) idxs) -> load buf' item ad = load buf item ad) /\
    (ForallOrdPairs (fun i j => addr dst i <> addr src j /\ addr dst i <> addr dst j) idxs ->
     forall i, In i idxs -> load buf' item (addr dst i) = option_map conv (load buf item (addr src i))).
Proof.
  intros ED ES HI HSH. induction idxs as [|i idxs IH]; intros buf HF LD LS.
  - exists buf. cbn. repeat split; auto. intros _ i [].
  - inversion HF as [|? ? Hi HF']; subst. cbn [fill_array_loop].
    destruct (LS (addr src i)) as [v Hv]; [left; reflexivity|].
    destruct (LD (addr dst i)) as [w Hw]; [left; reflexivity|].
    unfold get_element. rewrite <- HSH, (proj2 (idx_ok_iff _ _) Hi).
    unfold get. fold (addr src i). rewrite ES, Hv. cbn [of_load bind].
    unfold set_element. rewrite (proj2 (idx_ok_iff _ _) Hi). fold (addr dst i).
    destruct (store_ok buf (a_item dst) (addr dst i) w (conv v) HI Hw) as (buf1 & E1 & L1 & G1).
    rewrite E1. cbn [bind].
    assert (K : forall ads, loadable buf (a_item dst) ads -> loadable buf1 (a_item dst) ads).
    { intros ads HA ad Hin. rewrite G1. destruct (ad =? addr dst i)%Z; [eexists; reflexivity|apply HA; exact Hin]. }
    destruct (IH buf1 HF') as (buf2 & E2 & L2 & G2 & G3).
    { apply K. intros ad Hin. apply LD. right; exact Hin. }
    { apply K. intros ad Hin. apply LS. right; exact Hin. }
    exists buf2. split; [exact E2|]. split; [congruence|]. split.
    + intros ad Hn. rewrite G2 by (intros Hc; apply Hn; right; exact Hc). rewrite G1.
      destruct (Z.eqb_spec ad (addr dst i)) as [->|]; [|reflexivity]. exfalso; apply Hn; left; reflexivity.
    + intros HO j Hj. inversion HO as [|? ? HA HO']; subst. rewrite Forall_forall in HA.
      destruct Hj as [<-|Hj].
      * rewrite G2.
        -- rewrite G1, Z.eqb_refl, Hv. reflexivity.
        -- intros Hc. apply in_map_iff in Hc as (j & Ej & Hj). destruct (HA j Hj) as [_ HN]. congruence.
      * rewrite G3 by assumption. rewrite G1. destruct (HA j Hj) as [HN _].
        destruct (Z.eqb_spec (addr src j) (addr dst i)) as [E|]; [congruence|reflexivity].
Qed.

Lemma fill_scalar_loop_safe {V} (dst : arr) (v : V) :
  (0 < a_item dst)%Z ->
  forall idxs buf,
  Forall (fun i => inb i (a_shape dst)) idxs ->
  loadable buf (a_item dst) (map (addr dst) idxs) ->
  exists buf', fill_scalar_loop idxs buf dst v = Ok buf' /\ length buf' = length buf /\
    (forall ad, ~ In ad (map (addr dst) idxs) -> load buf' (a_item dst) ad = load buf (a_item dst) ad) /\
    (forall ad, In ad (map (addr dst) idxs) -> load buf' (a_item dst) ad = Some v).
Proof.
  intros HI. induction idxs as [|i idxs IH]; intros buf HF LD.
  - exists buf. cbn. repeat split; auto. intros _ [].
  - inversion HF as [|? ? Hi HF']; subst. cbn [fill_scalar_loop].
    destruct (LD (addr dst i)) as [w Hw]; [left; reflexivity|].
    unfold set_element. rewrite (proj2 (idx_ok_iff _ _) Hi). fold (addr dst i).
    destruct (store_ok buf (a_item dst) (addr dst i) w v HI Hw) as (buf1 & E1 & L1 & G1).
    rewrite E1. cbn [bind].
    destruct (IH buf1 HF') as (buf2 & E2 & L2 & G2 & G3).
    { intros ad Hin. rewrite G1. destruct (ad =? addr dst i)%Z; [eexists; reflexivity|].
      apply LD. right; exact Hin. }
    exists buf2. split; [exact E2|]. split; [congruence|]. split.
    + intros ad Hn. rewrite G2 by (intros Hc; apply Hn; right; exact Hc). rewrite G1.
      destruct (Z.eqb_spec ad (addr dst i)) as [->|]; [|reflexivity]. exfalso; apply Hn; left; reflexivity.
    + intros ad Hj. destruct (in_dec Z.eq_dec ad (map (addr dst) idxs)) as [Hin|Hn]; [apply G3; exact Hin|].
      rewrite G2 by exact Hn. rewrite G1. destruct Hj as [<-|Hj]; [rewrite Z.eqb_refl; reflexivity|contradiction].
Qed.

Lemma all_idx_ordered sh :
  ForallOrdPairs (fun i j => inb i sh /\ inb j sh /\ rm_rank sh i < rm_rank sh j) (all_idx sh).
Proof.
  rewrite all_idx_unrank.
  assert (G : forall n k, k + n <= prod sh ->
    ForallOrdPairs (fun i j => inb i sh /\ inb j sh /\ rm_rank sh i < rm_rank sh j)
      (map (unrank sh) (seq k n))).
  { induction n as [|n IH]; intros k H; cbn [seq map]; [constructor|]. constructor; [|apply IH; lia].
    apply Forall_forall. intros j Hj. apply in_map_iff in Hj as (m & <- & Hm). apply in_seq in Hm.
    rewrite !rm_rank_eq, !rank_unrank by lia.
    split; [apply unrank_inb; lia|]. split; [apply unrank_inb; lia|lia]. }
  apply G. lia.
Qed.

Lemma ForallOrdPairs_impl {A} (R Q : A -> A -> Prop) l :
  (forall x y, R x y -> Q x y) -> ForallOrdPairs R l -> ForallOrdPairs Q l.
Proof.
  intros H HF. induction HF; constructor; auto. eapply Forall_impl; [|eassumption]. auto.
Qed.

Lemma wf_loadable {V} (buf : list V) a idxs :
  wf buf a -> Forall (fun i => inb i (a_shape a)) idxs -> loadable buf (a_item a) (map (addr a) idxs).
Proof.
  intros (_ & _ & _ & _ & W5 & _) HF ad Hin. apply in_map_iff in Hin as (i & <- & Hi).
  rewrite Forall_forall in HF. apply W5. apply HF. exact Hi.
Qed.

Lemma all_idx_inb sh : Forall (fun i => inb i sh) (all_idx sh).
Proof. apply Forall_forall. intros i Hi. apply in_all_idx. exact Hi. Qed.

Lemma fill_array_safe {V} (conv : V -> V) (buf : list V) dst src :
  wf buf dst -> wf buf src -> a_item dst = a_item src -> a_shape dst = a_shape src ->
  exists buf', fill_array conv buf dst src = Ok buf' /\ length buf' = length buf /\
    (forall ad, (forall i, inb i (a_shape dst) -> addr dst i <> ad) ->
       load buf' (a_item dst) ad = load buf (a_item dst) ad) /\
    (injective dst -> no_late_read dst src ->
     forall i, inb i (a_shape dst) -> get buf' dst i = option_map conv (get buf src i)).
Proof.
  intros WD WS EI ESH. unfold fill_array. rewrite ESH, list_eqb_refl, <- ESH.
  unfold size, ndim. rewrite odometer_all.
  assert (HI : (0 < a_item dst)%Z) by apply WD.
  destruct (fill_array_loop_safe conv dst src (a_item dst) eq_refl (eq_sym EI) HI ESH
              (all_idx (a_shape dst)) buf) as (buf' & E & L & G1 & G2).
  - apply all_idx_inb.
  - apply wf_loadable; [exact WD|apply all_idx_inb].
  - rewrite EI. apply wf_loadable; [exact WS|]. rewrite <- ESH. apply all_idx_inb.
  - exists buf'. split; [exact E|]. split; [exact L|]. split.
    + intros ad Hn. apply G1. intros Hc. apply in_map_iff in Hc as (i & Ei & Hi).
      apply in_all_idx in Hi. exact (Hn i Hi Ei).
    + intros HJ HR i Hi. unfold get. rewrite <- EI. apply G2; [|apply in_all_idx; exact Hi].
      eapply ForallOrdPairs_impl; [|apply all_idx_ordered]. cbv beta.
      intros x y (Hx & Hy & Hlt). split; [apply HR; assumption|].
      intros Eq. apply HJ in Eq; [subst; lia|assumption|assumption].
Qed.

Lemma fill_scalar_safe {V} (buf : list V) dst v :
  wf buf dst ->
  exists buf', fill_scalar buf dst v = Ok buf' /\ length buf' = length buf /\
    (forall ad, (forall i, inb i (a_shape dst) -> addr dst i <> ad) ->
       load buf' (a_item dst) ad = load buf (a_item dst) ad) /\
    (forall i, inb i (a_shape dst) -> get buf' dst i = Some v).
Proof.
  intros WD. unfold fill_scalar, size, ndim. rewrite odometer_all.
  destruct (fill_scalar_loop_safe dst v (proj1 WD) (all_idx (a_shape dst)) buf) as (buf' & E & L & G1 & G2).
  - apply all_idx_inb.
  - apply wf_loadable; [exact WD|apply all_idx_inb].
  - exists buf'. split; [exact E|]. split; [exact L|]. split.
    + intros ad Hn. apply G1. intros Hc. apply in_map_iff in Hc as (i & Ei & Hi).
      apply in_all_idx in Hi. exact (Hn i Hi Ei).
    + intros i Hi. apply (G2 (addr dst i)). apply in_map. apply in_all_idx. exact Hi.
Qed.

(* ---------- reshape arguments ---------- *)
Fixpoint zprod (l : list Z) : Z := match l with [] => 1%Z | x :: l' => (x * zprod l')%Z end.
Definition known_dims (shape : list Z) : list Z := filter (fun d => negb (d =? -1)%Z) shape.

Lemma zprod_nonneg l : Forall (fun d => 0 <= d)%Z l -> (0 <= zprod l)%Z.
Proof. induction 1; cbn; nia. Qed.

Lemma wrap_mul_l x y : wrap_usize (wrap_usize x * y) = wrap_usize (x * y).
Proof. unfold wrap_usize. apply Z.mul_mod_idemp_l. unfold two64; lia. Qed.

Lemma scan_dims_known shape : forall i neg known,
  Forall (fun d => 0 <= d)%Z shape ->
  scan_dims shape i neg (wrap_usize known) = Ok (neg, wrap_usize (known * zprod shape)).
Proof.
  induction shape as [|d r IH]; intros i neg known H; cbn [scan_dims zprod].
  - rewrite Z.mul_1_r. reflexivity.
  - inversion H; subst. destruct (Z.ltb_spec d (-1)); [lia|]. destruct (Z.eqb_spec d (-1)); [lia|].
    rewrite wrap_mul_l, IH by assumption. do 2 f_equal. f_equal. ring.
Qed.

Lemma scan_dims_one pre post known : forall i,
  Forall (fun d => 0 <= d)%Z pre -> Forall (fun d => 0 <= d)%Z post ->
  scan_dims (pre ++ (-1)%Z :: post) i None (wrap_usize known)
  = Ok (Some (i + length pre), wrap_usize (known * (zprod pre * zprod post))).
Proof.
  revert known; induction pre as [|d r IH]; intros known i H1 H2; cbn [app scan_dims zprod length].
  - cbn [Z.ltb Z.eqb Z.compare Pos.compare Pos.compare_cont Pos.eqb].
    rewrite scan_dims_known by exact H2. rewrite Nat.add_0_r, Z.mul_1_l. reflexivity.
  - inversion H1; subst. destruct (Z.ltb_spec d (-1)); [lia|]. destruct (Z.eqb_spec d (-1)); [lia|].
    rewrite wrap_mul_l, IH by assumption. do 2 f_equal; [f_equal; lia|]. f_equal. ring.
Qed.

Lemma prod_to_nat l : Forall (fun d => 0 <= d)%Z l -> Z.of_nat (prod (map Z.to_nat l)) = zprod l.
Proof.
  induction 1 as [|d l Hd H IH]; [reflexivity|]. cbn [map prod zprod].
  rewrite Nat2Z.inj_mul, IH, Z2Nat.id by exact Hd. reflexivity.
Qed.

(* two unknowns, or an entry below -1, are rejected *)
Lemma scan_dims_err shape : forall i neg known,
  Exists (fun d => d < -1)%Z shape \/
  (match neg with Some _ => 1 | None => 0 end + length (filter (fun d => (d =? -1)%Z) shape) > 1) ->
  scan_dims shape i neg known = Err.
Proof.
  induction shape as [|d r IH]; intros i neg known H; cbn [scan_dims].
  - destruct H as [H|H]; [inversion H|]. destruct neg; cbn in H; lia.
  - destruct (Z.ltb_spec d (-1)); [reflexivity|]. cbn [filter] in H.
    destruct (Z.eqb_spec d (-1)) as [E|E].
    + destruct neg; [reflexivity|]. apply IH. destruct H as [H|H].
      * inversion H; subst; [lia|]. left; assumption.
      * right. cbn [length] in H. lia.
    + apply IH. destruct H as [H|H]; [|right; exact H]. inversion H; subst; [lia|]. left; assumption.
Qed.

(* ---------- flat iteration ---------- *)
Lemma flat_indices_spec sh : forall k,
  0 < prod sh -> fst (flat_indices sh k) = unrank sh (k mod prod sh) /\ snd (flat_indices sh k) = k / prod sh.
Proof.
  induction sh as [|s sh IH]; intros k H; cbn [flat_indices prod unrank].
  - cbn [fst snd]. rewrite Nat.div_1_r. auto.
  - cbn [prod] in H. assert (Hs : 0 < s) by nia. assert (Hp : 0 < prod sh) by nia.
    destruct (IH k Hp) as [E1 E2]. destruct (flat_indices sh k) as [r q]. cbn [fst snd] in *. subst r q.
    split.
    + f_equal.
      * rewrite (Nat.mul_comm s), Nat.mod_mul_r by lia. rewrite (Nat.mul_comm (prod sh) (_ mod s)), Nat.div_add by lia.
        rewrite (Nat.div_small (k mod prod sh)) by (apply Nat.mod_upper_bound; lia). reflexivity.
      * f_equal. rewrite (Nat.mul_comm s), Nat.mod_mul_r by lia. rewrite (Nat.mul_comm (prod sh) (_ mod s)), Nat.mod_add by lia.
        rewrite Nat.mod_mod by lia. reflexivity.
    + rewrite (Nat.mul_comm s), Nat.div_div by lia. reflexivity.
Qed.

Lemma flat_indices_unrank sh k : k < prod sh -> fst (flat_indices sh k) = unrank sh k.
Proof.
  intros H. destruct (flat_indices_spec sh k ltac:(lia)) as [E _]. rewrite E, Nat.mod_small by exact H. reflexivity.
Qed.

Lemma get_element_ok {V} (buf : list V) a idx :
  wf buf a -> inb idx (a_shape a) ->
  exists v, get_element buf a idx = Ok v /\ get buf a idx = Some v.
Proof.
  intros W Hi. unfold get_element. rewrite (proj2 (idx_ok_iff _ _) Hi).
  destruct W as (_ & _ & _ & _ & W5 & _). destruct (W5 idx Hi) as [v Hv]. rewrite Hv. exists v; auto.
Qed.

Lemma flat_getitem_spec {V} (buf : list V) a i :
  wf buf a ->
  let n := Z.of_nat (size a) in
  ((- n <= i < n)%Z ->
   exists v, flat_getitem buf a i = Ok v /\
     nth_error (map (get buf a) (all_idx (a_shape a))) (Z.to_nat (if (i <? 0)%Z then i + n else i)) = Some (Some v)) /\
  ((i < - n \/ n <= i)%Z -> flat_getitem buf a i = Err).
Proof.
  intros W n. unfold flat_getitem. fold n. split; intros H.
  - set (k := (if (i <? 0)%Z then n + i else i)%Z).
    assert (Hk : (0 <= k < n)%Z) by (unfold k; destruct (Z.ltb_spec i 0); lia).
    assert (Ek : (if (i <? 0)%Z then i + n else i)%Z = k) by (unfold k; destruct (Z.ltb_spec i 0); lia).
    rewrite Ek. destruct (Z.ltb_spec k 0); [lia|]. destruct (Z.leb_spec n k); [lia|]. cbn [orb].
    assert (Hn : Z.to_nat k < prod (a_shape a)) by (unfold n, size in *; lia).
    rewrite flat_indices_unrank by exact Hn.
    destruct (get_element_ok buf a (unrank (a_shape a) (Z.to_nat k)) W (unrank_inb _ _ Hn)) as (v & E1 & E2).
    exists v. split; [exact E1|]. rewrite nth_error_map', nth_error_all_idx by exact Hn.
    cbn [option_map]. rewrite E2. reflexivity.
  - destruct (_ || _) eqn:E; [reflexivity|]. exfalso.
    apply orb_false_iff in E as [E1 E2]. destruct (Z.ltb_spec i 0); lia.
Qed.

Lemma flat_iter_spec {V} (buf : list V) a :
  wf buf a ->
  exists vs, flat_iter buf a = Ok vs /\ map Some vs = map (get buf a) (all_idx (a_shape a)).
Proof.
  intros W. unfold flat_iter. rewrite all_idx_unrank, map_map. unfold size.
  assert (G : forall l, (forall k, In k l -> k < prod (a_shape a)) ->
    exists vs, mapM (fun k => get_element buf a (fst (flat_indices (a_shape a) k))) l = Ok vs /\
      map Some vs = map (fun k => get buf a (unrank (a_shape a) k)) l).
  { induction l as [|k l IH]; intros HB; cbn [mapM map].
    - exists []. auto.
    - rewrite flat_indices_unrank by (apply HB; left; reflexivity).
      destruct (get_element_ok buf a (unrank (a_shape a) k) W) as (v & E1 & E2).
      { apply unrank_inb. apply HB; left; reflexivity. }
      destruct IH as (vs & E3 & E4); [intros m Hm; apply HB; right; exact Hm|].
      rewrite E1, E3, E2. cbn [bind]. exists (v :: vs). cbn [map]. rewrite E4. auto. }
  apply G. intros k Hk. apply in_seq in Hk. lia.
Qed.
