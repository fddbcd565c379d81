(* Proofs: the remaining entry points of the sorting and searching routines. *)
From Coq Require Import Permutation Sorted.
From Verif Require Import Idx_Model Idx_Wf Idx_Proofs Idx_Assign.
From Verif Require Import Base Lists Arr_Spec Arr_Model Arr_Wf Arr_Proofs Copy_Model Copy_Proofs
  Elem_Model Elem_Proofs Red_Spec Red_Model Red_Proofs Red_Scan Sort_Spec Sort_Model Sort_Proofs Sort_Select Sort_Lanes.
Local Open Scope nat_scope.

(* ---------- ndarray.partition ---------- *)
Lemma set_all_spec {V K} (wr : K -> V) a : (0 < a_item a)%Z -> forall l buf,
  (forall idx v, In (idx, v) l -> inb idx (a_shape a)) ->
  loadable buf (a_item a) (map (addr a) (map fst l)) ->
  exists buf', set_all wr a l buf = Ok buf' /\ length buf' = length buf /\
    (forall ad, ~ In ad (map (addr a) (map fst l)) -> load buf' (a_item a) ad = load buf (a_item a) ad) /\
    (injective a -> NoDup (map fst l) -> forall idx v, In (idx, v) l -> get buf' a idx = Some (wr v)).
Proof.
  intros HIt. induction l as [|[i v] l IH]; intros buf HI HLd; cbn [set_all map fst].
  - exists buf. split; [reflexivity|]. split; [reflexivity|]. split; [reflexivity|intros _ _ idx w []].
  - cbn [map fst] in HLd. assert (Hi := HI i v (or_introl eq_refl)).
    unfold set_element. rewrite (proj2 (idx_ok_iff _ _) Hi). destruct (HLd (addr a i) (or_introl eq_refl)) as [w Hw].
    destruct (store_ok buf (a_item a) (addr a i) w (wr v) HIt Hw) as (b1 & E1 & L1 & N1). unfold addr in E1. rewrite E1. cbn [bind].
    destruct (IH b1) as (b2 & E2 & L2 & U2 & G2).
    { intros idx x H. apply (HI idx x). right; exact H. }
    { intros ad H. rewrite N1. destruct (ad =? addr a i)%Z; [eauto|]. apply HLd. right; exact H. }
    exists b2. split; [exact E2|]. split; [congruence|]. split.
    + intros ad H. rewrite U2 by (intros H'; apply H; right; exact H'). rewrite N1.
      destruct (Z.eqb_spec ad (addr a i)) as [->|]; [destruct H; left; reflexivity|reflexivity].
    + intros Inj ND idx x [H|H].
      * injection H as <- <-. inversion ND as [|? ? Hni _]; subst. unfold get. fold (addr a i).
        rewrite U2; [rewrite N1, Z.eqb_refl; reflexivity|]. intros H'. apply in_map_iff in H' as (i' & Ea & Hi').
        apply Inj in Ea; [subst; contradiction| |exact Hi].
        apply in_map_iff in Hi' as ([i2 v2] & Ef & H2). cbn in Ef. subst. apply (HI i' v2). right; exact H2.
      * inversion ND; subst. apply (G2 Inj); assumption.
Qed.

Section PyPart.
Context {V K : Type}.
Variables (rd : V -> K) (wr : K -> V) (leb : K -> K -> bool).
Hypothesis TP : total_preorder leb.
Local Notation ltb := (fun x y => negb (leb y x)).

Lemma elems_nth {T} (buf : list T) a vals idx : elems buf a = map Some vals -> inb idx (a_shape a) ->
  get buf a idx = nth_error vals (rank (a_shape a) idx).
Proof.
  intros E Hi. apply (f_equal (fun l => nth_error l (rank (a_shape a) idx))) in E. unfold elems in E.
  rewrite !nth_error_map', nth_error_all_idx_rank in E by exact Hi. cbn [option_map] in E.
  destruct (nth_error vals _); cbn in E; congruence.
Qed.
Lemma elems_length {T} (buf : list T) a vals : elems buf a = map Some vals -> length vals = size a.
Proof. intros E. apply (f_equal (@length _)) in E. unfold elems in E. rewrite !map_length, all_idx_length in E. unfold size; lia. Qed.

Theorem py_partition_spec buf a kth vals : wf buf a -> injective a -> kth < size a -> elems buf a = map Some vals ->
  exists buf' ks, py_partition rd wr ltb buf a kth = Ok buf' /\ length buf' = length buf /\
    partitioned leb kth (map rd vals) ks /\ elems buf' a = map Some (map wr ks) /\
    forall ad, (forall idx, inb idx (a_shape a) -> addr a idx <> ad) -> load buf' (a_item a) ad = load buf (a_item a) ad.
Proof.
  intros W Inj HK E. pose proof W as (HIt & _). unfold py_partition. destruct (Nat.leb_spec (size a) kth) as [HX|_]; [lia|].
  rewrite (read_offsets buf a vals W E). cbn [bind]. pose proof (elems_length buf a vals E) as LV.
  destruct (partition_select_spec leb TP (map rd vals) kth) as (ks & EP & HP); [rewrite map_length; lia|].
  rewrite EP. cbn [bind]. unfold ndim. unfold size at 1. rewrite odometer_all.
  assert (LK : length ks = size a) by (rewrite <- (Permutation_length (proj1 HP)), map_length; exact LV).
  assert (EF : map fst (combine (all_idx (a_shape a)) ks) = all_idx (a_shape a)).
  { apply map_fst_combine. rewrite all_idx_length. unfold size in LK. lia. }
  destruct (set_all_spec wr a HIt (combine (all_idx (a_shape a)) ks) buf) as (buf' & ES & LS & US & GS).
  { intros idx v H. apply in_combine_l in H. apply in_all_idx, H. }
  { rewrite EF. apply wf_loadable; [exact W|apply all_idx_inb]. }
  exists buf', ks. split; [exact ES|]. split; [exact LS|]. split; [exact HP|]. split.
  - unfold elems. apply nth_error_ext. intros k. rewrite !nth_error_map'.
    destruct (Nat.lt_ge_cases k (size a)) as [Hk|Hk].
    + rewrite nth_error_all_idx by exact Hk. cbn [option_map].
      destruct (nth_error ks k) as [v|] eqn:Ev; [|apply nth_error_None in Ev; lia]. cbn [option_map]. f_equal.
      apply (GS Inj); [rewrite EF; apply all_idx_nodup|]. apply (nth_error_In _ k).
      rewrite nth_error_combine, nth_error_all_idx, Ev by exact Hk. reflexivity.
    + rewrite (proj2 (nth_error_None (all_idx (a_shape a)) k)) by (rewrite all_idx_length; exact Hk).
      rewrite (proj2 (nth_error_None ks k)) by lia. reflexivity.
  - intros ad H. apply US. rewrite EF. intros H'. apply in_map_iff in H' as (idx & Ea & Hi). apply in_all_idx in Hi.
    exact (H idx Hi Ea).
Qed.

Theorem py_argpartition_spec buf a kth vals : wf buf a -> kth < size a -> elems buf a = map Some vals ->
  exists p ks, py_argpartition rd ltb buf a kth = Ok p /\ Permutation p (seq 0 (size a)) /\
    map (nth_error (map rd vals)) p = map Some ks /\ partitioned leb kth (map rd vals) ks.
Proof.
  intros W HK E. unfold py_argpartition. destruct (Nat.leb_spec (size a) kth) as [HX|_]; [lia|].
  rewrite (read_offsets buf a vals W E). cbn [bind]. pose proof (elems_length buf a vals E) as LV.
  set (c := combine (map rd vals) (seq 0 (size a))).
  assert (LC : length c = size a) by (unfold c; rewrite combine_length, map_length, seq_length; lia).
  destruct (partition_select_spec (by_key leb) (by_key_preorder leb TP) c kth) as (r & EP & HP); [lia|].
  assert (EP' : partition_select (fun p q : K * nat => negb (leb (fst q) (fst p))) c kth = Ok r) by exact EP.
  rewrite EP'. cbn [bind]. destruct HP as (HP & q & Hq & HL & HR).
  assert (HI : forall x i, In (x, i) r -> nth_error (map rd vals) i = Some x).
  { intros x i H'. apply (Permutation_in _ (Permutation_sym HP)) in H'. unfold c in H'.
    apply In_nth_error in H' as [k Hk]. rewrite nth_error_combine, nth_error_seq in Hk.
    destruct (nth_error (map rd vals) k) eqn:Ek; [|discriminate]. destruct (Nat.ltb_spec k (size a)); [|discriminate].
    cbn [Nat.add] in Hk. injection Hk as -> ->. exact Ek. }
  exists (map snd r), (map fst r). split; [reflexivity|]. split; [|split].
  - rewrite <- (map_snd_combine (map rd vals) (seq 0 (size a))) by (rewrite map_length, seq_length; lia).
    apply Permutation_map, Permutation_sym, HP.
  - rewrite !map_map. apply map_ext_in. intros [x i] H'. cbn. apply HI, H'.
  - split.
    + rewrite <- (map_fst_combine (map rd vals) (seq 0 (size a))) by (rewrite map_length, seq_length; lia).
      apply Permutation_map, HP.
    + exists (fst q). rewrite nth_error_map', Hq. split; [reflexivity|].
      split; intros i x Hi Hx; rewrite nth_error_map' in Hx; destruct (nth_error r i) as [y|] eqn:Ey; try discriminate;
        injection Hx as <-; [exact (HL i y Hi Ey)|exact (HR i y Hi Ey)].
Qed.
End PyPart.

(* ---------- unique ---------- *)
Section UniqueP.
Context {V K : Type}.
Variables (rd : V -> K) (wr : K -> V) (leb close : K -> K -> bool).
Variable buf : list V.
Hypothesis TO : total_order leb.

Lemma to_vec_spec f64 a vals : wf buf a -> elems buf a = map Some vals -> to_vec rd buf f64 a = Ok (map rd vals).
Proof.
  intros W E. unfold to_vec. destruct (Nat.eqb_spec (size a) 0) as [H0|H0].
  - rewrite (elems_nil buf a vals E H0). reflexivity.
  - destruct (a_c a) eqn:Hc; destruct f64; cbn [andb].
    + rewrite (read_contig buf a vals W Hc E). reflexivity.
    + rewrite (read_offsets buf a vals W E). reflexivity.
    + rewrite (read_offsets buf a vals W E). reflexivity.
    + rewrite (read_offsets buf a vals W E). reflexivity.
Qed.

Theorem unique_spec f64 a vals : wf buf a -> elems buf a = map Some vals ->
  (forall x y, In x (map rd vals) -> In y (map rd vals) -> (close x y = true <-> x = y)) ->
  exists ks, unique rd wr leb buf close f64 a = Ok (map wr ks) /\ strictly_ascending leb ks /\
    forall x, In x ks <-> In x (map rd vals).
Proof.
  intros W E HC. unfold unique. rewrite (to_vec_spec f64 a vals W E). cbn [bind].
  eexists. split; [reflexivity|]. apply sorted_unique_spec; assumption.
Qed.

Theorem unique_all_spec f64 a vals : wf buf a -> elems buf a = map Some vals ->
  (forall x y, In x (map rd vals) -> In y (map rd vals) -> (close x y = true <-> x = y)) ->
  exists ks firsts inv counts, unique_all rd wr leb buf close f64 a = Ok (map wr ks, firsts, inv, counts) /\
    strictly_ascending leb ks /\ (forall x, In x ks <-> In x (map rd vals)) /\
    length firsts = length ks /\ length counts = length ks /\ length inv = size a /\
    (forall i x, nth_error (map rd vals) i = Some x -> exists u, nth_error inv i = Some u /\ nth_error ks u = Some x) /\
    (forall u x, nth_error ks u = Some x -> exists f, nth_error firsts u = Some f /\
       nth_error (map rd vals) f = Some x /\ (forall i, nth_error (map rd vals) i = Some x -> f <= i) /\
       nth_error counts u = Some (length (filter (fun y => close y x) (map rd vals)))).
Proof.
  intros W E HC. unfold unique_all. rewrite (to_vec_spec f64 a vals W E). cbn [bind].
  pose proof (elems_length buf a vals E) as LV. set (l := map rd vals) in *.
  assert (LL : length l = size a) by (unfold l; rewrite map_length; exact LV).
  set (c := combine l (seq 0 (length l))).
  pose proof (stable_sort_sorts (by_key leb) (by_key_preorder leb (proj1 TO)) c) as [HP HA].
  change (fun p q : K * nat => leb (fst p) (fst q)) with (by_key leb).
  assert (HC' : forall x i, In (x, i) c <-> nth_error l i = Some x).
  { intros x i. split.
    - intros H'. apply In_nth_error in H' as [k Hk]. unfold c in Hk. rewrite nth_error_combine, nth_error_seq in Hk.
      destruct (nth_error l k) eqn:Ek; [|discriminate]. destruct (Nat.ltb_spec k (length l)); [|discriminate].
      cbn [Nat.add] in Hk. injection Hk as -> ->. exact Ek.
    - intros H'. apply (nth_error_In _ i). unfold c. rewrite nth_error_combine, nth_error_seq, H'.
      assert (i < length l) by (apply nth_error_Some; congruence). destruct (Nat.ltb_spec i (length l)); [reflexivity|lia]. }
  assert (FC : map fst c = l) by (apply map_fst_combine; rewrite seq_length; reflexivity).
  destruct (stable_sort (by_key leb) c) as [|[v i] s] eqn:ES.
  - assert (c = []) as Ec by (apply Permutation_nil, Permutation_sym, HP). rewrite Ec in FC. cbn in FC.
    exists [], [], [], []. rewrite <- FC in *. cbn in LL. split; [reflexivity|]. split; [constructor|]. split; [reflexivity|].
    split; [reflexivity|]. split; [reflexivity|]. split; [exact LL|]. split.
    + intros k x H. destruct k; discriminate.
    + intros u x H. destruct u; discriminate.
  - assert (HSI : forall x k, In (x, k) ((v, i) :: s) <-> nth_error l k = Some x).
    { intros x k. rewrite <- HC'. split; apply Permutation_in; [apply Permutation_sym, HP|exact HP]. }
    assert (Hi : i < length l) by (apply nth_error_Some; rewrite (proj1 (HSI v i) (or_introl eq_refl)); discriminate).
    destruct (Nat.ltb_spec i (length l)) as [_|]; [|lia].
    destruct (unique_loop_spec leb close TO s v 0 i 1 [] [] [] (upd (repeat 0 (length l)) i 0) [(v, i)]) as (u & EU & UO & LU).
    + intros x y Hx Hy. apply HC.
      * cbn [app] in Hx. rewrite <- FC. apply (Permutation_in x (Permutation_sym (Permutation_map fst HP))), Hx.
      * cbn [app] in Hy. rewrite <- FC. apply (Permutation_in y (Permutation_sym (Permutation_map fst HP))), Hy.
    + cbn [app]. apply (Permutation_NoDup (Permutation_map snd HP)).
      unfold c. rewrite map_snd_combine by (rewrite seq_length; reflexivity). apply seq_NoDup.
    + cbn [app]. intros x k Hx. rewrite upd_length, repeat_length. apply HSI in Hx. apply nth_error_Some; congruence.
    + exact HA.
    + reflexivity.
    + split; [reflexivity|]. split; [reflexivity|]. split; [repeat constructor|]. split; [reflexivity|]. split.
      * intros u x Hu. destruct u as [|u]; [|destruct u; discriminate]. cbn in Hu. injection Hu as <-.
        split.
        -- exists i. split; [reflexivity|]. split; [left; reflexivity|]. intros k [H|[]]. injection H as ->. lia.
        -- cbn. assert (close v v = true) as ->; [|reflexivity]. apply HC; [| |reflexivity].
           ++ apply (nth_error_In _ i), HSI. left; reflexivity.
           ++ apply (nth_error_In _ i), HSI. left; reflexivity.
      * intros x k [H|[]]. injection H as <- <-. exists 0. split; [|reflexivity].
        apply nth_error_upd_eq. rewrite repeat_length. exact Hi.
    + rewrite EU. cbn [bind]. exists (u_vals u), (u_first u), (u_inv u), (u_counts u). split; [reflexivity|].
      destruct UO as (O1 & O2 & O3 & O4 & O5 & O6). cbn [app] in *.
      rewrite upd_length, repeat_length in LU.
      split; [exact O3|]. split.
      { intros x. rewrite O4. rewrite <- FC. split; apply Permutation_in.
        - apply Permutation_sym. exact (Permutation_map fst HP).
        - exact (Permutation_map fst HP). }
      split; [exact O1|]. split; [exact O2|]. split; [congruence|]. split.
      * intros k x Hk. apply O6. apply HSI, Hk.
      * intros w x Hw. destruct (O5 w x Hw) as ((f & F1 & F2 & F3) & F4). exists f. split; [exact F1|].
        split; [apply HSI, F2|]. split; [intros k Hk; apply F3, HSI, Hk|].
        rewrite F4. f_equal. rewrite <- FC.
        assert (G : forall m, length (filter (fun p : K * nat => close (fst p) x) m) = length (filter (fun y => close y x) (map fst m))).
        { induction m as [|[y k] m IHm]; cbn; [reflexivity|]. destruct (close y x); cbn; congruence. }
        rewrite G. clear - HP. apply (Permutation_map fst) in HP. revert HP. generalize (map fst c) as c1.
        generalize (map fst ((v, i) :: s)) as c2. intros c2 c1 HP. induction HP; cbn; try reflexivity.
        -- destruct (close x0 x); cbn; congruence.
        -- destruct (close x0 x), (close y x); reflexivity.
        -- congruence.
Qed.
End UniqueP.

(* ---------- lexsort ---------- *)
Lemma cmp_of_on {K} (leb : K -> K -> bool) vals : total_preorder leb ->
  cmp_on (length vals) (compare_at leb vals).
Proof.
  intros [TT TR].
  assert (N : forall i, i < length vals -> exists x, nth_error vals i = Some x).
  { intros i Hi. destruct (nth_error vals i) eqn:E; [eauto|apply nth_error_None in E; lia]. }
  assert (A : forall x y z, leb x y = true -> leb z y = false -> leb z x = false).
  { intros x y z H1 H2. destruct (leb z x) eqn:E; [|reflexivity]. rewrite (TR z x y E H1) in H2. discriminate. }
  assert (B : forall x y z, leb x y = true -> leb x z = false -> leb y z = false).
  { intros x y z H1 H2. destruct (leb y z) eqn:E; [|reflexivity]. rewrite (TR x y z H1 E) in H2. discriminate. }
  unfold cmp_on, compare_at. split; [|split; [|split]].
  - intros i j Hi Hj. destruct (N i Hi) as [x ->]. destruct (N j Hj) as [y ->].
    destruct (TT x y); destruct (leb x y), (leb y x); try discriminate; reflexivity.
  - intros i j k Hi Hj Hk. destruct (N i Hi) as [x ->]. destruct (N j Hj) as [y ->]. destruct (N k Hk) as [z ->].
    destruct (leb x y) eqn:E1; [|congruence]. destruct (leb y z) eqn:E2; [|congruence]. intros _ _.
    rewrite (TR x y z E1 E2). destruct (leb z x); congruence.
  - intros i j k Hi Hj Hk. destruct (N i Hi) as [x ->]. destruct (N j Hj) as [y ->]. destruct (N k Hk) as [z ->].
    destruct (leb x y) eqn:E1; [|congruence]. destruct (leb y x) eqn:E2; [congruence|].
    destruct (leb y z) eqn:E3; [|congruence]. intros _ _. rewrite (TR x y z E1 E3).
    rewrite (B y z x E3 E2). reflexivity.
  - intros i j k Hi Hj Hk. destruct (N i Hi) as [x ->]. destruct (N j Hj) as [y ->]. destruct (N k Hk) as [z ->].
    destruct (leb x y) eqn:E1; [|congruence]. destruct (leb y x) eqn:E2; [|congruence]. intros _.
    destruct (leb x z) eqn:E3.
    + rewrite (TR y x z E2 E3). destruct (leb z x) eqn:E4.
      * rewrite (TR z x y E4 E1). reflexivity.
      * rewrite (A y x z E2 E4). reflexivity.
    + rewrite (B x y z E1 E3). reflexivity.
Qed.

Lemma key_vals_spec {V} (k : lkey V) vals : wf (k_buf k) (k_arr k) -> ndim (k_arr k) = 1 ->
  elems (k_buf k) (k_arr k) = map Some vals -> key_vals (size (k_arr k)) k = Ok vals.
Proof.
  intros W HD E. unfold key_vals.
  pose proof W as (_ & _ & _ & HL & _). unfold ndim in HD.
  destruct (a_strides (k_arr k)) as [|st rest] eqn:Est; [rewrite HD in HL; discriminate|].
  cbn [at_ nth_error bind].
  destruct (a_c (k_arr k)) eqn:Hc.
  - apply read_contig; assumption.
  - pose proof (read_1d (k_buf k) (k_arr k) vals W ltac:(unfold ndim; lia) E) as R. unfold ndim in R. rewrite HD, Est in R. exact R.
Qed.

Theorem lexsort_spec {V} (keys : list (lkey V)) (lebs : list (V -> V -> bool)) valss n : keys <> [] ->
  Forall (fun k => wf (k_buf k) (k_arr k) /\ a_shape (k_arr k) = [n]) keys ->
  Forall2 (fun k leb => total_preorder leb /\ forall x y, k_cmp k x y = cmp_of leb x y) keys lebs ->
  Forall2 (fun k vals => elems (k_buf k) (k_arr k) = map Some vals) keys valss ->
  exists p, lexsort keys = Ok p /\ Permutation p (seq 0 n) /\
    StronglySorted (lex_before (rev (map (fun q => compare_at (fst q) (snd q)) (combine lebs valss)))) p.
Proof.
  intros HN HW HL HV. unfold lexsort. destruct keys as [|k0 keys']; [congruence|].
  set (keys := k0 :: keys') in *. clear HN.
  assert (HD : forall k, In k keys -> ndim (k_arr k) = 1 /\ size (k_arr k) = n).
  { intros k Hk. rewrite Forall_forall in HW. destruct (HW k Hk) as [_ E]. unfold ndim, size. rewrite E. cbn. split; [reflexivity|lia]. }
  replace (forallb (fun k => ndim (k_arr k) =? 1) keys) with true.
  2:{ symmetry. apply forallb_forall. intros k Hk. apply Nat.eqb_eq, HD, Hk. }
  assert (S0 : size (k_arr k0) = n) by (apply HD; left; reflexivity). rewrite S0.
  replace (forallb (fun k => size (k_arr k) =? n) keys) with true.
  2:{ symmetry. apply forallb_forall. intros k Hk. apply Nat.eqb_eq, HD, Hk. }
  destruct (Nat.eqb_spec n 0) as [->|Hn].
  { exists []. split; [reflexivity|]. split; [constructor|constructor]. }
  set (cs := map (fun q => compare_at (fst q) (snd q)) (combine lebs valss)).
  assert (G : exists cs', mapM (fun k => bind (key_vals n k) (fun vals => Ok (key_cmp k vals))) keys = Ok cs' /\
              Forall2 (fun c c' => forall i j, c i j = c' i j) cs' cs /\ Forall (cmp_on n) cs).
  { unfold cs. clear S0 cs. clearbody keys. clear k0 keys'. revert lebs valss HL HV. induction keys as [|k keys IH]; intros lebs valss HL HV.
    - inversion HL; subst. exists []. split; [reflexivity|]. split; constructor.
    - inversion HL as [|? leb ? lebs' [TP HC] HL']; subst. inversion HV as [|? vals ? valss' EV HV']; subst.
      inversion HW as [|? ? [Wk Sk] HW']; subst.
      destruct (IH HW' (fun k' H => HD k' (or_intror H)) lebs' valss' HL' HV') as (cs' & E' & F' & C').
      destruct (HD k (or_introl eq_refl)) as [D1 D2].
      pose proof (key_vals_spec k vals Wk D1 EV) as KV. rewrite D2 in KV.
      cbn [mapM]. rewrite KV. cbn [bind]. rewrite E'. cbn [bind]. eexists. split; [reflexivity|]. cbn [combine map fst snd].
      split.
      + apply Forall2_cons; [|exact F']. intros i j. unfold key_cmp, compare_at.
        destruct (nth_error vals i), (nth_error vals j); try reflexivity. apply HC.
      + apply Forall_cons; [|exact C']. pose proof (elems_length _ _ _ EV) as LV. rewrite D2 in LV. rewrite <- LV.
        apply cmp_of_on; exact TP. }
  destruct G as (cs' & EM & F & C). rewrite EM. cbn [bind]. eexists. split; [reflexivity|].
  assert (FD : forall i j, first_diff (rev cs') i j = first_diff (rev cs) i j).
  { assert (FR : Forall2 (fun c c' => forall i j, c i j = c' i j) (rev cs') (rev cs)).
    { clear - F. induction F; cbn; [constructor|]. apply Forall2_app; [assumption|repeat constructor; assumption]. }
    intros i j. clear - FR. induction FR as [|c c' l l' H FR IH]; cbn; [reflexivity|]. rewrite H, IH. reflexivity. }
  replace (stable_sort (fun i j => match first_diff (rev cs') i j with Gt => false | _ => true end) (seq 0 n))
    with (stable_sort (fun i j => match first_diff (rev cs) i j with Gt => false | _ => true end) (seq 0 n)).
  - apply lex_sort_spec. apply Forall_rev, C.
  - generalize (seq 0 n) as l. unfold stable_sort. induction l as [|x l IH]; cbn [fold_right]; [reflexivity|].
    rewrite IH. generalize (fold_right (insert_sorted (fun i j => match first_diff (rev cs') i j with Gt => false | _ => true end)) [] l) as m.
    induction m as [|y m IHm]; cbn [insert_sorted]; [reflexivity|]. rewrite FD, IHm. reflexivity.
Qed.

(* ---------- searchsorted ---------- *)
Definition conv_of {V} (conv : option (V -> V)) (x : V) : V := match conv with None => x | Some f => f x end.

Lemma converted_spec {V} (conv : option (V -> V)) (buf : list V) a item vals : wf buf a ->
  elems buf a = map Some vals -> (0 < item)%Z -> (Z.of_nat (size a) * item < 2 ^ 63)%Z ->
  exists buf' a', converted conv buf a item = Ok (buf', a') /\ wf buf' a' /\ a_shape a' = a_shape a /\
    elems buf' a' = map Some (map (conv_of conv) vals).
Proof.
  intros W E Hit HB. unfold converted. destruct conv as [f|].
  - destruct (astype_conv_spec f buf a W) as (vals' & EA & E'). assert (vals' = vals) as -> by (apply map_Some_inj; congruence).
    rewrite EA. cbn [bind]. eexists _, _. split; [reflexivity|]. pose proof (elems_length buf a vals E) as LV.
    split; [apply fresh_wf; [exact Hit|rewrite map_length, LV; exact HB|rewrite map_length, LV; reflexivity]|]. split; [reflexivity|].
    unfold elems. cbn [fresh a_shape]. rewrite map_map. apply nth_error_ext. intros k. rewrite !nth_error_map'.
    destruct (Nat.lt_ge_cases k (size a)) as [Hk|Hk].
    + rewrite nth_error_all_idx by exact Hk. cbn [option_map]. rewrite fresh_get by exact Hit.
      rewrite rank_unrank by exact Hk. rewrite nth_error_map'. destruct (nth_error vals k) eqn:EN; [reflexivity|].
      apply nth_error_None in EN. lia.
    + rewrite (proj2 (nth_error_None (all_idx (a_shape a)) k)) by (rewrite all_idx_length; exact Hk).
      rewrite (proj2 (nth_error_None vals k)) by lia. reflexivity.
  - exists buf, a. split; [reflexivity|]. split; [exact W|]. split; [reflexivity|]. cbn [conv_of]. rewrite map_id. exact E.
Qed.

Theorem searchsorted_spec {V} (leb : V -> V -> bool) convA convV item use_left (abuf : list V) a (vbuf : list V) v n avals vvals :
  total_preorder leb -> wf abuf a -> wf vbuf v -> a_shape a = [n] -> (0 < item)%Z ->
  (Z.of_nat (size a) * item < 2 ^ 63)%Z -> (Z.of_nat (size v) * item < 2 ^ 63)%Z ->
  elems abuf a = map Some avals -> elems vbuf v = map Some vvals ->
  ascending leb (map (conv_of convA) avals) ->
  exists out, searchsorted (cmp_of leb) convA convV item use_left abuf a vbuf v = Ok (a_shape v, out) /\
    Forall2 (fun x i => if use_left then insertion_left leb (map (conv_of convA) avals) (conv_of convV x) i
                        else insertion_right leb (map (conv_of convA) avals) (conv_of convV x) i) vvals out.
Proof.
  intros TP Wa Wv HS Hit HBa HBv Ea Ev HA. unfold searchsorted. unfold ndim. rewrite HS. cbn [length Nat.eqb].
  destruct (Nat.eqb_spec (size v) 0) as [H0|H0].
  { exists []. split; [reflexivity|]. rewrite (elems_nil vbuf v vvals Ev H0). constructor. }
  destruct (converted_spec convA abuf a item avals Wa Ea Hit HBa) as (ab' & a' & EcA & Wa' & Sa & Ea').
  destruct (converted_spec convV vbuf v item vvals Wv Ev Hit HBv) as (vb' & v' & EcV & Wv' & Sv & Ev').
  rewrite EcA. cbn [bind]. rewrite EcV. cbn [bind].
  set (al := map (conv_of convA) avals) in *. pose proof (elems_length _ _ _ Ea') as LA.
  assert (SN : size a' = n) by (unfold size; rewrite Sa, HS; cbn; lia). assert (SN' : size a = n) by (unfold size; rewrite HS; cbn; lia).
  pose proof Wa' as (_ & _ & _ & HL & _).
  assert (exists st, (if a_c a' then Ok (a_item a') else at_ (a_strides a') 0) = Ok st /\
          forall m y, nth_error al m = Some y -> read ab' a' (Z.of_nat m * st) = Ok y) as (st & ES & HR).
  { destruct (a_c a') eqn:Hc.
    - exists (a_item a'). split; [reflexivity|]. intros m y Hm. apply (read_at ab' a' al); assumption.
    - rewrite Sa, HS in HL. destruct (a_strides a') as [|s0 [|]] eqn:Est; try discriminate.
      exists s0. split; [reflexivity|]. intros m y Hm.
      assert (Hmn : m < n) by (rewrite <- SN, <- LA; apply nth_error_Some; congruence).
      assert (Hi : inb [m] (a_shape a')) by (rewrite Sa, HS; constructor; [exact Hmn|constructor]).
      pose proof (elems_nth ab' a' al [m] Ea' Hi) as G. rewrite Sa, HS in G. cbn [rank prod] in G.
      replace (m * 1 + 0) with m in G by lia. rewrite Hm in G. unfold get, byte_offset_for in G. rewrite Est in G. cbn [dot] in G.
      rewrite Z.add_0_r in G. unfold read. replace (Z.of_nat m * s0)%Z with (Z.of_nat m * s0)%Z by lia. rewrite G. reflexivity. }
  rewrite ES. cbn [bind].
  assert (G : forall x, exists i, bsearch (fun mid => bind (read ab' a' (Z.of_nat mid * st)) (fun y =>
                Ok (match cmp_of leb y x with Lt => true | Eq => negb use_left | Gt => false end))) (size a) 0 (size a) = Ok i /\
              (if use_left then insertion_left leb al x i else insertion_right leb al x i)).
  { intros x. rewrite SN'. destruct TP as [TT TR]. unfold ascending in HA. rewrite SSorted_nth in HA.
    assert (RX : forall z, leb z z = true) by (intros z; destruct (TT z z); assumption).
    assert (HA' : forall i j y z, i <= j -> nth_error al i = Some y -> nth_error al j = Some z -> leb y z = true).
    { intros i j y z Hij Hy Hz. destruct (Nat.eq_dec i j) as [->|]; [assert (y = z) as -> by congruence; apply RX|].
      apply (HA i j); try assumption; lia. }
    set (q := fun y => match cmp_of leb y x with Lt => true | Eq => negb use_left | Gt => false end).
    assert (HQ : forall y, q y = if use_left then negb (leb x y) else leb y x).
    { intros y. unfold q, cmp_of. destruct (TT y x); destruct (leb y x), (leb x y), use_left; try discriminate; reflexivity. }
    destruct (bsearch_spec (fun m => match nth_error al m with Some y => q y | None => false end)
      (fun mid => bind (read ab' a' (Z.of_nat mid * st)) (fun y => Ok (q y))) n n 0 n) as (i & EB & HI & H1 & H2).
    - intros m Hm. destruct (nth_error al m) as [y|] eqn:Ey; [|apply nth_error_None in Ey; lia]. rewrite (HR m y Ey). reflexivity.
    - intros i j Hij Hj. destruct (nth_error al j) as [z|] eqn:Ez; [|discriminate].
      destruct (nth_error al i) as [y|] eqn:Ey; [|apply nth_error_None in Ey; lia].
      rewrite !HQ. pose proof (HA' i j y z Hij Ey Ez) as HYZ. destruct use_left.
      + rewrite !negb_true_iff. intros HZ. destruct (leb x y) eqn:EX; [|reflexivity]. rewrite (TR x y z EX HYZ) in HZ. discriminate.
      + intros HZ. exact (TR y z x HYZ HZ).
    - lia.
    - lia.
    - lia.
    - intros m Hm; lia.
    - intros m Hm Hm'; lia.
    - exists i. split; [exact EB|].
      assert (G1 : forall j y, j < i -> nth_error al j = Some y -> q y = true)
        by (intros j y Hj Hy; specialize (H1 j Hj); rewrite Hy in H1; exact H1).
      assert (G2 : forall j y, i <= j -> nth_error al j = Some y -> q y = false).
      { intros j y Hj Hy. assert (j < n) by (rewrite <- SN, <- LA; apply nth_error_Some; congruence).
        specialize (H2 j Hj H). rewrite Hy in H2. exact H2. }
      destruct use_left; split; try lia; split; intros j y Hj Hy.
      + specialize (G1 j y Hj Hy). rewrite HQ, negb_true_iff in G1. exact G1.
      + specialize (G2 j y Hj Hy). rewrite HQ, negb_false_iff in G2. exact G2.
      + specialize (G1 j y Hj Hy). rewrite HQ in G1. exact G1.
      + specialize (G2 j y Hj Hy). rewrite HQ in G2. exact G2. }
  pose proof (read_offsets vb' v' _ Wv' Ev') as RO.
  assert (GO : exists out, mapM (fun o => bind (read vb' v' o) (fun x =>
              bsearch (fun mid => bind (read ab' a' (Z.of_nat mid * st)) (fun y =>
                Ok (match cmp_of leb y x with Lt => true | Eq => negb use_left | Gt => false end))) (size a) 0 (size a)))
            (iter_offsets v') = Ok out /\
            Forall2 (fun x i => if use_left then insertion_left leb al (conv_of convV x) i
                        else insertion_right leb al (conv_of convV x) i) vvals out).
  { clear - RO G. revert vvals RO. induction (iter_offsets v') as [|o l IH]; intros vvals RO.
    - cbn in RO. destruct vvals; [|discriminate]. exists []. split; [reflexivity|constructor].
    - cbn [mapM] in *. destruct (read vb' v' o) as [x| | |]; cbn [bind] in *; try discriminate.
      destruct (mapM (read vb' v') l) as [xs| | |]; cbn [bind] in RO; try discriminate.
      destruct vvals as [|x0 vvals]; [discriminate|]. cbn [map] in RO. injection RO as -> ->.
      destruct (IH vvals eq_refl) as (out & EO & FO). destruct (G (conv_of convV x0)) as (i & EB & HI).
      rewrite EB. cbn [bind]. rewrite EO. exists (i :: out). split; [reflexivity|]. constructor; assumption. }
  destruct GO as (out & EO & FO). rewrite EO. exists out. split; [reflexivity|exact FO].
Qed.

Lemma insertion_left_unique {K} (leb : K -> K -> bool) l v i j : insertion_left leb l v i -> insertion_left leb l v j -> i = j.
Proof.
  intros (A1 & A2 & A3) (B1 & B2 & B3). destruct (Nat.lt_trichotomy i j) as [H|[H|H]]; [|exact H|].
  - destruct (nth_error l i) as [x|] eqn:E; [|apply nth_error_None in E; lia].
    specialize (A3 i x ltac:(lia) E). specialize (B2 i x H E). congruence.
  - destruct (nth_error l j) as [x|] eqn:E; [|apply nth_error_None in E; lia].
    specialize (B3 j x ltac:(lia) E). specialize (A2 j x H E). congruence.
Qed.
Lemma insertion_right_unique {K} (leb : K -> K -> bool) l v i j : insertion_right leb l v i -> insertion_right leb l v j -> i = j.
Proof.
  intros (A1 & A2 & A3) (B1 & B2 & B3). destruct (Nat.lt_trichotomy i j) as [H|[H|H]]; [|exact H|].
  - destruct (nth_error l i) as [x|] eqn:E; [|apply nth_error_None in E; lia].
    specialize (A3 i x ltac:(lia) E). specialize (B2 i x H E). congruence.
  - destruct (nth_error l j) as [x|] eqn:E; [|apply nth_error_None in E; lia].
    specialize (B3 j x ltac:(lia) E). specialize (A2 j x H E). congruence.
Qed.

(* ---------- digitize ---------- *)
Section Digitize.
Context {V W K : Type}.
Variables (rdx : V -> K) (rdb : W -> K) (leb : K -> K -> bool).
Hypothesis TP : total_preorder leb.
Local Notation ltb x y := (negb (leb y x)).

(* the bin test of the code, for increasing and for decreasing edges *)
Definition dig_bin (right decreasing : bool) (bins : list K) (x : K) (i : nat) : Prop :=
  if decreasing then
    in_bin (fun e => if right then leb e x = false else leb x e = true)
           (fun e => if right then leb e x = true else leb x e = false) bins i
  else
    in_bin (fun e => if right then leb x e = false else leb e x = true)
           (fun e => if right then leb x e = true else leb e x = false) bins i.

Lemma rev_nth {A} (l : list A) j : j < length l -> nth_error (rev l) j = nth_error l (length l - 1 - j).
Proof.
  revert j; induction l as [|x l IH]; intros j H; cbn [length] in *; [lia|]. cbn [rev].
  destruct (Nat.eq_dec j (length l)) as [->|Hj].
  - rewrite nth_error_app2 by (rewrite rev_length; lia). rewrite rev_length, Nat.sub_diag.
    replace (S (length l) - 1 - length l) with 0 by lia. reflexivity.
  - rewrite nth_error_app1 by (rewrite rev_length; lia). rewrite IH by lia.
    replace (S (length l) - 1 - j) with (S (length l - 1 - j)) by lia. reflexivity.
Qed.

Theorem digitize_spec right (xbuf : list V) x (bbuf : list W) b n xvals bvals : wf xbuf x -> wf bbuf b -> a_shape b = [n] ->
  elems xbuf x = map Some xvals -> elems bbuf b = map Some bvals ->
  forall dec, (dec = false /\ ascending leb (map rdb bvals) \/
    dec = true /\ ascending (fun p q => leb q p) (map rdb bvals) /\ ~ ascending leb (map rdb bvals)) ->
  exists out, digitize rdx rdb leb right xbuf x bbuf b = Ok (a_shape x, out) /\
    Forall2 (fun v i => dig_bin right dec (map rdb bvals) (rdx v) i) xvals out.
Proof.
  intros Wx Wb HS Ex Eb dec HM. unfold digitize. destruct TP as [TT TR].
  assert (RX : forall z, leb z z = true) by (intros z; destruct (TT z z); assumption).
  destruct (Nat.eqb_spec (size x) 0) as [H0|H0].
  { exists []. split; [reflexivity|]. rewrite (elems_nil xbuf x xvals Ex H0). constructor. }
  set (bins := map rdb bvals) in *. pose proof (elems_length _ _ _ Eb) as LB.
  assert (SN : size b = n) by (unfold size; rewrite HS; cbn; lia). rewrite SN in *. cbv zeta.
  pose proof Wb as (_ & _ & _ & HL & _). rewrite HS in HL. destruct (a_strides b) as [|s0 [|]] eqn:Est; try discriminate.
  assert (RB : forall m y, nth_error bvals m = Some y -> read bbuf b (Z.of_nat m * s0) = Ok y).
  { intros m y Hm. assert (Hmn : m < n) by (rewrite <- LB; apply nth_error_Some; congruence).
    assert (Hi : inb [m] (a_shape b)) by (rewrite HS; constructor; [exact Hmn|constructor]).
    pose proof (elems_nth bbuf b bvals [m] Eb Hi) as G. rewrite HS in G. cbn [rank prod] in G.
    replace (m * 1 + 0) with m in G by lia. rewrite Hm in G. unfold get, byte_offset_for in G. rewrite Est in G. cbn [dot] in G.
    rewrite Z.add_0_r in G. unfold read. rewrite G. reflexivity. }
  assert (LBn : length bins = n) by (unfold bins; rewrite map_length; exact LB).
  assert (ED : (if 2 <=? n then bind (at_ (s0 :: nil) 0) (fun s1 => bind (read bbuf b 0) (fun f => bind (read bbuf b (Z.of_nat (n - 1) * s1))
                 (fun l => Ok (ltb (rdb l) (rdb f))))) else Ok false) = Ok dec).
  { destruct (Nat.leb_spec 2 n) as [H2|H2].
    - cbn [at_ nth_error bind].
      destruct (nth_error bvals 0) as [f|] eqn:Ef; [|apply nth_error_None in Ef; lia].
      destruct (nth_error bvals (n - 1)) as [l|] eqn:El; [|apply nth_error_None in El; lia].
      pose proof (RB 0 f Ef) as R0. rewrite Z.mul_0_l in R0. rewrite R0, (RB (n - 1) l El). cbn [bind]. apply (f_equal Ok).
      assert (NB : forall m y, nth_error bvals m = Some y -> nth_error bins m = Some (rdb y))
        by (intros m y Hm; unfold bins; rewrite nth_error_map', Hm; reflexivity).
      destruct HM as [(-> & HA)|(-> & HD & HNA)].
      + unfold ascending in HA. rewrite SSorted_nth in HA.
        rewrite (HA 0 (n - 1) (rdb f) (rdb l)) by (auto; lia). reflexivity.
      + unfold ascending in HD. rewrite SSorted_nth in HD. destruct (leb (rdb f) (rdb l)) eqn:EFL; [|reflexivity].
        exfalso. apply HNA. unfold ascending. apply SSorted_nth. intros i j p q Hij Hp Hq.
        assert (HJ : j < n) by (rewrite <- LBn; apply nth_error_Some; congruence).
        assert (H1 : leb p (rdb f) = true).
        { destruct i as [|i]; [rewrite (NB 0 f Ef) in Hp; injection Hp as <-; apply RX|]. apply (HD 0 (S i)); auto; lia. }
        assert (H3 : leb (rdb l) q = true).
        { destruct (Nat.eq_dec j (n - 1)) as [->|]; [rewrite (NB _ l El) in Hq; injection Hq as <-; apply RX|].
          apply (HD j (n - 1)); auto; lia. }
        exact (TR _ _ _ H1 (TR _ _ _ EFL H3)).
    - destruct HM as [(-> & _)|(-> & _ & HNA)]; [reflexivity|]. exfalso. apply HNA.
      destruct bins as [|y [|]]; [constructor|repeat constructor|cbn in LBn; lia]. }
  rewrite ED. cbn [bind]. rewrite (read_offsets bbuf b bvals Wb Eb). cbn [bind]. fold bins.
  assert (G : forall v, exists i, (if dec then bind (partition_point (fun e => if right then leb e (rdx v) else ltb e (rdx v)) (rev bins))
                 (fun i => if i <=? n then Ok (n - i) else Panic)
               else partition_point (fun e => if right then ltb e (rdx v) else leb e (rdx v)) bins) = Ok i /\
              dig_bin right dec bins (rdx v) i).
  { intros v. set (xv := rdx v). unfold dig_bin.
    assert (MONO : forall (p : K -> bool), p = (fun e => leb e xv) \/ p = (fun e => ltb e xv) ->
              forall e1 e2, leb e1 e2 = true -> p e2 = true -> p e1 = true).
    { intros p [->| ->] e1 e2 H12; cbv beta.
      - intros H. exact (TR _ _ _ H12 H).
      - rewrite !negb_true_iff. intros H. destruct (leb xv e1) eqn:E; [|reflexivity]. rewrite (TR _ _ _ E H12) in H. discriminate. }
    assert (Q1 : forall r : bool, (fun e => if r then leb e xv else ltb e xv) = (fun e => leb e xv) \/
                 (fun e => if r then leb e xv else ltb e xv) = (fun e => ltb e xv)) by (intros []; auto).
    assert (Q2 : forall r : bool, (fun e => if r then ltb e xv else leb e xv) = (fun e => leb e xv) \/
                 (fun e => if r then ltb e xv else leb e xv) = (fun e => ltb e xv)) by (intros []; auto).
    destruct HM as [(-> & HA)|(-> & HD & HNA)].
    - unfold ascending in HA. rewrite SSorted_nth in HA.
      destruct (partition_point_spec (fun e => if right then ltb e xv else leb e xv) bins) as (i & EP & HI & H1 & H2).
      { intros i j e1 e2 Hij He1 He2. apply (MONO _ (Q2 right)).
        destruct (Nat.eq_dec i j) as [->|]; [assert (e1 = e2) as -> by congruence; apply RX|]. apply (HA i j); auto; lia. }
      exists i. split; [exact EP|]. split; [exact HI|]. split; intros j e Hj He.
      + specialize (H1 j e Hj He). cbv beta in H1. destruct right; [rewrite negb_true_iff in H1|]; exact H1.
      + specialize (H2 j e Hj He). cbv beta in H2. destruct right; [rewrite negb_false_iff in H2|]; exact H2.
    - unfold ascending in HD. rewrite SSorted_nth in HD.
      destruct (partition_point_spec (fun e => if right then leb e xv else ltb e xv) (rev bins)) as (i & EP & HI & H1 & H2).
      { intros i j e1 e2 Hij He1 He2.
        assert (Hj : j < length bins) by (rewrite <- rev_length; apply nth_error_Some; congruence).
        assert (Hi : i < length bins) by lia.
        rewrite rev_nth in He1 by exact Hi. rewrite rev_nth in He2 by exact Hj. apply (MONO _ (Q1 right)).
        destruct (Nat.eq_dec i j) as [->|]; [assert (e1 = e2) as -> by congruence; apply RX|].
        apply (HD (length bins - 1 - j) (length bins - 1 - i)); auto; lia. }
      rewrite rev_length, LBn in HI. rewrite EP. cbn [bind]. destruct (Nat.leb_spec i n); [|lia].
      exists (n - i). split; [reflexivity|]. split; [lia|]. split; intros j e Hj He.
      + assert (HJ : j < n) by lia. specialize (H2 (n - 1 - j) e ltac:(lia)).
        rewrite rev_nth in H2 by lia. replace (length bins - 1 - (n - 1 - j)) with j in H2 by lia. specialize (H2 He). cbv beta in H2.
        destruct right; [|rewrite negb_false_iff in H2]; exact H2.
      + assert (HJ : j < n) by (rewrite <- LBn; apply nth_error_Some; congruence). specialize (H1 (n - 1 - j) e ltac:(lia)).
        rewrite rev_nth in H1 by lia. replace (length bins - 1 - (n - 1 - j)) with j in H1 by lia. specialize (H1 He). cbv beta in H1.
        destruct right; [|rewrite negb_true_iff in H1]; exact H1. }
  pose proof (read_offsets xbuf x xvals Wx Ex) as RO.
  assert (GO : exists out, mapM (fun o => bind (read xbuf x o) (fun v =>
                if dec then bind (partition_point (fun e => if right then leb e (rdx v) else ltb e (rdx v)) (rev bins))
                 (fun i => if i <=? n then Ok (n - i) else Panic)
               else partition_point (fun e => if right then ltb e (rdx v) else leb e (rdx v)) bins)) (iter_offsets x) = Ok out /\
            Forall2 (fun v i => dig_bin right dec bins (rdx v) i) xvals out).
  { clear - RO G. revert xvals RO. induction (iter_offsets x) as [|o l IH]; intros xvals RO.
    - cbn in RO. destruct xvals; [|discriminate]. exists []. split; [reflexivity|constructor].
    - cbn [mapM] in *. destruct (read xbuf x o) as [v| | |]; cbn [bind] in *; try discriminate.
      destruct (mapM (read xbuf x) l) as [xs| | |]; cbn [bind] in RO; try discriminate.
      injection RO as <-. destruct (IH xs eq_refl) as (out & EO & FO). destruct (G v) as (i & EB & HI).
      rewrite EB. cbn [bind]. rewrite EO. exists (i :: out). split; [reflexivity|]. constructor; assumption. }
  destruct GO as (out & EO & FO). exists out. split; [|exact FO].
  rewrite EO. reflexivity.
Qed.
End Digitize.

(* ---------- set routines ---------- *)
Section SetsP.
Context {K : Type}.
Variables (leb eqb biteq : K -> K -> bool).
Hypothesis TO : total_order leb.

Lemma collect_values_spec {X} (rd : X -> K) listed (buf : list X) a vals : wf buf a -> elems buf a = map Some vals ->
  collect_values rd listed buf a = Ok (map rd vals).
Proof.
  intros W E. unfold collect_values. destruct (a_c a) eqn:Hc; destruct listed; cbn [andb];
    rewrite ?(read_contig buf a vals W Hc E), ?(read_offsets buf a vals W E); reflexivity.
Qed.

Theorem set_op_spec {V W R} (rd1 : V -> K) (rd2 : W -> K) (wr : K -> R) op p1 p2 buf1 buf2 a1 a2 vals1 vals2 :
  wf buf1 a1 -> wf buf2 a2 -> elems buf1 a1 = map Some vals1 -> elems buf2 a2 = map Some vals2 ->
  (forall x y, eqb x y = true <-> x = y) ->
  exists ks, set_op leb eqb rd1 rd2 wr buf1 buf2 op p1 p2 a1 a2 = Ok (map wr ks) /\ strictly_ascending leb ks /\
    forall x, In x ks <-> merge_sem op x (map rd1 vals1) (map rd2 vals2).
Proof.
  intros W1 W2 E1 E2 HE. unfold set_op.
  rewrite (collect_values_spec rd1 p1 buf1 a1 vals1 W1 E1), (collect_values_spec rd2 p2 buf2 a2 vals2 W2 E2). cbn [bind].
  eexists. split; [reflexivity|].
  destruct (sorted_unique_spec leb eqb (map rd1 vals1) TO) as [S1 I1]; [intros; apply HE|].
  destruct (sorted_unique_spec leb eqb (map rd2 vals2) TO) as [S2 I2]; [intros; apply HE|].
  destruct (merge_spec leb TO op _ _ S1 S2) as [M1 M2]. split; [exact M1|].
  intros x. unfold sorted_unique. rewrite M2. unfold merge_sem. destruct op; rewrite I1, I2; reflexivity.
Qed.

Theorem isin_spec {V W} (rd1 : V -> K) (rd2 : W -> K) invert p1 p2 buf1 buf2 el test vals tv :
  wf buf1 el -> wf buf2 test -> elems buf1 el = map Some vals -> elems buf2 test = map Some tv ->
  (forall x y, biteq x y = true <-> x = y) ->
  exists out, isin biteq rd1 rd2 buf1 buf2 invert p1 p2 el test = Ok (a_shape el, out) /\
    Forall2 (fun v b => (b = true <-> (if invert then ~ In (rd1 v) (map rd2 tv) else In (rd1 v) (map rd2 tv)))) vals out.
Proof.
  intros W1 W2 E1 E2 HE. unfold isin.
  rewrite (collect_values_spec rd2 p2 buf2 test tv W2 E2), (collect_values_spec rd1 p1 buf1 el vals W1 E1). cbn [bind].
  eexists. split; [reflexivity|]. rewrite map_map. clear E1. induction vals as [|v vals IH]; cbn [map]; constructor; [|exact IH].
  assert (HX : existsb (biteq (rd1 v)) (map rd2 tv) = true <-> In (rd1 v) (map rd2 tv)).
  { rewrite existsb_exists. split; [intros (y & Hy & Ey); apply HE in Ey; congruence|intros H; exists (rd1 v); split; [exact H|apply HE; reflexivity]]. }
  destruct (existsb (biteq (rd1 v)) (map rd2 tv)), invert; cbn [xorb]; split; intros H; try discriminate; try reflexivity.
  - exfalso. apply H, HX. reflexivity.
  - apply HX. reflexivity.
  - intros H'. apply HX in H'. discriminate.
  - exfalso. apply HX in H. discriminate.
Qed.
End SetsP.
