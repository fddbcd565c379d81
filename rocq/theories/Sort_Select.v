(* Proofs: quickselect, unique with indices, lexsort. *)
From Coq Require Import Permutation Sorted FinFun.
From Verif Require Import Base Lists Arr_Model Copy_Proofs Elem_Model Red_Model Sort_Spec Sort_Model Sort_Proofs.
Local Open Scope nat_scope.

Section Select.
Context {K : Type}.
Variable leb : K -> K -> bool.
Local Notation ltb := (fun x y => negb (leb y x)).

(* l' permutes the positions lo..hi of l and leaves the others alone *)
Definition seg_perm (lo hi : nat) (l l' : list K) : Prop :=
  Permutation l l' /\ length l' = length l /\
  (forall k, lo <= k <= hi -> exists k', lo <= k' <= hi /\ nth_error l' k = nth_error l k') /\
  (forall k, k < lo \/ hi < k -> nth_error l' k = nth_error l k).

Lemma seg_refl lo hi l : seg_perm lo hi l l.
Proof. split; [apply Permutation_refl|]. split; [reflexivity|]. split; [intros k Hk; exists k; auto|reflexivity]. Qed.
Lemma seg_trans lo hi l1 l2 l3 : seg_perm lo hi l1 l2 -> seg_perm lo hi l2 l3 -> seg_perm lo hi l1 l3.
Proof.
  intros (P1 & L1 & I1 & O1) (P2 & L2 & I2 & O2). split; [eapply Permutation_trans; eassumption|]. split; [lia|]. split.
  - intros k Hk. destruct (I2 k Hk) as (k' & Hk' & E). destruct (I1 k' Hk') as (k'' & Hk'' & E'). exists k''. split; [exact Hk''|congruence].
  - intros k Hk. rewrite O2, O1 by exact Hk. reflexivity.
Qed.

Lemma swap_spec (l : list K) i j : i < length l -> j < length l ->
  exists l', swap l i j = Ok l' /\ Permutation l l' /\ length l' = length l /\
    forall k, nth_error l' k = nth_error l (if k =? j then i else if k =? i then j else k).
Proof.
  intros Hi Hj. unfold swap, at_.
  destruct (nth_error l i) as [x|] eqn:Ex; [|apply nth_error_None in Ex; lia].
  destruct (nth_error l j) as [y|] eqn:Ey; [|apply nth_error_None in Ey; lia]. cbn [bind].
  assert (N : forall k, nth_error (upd (upd l i y) j x) k = nth_error l (if k =? j then i else if k =? i then j else k)).
  { intros k. destruct (Nat.eqb_spec k j) as [->|Hkj].
    - rewrite nth_error_upd_eq by (rewrite upd_length; lia). congruence.
    - rewrite nth_error_upd_neq by lia. destruct (Nat.eqb_spec k i) as [->|Hki].
      + rewrite nth_error_upd_eq by lia. congruence.
      + rewrite nth_error_upd_neq by lia. reflexivity. }
  exists (upd (upd l i y) j x). split; [reflexivity|]. split; [|split; [rewrite !upd_length; reflexivity|exact N]].
  apply Permutation_nth_error. split; [rewrite !upd_length; reflexivity|].
  exists (fun k => if k =? j then i else if k =? i then j else k). split; [|exact N].
  intros a b. destruct (Nat.eqb_spec a j), (Nat.eqb_spec b j), (Nat.eqb_spec a i), (Nat.eqb_spec b i); subst; lia.
Qed.
Lemma swap_seg lo hi (l : list K) i j : lo <= i <= hi -> lo <= j <= hi -> hi < length l ->
  exists l', swap l i j = Ok l' /\ seg_perm lo hi l l' /\
    forall k, nth_error l' k = nth_error l (if k =? j then i else if k =? i then j else k).
Proof.
  intros Hi Hj Hh. destruct (swap_spec l i j) as (l' & E & P & L & N); [lia|lia|].
  exists l'. split; [exact E|]. split; [|exact N]. split; [exact P|]. split; [exact L|]. split.
  - intros k Hk. exists (if k =? j then i else if k =? i then j else k). split; [|apply N].
    destruct (Nat.eqb_spec k j); [lia|]. destruct (Nat.eqb_spec k i); lia.
  - intros k Hk. rewrite N. destruct (Nat.eqb_spec k j); [lia|]. destruct (Nat.eqb_spec k i); [lia|reflexivity].
Qed.

Hypothesis TP : total_preorder leb.

Lemma part_loop_spec pivot lo hi m : forall i store l, i + m = hi -> lo <= store -> store <= i -> hi < length l ->
  nth_error l hi = Some pivot ->
  (forall k x, lo <= k < store -> nth_error l k = Some x -> leb pivot x = false) ->
  (forall k x, store <= k < i -> nth_error l k = Some x -> leb pivot x = true) ->
  exists store' l', part_loop ltb pivot (seq i m) store l = Ok (store', l') /\ seg_perm lo hi l l' /\
    lo <= store' <= hi /\ nth_error l' hi = Some pivot /\
    (forall k x, lo <= k < store' -> nth_error l' k = Some x -> leb pivot x = false) /\
    (forall k x, store' <= k < hi -> nth_error l' k = Some x -> leb pivot x = true).
Proof.
  induction m as [|m IH]; intros i store l Him Hls Hsi HL HP H1 H2; cbn [seq part_loop].
  - exists store, l. split; [reflexivity|]. split; [apply seg_refl|]. split; [lia|]. split; [exact HP|]. split; [exact H1|].
    intros k x Hk. apply H2. lia.
  - unfold at_. destruct (nth_error l i) as [x|] eqn:Ex; [|apply nth_error_None in Ex; lia]. cbn [bind].
    destruct (leb pivot x) eqn:EP; cbn [negb].
    + apply IH; [lia|lia|lia|exact HL|exact HP|exact H1|]. intros k z Hk Hz.
      destruct (Nat.eq_dec k i) as [->|]; [congruence|apply (H2 k); [lia|exact Hz]].
    + destruct (swap_seg lo hi l i store) as (l' & E & SP & N); [lia|lia|lia|]. rewrite E. cbn [bind].
      destruct SP as (SP1 & SP2 & SP3 & SP4).
      destruct (IH (S i) (store + 1) l') as (st & l'' & E' & SP' & R1 & R2 & R3 & R4); [lia|lia|lia|lia| | | |].
      * rewrite N. destruct (Nat.eqb_spec hi store); [lia|]. destruct (Nat.eqb_spec hi i); [lia|exact HP].
      * intros k z Hk. rewrite N. destruct (Nat.eqb_spec k store); [intros; congruence|].
        destruct (Nat.eqb_spec k i); [lia|]. intros Hz. apply (H1 k); [lia|exact Hz].
      * intros k z Hk. rewrite N. destruct (Nat.eqb_spec k store); [lia|].
        destruct (Nat.eqb_spec k i) as [->|]; intros Hz; apply (H2 _ z) in Hz; try exact Hz; lia.
      * exists st, l''. split; [exact E'|]. split; [|auto]. eapply seg_trans; [|exact SP']. repeat split; assumption.
Qed.

Definition part_inv (l : list K) (left right : nat) : Prop :=
  (forall i j x y, i < left -> left <= j -> nth_error l i = Some x -> nth_error l j = Some y -> leb x y = true) /\
  (forall i j x y, i <= right -> right < j -> nth_error l i = Some x -> nth_error l j = Some y -> leb x y = true).

Lemma part_inv_seg l l' left right : left <= right -> part_inv l left right -> seg_perm left right l l' -> part_inv l' left right.
Proof.
  intros HLR [I1 I2] (P & L & SI & SO). 
  assert (LO : forall k x, k < left -> nth_error l' k = Some x -> nth_error l k = Some x) by (intros k x Hk H; rewrite SO in H by lia; exact H).
  assert (HI : forall k x, right < k -> nth_error l' k = Some x -> nth_error l k = Some x) by (intros k x Hk H; rewrite SO in H by lia; exact H).
  split; intros i j x y H1 H2 Hx Hy.
  - apply LO in Hx; [|exact H1]. destruct (Nat.le_gt_cases j right) as [Hj|Hj].
    + destruct (SI j) as (j' & Hj' & E); [lia|]. rewrite E in Hy. apply (I1 i j' x y); [exact H1|lia|exact Hx|exact Hy].
    + apply HI in Hy; [|exact Hj]. apply (I1 i j); [exact H1|lia|assumption..].
  - apply HI in Hy; [|exact H2]. destruct (Nat.lt_ge_cases i left) as [Hi|Hi].
    + apply LO in Hx; [|exact Hi]. apply (I1 i j); [exact Hi|lia|assumption..].
    + destruct (SI i) as (i' & Hi' & E); [lia|]. rewrite E in Hx. apply (I2 i' j x y); [lia|exact H2|exact Hx|exact Hy].
Qed.

Lemma select_loop_spec kth fuel : forall l left right, left <= kth <= right -> right < length l ->
  right - left <= fuel -> part_inv l left right ->
  exists r, select_loop ltb fuel l kth left right = Ok r /\ partitioned leb kth l r.
Proof.
  assert (TP' := TP). destruct TP' as [TT TR].
  induction fuel as [|f IH]; intros l left right HK HL HF [I1 I2]; cbn [select_loop].
  - destruct (Nat.ltb_spec left right); [lia|]. exists l. split; [reflexivity|]. split; [apply Permutation_refl|].
    destruct (nth_error l kth) as [v|] eqn:Ev; [|apply nth_error_None in Ev; lia]. exists v. split; [reflexivity|].
    split; intros i x Hi Hx; [apply (I1 i kth)|apply (I2 kth i)]; try assumption; lia.
  - destruct (Nat.ltb_spec left right) as [HLR|HLR].
    2:{ exists l. split; [reflexivity|]. split; [apply Permutation_refl|].
        destruct (nth_error l kth) as [v|] eqn:Ev; [|apply nth_error_None in Ev; lia]. exists v. split; [reflexivity|].
        split; intros i x Hi Hx; [apply (I1 i kth)|apply (I2 kth i)]; try assumption; lia. }
    assert (HPI : left <= (left + right) / 2 <= right).
    { split; [apply Nat.div_le_lower_bound; lia|]. apply Nat.div_le_upper_bound; lia. }
    set (pi := (left + right) / 2) in *. clearbody pi. cbv zeta.
    unfold at_ at 1. destruct (nth_error l pi) as [pivot|] eqn:Ep; [|apply nth_error_None in Ep; lia]. cbn [bind].
    destruct (swap_seg left right l pi right) as (l1 & E1 & SP1 & N1); [lia|lia|lia|]. rewrite E1. cbn [bind].
    assert (L1 : length l1 = length l) by apply SP1.
    destruct (part_loop_spec pivot left right (right - left) left left l1) as (store & l2 & E2 & SP2 & HS & R1 & R2 & R3);
      [lia|lia|lia|lia| |intros; lia|intros; lia|].
    { rewrite N1, Nat.eqb_refl. exact Ep. }
    rewrite E2. cbn [bind]. assert (L2 : length l2 = length l1) by apply SP2.
    destruct (swap_seg left right l2 store right) as (l3 & E3 & SP3 & N3); [lia|lia|lia|]. rewrite E3. cbn [bind].
    assert (L3 : length l3 = length l2) by apply SP3.
    assert (SP : seg_perm left right l l3) by (eapply seg_trans; [exact SP1|]; eapply seg_trans; eassumption).
    assert (HP : Permutation l l3) by apply SP.
    assert (J : part_inv l3 left right) by (apply (part_inv_seg l); [lia|split; assumption|exact SP]).
    assert (V : nth_error l3 store = Some pivot).
    { rewrite N3. destruct (Nat.eqb_spec store right) as [->|]; [exact R1|]. rewrite Nat.eqb_refl. exact R1. }
    assert (VL : forall k x, left <= k < store -> nth_error l3 k = Some x -> leb pivot x = false).
    { intros k x Hk. rewrite N3. destruct (Nat.eqb_spec k right); [lia|]. destruct (Nat.eqb_spec k store); [lia|]. apply R2; lia. }
    assert (VR : forall k x, store < k <= right -> nth_error l3 k = Some x -> leb pivot x = true).
    { intros k x Hk. rewrite N3. destruct (Nat.eqb_spec k right) as [->|]; [apply R3; lia|].
      destruct (Nat.eqb_spec k store); [lia|]. apply R3; lia. }
    assert (VL' : forall k x, k < store -> nth_error l3 k = Some x -> leb x pivot = true).
    { intros k x Hk Hx. destruct (Nat.lt_ge_cases k left).
      - apply (proj1 J k store); [assumption|lia|assumption..].
      - specialize (VL k x ltac:(lia) Hx). destruct (TT pivot x); congruence. }
    assert (VR' : forall k x, store < k -> nth_error l3 k = Some x -> leb pivot x = true).
    { intros k x Hk Hx. destruct (Nat.le_gt_cases k right); [apply (VR k); [lia|exact Hx]|].
      apply (proj2 J store k); [lia|assumption..]. }
    destruct (Nat.eqb_spec store kth) as [->|Hne].
    + exists l3. split; [reflexivity|]. split; [exact HP|]. exists pivot. split; [exact V|]. split; assumption.
    + assert (HPI' : forall k x, store <= k -> nth_error l3 k = Some x -> leb pivot x = true).
      { intros k x Hk Hx. destruct (Nat.eq_dec k store) as [->|]; [|apply (VR' k); [lia|exact Hx]].
        rewrite V in Hx. injection Hx as <-. destruct (TT pivot pivot); assumption. }
      assert (HPJ' : forall k x, k <= store -> nth_error l3 k = Some x -> leb x pivot = true).
      { intros k x Hk Hx. destruct (Nat.eq_dec k store) as [->|]; [|apply (VL' k); [lia|exact Hx]].
        rewrite V in Hx. injection Hx as <-. destruct (TT pivot pivot); assumption. }
      destruct (Nat.ltb_spec store kth).
      * destruct (IH l3 (store + 1) right) as (r & E & Q); [lia|lia|lia| |].
        { split; [|exact (proj2 J)]. intros i j x y Hi Hj Hx Hy.
          apply (TR x pivot y); [apply (HPJ' i); [lia|exact Hx]|apply (HPI' j); [lia|exact Hy]]. }
        exists r. split; [exact E|]. destruct Q as [Q1 Q2]. split; [eapply Permutation_trans; eassumption|exact Q2].
      * destruct (IH l3 left (store - 1)) as (r & E & Q); [lia|lia|lia| |].
        { split; [exact (proj1 J)|]. intros i j x y Hi Hj Hx Hy.
          apply (TR x pivot y); [apply (HPJ' i); [lia|exact Hx]|apply (HPI' j); [lia|exact Hy]]. }
        exists r. split; [exact E|]. destruct Q as [Q1 Q2]. split; [eapply Permutation_trans; eassumption|exact Q2].
Qed.

Theorem partition_select_spec l kth : kth < length l ->
  exists r, partition_select ltb l kth = Ok r /\ partitioned leb kth l r.
Proof.
  intros HK. unfold partition_select. destruct (Nat.leb_spec (length l) 1).
  - exists l. split; [reflexivity|]. split; [apply Permutation_refl|].
    destruct (nth_error l kth) as [v|] eqn:Ev; [|apply nth_error_None in Ev; lia]. exists v. split; [reflexivity|].
    split; intros i x Hi Hx; assert (i < length l) by (apply nth_error_Some; congruence); lia.
  - apply select_loop_spec; [lia|lia|lia|]. split; [intros; lia|].
    intros i j x y Hi Hj Hx Hy. assert (j < length l) by (apply nth_error_Some; congruence). lia.
Qed.

(* the k-th entry of a partitioned list is the k-th smallest *)
Lemma partitioned_kth l r k v : partitioned leb k l r -> nth_error r k = Some v -> kth_smallest leb k l v.
Proof.
  assert (TP' := TP). destruct TP' as [TT TR].
  intros (HP & v' & Hv & HL & HR) Hv'. assert (v' = v) by congruence. subst v'. clear Hv'.
  assert (HK : k < length r) by (apply nth_error_Some; congruence).
  pose proof (nth_error_split r k Hv) as (r1 & r2 & -> & L1).
  assert (F1 : Forall (fun x => leb x v = true) r1).
  { apply Forall_forall. intros x Hx. apply In_nth_error in Hx as [i Hi].
    assert (i < length r1) by (apply nth_error_Some; congruence).
    apply (HL i x); [lia|]. rewrite nth_error_app1 by lia. exact Hi. }
  assert (F2 : Forall (fun x => leb v x = true) r2).
  { apply Forall_forall. intros x Hx. apply In_nth_error in Hx as [i Hi].
    apply (HR (k + 1 + i) x); [lia|]. rewrite nth_error_app2 by lia. replace (k + 1 + i - length r1) with (S i) by lia. exact Hi. }
  destruct (stable_sort_sorts leb TP r1) as [P1 S1], (stable_sort_sorts leb TP r2) as [P2 S2].
  exists (stable_sort leb r1 ++ v :: stable_sort leb r2), v. split; [split|].
  - eapply Permutation_trans; [exact HP|]. apply Permutation_app; [exact P1|]. apply perm_skip, P2.
  - assert (F1' : Forall (fun x => leb x v = true) (stable_sort leb r1)) by (eapply Permutation_Forall; eassumption).
    assert (F2' : Forall (fun x => leb v x = true) (stable_sort leb r2)) by (eapply Permutation_Forall; eassumption).
    unfold ascending in *. revert F1' F2' S1 S2. generalize (stable_sort leb r1) (stable_sort leb r2). clear -TR.
    intros s1 s2 F1 F2 S1 S2. induction s1 as [|x s1 IH]; cbn [app]; [constructor; assumption|].
    inversion F1; subst. inversion S1; subst. constructor; [apply IH; assumption|].
    apply Forall_app. split; [assumption|]. constructor; [assumption|].
    eapply Forall_impl; [|exact F2]. cbv beta. intros z Hz. eapply TR; eassumption.
  - split; [rewrite nth_error_app2 by (rewrite stable_sort_length; lia); rewrite stable_sort_length, L1, Nat.sub_diag; reflexivity|].
    assert (leb v v = true) by (destruct (TT v v); assumption). repeat split; try assumption.
    eapply Permutation_in; [apply Permutation_sym, HP|]. apply in_elt.
Qed.
End Select.

(* ---------- unique_all ---------- *)
Section Unique.
Context {K : Type}.
Variables (leb close : K -> K -> bool).

(* the lists produced so far, with the group in progress added, describe the
   pairs done so far; done = pairs already consumed, in sorted order *)
Definition uniq_ok (vals : list K) (firsts counts inv : list nat) (done_ : list (K * nat)) : Prop :=
  length firsts = length vals /\ length counts = length vals /\
  strictly_ascending leb vals /\
  (forall v, In v vals <-> In v (map fst done_)) /\
  (forall u v, nth_error vals u = Some v ->
     (exists f, nth_error firsts u = Some f /\ In (v, f) done_ /\ forall i, In (v, i) done_ -> f <= i) /\
     nth_error counts u = Some (length (filter (fun p => close (fst p) v) done_))) /\
  (forall v i, In (v, i) done_ -> exists u, nth_error inv i = Some u /\ nth_error vals u = Some v).

Hypothesis TO : total_order leb.

Lemma nth_error_last {A} (l : list A) x : nth_error (l ++ [x]) (length l) = Some x.
Proof. rewrite nth_error_app2, Nat.sub_diag by lia. reflexivity. Qed.
Lemma nth_error_snoc {A} (l : list A) x k y : nth_error (l ++ [x]) k = Some y ->
  (k < length l /\ nth_error l k = Some y) \/ (k = length l /\ y = x).
Proof.
  intros H. destruct (Nat.lt_ge_cases k (length l)) as [HL|HL].
  - rewrite nth_error_app1 in H by exact HL. auto.
  - rewrite nth_error_app2 in H by exact HL. right. destruct (k - length l) as [|q] eqn:E.
    + cbn in H. injection H as <-. split; [lia|reflexivity].
    + cbn in H. destruct q; discriminate.
Qed.
Lemma filter_snoc {A} (p : A -> bool) l x : filter p (l ++ [x]) = filter p l ++ (if p x then [x] else []).
Proof. rewrite filter_app. cbn [filter]. reflexivity. Qed.

Lemma sascending_snoc (l : list K) x : strictly_ascending leb (l ++ [x]) <->
  strictly_ascending leb l /\ Forall (fun w => leb x w = false) l.
Proof.
  unfold strictly_ascending. induction l as [|y l IH]; cbn [app].
  - split; [intros _; split; constructor|intros _; constructor; constructor].
  - split.
    + intros H. inversion H as [|? ? H1 H2]; subst. apply IH in H1 as [H1 H3]. apply Forall_app in H2 as [H2 H4].
      inversion H4; subst. split; constructor; assumption.
    + intros [H1 H2]. inversion H1; subst. inversion H2; subst. constructor; [apply IH; auto|].
      apply Forall_app. split; [assumption|]. constructor; [assumption|constructor].
Qed.

Lemma unique_loop_spec l : forall prev uidx first cnt vals firsts counts inv done_,
  (forall x y, In x (map fst (done_ ++ l)) -> In y (map fst (done_ ++ l)) -> (close x y = true <-> x = y)) ->
  NoDup (map snd (done_ ++ l)) ->
  (forall v i, In (v, i) (done_ ++ l) -> i < length inv) ->
  ascending (by_key leb) (done_ ++ l) ->
  length vals = uidx ->
  uniq_ok (vals ++ [prev]) (firsts ++ [first]) (counts ++ [cnt]) inv done_ ->
  exists u, unique_loop close l prev uidx first cnt vals firsts counts inv = Ok u /\
    uniq_ok (u_vals u) (u_first u) (u_counts u) (u_inv u) (done_ ++ l) /\ length (u_inv u) = length inv.
Proof.
  assert (TO' := TO). destruct TO' as [[TT TR] TA].
  induction l as [|[v orig] l IH]; intros prev uidx first cnt vals firsts counts inv dn HC HN HB HA HU HO; cbn [unique_loop].
  - exists (mkUniq (vals ++ [prev]) (firsts ++ [first]) (counts ++ [cnt]) inv). rewrite app_nil_r. cbn. auto.
  - assert (Ho : orig < length inv) by (apply (HB v); apply in_elt).
    destruct (Nat.ltb_spec orig (length inv)); [|lia].
    destruct HO as (O1 & O2 & O3 & O4 & O5 & O6).
    assert (LF : length firsts = length vals) by (rewrite !app_length in O1; simpl in O1; lia).
    assert (LC : length counts = length vals) by (rewrite !app_length in O2; simpl in O2; lia).
    replace (dn ++ (v, orig) :: l) with ((dn ++ [(v, orig)]) ++ l) in * by (rewrite <- app_assoc; reflexivity).
    assert (Hin : forall w, In w (map fst dn) -> In w (map fst ((dn ++ [(v, orig)]) ++ l)))
      by (intros w Hw; rewrite !map_app, !in_app_iff; auto).
    assert (Hv : In v (map fst ((dn ++ [(v, orig)]) ++ l)))
      by (rewrite !map_app, !in_app_iff; left; right; left; reflexivity).
    assert (Hprev : In prev (map fst dn)) by (apply O4; apply in_elt).
    assert (Hfst : forall w i, In (w, i) dn -> In w (map fst dn)) by (intros w i Hi; apply in_map_iff; exists (w, i); auto).
    assert (Hnew : forall w i, In (w, i) dn -> i <> orig).
    { intros w i Hi ->. rewrite <- app_assoc, map_app in HN. cbn [app map snd] in HN.
      apply NoDup_remove_2 in HN. apply HN, in_app_iff. left. apply in_map_iff. exists (w, orig). auto. }
    assert (HLE : forall w, In w (map fst dn) -> leb w v = true).
    { intros w Hw. apply in_map_iff in Hw as ([w' i] & E & Hi). cbn in E. subst w'.
      unfold ascending in HA. rewrite SSorted_nth in HA. apply In_nth_error in Hi as [k Hk].
      assert (k < length dn) by (apply nth_error_Some; congruence).
      apply (HA k (length dn) (w, i) (v, orig)); [lia| |].
      - rewrite !nth_error_app1 by (rewrite ?app_length; simpl; lia). exact Hk.
      - rewrite nth_error_app1 by (rewrite app_length; simpl; lia). apply nth_error_last. }
    pose proof (proj1 (sascending_snoc vals prev) O3) as [_ O3'].
    assert (Hneq : forall q w, q < length vals -> nth_error (vals ++ [prev]) q = Some w -> w <> prev /\ leb prev w = false).
    { intros q w Hq Hw. rewrite nth_error_app1 in Hw by exact Hq. rewrite Forall_forall in O3'.
      specialize (O3' w (nth_error_In _ _ Hw)). split; [|exact O3'].
      intros ->. destruct (TT prev prev); congruence. }
    destruct (close v prev) eqn:EC.
    + apply HC in EC; [|exact Hv|apply Hin; exact Hprev]. subst v.
      destruct (IH prev uidx (if orig <? first then orig else first) (cnt + 1) vals firsts counts (upd inv orig uidx) (dn ++ [(prev, orig)])) as (u & E & R & RL).
      * exact HC.
      * exact HN.
      * rewrite upd_length. exact HB.
      * exact HA.
      * exact HU.
      * split; [rewrite !app_length; simpl; lia|]. split; [rewrite !app_length; simpl; lia|]. split; [exact O3|].
        split; [intros w; rewrite O4, map_app, in_app_iff; cbn [map In fst]; split; [auto|intros [H'|[<-|[]]]; [exact H'|exact Hprev]]|].
        split.
        -- intros q w Hq. destruct (O5 q w Hq) as [(f & Hf & Hf1 & Hf2) Hc]. rewrite filter_snoc. cbn [fst].
           destruct (nth_error_snoc _ _ _ _ Hq) as [[Hl Hq']|[-> ->]].
           ++ destruct (Hneq q w Hl Hq) as [Hw _]. split.
              ** exists f. rewrite nth_error_app1 in Hf |- * by lia. split; [exact Hf|]. split; [apply in_app_iff; auto|].
                 intros i Hi. apply in_app_iff in Hi as [Hi|[Ei|[]]]; [apply Hf2; exact Hi|congruence].
              ** replace (close prev w) with false.
                 { rewrite app_nil_r. rewrite nth_error_app1 in Hc |- * by lia. exact Hc. }
                 destruct (close prev w) eqn:E; [|reflexivity]. apply HC in E; [congruence|exact Hv|].
                 apply Hin, (Hfst w f), Hf1.
           ++ rewrite <- LF, nth_error_last in Hf. injection Hf as <-. rewrite <- LC, nth_error_last in Hc. injection Hc as ->.
              split.
              ** exists (if orig <? first then orig else first). split; [rewrite <- LF; apply nth_error_last|].
                 split.
                 --- apply in_app_iff. destruct (orig <? first); [right; left; reflexivity|left; exact Hf1].
                 --- intros i Hi. apply in_app_iff in Hi as [Hi|[Ei|[]]].
                     +++ specialize (Hf2 i Hi). destruct (Nat.ltb_spec orig first); lia.
                     +++ injection Ei as <-. destruct (Nat.ltb_spec orig first); lia.
              ** replace (close prev prev) with true by (symmetry; apply HC; auto).
                 rewrite app_length. cbn [length]. rewrite <- LC. apply nth_error_last.
        -- intros w i Hi. apply in_app_iff in Hi as [Hi|[Ei|[]]].
           ++ destruct (O6 w i Hi) as (u & Hu & Hu'). exists u. split; [|exact Hu'].
              rewrite nth_error_upd_neq; [exact Hu|]. specialize (Hnew w i Hi). lia.
           ++ injection Ei as <- <-. exists uidx. split; [apply nth_error_upd_eq; exact Ho|]. rewrite <- HU. apply nth_error_last.
      * exists u. rewrite upd_length in RL. auto.
    + assert (HNV : forall w, In w (map fst dn) -> w <> v /\ leb v w = false).
      { assert (HPV : prev <> v) by (intros ->; assert (close v v = true) by (apply HC; auto); congruence).
        assert (HVP : leb v prev = false) by (destruct (leb v prev) eqn:E; [destruct HPV; apply TA; [apply HLE; exact Hprev|exact E]|reflexivity]).
        intros w Hw. assert (Hq : In w (vals ++ [prev])) by (apply O4; exact Hw).
        assert (HWP : leb w prev = true).
        { apply in_app_iff in Hq as [Hq|[<-|[]]]; [|destruct (TT prev prev); assumption].
          rewrite Forall_forall in O3'. specialize (O3' w Hq). destruct (TT prev w); congruence. }
        assert (leb v w = false) by (destruct (leb v w) eqn:E; [rewrite (TR v w prev) in HVP by assumption; discriminate|reflexivity]).
        split; [|assumption]. intros ->. destruct (TT v v); congruence. }
      assert (HCV : forall w, In w (map fst dn) -> close w v = false /\ close v w = false).
      { intros w Hw. destruct (HNV w Hw) as [Hne _]. split.
        - destruct (close w v) eqn:E; [|reflexivity]. apply HC in E; [congruence|apply Hin; exact Hw|exact Hv].
        - destruct (close v w) eqn:E; [|reflexivity]. apply HC in E; [congruence|exact Hv|apply Hin; exact Hw]. }
      destruct (IH v (uidx + 1) orig 1 (vals ++ [prev]) (firsts ++ [first]) (counts ++ [cnt]) (upd inv orig (uidx + 1)) (dn ++ [(v, orig)])) as (u & E & R & RL).
      * exact HC.
      * exact HN.
      * rewrite upd_length. exact HB.
      * exact HA.
      * rewrite app_length; simpl; lia.
      * split; [rewrite !app_length; simpl; lia|]. split; [rewrite !app_length; simpl; lia|].
        split.
        { apply sascending_snoc. split; [exact O3|]. apply Forall_forall. intros w Hw. apply HNV, O4, Hw. }
        split.
        { intros w. rewrite (in_app_iff (vals ++ [prev])), O4, map_app, in_app_iff. cbn [map In fst]. tauto. }
        split.
        -- intros q w Hq. rewrite filter_snoc. cbn [fst].
           destruct (nth_error_snoc _ _ _ _ Hq) as [[Hl Hq']|[-> ->]].
           ++ destruct (O5 q w Hq') as [(f & Hf & Hf1 & Hf2) Hc].
              assert (Hw : In w (map fst dn)) by (apply (Hfst w f), Hf1).
              rewrite app_length in Hl; simpl in Hl. split.
              ** exists f. split; [rewrite nth_error_app1 by (rewrite app_length; simpl; lia); exact Hf|].
                 split; [apply in_app_iff; auto|]. intros i Hi. apply in_app_iff in Hi as [Hi|[Ei|[]]]; [apply Hf2; exact Hi|].
                 injection Ei as <- _. destruct (HNV v Hw); congruence.
              ** rewrite (proj2 (HCV w Hw)), app_nil_r. rewrite nth_error_app1 by (rewrite app_length; simpl; lia). exact Hc.
           ++ split.
              ** exists orig. split.
                 { replace (length (vals ++ [prev])) with (length (firsts ++ [first])) by (rewrite !app_length; simpl; lia). apply nth_error_last. }
                 split; [apply in_app_iff; right; left; reflexivity|].
                 intros i Hi. apply in_app_iff in Hi as [Hi|[Ei|[]]]; [|injection Ei as <-; lia].
                 destruct (HNV v (Hfst v i Hi)); congruence.
              ** replace (close v v) with true by (symmetry; apply HC; auto).
                 replace (filter (fun p => close (fst p) v) dn) with (@nil (K * nat)).
                 { replace (length (vals ++ [prev])) with (length (counts ++ [cnt])) by (rewrite !app_length; simpl; lia). apply nth_error_last. }
                 symmetry. clear -HCV. induction dn as [|[w i] dn IHd]; cbn [filter fst]; [reflexivity|].
                 rewrite (proj1 (HCV w ltac:(left; reflexivity))). apply IHd. intros w' Hw'. apply HCV. right; exact Hw'.
        -- intros w i Hi. apply in_app_iff in Hi as [Hi|[Ei|[]]].
           ++ destruct (O6 w i Hi) as (u & Hu & Hu'). exists u. split.
              ** rewrite nth_error_upd_neq; [exact Hu|]. specialize (Hnew w i Hi). lia.
              ** rewrite nth_error_app1; [exact Hu'|]. apply nth_error_Some; congruence.
           ++ injection Ei as <- <-. exists (uidx + 1). split; [apply nth_error_upd_eq; exact Ho|].
              replace (uidx + 1) with (length (vals ++ [prev])) by (rewrite app_length; simpl; lia). apply nth_error_last.
      * exists u. rewrite upd_length in RL. auto.
Qed.
End Unique.

(* ---------- sorting positions ---------- *)

(* the stable sort meets the contract of select_nth_unstable_by *)
Lemma stable_sort_select {K} : @select_contract K (fun leb l _ => stable_sort leb l).
Proof.
  intros leb l k HO HK. split; [apply stable_sort_perm|].
  destruct (nth_error (stable_sort leb l) k) as [v|] eqn:Ev;
    [|apply nth_error_None in Ev; rewrite stable_sort_length in Ev; lia].
  pose proof (stable_sort_spec_on leb (fun _ _ => True) l HO (SSorted_true l)) as HS. rewrite SSorted_nth in HS.
  exists v. split; [reflexivity|]. split; intros i x Hi Hx; [apply (HS i k)|apply (HS k i)]; assumption.
Qed.

Lemma seq_sorted s n : StronglySorted lt (seq s n).
Proof.
  revert s; induction n as [|n IH]; intros s; cbn; constructor; [apply IH|].
  apply Forall_forall. intros x Hx. apply in_seq in Hx. lia.
Qed.
Lemma pos_leb_on {V} (leb : V -> V -> bool) vals : total_preorder leb -> preorder_on (pos_leb leb vals) (seq 0 (length vals)).
Proof.
  intros [TT TR]. 
  assert (N : forall i, In i (seq 0 (length vals)) -> exists x, nth_error vals i = Some x).
  { intros i Hi. apply in_seq in Hi. destruct (nth_error vals i) eqn:E; [eauto|apply nth_error_None in E; lia]. }
  unfold pos_leb. split.
  - intros i j Hi Hj. destruct (N i Hi) as [x ->], (N j Hj) as [y ->]. apply TT.
  - intros i j k Hi Hj Hk. destruct (N i Hi) as [x ->], (N j Hj) as [y ->], (N k Hk) as [z ->]. apply TR.
Qed.

(* gathering a list at selected positions *)
Lemma mapM_at {V} (vals : list V) p : (forall i, In i p -> i < length vals) ->
  exists r, mapM (fun i => at_ vals i) p = Ok r /\ map (nth_error vals) p = map Some r.
Proof.
  induction p as [|i p IH]; intros H; cbn [mapM map]; [exists []; auto|].
  destruct IH as (r & E & M); [intros j Hj; apply H; right; exact Hj|].
  unfold at_ at 1. destruct (nth_error vals i) as [x|] eqn:Ex.
  - cbn [bind]. rewrite E. cbn [bind]. exists (x :: r). split; [reflexivity|]. cbn [map]. rewrite M. reflexivity.
  - apply nth_error_None in Ex. specialize (H i (or_introl eq_refl)). lia.
Qed.
Lemma gather_perm {V} (vals : list V) p r : Permutation (seq 0 (length vals)) p ->
  map (nth_error vals) p = map Some r -> Permutation vals r.
Proof.
  intros HP E. assert (HM : Permutation (map Some vals) (map Some r)).
  { rewrite <- E. replace (map Some vals) with (map (nth_error vals) (seq 0 (length vals))).
    - apply Permutation_map, HP.
    - apply nth_error_ext. intros k. rewrite !nth_error_map', nth_error_seq.
      destruct (Nat.ltb_spec k (length vals)) as [H|H].
      + cbn. destruct (nth_error vals k) eqn:E'; [reflexivity|apply nth_error_None in E'; lia].
      + cbn. rewrite (proj2 (nth_error_None vals k) H). reflexivity. }
  apply Permutation_sym, Permutation_map_inv in HM as (l3 & E3 & P3). apply map_Some_inj in E3. subst. exact P3.
Qed.
Lemma gather_partitioned {V} (leb : V -> V -> bool) vals p r k : partitioned (pos_leb leb vals) k (seq 0 (length vals)) p ->
  map (nth_error vals) p = map Some r -> partitioned leb k vals r.
Proof.
  intros (HP & q & Hq & HL & HR) E. split; [eapply gather_perm; eassumption|].
  assert (N : forall i pi, nth_error p i = Some pi -> exists x, nth_error r i = Some x /\ nth_error vals pi = Some x).
  { intros i pi Hi. pose proof (f_equal (fun l => nth_error l i) E) as E'. cbv beta in E'. rewrite !nth_error_map', Hi in E'.
    cbn [option_map] in E'. destruct (nth_error r i) as [x|]; [|discriminate]. cbn in E'. injection E' as E'. eauto. }
  assert (M : forall i x, nth_error r i = Some x -> exists pi, nth_error p i = Some pi /\ nth_error vals pi = Some x).
  { intros i x Hi. assert (LP : length p = length r) by (apply (f_equal (@length _)) in E; rewrite !map_length in E; exact E).
    assert (i < length r) by (apply nth_error_Some; congruence).
    destruct (nth_error p i) as [pi|] eqn:Ep; [|apply nth_error_None in Ep; lia].
    destruct (N i pi Ep) as (x' & H1 & H2). exists pi. split; [reflexivity|congruence]. }
  destruct (N k q Hq) as (v & Hv & Hv'). exists v. split; [exact Hv|].
  split; intros i x Hi Hx; destruct (M i x Hx) as (pi & Hpi & Hx').
  - specialize (HL i pi Hi Hpi). unfold pos_leb in HL. rewrite Hx', Hv' in HL. exact HL.
  - specialize (HR i pi Hi Hpi). unfold pos_leb in HR. rewrite Hx', Hv' in HR. exact HR.
Qed.

(* ---------- lexicographic comparison ---------- *)
(* a comparison function on the positions below n *)
Definition cmp_on (n : nat) (c : nat -> nat -> comparison) : Prop :=
  (forall i j, i < n -> j < n -> c j i = CompOpp (c i j)) /\
  (forall i j k, i < n -> j < n -> k < n -> c i j <> Gt -> c j k <> Gt -> c i k <> Gt) /\
  (forall i j k, i < n -> j < n -> k < n -> c i j = Lt -> c j k <> Gt -> c i k = Lt) /\
  (forall i j k, i < n -> j < n -> k < n -> c i j = Eq -> c i k = c j k).

Lemma first_diff_on n cs : Forall (cmp_on n) cs -> cmp_on n (first_diff cs).
Proof.
  induction 1 as [|c cs (C1 & C2 & C3 & C4) HF (I1 & I2 & I3 & I4)].
  - unfold cmp_on; cbn. repeat split; intros; congruence.
  - split; [|split; [|split]]; cbn [first_diff].
    + intros i j Hi Hj. rewrite (C1 i j) by assumption. destruct (c i j); cbn; auto.
    + intros i j k Hi Hj Hk H1 H2. destruct (c i j) eqn:E1; [|clear H1|congruence].
      * rewrite (C4 i j k) by assumption. destruct (c j k); [|congruence..]. exact (I2 i j k Hi Hj Hk H1 H2).
      * assert (c j k <> Gt) by (destruct (c j k); congruence). rewrite (C3 i j k) by assumption. congruence.
    + intros i j k Hi Hj Hk H1 H2. destruct (c i j) eqn:E1; [|clear H1|congruence].
      * rewrite (C4 i j k) by assumption. destruct (c j k); [|congruence..]. exact (I3 i j k Hi Hj Hk H1 H2).
      * assert (c j k <> Gt) by (destruct (c j k); congruence). rewrite (C3 i j k) by assumption. reflexivity.
    + intros i j k Hi Hj Hk H1. destruct (c i j) eqn:E1; [|congruence..].
      rewrite (C4 i j k) by assumption. rewrite (I4 i j k) by assumption. reflexivity.
Qed.
Lemma lex_before_first_diff cs i j : lex_before cs i j <->
  (first_diff cs i j = Lt \/ (first_diff cs i j = Eq /\ i < j)).
Proof.
  induction cs as [|c cs IH]; cbn; [split; [auto|intros [H|[_ H]]; [discriminate|exact H]]|].
  destruct (c i j); [exact IH|split; auto|split; [tauto|intros [H|[H _]]; discriminate]].
Qed.
Lemma lex_sort_spec n cs : Forall (cmp_on n) cs ->
  let p := stable_sort (fun i j => match first_diff cs i j with Gt => false | _ => true end) (seq 0 n) in
  Permutation p (seq 0 n) /\ StronglySorted (lex_before cs) p.
Proof.
  intros HF. cbv zeta. destruct (first_diff_on n cs HF) as (C1 & C2 & C3 & C4).
  set (leb := fun i j => match first_diff cs i j with Gt => false | _ => true end).
  assert (LE : forall i j, leb i j = true <-> first_diff cs i j <> Gt).
  { intros i j. unfold leb. destruct (first_diff cs i j); split; congruence. }
  assert (HO : preorder_on leb (seq 0 n)).
  { split.
    - intros i j Hi Hj. apply in_seq in Hi, Hj. rewrite !LE. rewrite (C1 i j) by lia.
      destruct (first_diff cs i j); cbn; [left|left|right]; congruence.
    - intros i j k Hi Hj Hk. apply in_seq in Hi, Hj, Hk. rewrite !LE. apply C2; lia. }
  split; [apply Permutation_sym, stable_sort_perm|].
  pose proof (stable_sort_spec_on leb lt (seq 0 n) HO (seq_sorted 0 n)) as HS.
  assert (HI : forall i, In i (stable_sort leb (seq 0 n)) -> i < n).
  { intros i Hi. apply (Permutation_in _ (Permutation_sym (stable_sort_perm leb (seq 0 n)))) in Hi. apply in_seq in Hi. lia. }
  revert HI HS. generalize (stable_sort leb (seq 0 n)) as p. intros p HI HS.
  apply SSorted_nth. rewrite SSorted_nth in HS. intros a b i j Hab Ha Hb. destruct (HS a b i j Hab Ha Hb) as [H1 H2].
  apply LE in H1. apply lex_before_first_diff. destruct (first_diff cs i j) eqn:E; [right|left; reflexivity|congruence].
  split; [reflexivity|]. apply H2, LE.
  assert (Hi : i < n) by (apply HI; eapply nth_error_In; exact Ha). assert (Hj : j < n) by (apply HI; eapply nth_error_In; exact Hb).
  rewrite (C1 i j Hi Hj), E. cbn. congruence.
Qed.
