(* Proofs about sorting, selection, binary search and merging of lists. *)
From Coq Require Import Permutation Sorted.
From Verif Require Import Base Lists Arr_Model Elem_Model Red_Model Sort_Spec Sort_Model.
Local Open Scope nat_scope.

(* ---------- stable sort ---------- *)
Section Sort.
Context {K : Type}.
Variable leb : K -> K -> bool.

Lemma insert_sorted_perm x l : Permutation (x :: l) (insert_sorted leb x l).
Proof.
  induction l as [|y l IH]; cbn [insert_sorted]; [apply Permutation_refl|].
  destruct (leb x y); [apply Permutation_refl|].
  eapply Permutation_trans; [apply perm_swap|]. apply perm_skip, IH.
Qed.
Lemma stable_sort_perm l : Permutation l (stable_sort leb l).
Proof.
  induction l as [|x l IH]; cbn; [constructor|].
  eapply Permutation_trans; [apply perm_skip, IH|]. apply insert_sorted_perm.
Qed.
Lemma stable_sort_length l : length (stable_sort leb l) = length l.
Proof. symmetry. apply Permutation_length, stable_sort_perm. Qed.

Lemma insert_stable_on (R0 : K -> K -> Prop) x l : preorder_on leb (x :: l) -> Forall (R0 x) l ->
  StronglySorted (fun u v => leb u v = true /\ (leb v u = true -> R0 u v)) l ->
  StronglySorted (fun u v => leb u v = true /\ (leb v u = true -> R0 u v)) (insert_sorted leb x l).
Proof.
  induction l as [|y l IH]; cbn [insert_sorted]; intros [TT TR] HF HS.
  - constructor; constructor.
  - inversion HF as [|? ? Hy HF']; subst. inversion HS as [|? ? HS' HA]; subst.
    destruct (leb x y) eqn:E.
    + constructor; [constructor; assumption|]. constructor; [split; [exact E|intros _; exact Hy]|].
      rewrite Forall_forall in *. intros z Hz. destruct (HA z Hz) as [A1 A2].
      split; [apply (TR x y z); cbn; auto|]. intros _. apply HF'; exact Hz.
    + constructor.
      { apply IH; [|assumption..]. split; intros; [apply TT|eapply TR]; cbn [In] in *; try eassumption; tauto. }
      assert (leb y x = true) by (destruct (TT x y); cbn; auto; congruence).
      rewrite Forall_forall in *. intros z Hz.
      apply (Permutation_in z (Permutation_sym (insert_sorted_perm x l))) in Hz. destruct Hz as [<-|Hz].
      * split; [assumption|congruence].
      * apply HA; exact Hz.
Qed.
Lemma stable_sort_spec_on (R0 : K -> K -> Prop) l : preorder_on leb l -> StronglySorted R0 l ->
  StronglySorted (fun u v => leb u v = true /\ (leb v u = true -> R0 u v)) (stable_sort leb l).
Proof.
  induction l as [|x l IH]; cbn; intros HO HS; [constructor|]. inversion HS as [|? ? HS' HF]; subst.
  assert (HI : forall z, In z (stable_sort leb l) -> In z l)
    by (intros z Hz; eapply Permutation_in; [apply Permutation_sym, stable_sort_perm|exact Hz]).
  destruct HO as [TT TR]. apply insert_stable_on.
  - split.
    + intros u v Hu Hv. apply TT; [destruct Hu; [left|right]|destruct Hv; [left|right]]; auto.
    + intros u v w Hu Hv Hw. apply TR; [destruct Hu; [left|right]|destruct Hv; [left|right]|destruct Hw; [left|right]]; auto.
  - rewrite Forall_forall in *. intros z Hz. apply HF, HI, Hz.
  - apply IH; [|exact HS']. split; intros; [apply TT|eapply TR]; cbn [In] in *; try eassumption; tauto.
Qed.
Lemma preorder_on_all l : total_preorder leb -> preorder_on leb l.
Proof. intros [TT TR]. split; [intros; apply TT|intros x y z _ _ _; apply TR]. Qed.

Hypothesis TP : total_preorder leb.
Lemma stable_sort_spec (R0 : K -> K -> Prop) l : StronglySorted R0 l ->
  StronglySorted (fun u v => leb u v = true /\ (leb v u = true -> R0 u v)) (stable_sort leb l).
Proof. apply stable_sort_spec_on, preorder_on_all, TP. Qed.
Lemma SSorted_weaken {A} (R S : A -> A -> Prop) l : (forall x y, R x y -> S x y) ->
  StronglySorted R l -> StronglySorted S l.
Proof.
  intros H HS. induction HS as [|x l HS IH HF]; constructor; [exact IH|].
  eapply Forall_impl; [|exact HF]. auto.
Qed.
Lemma SSorted_true {A} (l : list A) : StronglySorted (fun _ _ => True) l.
Proof. induction l; constructor; [assumption|]. apply Forall_forall; auto. Qed.
Lemma stable_sort_sorts l : sorts leb l (stable_sort leb l).
Proof.
  split; [apply stable_sort_perm|]. unfold ascending.
  eapply SSorted_weaken; [|apply (stable_sort_spec (fun _ _ => True)), SSorted_true]. intros x y [H _]; exact H.
Qed.
End Sort.

Lemma SSorted_nth {A} (R : A -> A -> Prop) l : StronglySorted R l <->
  forall i j x y, i < j -> nth_error l i = Some x -> nth_error l j = Some y -> R x y.
Proof.
  split.
  - intros HS. induction HS as [|z l HS IH HF]; intros i j x y Hij Hx Hy; [destruct i; discriminate|].
    destruct j as [|j]; [lia|]. cbn [nth_error] in Hy. destruct i as [|i]; cbn [nth_error] in Hx.
    + injection Hx as <-. rewrite Forall_forall in HF. apply HF. eapply nth_error_In; exact Hy.
    + apply (IH i j); [lia|assumption..].
  - induction l as [|z l IH]; intros H; [constructor|]. constructor.
    + apply IH. intros i j x y Hij Hx Hy. apply (H (S i) (S j)); [lia|assumption..].
    + apply Forall_forall. intros y Hy. apply In_nth_error in Hy as [j Hj]. apply (H 0 (S j)); [lia|reflexivity|exact Hj].
Qed.

(* (key, position) pairs sorted by key *)
Lemma combine_seq_sorted {K} (l : list K) s : StronglySorted (fun p q : K * nat => snd p < snd q) (combine l (seq s (length l))).
Proof.
  revert s; induction l as [|x l IH]; intros s; cbn; constructor; [apply IH|].
  apply Forall_forall. intros [y j] H. apply in_combine_r in H. apply in_seq in H. cbn; lia.
Qed.
Lemma nth_error_combine {A B} (l : list A) (m : list B) k : nth_error (combine l m) k =
  match nth_error l k, nth_error m k with Some x, Some y => Some (x, y) | _, _ => None end.
Proof.
  revert m k; induction l as [|x0 l IH]; intros [|y0 m] [|k]; cbn [nth_error combine]; try reflexivity; try apply IH.
  destruct (nth_error l k); reflexivity.
Qed.
Lemma in_combine_seq {K} (l : list K) v i : In (v, i) (combine l (seq 0 (length l))) <-> nth_error l i = Some v.
Proof.
  split.
  - intros H. apply In_nth_error in H as [k Hk]. rewrite nth_error_combine, nth_error_seq in Hk.
    destruct (nth_error l k) eqn:E; [|discriminate].
    destruct (k <? length l); [|discriminate]. injection Hk as -> <-. exact E.
  - intros H. apply (nth_error_In _ i). rewrite nth_error_combine, nth_error_seq, H.
    assert (i < length l) by (apply nth_error_Some; congruence). destruct (Nat.ltb_spec i (length l)); [reflexivity|lia].
Qed.
Lemma map_snd_combine {A B} (l : list A) (m : list B) : length l = length m -> map snd (combine l m) = m.
Proof. revert m; induction l as [|x l IH]; intros [|y m] H; simpl in *; try discriminate; [reflexivity|]. f_equal. apply IH; lia. Qed.
Lemma map_fst_combine {A B} (l : list A) (m : list B) : length l = length m -> map fst (combine l m) = l.
Proof. revert m; induction l as [|x l IH]; intros [|y m] H; simpl in *; try discriminate; [reflexivity|]. f_equal. apply IH; lia. Qed.

Definition by_key {K} (leb : K -> K -> bool) : K * nat -> K * nat -> bool := fun p q => leb (fst p) (fst q).
Lemma by_key_preorder {K} (leb : K -> K -> bool) : total_preorder leb -> total_preorder (by_key leb).
Proof. intros [T R]. split; [intros x y; apply T|intros x y z; apply R]. Qed.

Lemma sort_pairs_fst {K} (leb : K -> K -> bool) l : total_preorder leb ->
  sorts leb l (map fst (stable_sort (by_key leb) (combine l (seq 0 (length l))))).
Proof.
  intros TP. split.
  - rewrite <- (map_fst_combine l (seq 0 (length l))) at 1 by (rewrite seq_length; reflexivity).
    apply Permutation_map, stable_sort_perm.
  - destruct (stable_sort_sorts (by_key leb) (by_key_preorder leb TP) (combine l (seq 0 (length l)))) as [_ HS].
    unfold ascending in *. apply SSorted_nth. intros i j x y Hij Hx Hy.
    rewrite nth_error_map' in Hx, Hy.
    destruct (nth_error _ i) as [[x' a]|] eqn:E1 in Hx; [|discriminate].
    destruct (nth_error _ j) as [[y' b]|] eqn:E2 in Hy; [|discriminate].
    injection Hx as <-. injection Hy as <-.
    pose proof (proj1 (SSorted_nth _ _) HS) as HS'. exact (HS' i j _ _ Hij E1 E2).
Qed.
Lemma sort_pairs_snd {K} (leb : K -> K -> bool) l : total_preorder leb ->
  stable_order leb l (map snd (stable_sort (by_key leb) (combine l (seq 0 (length l))))).
Proof.
  intros TP. set (c := combine l (seq 0 (length l))). set (s := stable_sort (by_key leb) c). split.
  - rewrite <- (map_snd_combine l (seq 0 (length l))) by (rewrite seq_length; reflexivity).
    apply Permutation_map, Permutation_sym, stable_sort_perm.
  - pose proof (stable_sort_spec (by_key leb) (by_key_preorder leb TP) _ c (combine_seq_sorted l 0)) as HS.
    fold s in HS. rewrite SSorted_nth in HS.
    intros i j pi pj x y Hij Hi Hj Hx Hy. rewrite nth_error_map' in Hi, Hj.
    destruct (nth_error s i) as [[x' a]|] eqn:E1; [|discriminate].
    destruct (nth_error s j) as [[y' b]|] eqn:E2; [|discriminate].
    cbn in Hi, Hj. injection Hi as <-. injection Hj as <-.
    assert (Hin : forall k v q, nth_error s k = Some (v, q) -> nth_error l q = Some v).
    { intros k v q H. apply nth_error_In in H. apply in_combine_seq.
      eapply Permutation_in; [apply Permutation_sym, stable_sort_perm|exact H]. }
    rewrite (Hin _ _ _ E1) in Hx. injection Hx as <-. rewrite (Hin _ _ _ E2) in Hy. injection Hy as <-.
    exact (HS i j _ _ Hij E1 E2).
Qed.

(* the stable order is unique *)
Lemma sorted_perm_unique {A} (R : A -> A -> Prop) : (forall x y, R x y -> R y x -> False) ->
  forall l m, Permutation l m -> StronglySorted R l -> StronglySorted R m -> l = m.
Proof.
  intros HA. induction l as [|x l IH]; intros m HP HL HM.
  - apply Permutation_nil in HP. subst; reflexivity.
  - destruct m as [|y m]; [apply Permutation_sym, Permutation_nil in HP; discriminate|].
    inversion HL as [|? ? HL' FL]; subst. inversion HM as [|? ? HM' FM]; subst. rewrite Forall_forall in *.
    assert (x = y).
    { assert (In x (y :: m)) as [E|Hx] by (eapply Permutation_in; [exact HP|left; reflexivity]); [congruence|].
      assert (In y (x :: l)) as [E|Hy] by (eapply Permutation_in; [apply Permutation_sym, HP|left; reflexivity]); [congruence|].
      destruct (HA x y); auto. }
    subst y. f_equal. apply IH; [eapply Permutation_cons_inv; exact HP|assumption..].
Qed.
Lemma stable_order_unique {K} (leb : K -> K -> bool) l p q : stable_order leb l p -> stable_order leb l q -> p = q.
Proof.
  intros [P1 S1] [P2 S2].
  set (R := fun i j => exists x y, nth_error l i = Some x /\ nth_error l j = Some y /\ leb x y = true /\ (leb y x = true -> i < j)).
  assert (HS : forall p, Permutation p (seq 0 (length l)) -> (forall i j pi pj x y, i < j -> nth_error p i = Some pi -> nth_error p j = Some pj ->
    nth_error l pi = Some x -> nth_error l pj = Some y -> leb x y = true /\ (leb y x = true -> pi < pj)) -> StronglySorted R p).
  { clear. intros p HP HS. apply SSorted_nth. intros i j a b Hij Ha Hb.
    assert (IN : forall k a, nth_error p k = Some a -> exists x, nth_error l a = Some x).
    { intros k c H. apply nth_error_In in H. apply (Permutation_in _ HP) in H. apply in_seq in H.
      destruct (nth_error l c) eqn:E; [eauto|apply nth_error_None in E; lia]. }
    destruct (IN i a Ha) as [x Hx], (IN j b Hb) as [y Hy]. exists x, y. repeat (split; [assumption|]).
    apply (HS i j a b x y); assumption. }
  apply (sorted_perm_unique R).
  - intros i j (x & y & Hx & Hy & H1 & H2) (y' & x' & Hy' & Hx' & H3 & H4).
    assert (x' = x) by congruence. assert (y' = y) by congruence. subst. specialize (H2 H3). specialize (H4 H1). lia.
  - eapply Permutation_trans; [exact P1|apply Permutation_sym, P2].
  - apply HS; assumption.
  - apply HS; assumption.
Qed.

(* ---------- binary search ---------- *)
Lemma bsearch_spec (p : nat -> bool) (g : nat -> res bool) n fuel lo hi :
  (forall m, m < n -> g m = Ok (p m)) ->
  (forall i j, i <= j -> j < n -> p j = true -> p i = true) ->
  lo <= hi -> hi <= n -> hi - lo <= fuel ->
  (forall m, m < lo -> p m = true) -> (forall m, hi <= m -> m < n -> p m = false) ->
  exists r, bsearch g fuel lo hi = Ok r /\ r <= n /\
    (forall m, m < r -> p m = true) /\ (forall m, r <= m -> m < n -> p m = false).
Proof.
  intros HG HM. revert lo hi. induction fuel as [|f IH]; intros lo hi HLH HHN HF H1 H2; cbn [bsearch].
  - destruct (Nat.ltb_spec lo hi); [lia|]. exists lo. assert (lo = hi) by lia. subst. repeat split; auto.
  - destruct (Nat.ltb_spec lo hi) as [HL|HL].
    + assert (HMid : lo <= lo + (hi - lo) / 2 < hi).
      { assert ((hi - lo) / 2 < hi - lo) by (apply Nat.div_lt; lia). lia. }
      set (mid := lo + (hi - lo) / 2) in *. clearbody mid.
      rewrite HG by lia. cbn [bind]. destruct (p mid) eqn:E.
      * apply IH; [lia|lia|lia| |exact H2]. intros m Hm. apply (HM m mid); [lia|lia|exact E].
      * apply IH; [lia|lia|lia|exact H1|]. intros m Hm Hn.
        destruct (p m) eqn:E'; [|reflexivity]. rewrite (HM mid m) in E by (assumption || lia). discriminate.
    + exists lo. assert (lo = hi) by lia. subst. repeat split; auto.
Qed.

Lemma partition_point_spec {K} (p : K -> bool) l :
  (forall i j x y, i <= j -> nth_error l i = Some x -> nth_error l j = Some y -> p y = true -> p x = true) ->
  exists r, partition_point p l = Ok r /\ r <= length l /\
    (forall j x, j < r -> nth_error l j = Some x -> p x = true) /\
    (forall j x, r <= j -> nth_error l j = Some x -> p x = false).
Proof.
  intros HM.
  destruct (bsearch_spec (fun m => match nth_error l m with Some x => p x | None => false end)
              (fun m => bind (at_ l m) (fun x => Ok (p x))) (length l) (length l) 0 (length l)) as (r & E & HR & H1 & H2).
  - intros m Hm. unfold at_. destruct (nth_error l m) eqn:EN; [reflexivity|apply nth_error_None in EN; lia].
  - intros i j Hij Hj. destruct (nth_error l j) as [y|] eqn:Ey; [|discriminate].
    destruct (nth_error l i) as [x|] eqn:Ex; [|apply nth_error_None in Ex; lia]. apply (HM i j); assumption.
  - lia.
  - lia.
  - lia.
  - intros m Hm; lia.
  - intros; lia.
  - exists r. split; [exact E|]. split; [exact HR|]. split.
    + intros j x Hj Hx. specialize (H1 j Hj). cbv beta in H1. rewrite Hx in H1. exact H1.
    + intros j x Hj Hx. assert (j < length l) by (apply nth_error_Some; congruence).
      specialize (H2 j Hj H). cbv beta in H2. rewrite Hx in H2. exact H2.
Qed.

(* ---------- dedup ---------- *)
Section Dedup.
Context {K : Type}.
Variables (leb same : K -> K -> bool).

Lemma dedup_from_incl kept l x : In x (dedup_from same kept l) -> In x l.
Proof.
  revert kept; induction l as [|y l IH]; intros kept; cbn; [auto|].
  destruct (same y kept); [right; apply (IH kept); assumption|intros [->|H]; [left; reflexivity|right; apply (IH y); exact H]].
Qed.
Hypothesis TO : total_order leb.

Lemma dedup_from_spec kept l : (forall x y, In x (kept :: l) -> In y (kept :: l) -> (same x y = true <-> x = y)) ->
  ascending leb (kept :: l) ->
  strictly_ascending leb (kept :: dedup_from same kept l) /\ forall x, In x (kept :: l) <-> In x (kept :: dedup_from same kept l).
Proof.
  destruct TO as [[TT TR] TA].
  revert kept; induction l as [|y l IH]; intros kept HS HA; cbn [dedup_from].
  - split; [constructor; constructor|reflexivity].
  - inversion HA as [|? ? HA' HF]; subst. inversion HA' as [|? ? HA2 HF2]; subst. inversion HF as [|? ? Hky HF3]; subst.
    destruct (same y kept) eqn:E.
    + apply HS in E; [|right; left; reflexivity|left; reflexivity]. subst y.
      destruct (IH kept) as [I1 I2].
      { intros u v Hu Hv. apply HS; [destruct Hu; [left|right; right]|destruct Hv; [left|right; right]]; assumption. }
      { constructor; assumption. }
      split; [exact I1|]. intros x. rewrite <- I2. cbn. tauto.
    + assert (kept <> y) by (intros <-; assert (same kept kept = true) by (apply HS; [left; reflexivity..|reflexivity]); congruence).
      destruct (IH y) as [I1 I2].
      { intros u v Hu Hv. apply HS; right; assumption. }
      { exact HA'. }
      split.
      * constructor; [exact I1|]. inversion I1 as [|? ? I3 I4]; subst. rewrite Forall_forall in *.
        assert (leb y kept = false) by (destruct (leb y kept) eqn:EE; [destruct (H (TA _ _ Hky EE))|reflexivity]).
        intros z [->|Hz]; [assumption|]. specialize (I4 z Hz).
        destruct (leb z kept) eqn:EE; [|reflexivity]. rewrite (TR z kept y EE Hky) in I4. discriminate.
      * intros x. cbn [In] in *. rewrite <- I2. tauto.
Qed.
Lemma dedup_spec l : (forall x y, In x l -> In y l -> (same x y = true <-> x = y)) -> ascending leb l ->
  strictly_ascending leb (dedup_by same l) /\ forall x, In x l <-> In x (dedup_by same l).
Proof.
  destruct l as [|x l]; intros HS HA; cbn [dedup_by]; [split; [constructor|reflexivity]|].
  apply dedup_from_spec; assumption.
Qed.
End Dedup.

Lemma sorted_unique_spec {K} (leb same : K -> K -> bool) l : total_order leb ->
  (forall x y, In x l -> In y l -> (same x y = true <-> x = y)) ->
  strictly_ascending leb (dedup_by same (stable_sort leb l)) /\
  forall x, In x (dedup_by same (stable_sort leb l)) <-> In x l.
Proof.
  intros TO HS. destruct (stable_sort_sorts leb (proj1 TO) l) as [HP HA].
  assert (HI : forall x, In x (stable_sort leb l) <-> In x l)
    by (intros x; split; apply Permutation_in; [apply Permutation_sym, HP|exact HP]).
  destruct (dedup_spec leb same TO (stable_sort leb l)) as [D1 D2].
  - intros x y Hx Hy. apply HS; apply HI; assumption.
  - exact HA.
  - split; [exact D1|]. intros x. rewrite <- D2. apply HI.
Qed.

(* ---------- merging two strictly ascending lists ---------- *)
Section Merge.
Context {K : Type}.
Variable leb : K -> K -> bool.
Hypothesis TO : total_order leb.

Local Notation lt_all x l := (Forall (fun z => leb z x = false) l).

Lemma lt_trans_l x y z : leb y x = false -> leb z y = false -> leb z x = false.
Proof.
  destruct TO as [[TT TR] TA]. intros H1 H2. destruct (leb z x) eqn:E; [|reflexivity].
  assert (leb x y = true) by (destruct (TT x y); congruence). rewrite (TR z x y) in H2 by assumption. discriminate.
Qed.
Lemma lt_all_trans x y l : leb y x = false -> lt_all y l -> lt_all x l.
Proof. intros H HF. eapply Forall_impl; [|exact HF]. cbv beta. intros z Hz. eapply lt_trans_l; eassumption. Qed.
Lemma lt_all_notin x l : lt_all x l -> ~ In x l.
Proof.
  destruct TO as [[TT _] _]. intros HF HI. rewrite Forall_forall in HF. specialize (HF x HI). destruct (TT x x); congruence.
Qed.

Definition merge_sem (op : setop) (x : K) (l m : list K) : Prop :=
  match op with
  | SInter => In x l /\ In x m
  | SUnion => In x l \/ In x m
  | SDiff => In x l /\ ~ In x m
  | SXor => (In x l /\ ~ In x m) \/ (In x m /\ ~ In x l)
  end.

(* one recursion shared by the four loops *)
Fixpoint merge_gen (op : setop) (fuel : nat) (l m : list K) : list K :=
  match fuel, l, m with
  | S f, x :: l', y :: m' =>
      if negb (leb y x) then (match op with SInter => [] | _ => [x] end) ++ merge_gen op f l' m
      else if negb (leb x y) then (match op with SUnion | SXor => [y] | _ => [] end) ++ merge_gen op f l m'
      else (match op with SInter | SUnion => [x] | _ => [] end) ++ merge_gen op f l' m'
  | S f, x :: l', [] => match op with SDiff => x :: merge_gen op f l' [] | SInter => [] | _ => l end
  | _, _, _ => match op with SInter | SDiff => [] | _ => l ++ m end
  end.
Lemma merge_gen_eq op fuel l m : length l + length m <= fuel ->
  (match op with SInter => merge_inter leb | SUnion => merge_union leb | SDiff => merge_diff leb | SXor => merge_xor leb end) fuel l m
  = merge_gen op fuel l m.
Proof.
  revert l m; induction fuel as [|f IH]; intros [|x l] [|y m] HF; simpl in HF; destruct op; cbn; try reflexivity; try lia;
    rewrite ?app_nil_r; try reflexivity.
  all: try (f_equal; apply (IH l []); simpl; lia).
  all: destruct (leb y x) eqn:E1; cbn; [destruct (leb x y) eqn:E2; cbn|]; try f_equal;
    first [apply (IH l m); simpl; lia | apply (IH (x :: l) m); simpl; lia | apply (IH l (y :: m)); simpl; lia].
Qed.

Lemma merge_gen_spec op fuel l m : length l + length m <= fuel ->
  strictly_ascending leb l -> strictly_ascending leb m ->
  strictly_ascending leb (merge_gen op fuel l m) /\
  (forall x, lt_all x l -> lt_all x m -> lt_all x (merge_gen op fuel l m)) /\
  (forall x, In x (merge_gen op fuel l m) <-> merge_sem op x l m).
Proof.
  revert l m; induction fuel as [|f IH]; intros l m HF HL HM.
  { destruct l, m; simpl in HF; try lia. cbn. destruct op; (split; [constructor|split; [intros; constructor|cbn; tauto]]). }
  assert (TO' := TO). destruct TO' as [[TT TR] TA].
  destruct l as [|x l].
  { cbn. destruct op; cbn; (split; [try exact HM; constructor|split; [intros; try assumption; constructor|cbn; tauto]]). }
  inversion HL as [|? ? HL' FL]; subst. pose proof (lt_all_notin _ _ FL) as NL.
  destruct m as [|y m].
  { cbn. destruct op.
    - split; [constructor|split; [intros; constructor|cbn; tauto]].
    - split; [exact HL|split; [intros; assumption|cbn; tauto]].
    - destruct (IH l []) as (I1 & I2 & I3); [simpl in *; lia|exact HL'|constructor|]. split; [|split].
      + constructor; [exact I1|]. apply I2; [exact FL|constructor].
      + intros z Hz _. inversion Hz; subst. constructor; [assumption|]. apply I2; [assumption|constructor].
      + intros z. cbn [In]. rewrite I3. cbn. tauto.
    - split; [exact HL|split; [intros; assumption|cbn; tauto]]. }
  inversion HM as [|? ? HM' FM]; subst. pose proof (lt_all_notin _ _ FM) as NM.
  cbn [merge_gen]. destruct (leb y x) eqn:E1; cbn [negb].
  - destruct (leb x y) eqn:E2; cbn [negb].
    + assert (x = y) by (apply TA; assumption). subst y.
      destruct (IH l m) as (I1 & I2 & I3); [simpl in *; lia|assumption..|].
      assert (IX := I2 x FL FM).
      split; [destruct op; cbn [app]; try exact I1; (constructor; [exact I1|exact IX])|]. split.
      * intros z Hz Hz'. inversion Hz; subst. inversion Hz'; subst.
        destruct op; cbn [app]; try (apply I2; assumption); (constructor; [assumption|apply I2; assumption]).
      * intros z. destruct op; cbn [app In merge_sem]; rewrite I3; cbn [merge_sem]; split; intros H;
          intuition (subst; try tauto); exfalso; subst; eauto.
    + assert (FX : lt_all y (x :: l)) by (constructor; [exact E2|apply (lt_all_trans y x); assumption]).
      pose proof (lt_all_notin _ _ FX) as NY.
      destruct (IH (x :: l) m) as (I1 & I2 & I3); [simpl in *; lia|assumption..|].
      assert (IX := I2 y FX FM).
      split; [destruct op; cbn [app]; try exact I1; (constructor; [exact I1|exact IX])|]. split.
      * intros z Hz Hz'. inversion Hz'; subst.
        destruct op; cbn [app]; try (apply I2; assumption); (constructor; [assumption|apply I2; assumption]).
      * intros z. destruct op; cbn [app]; try (cbn [In]); rewrite I3; unfold merge_sem; cbn [In]; cbn [In] in NY;
          split; intros H; intuition (subst; try tauto); exfalso; subst; eauto.
  - assert (FX : lt_all x (y :: m)) by (constructor; [exact E1|apply (lt_all_trans x y); assumption]).
    pose proof (lt_all_notin _ _ FX) as NX.
    destruct (IH l (y :: m)) as (I1 & I2 & I3); [simpl in *; lia|assumption..|].
    assert (IX := I2 x FL FX).
    split; [destruct op; cbn [app]; try exact I1; (constructor; [exact I1|exact IX])|]. split.
    * intros z Hz Hz'. inversion Hz; subst.
      destruct op; cbn [app]; try (apply I2; assumption); (constructor; [assumption|apply I2; assumption]).
    * intros z. destruct op; cbn [app]; try (cbn [In]); rewrite I3; unfold merge_sem; cbn [In]; cbn [In] in NX;
        split; intros H; intuition (subst; try tauto); exfalso; subst; eauto.
Qed.
Lemma merge_spec op l m : strictly_ascending leb l -> strictly_ascending leb m ->
  strictly_ascending leb (merge leb op l m) /\ forall x, In x (merge leb op l m) <-> merge_sem op x l m.
Proof.
  intros HL HM. unfold merge. rewrite merge_gen_eq by lia.
  destruct (merge_gen_spec op (length l + length m) l m) as (H1 & _ & H3); [lia|assumption..|]. split; assumption.
Qed.
End Merge.
