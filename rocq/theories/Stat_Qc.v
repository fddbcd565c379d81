(* Percentiles in exact arithmetic. *)
From Coq Require Import Permutation Sorted QArith Qcanon Qround Qfield Lqa.
From Verif Require Import Base Lists Arr_Spec Arr_Model Elem_Model Sort_Spec Sort_Model Sort_Proofs Stat_Spec Stat_Model Stat_Proofs.
Local Open Scope nat_scope.

Ltac qc_push := unfold Qcle, Qclt, Qcminus, Qcplus, Qcopp, Qcmult, qn in *; cbn [this Q2Qc] in *;
  repeat match goal with
  | H : context [Qred _] |- _ => rewrite !Qred_correct in H
  | |- context [Qred _] => rewrite !Qred_correct
  end.
Ltac qlra := qc_push; lra.
Ltac qnra := qc_push; nra.

Lemma qn_S k : qn (S k) = (qn k + 1)%Qc.
Proof.
  apply Qc_is_canon. unfold qn, Qcplus. cbn [this Q2Qc]. rewrite !Qred_correct. rewrite Nat2Z.inj_succ, <- Z.add_1_r, inject_Z_plus. reflexivity.
Qed.
Lemma qn_le a b : a <= b <-> (qn a <= qn b)%Qc.
Proof.
  unfold Qcle, qn. cbn [this Q2Qc]. rewrite !Qred_correct. rewrite <- Zle_Qle. lia.
Qed.
Lemma qn_lt a b : a < b <-> (qn a < qn b)%Qc.
Proof. unfold Qclt, qn. cbn [this Q2Qc]. rewrite !Qred_correct. rewrite <- Zlt_Qlt. lia. Qed.
Lemma qn_inj a b : qn a = qn b -> a = b.
Proof. intro E. apply Nat.le_antisymm; apply qn_le; rewrite E; apply Qcle_refl. Qed.
Lemma qn_add a b : qn (a + b) = (qn a + qn b)%Qc.
Proof. apply Qc_is_canon. unfold qn, Qcplus. cbn [this Q2Qc]. rewrite !Qred_correct, Nat2Z.inj_add, inject_Z_plus. reflexivity. Qed.
Lemma qn_mul a b : qn (a * b) = (qn a * qn b)%Qc.
Proof. apply Qc_is_canon. unfold qn, Qcmult. cbn [this Q2Qc]. rewrite !Qred_correct, Nat2Z.inj_mul, inject_Z_mult. reflexivity. Qed.
Lemma qn_pos a : 0 < a -> (0 < qn a)%Qc.
Proof. intro H. change (0%Qc) with (qn 0). apply qn_lt. exact H. Qed.
Lemma qn_nz a : 0 < a -> qn a <> 0%Qc.
Proof. intros H E. apply qn_pos in H. rewrite E in H. apply (Qclt_not_eq _ _ H). reflexivity. Qed.
Lemma qleb_le x y : qleb x y = true <-> (x <= y)%Qc.
Proof. unfold qleb. apply Qle_bool_iff. Qed.
Lemma qleb_preorder l : preorder_on qleb l.
Proof.
  split.
  - intros x y _ _. rewrite !qleb_le. destruct (Qclt_le_dec x y) as [H|H]; [left; apply Qclt_le_weak; exact H|right; exact H].
  - intros x y z _ _ _. rewrite !qleb_le. apply Qcle_trans.
Qed.

(* floor and ceiling *)
Definition qfloor (x : Qc) : nat := Z.to_nat (Qfloor x).
Definition qceil (x : Qc) : nat := Z.to_nat (Qceiling x).
Lemma qfloor_spec x : (0 <= x)%Qc -> (qn (qfloor x) <= x)%Qc /\ (x < qn (S (qfloor x)))%Qc.
Proof.
  intro H. unfold qfloor. assert (0 <= Qfloor x)%Z as P.
  { change 0%Z with (Qfloor 0). apply Qfloor_resp_le. exact H. }
  rewrite qn_S. unfold qn. rewrite Z2Nat.id by exact P. pose proof (Qfloor_le x). pose proof (Qlt_floor x). rewrite inject_Z_plus in H1. change (inject_Z 1) with 1%Q in H1. split; qlra.
Qed.
Lemma qceil_spec x : (0 <= x)%Qc -> (x <= qn (qceil x))%Qc /\ (qn (qceil x) < x + 1)%Qc.
Proof.
  intro H. unfold qceil. assert (0 <= Qceiling x)%Z as P.
  { change 0%Z with (Qceiling 0). apply Qceiling_resp_le. exact H. }
  unfold qn. rewrite Z2Nat.id by exact P. pose proof (Qle_ceiling x). pose proof (Qceiling_lt x).
  unfold Z.sub in H1. rewrite inject_Z_plus in H1. change (inject_Z (- (1))) with (- (1))%Q in H1. split; qlra.
Qed.

Lemma asc_nth s : ascending qleb s -> forall i j x y, i < j -> nth_error s i = Some x -> nth_error s j = Some y -> qleb x y = true.
Proof. intros A i j x y H Ex Ey. exact (proj1 (SSorted_nth (fun a b => qleb a b = true) s) A i j x y H Ex Ey). Qed.
(* the polygon is a function of t, increasing for ascending points *)
Lemma polygon_seg s t v : ascending qleb s -> polygon s t v -> exists k x, nth_error s k = Some x /\ (qn k <= t)%Qc /\ (t < qn (S k))%Qc /\ (x <= v)%Qc /\
  (t = qn k -> v = x) /\
  (forall y, nth_error s (S k) = Some y -> (v <= y)%Qc /\ v = (x + (t - qn k) * (y - x))%Qc) /\ (nth_error s (S k) = None -> t = qn k).
Proof.
  intros A (k & x & Ex & [(-> & ->)|(y & Ey & L1 & L2 & ->)]); exists k, x.
  - split; [exact Ex|]. split; [apply Qcle_refl|]. split; [apply qn_lt; lia|]. split; [apply Qcle_refl|]. split; [reflexivity|]. split; [|reflexivity].
    intros y Ey. split; [apply qleb_le, (asc_nth s A k (S k)); [lia|assumption|assumption]|]. ring.
  - assert (x <= y)%Qc as XY by (apply qleb_le, (asc_nth s A k (S k)); [lia|assumption|assumption]).
    rewrite qn_S in *. split; [exact Ex|]. split; [apply Qclt_le_weak; exact L1|]. split; [exact L2|]. split; [qnra|].
    split; [intros ->; ring|]. split; [|rewrite Ey; discriminate]. intros y' Ey'. rewrite Ey in Ey'. injection Ey' as <-. split; [qnra|reflexivity].
Qed.
Lemma polygon_mono s t t' v v' : ascending qleb s -> polygon s t v -> polygon s t' v' -> (t <= t')%Qc -> (v <= v')%Qc.
Proof.
  intros A P P' H. destruct (polygon_seg s t v A P) as (k & x & Ex & K1 & K2 & KX & KE & KY & KN).
  destruct (polygon_seg s t' v' A P') as (k' & x' & Ex' & K1' & K2' & KX' & KE' & KY' & KN').
  assert (k <= k').
  { enough (k < S k') by lia. apply qn_lt. apply (Qcle_lt_trans _ t); [exact K1|]. apply (Qcle_lt_trans _ t'); assumption. }
  destruct (Nat.eq_dec k k') as [<-|NE].
  - rewrite Ex in Ex'. injection Ex' as <-. destruct (nth_error s (S k)) as [y|] eqn:Ey.
    + destruct (KY y eq_refl) as [_ ->]. destruct (KY' y eq_refl) as [_ ->].
      assert (x <= y)%Qc as XY by (apply qleb_le, (asc_nth s A k (S k)); [lia|assumption|assumption]). qnra.
    + rewrite (KE (KN eq_refl)). exact KX'.
  - destruct (nth_error s (S k)) as [y|] eqn:Ey.
    + destruct (KY y eq_refl) as [Vy _]. apply (Qcle_trans _ y); [exact Vy|]. apply (Qcle_trans _ x'); [|exact KX'].
      destruct (Nat.eq_dec (S k) k') as [<-|]; [rewrite Ey in Ex'; injection Ex' as <-; apply Qcle_refl|].
      apply qleb_le, (asc_nth s A (S k) k'); [lia|assumption|assumption].
    + apply nth_error_None in Ey. assert (k' < length s) by (apply nth_error_Some; congruence). lia.
Qed.
Lemma polygon_fun s t v v' : ascending qleb s -> polygon s t v -> polygon s t v' -> v = v'.
Proof. intros A P P'. apply Qcle_antisym; apply (polygon_mono s t t); try assumption; apply Qcle_refl. Qed.

Section Interp.
Variable nan : Qc.
Notation interp' := (interpolate (1%Qc) (qn 100) nan Qcplus Qcminus Qcmult Qcdiv qn qfloor qceil).

Lemma qdiv_range q n : (0 <= q)%Qc -> (q <= qn 100)%Qc -> (0 <= q / qn 100 * qn n)%Qc /\ (q / qn 100 * qn n <= qn n)%Qc.
Proof.
  intros H0 H1. assert (0 <= qn n)%Qc as HN by (change 0%Qc with (qn 0); apply qn_le; lia).
  assert (q / qn 100 * qn 100 = q)%Qc as E by (field; apply qn_nz; lia).
  assert (0 < qn 100)%Qc as H100 by (apply qn_pos; lia). remember (qn 100) as h. clear Heqh. remember (q / h)%Qc as r. clear Heqr. subst q.
  assert (0 <= r)%Qc by qnra. assert (r <= 1)%Qc by qnra. remember (qn n) as m. split; qnra.
Qed.
Lemma interp_ok s q : s <> [] -> (0 <= q)%Qc -> (q <= qn 100)%Qc ->
  exists v, interp' s q = Ok v /\ polygon s (q / qn 100 * qn (length s - 1))%Qc v.
Proof.
  intros NE H0 H1. unfold interpolate. set (n := length s). assert (0 < n) by (unfold n; destruct s; [easy|cbn; lia]).
  destruct (Nat.eqb_spec n 0); [lia|]. destruct (Nat.eqb_spec n 1) as [N1|N1].
  { destruct s as [|x s]; [easy|]. exists x. split; [reflexivity|]. exists 0, x. split; [reflexivity|]. left. rewrite N1. cbn [Nat.sub].
    split; [|reflexivity]. change (qn 0) with 0%Qc. ring. }
  set (t := (q / qn 100 * qn (n - 1))%Qc). destruct (qdiv_range q (n - 1) H0 H1) as [T0 T1]. fold t in T0, T1.
  destruct (qfloor_spec t T0) as [F1 F2]. destruct (qceil_spec t T0) as [C1 C2].
  assert (LN : qfloor t <= n - 1) by (apply qn_le; apply (Qcle_trans _ t); assumption).
  assert (HN : qceil t < n).
  { apply qn_lt. replace n with (S (n - 1)) by lia. rewrite qn_S. apply (Qclt_le_trans _ (t + 1)); [exact C2|]. apply Qcplus_le_compat; [exact T1|apply Qcle_refl]. }
  destruct (Nat.leb_spec n (qceil t)); [lia|]. rewrite orb_false_r. destruct (Nat.eqb_spec (qfloor t) (qceil t)) as [LH|LH].
  - rewrite Nat.min_l by exact LN. destruct (nth_error s (qfloor t)) as [x|] eqn:Ex; [|apply nth_error_None in Ex; fold n in Ex; lia].
    exists x. unfold at_. rewrite Ex. split; [reflexivity|]. exists (qfloor t), x. split; [exact Ex|]. left. split; [|reflexivity].
    apply Qcle_antisym; [rewrite LH; exact C1|exact F1].
  - assert (LO : qfloor t <= qceil t) by (apply qn_le; apply (Qcle_trans _ t); assumption).
    assert (HS : qceil t = S (qfloor t)).
    { assert (qceil t < S (S (qfloor t))); [|lia]. apply qn_lt. rewrite (qn_S (S (qfloor t))). apply (Qclt_le_trans _ (t + 1)); [exact C2|].
      apply Qcplus_le_compat; [apply Qclt_le_weak; exact F2|apply Qcle_refl]. }
    destruct (nth_error s (qfloor t)) as [x|] eqn:Ex; [|apply nth_error_None in Ex; fold n in Ex; lia].
    destruct (nth_error s (qceil t)) as [y|] eqn:Ey; [|apply nth_error_None in Ey; fold n in Ey; lia].
    unfold at_. rewrite Ex, Ey. cbn [bind]. eexists. split; [reflexivity|]. exists (qfloor t), x. split; [exact Ex|]. right. exists y.
    rewrite HS in Ey. split; [exact Ey|]. split; [|split; [exact F2|ring]].
    destruct (Qcle_lt_or_eq _ _ F1) as [L|E]; [exact L|]. exfalso.
    assert (qn (qceil t) < qn (S (qfloor t)))%Qc as C3 by (rewrite qn_S, E; exact C2). apply qn_lt in C3. lia.
Qed.
Lemma percentile_value l q : l <> [] -> (0 <= q)%Qc -> (q <= qn 100)%Qc ->
  exists v, interp' (stable_sort qleb l) q = Ok v /\ is_percentile l q v.
Proof.
  intros NE H0 H1. pose proof (sorts_on qleb l (qleb_preorder l)) as SO. destruct (interp_ok (stable_sort qleb l) q) as (v & E & HP); try assumption.
  { intro Z. apply (f_equal (@length _)) in Z. rewrite stable_sort_length in Z. destruct l; [easy|discriminate]. }
  exists v. split; [exact E|]. exists (stable_sort qleb l). split; [exact SO|]. rewrite stable_sort_length in HP. exact HP.
Qed.
End Interp.

(* the sorted rearrangement is unique *)
Lemma asc_unique : forall s s', Permutation s s' -> ascending qleb s -> ascending qleb s' -> s = s'.
Proof.
  induction s as [|x s IH]; intros s' P A A'; [apply Permutation_nil in P; congruence|].
  destruct s' as [|x' s']; [apply Permutation_sym, Permutation_nil in P; discriminate|].
  apply StronglySorted_inv in A as [A F]. apply StronglySorted_inv in A' as [A' F']. rewrite Forall_forall in F, F'.
  assert (x = x') as <-.
  { assert (In x (x' :: s')) as I by (apply (Permutation_in _ P); left; reflexivity).
    assert (In x' (x :: s)) as I' by (apply (Permutation_in _ (Permutation_sym P)); left; reflexivity).
    destruct I as [->|I]; [reflexivity|]. destruct I' as [->|I']; [reflexivity|].
    apply Qcle_antisym; apply qleb_le; [apply F; exact I'|apply F'; exact I]. }
  f_equal. apply IH; try assumption. apply (Permutation_cons_inv P).
Qed.
Lemma sorts_qc_unique l s s' : sorts qleb l s -> sorts qleb l s' -> s = s'.
Proof. intros [P A] [P' A']. apply asc_unique; try assumption. apply (Permutation_trans (Permutation_sym P) P'). Qed.
Lemma is_percentile_fun l q v v' : is_percentile l q v -> is_percentile l q v' -> v = v'.
Proof.
  intros (s & S & P) (s' & S' & P'). rewrite (sorts_qc_unique l s' s S' S) in P'. apply (polygon_fun s _ v v' (proj2 S) P P').
Qed.
Lemma is_percentile_mono l q q' v v' : is_percentile l q v -> is_percentile l q' v' -> (q <= q')%Qc -> (v <= v')%Qc.
Proof.
  intros (s & S & P) (s' & S' & P') H. rewrite (sorts_qc_unique l s' s S' S) in P'. apply (polygon_mono s _ _ v v' (proj2 S) P P').
  assert (0 <= qn (length l - 1))%Qc as HN by (change 0%Qc with (qn 0); apply qn_le; lia).
  apply Qcmult_le_compat_r; [|exact HN]. unfold Qcdiv. apply Qcmult_le_compat_r; [exact H|].
  apply Qclt_le_weak. unfold Qclt, Qcinv. cbn. reflexivity.
Qed.
(* between any lower and any upper bound of the values *)
Lemma is_percentile_between l q v lo hi : is_percentile l q v -> (forall x, In x l -> (lo <= x)%Qc /\ (x <= hi)%Qc) -> (lo <= v)%Qc /\ (v <= hi)%Qc.
Proof.
  intros (s & S & P) H. destruct (polygon_seg s _ v (proj2 S) P) as (k & x & Ex & K1 & K2 & KX & KE & KY & KN).
  assert (forall i y, nth_error s i = Some y -> (lo <= y)%Qc /\ (y <= hi)%Qc) as B.
  { intros i y E. apply H. apply (Permutation_in _ (Permutation_sym (proj1 S))). apply (nth_error_In _ _ E). }
  split; [apply (Qcle_trans _ x); [apply (B k x Ex)|exact KX]|].
  destruct (nth_error s (Datatypes.S k)) as [y|] eqn:Ey; [destruct (KY y eq_refl) as [V _]; apply (Qcle_trans _ y); [exact V|apply (B _ y Ey)]|].
  rewrite (KE (KN eq_refl)). apply (B k x Ex).
Qed.
(* at a knot the percentile is the order statistic *)
Lemma is_percentile_knot l k v : k < length l -> 0 < length l - 1 -> is_percentile l (qn (100 * k) / qn (length l - 1))%Qc v -> kth_smallest qleb k l v.
Proof.
  intros K N (s & S & P). destruct (nth_error s k) as [w|] eqn:E.
  2:{ apply nth_error_None in E. rewrite <- (Permutation_length (proj1 S)) in E. lia. }
  assert (v = w) as ->.
  { apply (polygon_fun s _ v w (proj2 S) P). exists k, w. split; [exact E|]. left. split; [|reflexivity].
    rewrite qn_mul. field. split; apply qn_nz; lia. }
  exists s, w. split; [exact S|]. split; [exact E|]. split; [apply qleb_le, Qcle_refl|]. split; [apply qleb_le, Qcle_refl|].
  apply (Permutation_in _ (Permutation_sym (proj1 S))). apply (nth_error_In _ _ E).
Qed.
Lemma is_percentile_at l q v k w s : sorts qleb l s -> is_percentile l q v -> nth_error s k = Some w -> (q / qn 100 * qn (length l - 1) = qn k)%Qc -> v = w.
Proof.
  intros S (s' & S' & P) E T. rewrite (sorts_qc_unique l s' s S' S) in P. apply (polygon_fun s _ v w (proj2 S) P). exists k, w. split; [exact E|]. left. split; [exact T|reflexivity].
Qed.
Lemma is_percentile_0 l v : l <> [] -> is_percentile l 0%Qc v -> kth_smallest qleb 0 l v.
Proof.
  intros NE HP. pose proof HP as (s & S & _). destruct s as [|w s].
  { destruct S as [P _]. apply Permutation_sym, Permutation_nil in P. congruence. }
  assert (v = w) as ->. { apply (is_percentile_at l _ v 0 w (w :: s) S HP eq_refl). change (qn 0) with 0%Qc. field. apply qn_nz. lia. }
  exists (w :: s), w. split; [exact S|]. split; [reflexivity|]. split; [apply qleb_le, Qcle_refl|]. split; [apply qleb_le, Qcle_refl|].
  apply (Permutation_in _ (Permutation_sym (proj1 S))). left. reflexivity.
Qed.
Lemma is_percentile_100 l v : l <> [] -> is_percentile l (qn 100) v -> kth_smallest qleb (length l - 1) l v.
Proof.
  intros NE HP. pose proof HP as (s & S & _). assert (0 < length l) by (destruct l; [easy|cbn; lia]).
  destruct (nth_error s (length l - 1)) as [w|] eqn:E.
  2:{ apply nth_error_None in E. rewrite <- (Permutation_length (proj1 S)) in E. lia. }
  assert (v = w) as ->. { apply (is_percentile_at l _ v _ w s S HP E). field. apply qn_nz. lia. }
  exists s, w. split; [exact S|]. split; [exact E|]. split; [apply qleb_le, Qcle_refl|]. split; [apply qleb_le, Qcle_refl|].
  apply (Permutation_in _ (Permutation_sym (proj1 S))). apply (nth_error_In _ _ E).
Qed.
Lemma is_percentile_50 l v : l <> [] -> is_percentile l (qn 50) v -> is_median qleb qmid l v.
Proof.
  intros NE HP. pose proof HP as (s & S & P). assert (0 < length l) by (destruct l; [easy|cbn; lia]).
  assert (LS : length s = length l) by (symmetry; apply (Permutation_length (proj1 S))).
  assert (G : forall k w, nth_error s k = Some w -> kth_smallest qleb k l w).
  { intros k w E. exists s, w. split; [exact S|]. split; [exact E|]. split; [apply qleb_le, Qcle_refl|]. split; [apply qleb_le, Qcle_refl|].
    apply (Permutation_in _ (Permutation_sym (proj1 S))). apply (nth_error_In _ _ E). }
  assert (T : forall m, length l - 1 = m -> (qn 50 / qn 100 * qn m = qn m / qn 2)%Qc).
  { intros m _. replace (qn 100) with (qn 2 * qn 50)%Qc by (rewrite <- qn_mul; reflexivity). field. repeat split; apply qn_nz; lia. }
  unfold is_median. destruct (Nat.even (length l)) eqn:EV.
  - apply Nat.even_spec in EV as [k EK]. assert (length l / 2 = k) as -> by (rewrite EK, Nat.mul_comm; apply Nat.div_mul; lia).
    destruct (nth_error s (k - 1)) as [x|] eqn:Ex; [|apply nth_error_None in Ex; lia].
    destruct (nth_error s k) as [y|] eqn:Ey; [|apply nth_error_None in Ey; lia].
    exists x, y. split; [apply G; exact Ex|]. split; [apply G; exact Ey|].
    apply (polygon_fun s _ v _ (proj2 S) P). exists (k - 1), x. split; [exact Ex|]. right. exists y. replace (Datatypes.S (k - 1)) with k by lia.
    split; [exact Ey|]. rewrite (T _ eq_refl). replace (length l - 1) with ((k - 1) + k) by lia. rewrite qn_add.
    replace (qn k) with (qn (k - 1) + 1)%Qc by (rewrite <- qn_S; f_equal; lia). set (a := qn (k - 1)).
    assert ((a + (a + 1)) / qn 2 = a + 1 / qn 2)%Qc as E2.
    { replace 1%Qc with (qn 2 - 1)%Qc at 1 by reflexivity. replace (qn 2) with (1 + 1)%Qc by reflexivity. field. discriminate. }
    rewrite E2. assert (0 < 1 / qn 2)%Qc by reflexivity. assert (1 / qn 2 < 1)%Qc by reflexivity.
    split; [|split].
    + apply Qclt_minus_iff. replace (a + 1 / qn 2 + - a)%Qc with (1 / qn 2)%Qc by ring. assumption.
    + apply Qclt_minus_iff. replace (a + 1 + - (a + 1 / qn 2))%Qc with (1 + - (1 / qn 2))%Qc by ring. reflexivity.
    + unfold qmid. replace (qn 2) with (1 + 1)%Qc by reflexivity. field. discriminate.
  - rewrite <- Nat.negb_odd in EV. apply negb_false_iff in EV. apply Nat.odd_spec in EV as [k EK].
    assert (length l / 2 = k) as -> by (rewrite EK; replace (2 * k + 1) with (1 + k * 2) by lia; rewrite Nat.div_add by lia; reflexivity).
    destruct (nth_error s k) as [w|] eqn:E; [|apply nth_error_None in E; lia].
    assert (v = w) as ->; [|apply G; exact E]. apply (is_percentile_at l _ v k w s S HP E). rewrite (T _ eq_refl).
    replace (length l - 1) with (2 * k) by lia. rewrite qn_mul. field. apply qn_nz. lia.
Qed.
