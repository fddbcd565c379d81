(* Lemmas about Conv_Model and Conv_Spec. *)
From Coq Require Import Ring_theory Ring.
From Verif Require Import Base Lists Arr_Spec Arr_Model Arr_Wf Arr_Proofs Copy_Model Copy_Proofs Elem_Proofs Idx_Model Man_Proofs Man_Ops Man_Ops2 Man_Edit Conv_Spec Conv_Model.
Local Open Scope nat_scope.

Section Ring.
Context {R : Type}.
Variables (zero one : R) (add mul sub : R -> R -> R) (opp : R -> R).
Hypothesis RT : ring_theory zero one add mul sub opp eq.
Add Ring Rr : RT.
Notation big := (big zero add).
Notation conv_at := (conv_at zero add mul).

Lemma big_ext n f g : (forall i, i < n -> f i = g i) -> big n f = big n g.
Proof. induction n as [|n IH]; intros H; cbn [Conv_Spec.big]; [reflexivity|]. rewrite (H n) by lia. f_equal. apply IH. intros; apply H; lia. Qed.
Lemma big_zero n : big n (fun _ => zero) = zero.
Proof. induction n as [|n IH]; cbn [Conv_Spec.big]; [reflexivity|]. rewrite IH. ring. Qed.
Lemma big_add n f g : big n (fun i => add (f i) (g i)) = add (big n f) (big n g).
Proof. induction n as [|n IH]; cbn [Conv_Spec.big]; [ring|]. rewrite IH. ring. Qed.
Lemma big_scale n c f : big n (fun i => mul c (f i)) = mul c (big n f).
Proof. induction n as [|n IH]; cbn [Conv_Spec.big]; [ring|]. rewrite IH. ring. Qed.
Lemma big_swap n m f : big n (fun i => big m (fun j => f i j)) = big m (fun j => big n (fun i => f i j)).
Proof.
  induction n as [|n IH]; cbn [Conv_Spec.big]; [symmetry; apply big_zero|]. rewrite IH, <- big_add. reflexivity.
Qed.
Lemma big_single n x f : big n (fun i => if i =? x then f i else zero) = if x <? n then f x else zero.
Proof.
  induction n as [|n IH]; cbn [Conv_Spec.big]; [reflexivity|]. rewrite IH.
  destruct (Nat.eqb_spec n x) as [->|Hne].
  - destruct (Nat.ltb_spec x x); [lia|]. destruct (Nat.ltb_spec x (S x)); [ring|lia].
  - destruct (Nat.ltb_spec x n), (Nat.ltb_spec x (S n)); try lia; ring.
Qed.
Lemma big_seq n f : fold_right add zero (map f (seq 0 n)) = big n f.
Proof.
  assert (HA : forall l x, fold_right add zero (l ++ [x]) = add (fold_right add zero l) x).
  { induction l as [|y l IHl]; intros x; cbn [app fold_right]; [ring|]. rewrite IHl. ring. }
  induction n as [|n IH]; [reflexivity|]. rewrite seq_S, map_app. cbn [map Conv_Spec.big Nat.add]. rewrite HA, IH. reflexivity.
Qed.
Lemma fold_left_sum l : forall acc, fold_left add l acc = add acc (fold_right add zero l).
Proof. induction l as [|x l IH]; intros acc; cbn [fold_left fold_right]; [ring|]. rewrite IH. ring. Qed.
Lemma big_range m lo len f : lo + len <= m ->
  fold_right add zero (map f (seq lo len)) = big m (fun j => if (lo <=? j) && (j <? lo + len) then f j else zero).
Proof.
  induction m as [|m IH] in len |- *; intros H.
  { replace len with 0 by lia. replace lo with 0 by lia. reflexivity. }
  cbn [Conv_Spec.big]. destruct (Nat.eq_dec (lo + len) (S m)) as [E|E].
  - destruct len as [|len].
    + cbn [seq map fold_right]. rewrite (big_ext _ _ (fun _ => zero)).
      * rewrite big_zero. destruct (Nat.leb_spec lo m), (Nat.ltb_spec m (lo + 0)); try lia; cbn [andb]; ring.
      * intros j Hj. destruct (Nat.leb_spec lo j), (Nat.ltb_spec j (lo + 0)); try lia; reflexivity.
    + rewrite seq_S, map_app. cbn [map]. assert (HA : forall l x, fold_right add zero (l ++ [x]) = add (fold_right add zero l) x).
      { induction l as [|y l IHl]; intros x; cbn [app fold_right]; [ring|]. rewrite IHl. ring. }
      rewrite HA, (IH len) by lia. f_equal.
      * apply big_ext. intros j Hj. destruct (Nat.leb_spec lo j), (Nat.ltb_spec j (lo + len)), (Nat.ltb_spec j (lo + S len)); try lia; reflexivity.
      * destruct (Nat.leb_spec lo m), (Nat.ltb_spec m (lo + S len)); try lia. cbn [andb]. f_equal. lia.
  - rewrite (IH len) by lia. destruct (Nat.leb_spec lo m), (Nat.ltb_spec m (lo + len)); try lia; cbn [andb]; ring.
Qed.

(* the definition, indexed by the second factor only *)
Lemma conv_at_alt a v k : conv_at a v k =
  big (length v) (fun j => if (j <=? k) && (k - j <? length a) then mul (nth (k - j) a zero) (nth j v zero) else zero).
Proof.
  unfold conv_at, Conv_Spec.conv_at. rewrite big_swap. apply big_ext. intros j _.
  destruct (Nat.leb_spec j k); cbn [andb].
  - rewrite (big_ext _ _ (fun i => if i =? k - j then mul (nth i a zero) (nth j v zero) else zero)).
    + rewrite big_single. reflexivity.
    + intros i _. destruct (Nat.eqb_spec (i + j) k), (Nat.eqb_spec i (k - j)); try lia; reflexivity.
  - rewrite (big_ext _ _ (fun _ => zero)); [apply big_zero|]. intros i _. destruct (Nat.eqb_spec (i + j) k); [lia|reflexivity].
Qed.

Lemma convolve_direct_spec a v : a <> [] -> v <> [] -> convolve_direct zero add mul a v = Ok (conv_full zero add mul a v).
Proof.
  intros Ha Hv. assert (La : 0 < length a) by (destruct a; [congruence|cbn; lia]). assert (Lv : 0 < length v) by (destruct v; [congruence|cbn; lia]).
  unfold convolve_direct, conv_full. cbv zeta. apply mapM_ok. intros k Hk. apply in_seq in Hk.
  set (n := length a) in *. set (m := length v) in *. set (lo := k - (n - 1)). set (hi := Nat.min m (k + 1)).
  rewrite (mapM_ok _ (fun j => mul (nth (k - j) a zero) (nth j v zero))).
  2:{ intros j Hj. apply in_seq in Hj. unfold at_. rewrite (nth_error_nth' a zero) by (fold n; lia). cbn [bind].
      rewrite (nth_error_nth' v zero) by (fold m; lia). reflexivity. }
  cbn [bind]. f_equal. rewrite fold_left_sum, conv_at_alt.
  destruct (le_lt_dec lo hi) as [Hle|Hgt].
  - rewrite (big_range m) by lia. fold m n. match goal with |- add zero ?x = _ => transitivity x; [ring|] end. apply big_ext. intros j Hj.
    destruct (Nat.leb_spec lo j), (Nat.ltb_spec j (lo + (hi - lo))), (Nat.leb_spec j k), (Nat.ltb_spec (k - j) n); cbn [andb]; try reflexivity; lia.
  - lia.
Qed.

Lemma conv_comm a v k : conv_at a v k = conv_at v a k.
Proof.
  unfold conv_at, Conv_Spec.conv_at. rewrite big_swap. apply big_ext. intros j _. apply big_ext. intros i _. rewrite (Nat.add_comm i j).
  destruct (j + i =? k); [ring|reflexivity].
Qed.
Lemma conv_full_comm a v : conv_full zero add mul a v = conv_full zero add mul v a.
Proof. unfold conv_full. rewrite (Nat.add_comm (length v)). apply map_ext. intros k. apply conv_comm. Qed.

(* linear combination of two lists of one length *)
Definition lin (c : R) (a b : list R) : list R := zip_with (fun x y => add (mul c x) y) a b.
Lemma lin_length c a b : length a = length b -> length (lin c a b) = length a.
Proof. unfold lin. intros H. revert b H. induction a as [|x a IH]; intros [|y b] H; cbn in *; try lia. rewrite IH; lia. Qed.
Lemma nth_lin c : forall a b i, length a = length b -> nth i (lin c a b) zero = add (mul c (nth i a zero)) (nth i b zero).
Proof.
  induction a as [|x a IH]; intros [|y b] i H; cbn in H; try lia.
  - destruct i; cbn; ring.
  - destruct i; cbn [lin zip_with nth]; [reflexivity|]. apply IH. lia.
Qed.
Lemma conv_lin c a b v k : length a = length b -> conv_at (lin c a b) v k = add (mul c (conv_at a v k)) (conv_at b v k).
Proof.
  intros H. unfold conv_at, Conv_Spec.conv_at. rewrite lin_length by exact H. rewrite <- H. rewrite <- big_scale, <- big_add. apply big_ext. intros i _.
  rewrite <- big_scale, <- big_add. apply big_ext. intros j _. rewrite nth_lin by exact H. destruct (i + j =? k); ring.
Qed.

Lemma cut_spec n m mode full s l : length full = n + m - 1 -> 0 < n -> 0 < m ->
  match mode with
  | Full => s = 0 /\ l = n + m - 1
  | Same => s = (m - 1) / 2 /\ l = n
  | Valid => s = m - 1 /\ l = Nat.max (n - (m - 1)) 1
  | OtherMode => False
  end -> @cut R n m mode full = Ok (firstn l (skipn s full)) /\ s + l <= length full.
Proof.
  intros HL Hn Hm HM.
  assert (HB : s + l <= length full).
  { destruct mode; try contradiction; destruct HM as [-> ->]; try lia. }
  split; [|exact HB].
  assert (HP : mapM (fun i => at_ full (s + i)) (seq 0 l) = Ok (firstn l (skipn s full))).
  { rewrite (mapM_ok _ (fun i => nth (s + i) full zero)).
    - f_equal. apply nth_error_ext. intros i. rewrite nth_error_map', nth_error_seq. destruct (Nat.ltb_spec i l).
      + cbn [option_map Nat.add]. rewrite nth_error_firstn_lt, nth_error_skipn by assumption. symmetry. apply nth_error_nth'. lia.
      + symmetry. apply nth_error_None. rewrite firstn_length. lia.
    - intros i Hi. apply in_seq in Hi. unfold at_. rewrite (nth_error_nth' full zero) by lia. reflexivity. }
  unfold cut. cbv zeta. destruct mode; try contradiction; destruct HM as [-> ->]; exact HP.
Qed.
End Ring.
