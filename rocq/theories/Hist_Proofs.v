(* Proofs about counting loops. *)
From Verif Require Import Base Lists Arr_Spec Arr_Model Arr_Wf Copy_Model Copy_Proofs Idx_Model Int_Model F64_Model Sort_Model Sort_Api Hist_Model.
Local Open Scope nat_scope.

(* number of elements of l satisfying p *)
Definition count {A} (p : A -> bool) (l : list A) : nat := length (filter p l).

Lemma count_cons {A} (p : A -> bool) x l : count p (x :: l) = (if p x then 1 else 0) + count p l.
Proof. unfold count. cbn [filter]. destruct (p x); reflexivity. Qed.

Lemma list_sum_upd l i c : nth_error l i = Some c -> list_sum (upd l i (S c)) = S (list_sum l).
Proof.
  revert i. induction l as [|x l IH]; intros [|i] H; cbn in *; try discriminate.
  - injection H as ->. reflexivity.
  - fold (list_sum (upd l i (S c))). fold (list_sum l). rewrite IH by exact H. lia.
Qed.

Lemma bump_ok counts i : i < length counts -> exists c, bump counts i = Ok c /\ length c = length counts /\
  list_sum c = S (list_sum counts) /\ forall k, nth k c 0 = (if i =? k then 1 else 0) + nth k counts 0.
Proof.
  intros H. unfold bump. destruct (nth_error counts i) as [x|] eqn:E; [|apply nth_error_None in E; lia].
  exists (upd counts i (S x)). split; [reflexivity|]. split; [apply upd_length|]. split; [apply list_sum_upd; exact E|].
  intros k. destruct (Nat.eqb_spec i k) as [->|N].
  - rewrite (nth_error_nth (upd counts k (S x)) k 0 (x := S x)) by (apply nth_error_upd_eq; apply nth_error_Some; congruence).
    rewrite (nth_error_nth counts k 0 E). reflexivity.
  - destruct (nth_error counts k) as [y|] eqn:K.
    + rewrite (nth_error_nth (upd counts i (S x)) k 0 (x := y)) by (rewrite nth_error_upd_neq by congruence; exact K).
      rewrite (nth_error_nth counts k 0 K). reflexivity.
    + apply nth_error_None in K. rewrite !nth_overflow by (rewrite ?upd_length; lia). reflexivity.
Qed.

Lemma bump_all_ok is : forall counts, Forall (fun i => i < length counts) is ->
  exists c, bump_all counts is = Ok c /\ length c = length counts /\ list_sum c = length is + list_sum counts /\
    forall k, nth k c 0 = count (fun i => i =? k) is + nth k counts 0.
Proof.
  induction is as [|i is IH]; intros counts H.
  - exists counts. repeat split; reflexivity.
  - inversion H as [|? ? Hi His]; subst. destruct (bump_ok counts i Hi) as (c1 & E1 & L1 & S1 & N1).
    destruct (IH c1) as (c & E & L & S2 & N); [rewrite L1; exact His|].
    exists c. cbn [bump_all]. rewrite E1. cbn [bind]. split; [exact E|]. split; [lia|]. split; [cbn [length]; lia|].
    intros k. rewrite N, N1, count_cons. lia.
Qed.

Lemma list_sum_repeat0 n : list_sum (repeat 0 n) = 0.
Proof. induction n; cbn; auto. Qed.
Lemma nth_repeat0 n k : nth k (repeat 0 n) 0 = 0.
Proof. revert k. induction n; intros [|k]; cbn; auto. Qed.

Lemma count_map {A B} (f : A -> B) p l : count p (map f l) = count (fun x => p (f x)) l.
Proof. induction l as [|x l IH]; [reflexivity|]. cbn [map]. rewrite !count_cons, IH. reflexivity. Qed.
Lemma count_filter {A} (p q : A -> bool) l : count p (filter q l) = count (fun x => q x && p x) l.
Proof. induction l as [|x l IH]; [reflexivity|]. cbn [filter]. rewrite count_cons, <- IH. destruct (q x); cbn [andb]; [apply count_cons|reflexivity]. Qed.
Lemma count_ext {A} (p q : A -> bool) l : (forall x, In x l -> p x = q x) -> count p l = count q l.
Proof.
  induction l as [|x l IH]; intros H; [reflexivity|]. rewrite !count_cons, H by (left; reflexivity). f_equal. apply IH. intros y Hy. apply H. right. exact Hy.
Qed.
Lemma count_all {A} (p : A -> bool) l : (forall x, In x l -> p x = true) -> count p l = length l.
Proof. induction l as [|x l IH]; intros H; [reflexivity|]. rewrite count_cons, H by (left; reflexivity). cbn. f_equal. apply IH. intros y Hy. apply H. right. exact Hy. Qed.

Section Loop.
Context {R : Type}.
Variables (sub div : R -> R -> R) (trunc : R -> Z).

(* the bin of a value, with the last bin for everything beyond *)
Definition bin_val (lo w : R) (bins : nat) (v : R) : nat :=
  let b := trunc (div (sub v lo) w) in if (Z.of_nat bins <=? b)%Z then bins - 1 else Z.to_nat b.

Lemma bin_of_ok lo w bins v : 0 < bins -> bin_of sub div trunc lo w bins v = Ok (bin_val lo w bins v) /\ bin_val lo w bins v < bins.
Proof.
  intros H. unfold bin_of, bin_val. cbv zeta. destruct (Z.leb_spec (Z.of_nat bins) (trunc (div (sub v lo) w))).
  - destruct (Nat.eqb_spec bins 0); [lia|]. split; [reflexivity|lia].
  - split; [reflexivity|lia].
Qed.

Variable le : R -> R -> bool.
Lemma hist_loop_bump lo hi w bins vs : 0 < bins -> forall counts, length counts = bins ->
  hist_loop sub div le trunc lo hi w bins counts vs =
  bump_all counts (map (bin_val lo w bins) (filter (fun v => le lo v && le v hi) vs)).
Proof.
  intros HB. induction vs as [|v vs IH]; intros counts L; [reflexivity|]. cbn [hist_loop filter].
  destruct (le lo v && le v hi); [|apply IH; exact L]. destruct (bin_of_ok lo w bins v HB) as [-> HV]. cbn [bind map bump_all].
  destruct (bump_ok counts (bin_val lo w bins v)) as (c & -> & LC & _); [lia|]. cbn [bind]. apply IH. lia.
Qed.

Lemma hist_loop_ok lo hi w bins vs : 0 < bins ->
  exists c, hist_loop sub div le trunc lo hi w bins (repeat 0 bins) vs = Ok c /\ length c = bins /\
    list_sum c = count (fun v => le lo v && le v hi) vs /\
    forall k, nth k c 0 = count (fun v => (le lo v && le v hi) && (bin_val lo w bins v =? k)) vs.
Proof.
  intros HB. rewrite hist_loop_bump by (rewrite ?repeat_length; auto).
  destruct (bump_all_ok (map (bin_val lo w bins) (filter (fun v => le lo v && le v hi) vs)) (repeat 0 bins)) as (c & E & L & SM & N).
  - apply Forall_map, Forall_forall. intros v _. rewrite repeat_length. apply (bin_of_ok lo w bins v HB).
  - exists c. rewrite repeat_length in L. split; [exact E|]. split; [exact L|]. split.
    + rewrite SM, list_sum_repeat0, map_length. unfold count. lia.
    + intros k. rewrite N, nth_repeat0, count_map, count_filter. lia.
Qed.
End Loop.

Section Multi.
Context {R : Type}.
Variables (sub div : R -> R -> R) (le lt : R -> R -> bool) (of_nat : nat -> R) (trunc : R -> Z).
Local Notation width := (width sub div of_nat).
Local Notation bin_val := (bin_val sub div trunc).

(* the bin of v on an axis with range r and b bins *)
Definition axis_bin (r : R * R) (b : nat) (v : R) : nat := bin_val (fst r) (width (fst r) (snd r) b) b v.

Lemma hist2d_loop_bump rx ry bx by_ ps : 0 < bx -> 0 < by_ -> forall counts, length counts = bx * by_ ->
  hist2d_loop sub div le of_nat trunc rx ry bx by_ counts ps =
  bump_all counts (map (fun p => axis_bin rx bx (fst p) * by_ + axis_bin ry by_ (snd p))
                       (filter (fun p => inside le rx (fst p) && inside le ry (snd p)) ps)).
Proof.
  intros HX HY. induction ps as [|[x y] ps IH]; intros counts L; [reflexivity|]. cbn [hist2d_loop filter fst snd].
  destruct (inside le rx x && inside le ry y); [|apply IH; exact L].
  destruct (bin_of_ok sub div trunc (fst rx) (width (fst rx) (snd rx) bx) bx x HX) as [-> VX].
  destruct (bin_of_ok sub div trunc (fst ry) (width (fst ry) (snd ry) by_) by_ y HY) as [-> VY]. cbn [bind map bump_all fst snd].
  fold (axis_bin rx bx x) in VX |- *. fold (axis_bin ry by_ y) in VY |- *.
  destruct (bump_ok counts (axis_bin rx bx x * by_ + axis_bin ry by_ y)) as (c & -> & LC & _); [rewrite L; nia|]. cbn [bind]. apply IH. lia.
Qed.

Lemma flat_bin_rank bins idx : length idx = length bins -> flat_bin bins idx = rank bins idx.
Proof.
  intros L. unfold flat_bin. rewrite <- fold_left_rev_right, rev_involutive.
  enough (E : fold_right (fun y x => (let '(flat, stride) := x in fun '(i, b) => (flat + i * stride, stride * b)) y) (0, 1) (combine idx bins) = (rank bins idx, prod bins))
    by (rewrite E; reflexivity).
  revert idx L. induction bins as [|b bins IH]; intros [|i idx] L; try discriminate; [reflexivity|].
  cbn [combine fold_right]. rewrite IH by (injection L; auto). cbn [rank prod]. f_equal; lia.
Qed.

(* no coordinate is strictly outside its range *)
Fixpoint not_outside (ranges : list (R * R)) (row : list R) : bool :=
  match ranges, row with
  | r :: ranges', v :: row' => negb (lt v (fst r) || lt (snd r) v) && not_outside ranges' row'
  | _, _ => true
  end.

Fixpoint row_bins (ranges : list (R * R)) (bins : list nat) (row : list R) : list nat :=
  match ranges, bins, row with
  | r :: ranges', b :: bins', v :: row' => axis_bin r b v :: row_bins ranges' bins' row'
  | _, _, _ => []
  end.

Lemma sample_bins_ok ranges : forall bins row, length ranges = length bins -> length row = length bins -> Forall (fun b => 0 < b) bins ->
  sample_bins sub div of_nat trunc lt ranges bins row = Ok (if not_outside ranges row then Some (row_bins ranges bins row) else None) /\
  inb (row_bins ranges bins row) bins.
Proof.
  induction ranges as [|[lo hi] ranges IH]; intros [|b bins] [|v row] L1 L2 HB; try discriminate.
  - split; [reflexivity|constructor].
  - inversion HB as [|? ? Hb HB']; subst. destruct (IH bins row) as [E I]; [injection L1; auto|injection L2; auto|exact HB'|].
    destruct (bin_of_ok sub div trunc lo (width lo hi b) b v Hb) as [EB VB].
    cbn [sample_bins not_outside row_bins fst snd]. split.
    + destruct (lt v lo || lt hi v); [reflexivity|]. rewrite EB. cbn [bind]. rewrite E. cbn [bind negb andb].
      destruct (not_outside ranges row); reflexivity.
    + constructor; [exact VB|exact I].
Qed.

Lemma histdd_loop_bump ranges bins rows : length ranges = length bins -> Forall (fun row => length row = length bins) rows ->
  Forall (fun b => 0 < b) bins -> forall counts, length counts = prod bins ->
  histdd_loop sub div of_nat trunc lt ranges bins counts rows =
  bump_all counts (map (fun row => rank bins (row_bins ranges bins row)) (filter (not_outside ranges) rows)).
Proof.
  intros LR HR HB. induction rows as [|row rows IH]; intros counts L; [reflexivity|].
  inversion HR as [|? ? Hrow HR']; subst. cbn [histdd_loop filter].
  destruct (sample_bins_ok ranges bins row LR Hrow HB) as [-> I]. cbn [bind].
  destruct (not_outside ranges row); [|apply IH; assumption]. cbn [map bump_all].
  rewrite flat_bin_rank by (exact (Forall2_len _ _ _ I)).
  destruct (bump_ok counts (rank bins (row_bins ranges bins row))) as (c & -> & LC & _); [rewrite L; apply rank_lt; exact I|].
  cbn [bind]. apply IH; [assumption|lia].
Qed.
End Multi.

(* bincount *)
Lemma max_loop_spec {V} (rd : V -> Z) vs : forall m, (0 <= m)%Z ->
  (Forall (fun v => (0 <= rd v < 2 ^ 63)%Z) vs -> max_loop rd m vs = Some (fold_left Z.max (map rd vs) m)) /\
  ((exists v, In v vs /\ (rd v < 0)%Z) -> max_loop rd m vs = None).
Proof.
  induction vs as [|v vs IH]; intros m Hm.
  - split; [reflexivity|]. intros (v & [] & _).
  - cbn [max_loop map fold_left].
    assert (SAT : forall z, (z < 2 ^ 63)%Z -> sat (mkIty 64 true) z = Z.max (- 2 ^ 63) z).
    { intros z Hz. unfold sat, i_min, i_max. cbn [bits signed]. change (2 ^ (64 - 1))%Z with (2 ^ 63)%Z. lia. }
    split.
    + intros H. inversion H as [|? ? Hv Hvs]; subst. rewrite SAT by lia. rewrite Z.max_r by lia.
      destruct (Z.ltb_spec (rd v) 0); [lia|].
      replace (if (m <? rd v)%Z then rd v else m) with (Z.max m (rd v)) by (destruct (Z.ltb_spec m (rd v)); lia).
      apply IH; [lia|exact Hvs].
    + intros (u & Hu & Hneg). destruct (Z.ltb_spec (sat (mkIty 64 true) (rd v)) 0) as [L|L]; [reflexivity|].
      destruct Hu as [->|Hu].
      * exfalso. unfold sat, i_min, i_max in L. cbn [bits signed] in L. change (2 ^ (64 - 1))%Z with (2 ^ 63)%Z in L. lia.
      * apply IH; [destruct (Z.ltb_spec m (sat (mkIty 64 true) (rd v))); lia|]. exists u. split; assumption.
Qed.

Lemma fold_max_ge l : forall m x, In x l \/ (x <= m)%Z -> (x <= fold_left Z.max l m)%Z.
Proof.
  induction l as [|y l IH]; intros m x H; cbn [fold_left].
  - destruct H as [[]|H]; exact H.
  - apply IH. destruct H as [[->|H]|H]; [right; lia|left; exact H|right; lia].
Qed.
Lemma fold_max_in l : forall m, fold_left Z.max l m = m \/ In (fold_left Z.max l m) l.
Proof.
  induction l as [|y l IH]; intros m; cbn [fold_left]; [left; reflexivity|].
  destruct (IH (Z.max m y)) as [E|E]; [|right; right; exact E]. rewrite E. destruct (Z.max_spec m y) as [[_ ->]|[_ ->]]; [right; left; reflexivity|left; reflexivity].
Qed.
