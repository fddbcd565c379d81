(* Reductions over several axes: C130. *)
From Coq Require Import QArith Qcanon Permutation Sorting.Sorted.
From Verif Require Import Base Lists Arr_Spec Arr_Model Arr_Wf Arr_Proofs Wf_Check Int_Model Int_Props Man_Model Gu_Model Red_Spec Red_Model Red_Proofs Red_Props
  Sort_Spec Sort_Model Sort_Proofs Stat_Spec Stat_Model Stat_Qc Mean_Spec Mean_Model Mean_Proofs Mean_Props Axes_Spec Axes_Model Axes_Proofs.
Local Open Scope nat_scope.

(* every entry of the result collects the whole cell of the array behind it, in any order the
   axes are named, for every kernel that is associative and commutative with an identity *)
Theorem C130_axes : forall {T} (P : T -> Prop) init comb (x : list T * arr) sh f axes l,
  kernel_laws P init comb -> stands_for (a_item (snd x)) x sh f -> ndim (snd x) = length sh -> (forall idx, inb idx sh -> P (f idx)) -> roomy (a_item (snd x)) sh ->
  Forall2 (names (length sh)) axes l -> NoDup l -> l <> [] ->
  exists z, py_reduce (fun x => ndim (snd x)) (axis_step init comb) x axes = Ok z /\
    stands_for (a_item (snd x)) z (drop_axes l sh) (fun oi => fold_left comb (map f (cell sh l oi)) init).
Proof.
  intros T P init comb x sh f axes l L X ND HP R HN U NE. rewrite (py_reduce_fold _ _ _ _ l) by (rewrite ?ND; assumption). unfold reduce_multi_axis.
  pose proof (desc_sorted l U) as S. pose proof (stable_sort_perm (fun a b => b <=? a) l) as PM.
  assert (forall a, In a (stable_sort (fun a b => b <=? a) l) -> a < length sh) as HA.
  { intros a Ha. apply (Permutation_in a (Permutation_sym PM)) in Ha. clear - HN Ha. induction HN as [|z k axes l [H _] HN IH]; [easy|]. destruct Ha as [<-|Ha]; auto. }
  destruct (multi_is P init comb L (a_item (snd x)) _ S x sh f) as (z & E & W & SZ & IZ & G); try assumption.
  { destruct X as ((W & _) & _). exact W. }
  exists z. split; [exact E|]. rewrite (drop_perm l _ sh PM). split; [exact W|]. split; [exact SZ|]. split; [exact IZ|]. intros oi Ho.
  rewrite (cell_perm sh l _ oi PM). apply G. exact Ho.
Qed.
(* integers: the exact sum of the cell, modulo the width *)
Theorem C130_int_sum : forall t (x : list Z * arr) sh f axes l, int_dtype t -> stands_for (a_item (snd x)) x sh f -> ndim (snd x) = length sh ->
  (forall idx, inb idx sh -> representable t (f idx)) -> roomy (a_item (snd x)) sh -> Forall2 (names (length sh)) axes l -> NoDup l -> l <> [] ->
  exists z, py_reduce (fun x => ndim (snd x)) (axis_step (int_red_init t RSum) (int_red_comb t RSum)) x axes = Ok z /\
    stands_for (a_item (snd x)) z (drop_axes l sh) (fun oi => wrap t (zsum (map f (cell sh l oi)))).
Proof.
  intros t x sh f axes l HD X ND HR R HN U NE. pose proof HD as [HT _].
  destruct (C130_axes _ _ _ x sh f axes l (int_laws t RSum HD) X ND HR R HN U NE) as (z & E & W & SZ & IZ & G).
  exists z. split; [exact E|]. split; [exact W|]. split; [exact SZ|]. split; [exact IZ|]. intros oi Ho. rewrite (G oi Ho), (fold_sum t HT).
  - cbn [int_red_init]. rewrite Z.add_0_l. reflexivity.
  - unfold representable. pose proof (i_bounds t HT). cbn [int_red_init]. lia.
Qed.
Lemma cell_inhabited sh axes oi : Forall (fun d => 0 < d) sh -> inb oi (drop_axes axes sh) -> cell sh axes oi <> [].
Proof.
  intros F Ho. assert (forall s, inb oi (drop_from axes s sh) -> exists idx, inb idx sh /\ drop_from axes s idx = oi) as H.
  { clear Ho. revert oi. induction F as [|d sh Hd F IH]; intros oi s Ho.
    - inversion Ho. exists []. split; [constructor|reflexivity].
    - unfold drop_from in Ho. cbn [length seq combine filter fst] in Ho. destruct (negb (existsb (Nat.eqb s) axes)) eqn:E; cbn [map snd] in Ho.
      + inversion Ho as [|i ? is ? Hi His]; subst. destruct (IH is (S s) His) as (idx & H1 & H2). exists (i :: idx). split; [constructor; assumption|].
        unfold drop_from in *. cbn [length seq combine filter fst]. rewrite E. cbn [map snd]. f_equal. exact H2.
      + destruct (IH oi (S s) Ho) as (idx & H1 & H2). exists (0 :: idx). split; [constructor; assumption|].
        unfold drop_from in *. cbn [length seq combine filter fst]. rewrite E. exact H2. }
  destruct (H 0 Ho) as (idx & H1 & H2). intro E. assert (In idx (cell sh axes oi)) as HI by (apply in_cell; split; [exact H1|exact H2]). rewrite E in HI. easy.
Qed.
(* max and min of a cell *)
Theorem C130_int_extremes : forall t (x : list Z * arr) sh f axes l, int_dtype t -> stands_for (a_item (snd x)) x sh f -> ndim (snd x) = length sh ->
  (forall idx, inb idx sh -> representable t (f idx)) -> roomy (a_item (snd x)) sh -> Forall (fun d => 0 < d) sh ->
  Forall2 (names (length sh)) axes l -> NoDup l -> l <> [] ->
  exists hi lo g h, py_reduce (fun x => ndim (snd x)) (axis_step (int_red_init t RMax) (int_red_comb t RMax)) x axes = Ok hi /\
    py_reduce (fun x => ndim (snd x)) (axis_step (int_red_init t RMin) (int_red_comb t RMin)) x axes = Ok lo /\
    stands_for (a_item (snd x)) hi (drop_axes l sh) g /\ stands_for (a_item (snd x)) lo (drop_axes l sh) h /\
    forall oi, inb oi (drop_axes l sh) -> is_max (map f (cell sh l oi)) (g oi) /\ is_min (map f (cell sh l oi)) (h oi).
Proof.
  intros t x sh f axes l HD X ND HR R HF HN U NE. pose proof HD as [HT _].
  destruct (C130_axes _ _ _ x sh f axes l (int_laws t RMax HD) X ND HR R HN U NE) as (hi & E & Z).
  destruct (C130_axes _ _ _ x sh f axes l (int_laws t RMin HD) X ND HR R HN U NE) as (lo & E' & Z').
  eexists hi, lo, _, _. split; [exact E|]. split; [exact E'|]. split; [exact Z|]. split; [exact Z'|]. intros oi Ho. cbv beta.
  assert (map f (cell sh l oi) <> []) as NC by (pose proof (cell_inhabited sh l oi HF Ho); destruct (cell sh l oi); [easy|discriminate]).
  assert (Forall (representable t) (map f (cell sh l oi))) as FR.
  { apply Forall_forall. intros v Hv. apply in_map_iff in Hv as (idx & <- & Hi). apply in_cell in Hi as [Hi _]. apply HR. exact Hi. }
  split; [apply (fold_init_max t)|apply (fold_init_min t)]; assumption.
Qed.

(* ---- means of means ---- *)
Lemma qsum_perm l l' : Permutation l l' -> qsum l = qsum l'.
Proof. induction 1; cbn; fold qsum in *; unfold qsum in *; [reflexivity|congruence|ring|congruence]. Qed.
Lemma qsum_app l m : qsum (l ++ m) = (qsum l + qsum m)%Qc.
Proof.
  induction l as [|x l IH]; cbn [app]; [change (qsum []) with 0%Qc; ring|]. change (qsum (x :: l)) with (x + qsum l)%Qc. change (qsum (x :: l ++ m)) with (x + qsum (l ++ m))%Qc. rewrite IH. ring.
Qed.
Lemma qmean_lanes {A B} (f : B -> Qc) (g : A -> list B) n l : 0 < n -> l <> [] -> (forall x, length (g x) = n) ->
  qmean (map (fun x => qmean (map f (g x))) l) = qmean (map f (flat_map g l)).
Proof.
  intros Hn NE HG. unfold qmean. rewrite !map_length.
  assert (length (flat_map g l) = n * length l) as ->.
  { clear NE. induction l as [|x l IH]; cbn; [lia|]. rewrite app_length, HG, IH. lia. }
  assert (qsum (map (fun x => (qsum (map f (g x)) / qn (length (map f (g x))))%Qc) l) = qsum (map f (flat_map g l)) / qn n)%Qc as ->.
  { clear NE. induction l as [|x l IH].
    - cbn [map flat_map]. change (qsum []) with 0%Qc. field. apply qn_nz; exact Hn.
    - cbn [map flat_map]. rewrite map_app, qsum_app. cbn [qsum fold_right]. fold (qsum (map (fun x => (qsum (map f (g x)) / qn (length (map f (g x))))%Qc) l)).
      rewrite IH, map_length, HG. field. apply qn_nz; exact Hn. }
  rewrite qn_mul. field. split; apply qn_nz; [destruct l; [easy|cbn; lia]|exact Hn].
Qed.
Lemma mean_step_is x sh f a n : stands_for 8 x sh f -> nth_error sh a = Some n -> 0 < n -> small sh ->
  exists z, mean_axis 0%Qc Qcplus Qcdiv qn x a = Ok z /\ stands_for 8 z (remove_at a sh) (fun oi => qmean (map (fun k => f (insert_at a k oi)) (seq 0 n))).
Proof.
  intros (W & SX & IX & G) Hn Hp S. assert (NE : sh <> []) by (destruct sh; [destruct a; discriminate|discriminate]).
  assert (is_nda x sh f) as X.
  { split; [exact W|]. split; [rewrite SX; destruct sh; [easy|reflexivity]|]. split; [exact IX|]. intros idx Hi. rewrite <- (G idx Hi). destruct Hi; [easy|reflexivity]. }
  destruct (C129_mean_axis x sh f a n X Hn Hp S) as (z & E & (WZ & SZ & IZ & GZ)). exists z. split; [exact E|]. split; [exact WZ|]. split; [rewrite SZ; apply reduced_keep1|].
  split; [exact IZ|]. intros oi Ho. rewrite GZ.
  - unfold lane_of. rewrite (outer_at1 sh a oi) by (try exact Ho; apply nth_error_Some; congruence). reflexivity.
  - rewrite reduced_keep1. destruct Ho; cbn; [repeat constructor|constructor; assumption].
Qed.
Lemma mean_multi_is axes : StronglySorted gt axes -> forall x sh f, stands_for 8 x sh f -> (forall a, In a axes -> a < length sh) -> small sh -> Forall (fun d => 0 < d) sh ->
  exists z, foldM (mean_axis 0%Qc Qcplus Qcdiv qn) axes x = Ok z /\ stands_for 8 z (drop_axes axes sh) (fun oi => qmean (map f (cell sh axes oi))).
Proof.
  intros S. induction S as [|a rest S IH HF]; intros x sh f X HA R HP.
  - exists x. split; [reflexivity|]. rewrite drop_nil. destruct X as (W & SX & IX & G). split; [exact W|]. split; [exact SX|]. split; [exact IX|].
    intros oi Ho. rewrite (cell_nil sh oi Ho), (G oi Ho). f_equal. unfold qmean. cbn [map length]. change (qsum [f oi]) with (f oi + 0)%Qc. replace (qn 1) with 1%Qc by (apply Qc_is_canon; reflexivity). field; discriminate.
  - rewrite Forall_forall in HF. destruct (nth_error sh a) as [n|] eqn:Hn; [|apply nth_error_None in Hn; specialize (HA a (or_introl eq_refl)); lia].
    assert (Hp : 0 < n). { rewrite Forall_forall in HP. apply HP. eapply nth_error_In; exact Hn. }
    assert (AL : a < length sh) by (apply nth_error_Some; congruence). pose proof (insert_remove_at a n sh Hn) as IR.
    assert (LR : 1 + length (remove_at a sh) = length sh) by (rewrite <- IR at 2; rewrite insert_at_length; reflexivity).
    assert (HP' : Forall (fun d => 0 < d) (remove_at a sh)).
    { clear - HP. revert a. induction HP; intros [|a]; cbn; auto. }
    destruct (mean_step_is x sh f a n X Hn Hp R) as (y & E & Y). cbn [foldM]. rewrite E. cbn [bind].
    destruct (IH y _ _ Y) as (z & EZ & Z).
    { intros b Hb. specialize (HF b Hb). lia. } { unfold small in *. pose proof (prod_remove_at a sh n Hn). nia. } { exact HP'. }
    exists z. split; [exact EZ|]. rewrite (drop_cons a rest sh HF). destruct Z as (W & SZ & IZ & G). split; [exact W|]. split; [exact SZ|]. split; [exact IZ|].
    intros oi Ho. rewrite (G oi Ho). f_equal. pose proof (cell_lanes sh a rest oi n HF Hn) as CP.
    transitivity (qmean (map f (flat_map (fun i => map (fun k => insert_at a k i) (seq 0 n)) (cell (remove_at a sh) rest oi)))).
    + rewrite <- (qmean_lanes f _ n).
      * f_equal. apply map_ext. intros i. rewrite map_map. reflexivity.
      * exact Hp.
      * apply cell_inhabited; assumption.
      * intros i. rewrite map_length, seq_length. reflexivity.
    + unfold qmean. rewrite !map_length, (Permutation_length CP), (qsum_perm _ _ (Permutation_map f CP)). reflexivity.
Qed.
(* successive means are the mean of the whole cell *)
Theorem C130_mean : forall x sh f axes l, stands_for 8 x sh f -> ndim (snd x) = length sh -> small sh -> Forall (fun d => 0 < d) sh ->
  Forall2 (names (length sh)) axes l -> NoDup l -> l <> [] ->
  exists z, py_reduce (fun x => ndim (snd x)) (mean_axis 0%Qc Qcplus Qcdiv qn) x axes = Ok z /\
    stands_for 8 z (drop_axes l sh) (fun oi => qmean (map f (cell sh l oi))).
Proof.
  intros x sh f axes l X ND R HP HN U NE. rewrite (py_reduce_fold _ _ _ _ l) by (rewrite ?ND; assumption). unfold reduce_multi_axis.
  pose proof (desc_sorted l U) as S. pose proof (stable_sort_perm (fun a b => b <=? a) l) as PM.
  destruct (mean_multi_is _ S x sh f X) as (z & E & W & SZ & IZ & G); try assumption.
  { intros a Ha. apply (Permutation_in a (Permutation_sym PM)) in Ha. clear - HN Ha. induction HN as [|y k axes l [H _] HN IH]; [easy|]. destruct Ha as [<-|Ha]; auto. }
  exists z. split; [exact E|]. rewrite (drop_perm l _ sh PM). split; [exact W|]. split; [exact SZ|]. split; [exact IZ|]. intros oi Ho.
  rewrite (cell_perm sh l _ oi PM). apply G. exact Ho.
Qed.

(* sum of a 2 x 3 x 2 array over its first and last axes *)
Example C130_nonvacuous : let x := (map Z.of_nat (seq 0 12), fresh [2; 3; 2] 8) in
  stands_for 8 x [2; 3; 2] (fun idx => nth (rank [2; 3; 2] idx) (map Z.of_nat (seq 0 12)) 0%Z) /\ Forall2 (names 3) [(-1); 0]%Z [2; 0] /\
  cell [2; 3; 2] [2; 0] [1] = [[0; 1; 0]; [0; 1; 1]; [1; 1; 0]; [1; 1; 1]] /\
  exists z, py_reduce (fun x => ndim (snd x)) (axis_step (int_red_init int64 RSum) (int_red_comb int64 RSum)) x [(-1); 0]%Z = Ok z /\ fst z = [14; 22; 30]%Z /\ a_shape (snd z) = [3].
Proof.
  cbv zeta. split.
  - split; [apply wf_check_sound; vm_compute; reflexivity|]. split; [reflexivity|]. split; [reflexivity|]. intros oi Ho.
    assert (at1 oi = oi) as -> by (inversion Ho; reflexivity). cbn [fst snd]. rewrite fresh_get by lia. apply nth_error_nth'. apply rank_lt in Ho. exact Ho.
  - split; [repeat constructor; cbn; lia|]. split; [vm_compute; reflexivity|]. eexists. split; [vm_compute; reflexivity|]. split; reflexivity.
Qed.
(* an axis named twice is not refused: either other entries are added up, or the call panics *)
Theorem C130_duplicate_refuted : let x := (map Z.of_nat (seq 0 6), fresh [2; 3] 8) in
  let sum := py_reduce (fun x => ndim (snd x)) (axis_step (int_red_init int64 RSum) (int_red_comb int64 RSum)) in
  (exists z, sum x [0; 0]%Z = Ok z /\ fst z = [15]%Z) /\ sum x [1; 1]%Z = Panic.
Proof. cbv zeta. split; [eexists; split; vm_compute; reflexivity|vm_compute; reflexivity]. Qed.
(* the range of the ranges: ptp of [[1,2],[3,4]] over both axes is 0, not 3 *)
Theorem C130_ptp_refuted : exists z, py_reduce (fun x => ndim (snd x)) (ptp_axis int64) ([1; 2; 3; 4]%Z, fresh [2; 2] 8) [0; 1]%Z = Ok z /\ fst z = [0]%Z.
Proof. eexists. split; vm_compute; reflexivity. Qed.
(* var over both axes of [[1,2],[3,4]] (5/4) gives two zeros *)
Theorem C130_var_refuted : exists z, py_reduce (fun x => ndim (snd x)) (var_axis 0%Qc Qcplus Qcminus Qcmult Qcdiv qn) ([qn 1; qn 2; qn 3; qn 4], fresh [2; 2] 8) [0; 1]%Z = Ok z /\
  a_shape (snd z) = [2] /\ map this (fst z) = [0; 0]%Q /\ qvar [qn 1; qn 2; qn 3; qn 4] = (qn 5 / qn 4)%Qc.
Proof. eexists. split; [vm_compute; reflexivity|]. split; [reflexivity|]. split; [vm_compute; reflexivity|]. apply Qc_is_canon. vm_compute. reflexivity. Qed.
(* the median over both axes of any matrix with a row and a column panics: see C127_axis_1d_refuted.
   Here a 2 x 2 matrix *)
Definition median_step (x : list Z * arr) (axis : nat) : res (list Z * arr) :=
  bind (median_axis (fun v => v) Z.leb 0%Z 2%Z Z.add Z.div (fst x) (snd x) axis) (fun '(sh, out) => Ok (out, fresh sh 8)).
Theorem C130_median_refuted : py_reduce (fun x => ndim (snd x)) median_step ([1; 2; 3; 4]%Z, fresh [2; 2] 8) [0; 1]%Z = Panic.
Proof. vm_compute. reflexivity. Qed.

Print Assumptions C130_axes.
Print Assumptions C130_int_sum.
Print Assumptions C130_int_extremes.
Print Assumptions C130_mean.
Print Assumptions C130_duplicate_refuted.
Print Assumptions C130_ptp_refuted.
Print Assumptions C130_var_refuted.
Print Assumptions C130_median_refuted.
