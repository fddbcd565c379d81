From Coq Require Import Permutation Sorting.Sorted FinFun.
From Verif Require Import Base Lists Arr_Spec Arr_Model Arr_Wf Arr_Proofs Copy_Model Copy_Proofs Man_Model Gu_Model Red_Spec Red_Model Red_Proofs Red_Props
  Sort_Spec Sort_Model Sort_Proofs Num_Calc Fft_Proofs Axes_Spec Axes_Model.
From Verif Require Ein_Multi.
Local Open Scope nat_scope.

(* ---- the indices that are left ---- *)
Lemma filter_ext_in' {A} (f g : A -> bool) l : (forall x, In x l -> f x = g x) -> filter f l = filter g l.
Proof. induction l as [|x l IH]; intros H; [reflexivity|]. cbn. rewrite (H x (or_introl eq_refl)), IH; [reflexivity|]. intros; apply H; right; assumption. Qed.
Lemma drop_nil {A} (l : list A) : drop_axes [] l = l.
Proof.
  unfold drop_axes. rewrite (filter_ext_in' _ (fun _ => true)) by reflexivity. generalize 0. induction l as [|x l IH]; intros s; [reflexivity|]. cbn. f_equal. apply IH.
Qed.
(* dropped from position s on *)
Definition drop_from {A} (axes : list nat) (s : nat) (l : list A) : list A :=
  map snd (filter (fun p => negb (existsb (Nat.eqb (fst p)) axes)) (combine (seq s (length l)) l)).
Lemma drop_from_above {A} axes s (l : list A) : (forall b, In b axes -> b < s) -> drop_from axes s l = l.
Proof.
  intros H. unfold drop_from. revert s H. induction l as [|x l IH]; intros s H; [reflexivity|]. cbn [length seq combine filter fst].
  assert (existsb (Nat.eqb s) axes = false) as ->.
  { apply Bool.not_true_is_false. intro E. apply existsb_exists in E as (b & Hb & E). apply Nat.eqb_eq in E. subst. specialize (H _ Hb). lia. }
  cbn [negb map snd]. f_equal. apply IH. intros b Hb. specialize (H b Hb). lia.
Qed.
Lemma drop_from_cons {A} rest s k (l : list A) : (forall b, In b rest -> b < s + k) ->
  drop_from (s + k :: rest) s l = drop_from rest s (remove_at k l).
Proof.
  revert s l. induction k as [|k IH]; intros s l H.
  - destruct l as [|x l]; [reflexivity|]. rewrite Nat.add_0_r in *. unfold drop_from at 1. cbn [length seq combine filter fst existsb remove_at]. rewrite Nat.eqb_refl. cbn [orb negb].
    change (drop_from (s :: rest) (S s) l = drop_from rest s l). rewrite drop_from_above, drop_from_above; [reflexivity|exact H|].
    intros b [<-|Hb]; [lia|]. specialize (H b Hb). lia.
  - destruct l as [|x l]; [reflexivity|]. cbn [remove_at]. unfold drop_from. cbn [length seq combine filter fst existsb].
    assert ((s =? s + S k) = false) as -> by (apply Nat.eqb_neq; lia). cbn [orb].
    specialize (IH (S s) l). replace (S s + k) with (s + S k) in IH by lia. specialize (IH H). unfold drop_from in IH.
    destruct (negb _); cbn [map snd]; [f_equal|]; exact IH.
Qed.
Lemma drop_cons {A} a rest (l : list A) : (forall b, In b rest -> b < a) -> drop_axes (a :: rest) l = drop_axes rest (remove_at a l).
Proof. intros H. apply (drop_from_cons rest 0 a l). exact H. Qed.
Lemma drop_perm {A} axes axes' (l : list A) : Permutation axes axes' -> drop_axes axes l = drop_axes axes' l.
Proof.
  intros P. unfold drop_axes. f_equal. apply filter_ext_in'. intros x _. f_equal. apply Bool.eq_true_iff_eq. rewrite !existsb_exists.
  split; intros (b & Hb & E); exists b; (split; [|exact E]); [apply (Permutation_in b P Hb)|apply (Permutation_in b (Permutation_sym P) Hb)].
Qed.
Lemma cell_perm sh axes axes' oi : Permutation axes axes' -> cell sh axes oi = cell sh axes' oi.
Proof. intros P. unfold cell. apply filter_ext_in'. intros idx _. rewrite (drop_perm axes axes' idx P). reflexivity. Qed.
Lemma in_cell sh axes oi idx : In idx (cell sh axes oi) <-> inb idx sh /\ drop_axes axes idx = oi.
Proof.
  unfold cell. rewrite filter_In, in_all_idx. destruct (list_eq_dec _ _ _); split; intros [H1 H2]; try discriminate; auto.
Qed.
Lemma nodup_flat_map {A B} (f : A -> list B) l : NoDup l -> (forall x, In x l -> NoDup (f x)) ->
  (forall x y z, In x l -> In y l -> In z (f x) -> In z (f y) -> x = y) -> NoDup (flat_map f l).
Proof.
  induction l as [|x l IH]; intros ND H1 H2; [constructor|]. inversion ND; subst. cbn. apply Ein_Multi.nodup_app.
  - apply H1. left; reflexivity.
  - apply IH; [assumption|intros; apply H1; right; assumption|]. intros y z w Hy Hz. apply H2; right; assumption.
  - intros z Hz Hz'. apply in_flat_map in Hz' as (y & Hy & Hz'). assert (x = y) by (apply (H2 x y z); [left; reflexivity|right; assumption|assumption|assumption]). congruence.
Qed.
(* the indices of a cell, one lane after the other *)
Lemma cell_lanes sh a rest oi n : (forall b, In b rest -> b < a) -> nth_error sh a = Some n ->
  Permutation (flat_map (fun i => map (fun k => insert_at a k i) (seq 0 n)) (cell (remove_at a sh) rest oi)) (cell sh (a :: rest) oi).
Proof.
  intros HR Hn. assert (HA : a < length sh) by (apply nth_error_Some; congruence).
  pose proof (insert_remove_at a n sh Hn) as IR. assert (LR : S (length (remove_at a sh)) = length sh) by (rewrite <- IR at 2; rewrite insert_at_length; reflexivity).
  assert (LI : forall i, inb i (remove_at a sh) -> a <= length i) by (intros i Hi; rewrite (inb_length _ _ Hi); lia).
  apply NoDup_Permutation.
  - apply nodup_flat_map.
    + apply NoDup_filter, all_idx_nodup.
    + intros i Hi. apply in_cell in Hi as [Hi _]. apply FinFun.Injective_map_NoDup; [|apply seq_NoDup].
      intros j k E. apply insert_at_inj in E; [apply E|apply LI; exact Hi|apply LI; exact Hi].
    + intros i j z Hi Hj Zi Zj. apply in_cell in Hi as [Hi _]. apply in_cell in Hj as [Hj _]. apply in_map_iff in Zi as (k & <- & _). apply in_map_iff in Zj as (k' & E & _).
      apply insert_at_inj in E as [_ E]; [congruence|apply LI; exact Hj|apply LI; exact Hi].
  - apply NoDup_filter, all_idx_nodup.
  - intros idx. rewrite in_cell, in_flat_map. rewrite (drop_cons a rest idx HR). split.
    + intros (i & Hi & Hk). apply in_cell in Hi as [Hi Di]. apply in_map_iff in Hk as (k & <- & Hk). apply in_seq in Hk.
      split; [apply (lane_inb _ _ _ _ n); [exact Hn|exact Hi|lia]|]. rewrite remove_insert_at by (apply LI; exact Hi). exact Di.
    + intros [Hi Di]. exists (remove_at a idx). split; [apply in_cell; split; [apply inb_remove_at; exact Hi|exact Di]|].
      pose proof (inb_nth idx sh a n Hi Hn) as Hlt. apply in_map_iff. exists (nth a idx 0). split; [|apply in_seq; lia].
      apply insert_remove_at. apply nth_error_nth'. rewrite (inb_length _ _ Hi). exact HA.
Qed.
Lemma cell_nil sh oi : inb oi sh -> cell sh [] oi = [oi].
Proof.
  intros H. apply Permutation_length_1_inv. apply NoDup_Permutation.
  - constructor; [easy|constructor].
  - apply NoDup_filter, all_idx_nodup.
  - intros idx. rewrite in_cell, drop_nil. cbn. split; [intros [<-|[]]; auto|intros [_ ->]; auto].
Qed.

(* ---- sorting the axes ---- *)
Lemma desc_sorted axes : NoDup axes -> StronglySorted gt (stable_sort (fun a b => b <=? a) axes).
Proof.
  intros ND. assert (P := stable_sort_perm (fun a b => b <=? a) axes).
  destruct (stable_sort_sorts (fun a b => b <=? a)) with (l := axes) as [_ A].
  { split; intros x y; [|intros z]; rewrite !Nat.leb_le; lia. }
  unfold ascending in A. assert (ND' : NoDup (stable_sort (fun a b => b <=? a) axes)) by (eapply Permutation_NoDup; eassumption).
  clear P ND. induction A as [|x l A IH HF]; constructor; inversion ND' as [|? ? N1 N2]; subst; [apply IH; assumption|].
  rewrite Forall_forall in *. intros y Hy. specialize (HF y Hy). cbn in HF. apply Nat.leb_le in HF. assert (x <> y) by congruence. lia.
Qed.

(* ---- arrays ---- *)
Lemma prod_max1 sh : prod sh <= prod (map (Nat.max 1) sh) /\ 1 <= prod (map (Nat.max 1) sh).
Proof. induction sh as [|s sh [IH1 IH2]]; [cbn; lia|]. cbn [map prod]. nia. Qed.
Lemma map_remove_at {A B} (f : A -> B) n l : map f (remove_at n l) = remove_at n (map f l).
Proof. revert n. induction l as [|x l IH]; intros [|n]; cbn; try reflexivity. f_equal. apply IH. Qed.
Lemma roomy_remove item a sh n : nth_error sh a = Some n -> (0 < item)%Z -> roomy item sh -> roomy item (remove_at a sh).
Proof.
  intros Hn HI R. unfold roomy in *. rewrite map_remove_at. assert (nth_error (map (Nat.max 1) sh) a = Some (Nat.max 1 n)) as H by (rewrite nth_error_map, Hn; reflexivity).
  apply prod_remove_at in H. assert (1 <= Nat.max 1 n) by lia. set (u := prod (remove_at a (map (Nat.max 1) sh))) in *. set (v := prod (map (Nat.max 1) sh)) in *. set (w := Nat.max 1 n) in *. clearbody u v w. assert (Z.of_nat u <= Z.of_nat v)%Z by nia. nia.
Qed.
Lemma reduced_keep1 a sh : reduced_shape a sh = keep1 (remove_at a sh).
Proof. unfold reduced_shape, keep1. destruct (remove_at a sh); reflexivity. Qed.
Lemma outer_at1 sh a oi : a < length sh -> inb oi (remove_at a sh) -> outer_of sh (at1 oi) = oi.
Proof.
  intros AL Ho. unfold outer_of. destruct sh as [|s [|s' sh']]; [cbn in AL; lia| |].
  - destruct a; [|cbn in AL; lia]. cbn in Ho. inversion Ho. reflexivity.
  - destruct a; cbn in Ho; inversion Ho; reflexivity.
Qed.
Lemma parse_axes_ok nd axes l : Forall2 (names nd) axes l -> l <> [] -> parse_axes nd axes = Ok l.
Proof.
  intros H NE. unfold parse_axes. assert (mapM (fun ax => match Man_Model.norm_axis nd ax with Some k => Ok k | None => Err end) axes = Ok l) as ->.
  { clear NE. induction H as [|z k axes l [H1 H2] H IH]; [reflexivity|]. cbn [mapM].
    assert (Man_Model.norm_axis nd z = Some k) as ->.
    { unfold Man_Model.norm_axis. cbv zeta. destruct (Z.ltb_spec z 0).
      - destruct H2 as [->| ->]; [lia|]. replace (Z.of_nat nd + (Z.of_nat k - Z.of_nat nd))%Z with (Z.of_nat k) by lia. destruct (Z.ltb_spec (Z.of_nat k) 0); [lia|].
        destruct (Z.leb_spec (Z.of_nat nd) (Z.of_nat k)); [lia|]. cbn [orb]. rewrite Nat2Z.id. reflexivity.
      - destruct H2 as [->| ->]; [|lia]. destruct (Z.ltb_spec (Z.of_nat k) 0); [lia|].
        destruct (Z.leb_spec (Z.of_nat nd) (Z.of_nat k)); [lia|]. cbn [orb]. rewrite Nat2Z.id. reflexivity. }
    cbn [bind]. rewrite IH. reflexivity. }
  cbn [bind]. destruct l; [easy|reflexivity].
Qed.
Lemma py_reduce_fold {X} (nd_of : X -> nat) (reduce : X -> nat -> res X) x axes l : Forall2 (names (nd_of x)) axes l -> l <> [] ->
  py_reduce nd_of reduce x axes = reduce_multi_axis reduce x l.
Proof.
  intros H NE. unfold py_reduce. rewrite (parse_axes_ok _ _ _ H NE). cbn [bind]. destruct l as [|a [|b l]]; [easy| |reflexivity].
  unfold reduce_multi_axis, stable_sort. cbn [fold_right insert_sorted foldM]. destruct (reduce x a); reflexivity.
Qed.
Section Laws.
Context {T : Type}.
Variables (P : T -> Prop) (init : T) (comb : T -> T -> T).
Hypothesis L : kernel_laws P init comb.
Let total (l : list T) : T := fold_left comb l init.
Lemma total_P l : Forall P l -> P (total l).
Proof.
  destruct L as (L1 & L2 & L3 & L4 & L5). intros H. unfold total. rewrite (fold_init_msum init comb P) by assumption. apply msum_P; assumption.
Qed.
Lemma total_perm l l' : Permutation l l' -> Forall P l -> total l = total l'.
Proof.
  destruct L as (L1 & L2 & L3 & L4 & L5). intros HP H. unfold total. assert (Forall P l') by (eapply Permutation_Forall; eassumption).
  rewrite !(fold_init_msum init comb P) by assumption. apply (msum_perm init comb P); assumption.
Qed.
Lemma total_flat {A B} (f : B -> T) (g : A -> list B) l : (forall x y, In x l -> In y (g x) -> P (f y)) ->
  total (map (fun x => total (map f (g x))) l) = total (map f (flat_map g l)).
Proof.
  destruct L as (L1 & L2 & L3 & L4 & L5). intros H.
  assert (Forall P (map (fun x => total (map f (g x))) l)) as F1.
  { apply Forall_forall. intros y Hy. apply in_map_iff in Hy as (x & <- & Hx). apply total_P. apply Forall_forall. intros z Hz. apply in_map_iff in Hz as (w & <- & Hw). eauto. }
  assert (Forall P (map f (flat_map g l))) as F2.
  { apply Forall_forall. intros y Hy. apply in_map_iff in Hy as (w & <- & Hw). apply in_flat_map in Hw as (x & Hx & Hw). eauto. }
  unfold total at 1 3. rewrite !(fold_init_msum init comb P) by assumption. clear F1.
  induction l as [|x l IH]; [reflexivity|]. cbn [map flat_map]. cbn [flat_map] in F2. rewrite map_app in *. apply Forall_app in F2 as [F2 F3].
  rewrite (msum_app init comb P) by assumption. cbn [msum fold_right]. unfold total at 1. rewrite (fold_init_msum init comb P) by assumption. f_equal. apply IH; [|exact F3].
  intros; eapply H; [right|]; eassumption.
Qed.
Lemma axis_step_is item x sh f a n : (0 < item)%Z -> stands_for item x sh f -> nth_error sh a = Some n -> roomy item sh -> (forall idx, inb idx sh -> P (f idx)) ->
  exists z, axis_step init comb x a = Ok z /\ stands_for item z (remove_at a sh) (fun oi => total (map (fun k => f (insert_at a k oi)) (seq 0 n))).
Proof.
  intros HI (W & SX & IX & G) Hn R HP. assert (NE : sh <> []) by (destruct sh; [destruct a; discriminate|discriminate]).
  assert (K1 : keep1 sh = sh) by (destruct sh; [easy|reflexivity]). rewrite K1 in SX.
  assert (A1 : forall oi, inb oi sh -> at1 oi = oi) by (intros oi Ho; destruct Ho; [easy|reflexivity]).
  unfold axis_step. destruct (C26_axis_fold P init comb (fst x) (snd x) a n L W) as (out & E & LO & GO).
  { rewrite SX. exact Hn. }
  { intros idx v Hi Hv. rewrite SX in Hi. rewrite <- (A1 idx Hi) in Hv. rewrite (G idx Hi) in Hv. injection Hv as <-. apply HP. exact Hi. }
  rewrite E. cbn [bind]. rewrite SX, IX in *. eexists. split; [reflexivity|]. rewrite reduced_keep1 in *.
  assert (PK : prod (keep1 (remove_at a sh)) = prod (remove_at a sh)) by (destruct (remove_at a sh); reflexivity).
  split; [|split; [reflexivity|split; [reflexivity|]]].
  - cbn [fst snd]. apply fresh_wf; [exact HI| |exact LO]. rewrite LO, PK. pose proof (prod_max1 (remove_at a sh)). pose proof (roomy_remove item a sh n Hn HI R). unfold roomy in *. nia.
  - intros oi Ho. cbn [fst snd]. apply GO.
    + destruct Ho; cbn; [repeat constructor|constructor; assumption].
    + rewrite (outer_at1 sh a oi) by (try exact Ho; apply nth_error_Some; congruence).
      unfold lane. rewrite SX, (nth_error_nth _ _ 0 Hn), map_map. apply map_ext_in. intros k Hk. apply in_seq in Hk.
      assert (inb (insert_at a k oi) sh) as HK by (apply (lane_inb _ _ _ _ n); [exact Hn|exact Ho|lia]). rewrite <- (A1 _ HK). rewrite (G _ HK). rewrite (A1 _ HK). reflexivity.
Qed.
Lemma multi_is item axes : StronglySorted gt axes -> forall x sh f, (0 < item)%Z -> stands_for item x sh f -> (forall a, In a axes -> a < length sh) -> roomy item sh ->
  (forall idx, inb idx sh -> P (f idx)) ->
  exists z, foldM (axis_step init comb) axes x = Ok z /\ stands_for item z (drop_axes axes sh) (fun oi => total (map f (cell sh axes oi))).
Proof.
  intros S. induction S as [|a rest S IH HF]; intros x sh f HI X HA R HP.
  - exists x. split; [reflexivity|]. rewrite drop_nil. destruct X as (W & SX & IX & G). split; [exact W|]. split; [exact SX|]. split; [exact IX|].
    intros oi Ho. rewrite (cell_nil sh oi Ho), (G oi Ho). cbn. f_equal. symmetry. apply L. apply HP. exact Ho.
  - rewrite Forall_forall in HF. destruct (nth_error sh a) as [n|] eqn:Hn; [|apply nth_error_None in Hn; specialize (HA a (or_introl eq_refl)); lia].
    assert (AL : a < length sh) by (apply nth_error_Some; congruence). pose proof (insert_remove_at a n sh Hn) as IR.
    assert (LR : 1 + length (remove_at a sh) = length sh) by (rewrite <- IR at 2; rewrite insert_at_length; reflexivity).
    destruct (axis_step_is item x sh f a n HI X Hn R HP) as (y & E & Y). cbn [foldM]. rewrite E. cbn [bind].
    destruct (IH y _ _ HI Y) as (z & EZ & Z).
    { intros b Hb. specialize (HF b Hb). lia. } { apply (roomy_remove item a sh n); assumption. }
    { intros oi Ho. apply total_P. apply Forall_forall. intros v Hv. apply in_map_iff in Hv as (k & <- & Hk). apply in_seq in Hk. apply HP. apply (lane_inb _ _ _ _ n); [exact Hn|exact Ho|lia]. }
    exists z. split; [exact EZ|]. rewrite (drop_cons a rest sh HF). destruct Z as (W & SZ & IZ & G). split; [exact W|]. split; [exact SZ|]. split; [exact IZ|].
    intros oi Ho. rewrite (G oi Ho). f_equal. etransitivity; [|apply (total_perm (map f (flat_map (fun i => map (fun k => insert_at a k i) (seq 0 n)) (cell (remove_at a sh) rest oi))))].
    + rewrite <- (total_flat f).
      * f_equal. apply map_ext. intros i. rewrite map_map. reflexivity.
      * intros i idx Hi Hk. apply in_cell in Hi as [Hi _]. apply in_map_iff in Hk as (k & <- & Hk). apply in_seq in Hk. apply HP. apply (lane_inb _ _ _ _ n); [exact Hn|exact Hi|lia].
    + apply Permutation_map. apply cell_lanes; assumption.
    + apply Forall_forall. intros v Hv. apply in_map_iff in Hv as (idx & <- & Hv). apply HP.
      apply (Permutation_in idx (cell_lanes sh a rest oi n HF Hn)) in Hv. apply in_cell in Hv as [Hv _]. exact Hv.
Qed.
End Laws.
