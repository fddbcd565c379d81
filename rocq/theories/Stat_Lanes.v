(* Median and percentile of whole arrays and of lanes. *)
From Coq Require Import Permutation Sorted.
From Verif Require Import Base Lists Arr_Spec Arr_Model Arr_Wf Arr_Proofs Copy_Model Copy_Proofs Elem_Model Elem_Proofs Red_Spec Red_Model Red_Proofs
  Sort_Spec Sort_Model Sort_Proofs Sort_Select Sort_Api Stat_Spec Stat_Model Stat_Proofs.
From Verif Require Msk_Proofs Idx_Assign.
Local Open Scope nat_scope.

Lemma mapM_bind_ok {A B C} (f : A -> res B) (g : B -> res C) l : forall ys, mapM f l = Ok ys ->
  mapM (fun x => bind (f x) g) l = mapM g ys.
Proof.
  induction l as [|x l IH]; intros ys E; cbn [mapM] in *.
  - injection E as <-. reflexivity.
  - destruct (f x) as [y| | |]; try discriminate. cbn [bind] in *. destruct (mapM f l) as [zs| | |]; try discriminate.
    injection E as <-. cbn [mapM]. rewrite (IH zs eq_refl). reflexivity.
Qed.
Lemma mapM_all2 {A B} (f : A -> res B) (P : A -> B -> Prop) l : (forall x, In x l -> exists y, f x = Ok y /\ P x y) ->
  exists r, mapM f l = Ok r /\ Forall2 P l r.
Proof.
  induction l as [|x l IH]; intros H; [exists []; split; [reflexivity|constructor]|].
  destruct (H x (or_introl eq_refl)) as (y & E & HP). destruct IH as (r & ER & HR). { intros; apply H; right; assumption. }
  exists (y :: r). cbn [mapM]. rewrite E, ER. split; [reflexivity|constructor; assumption].
Qed.
Lemma Forall2_nth_l {A B} (P : A -> B -> Prop) l r i x : Forall2 P l r -> nth_error l i = Some x -> exists y, nth_error r i = Some y /\ P x y.
Proof.
  intro H. revert i. induction H as [|a b l r HP H IH]; intros [|i] E; try discriminate; cbn [nth_error] in *.
  - injection E as <-. eauto.
  - apply IH. exact E.
Qed.
Lemma Forall2_len {A B} (P : A -> B -> Prop) l r : Forall2 P l r -> length r = length l.
Proof. induction 1; cbn; congruence. Qed.

Lemma strides_nth {V} (buf : list V) a axis n : wf buf a -> nth_error (a_shape a) axis = Some n -> exists st, nth_error (a_strides a) axis = Some st.
Proof.
  intros W Hn. destruct (nth_error (a_strides a) axis) eqn:E; [eauto|]. apply nth_error_None in E.
  destruct W as (_ & _ & _ & WL & _). rewrite WL in E. assert (axis < length (a_shape a)) by (apply nth_error_Some; congruence). lia.
Qed.

(* the lanes of a, in order, read one after the other *)
Lemma read_lanes {V} (buf : list V) a axis n st : wf buf a -> nth_error (a_shape a) axis = Some n -> nth_error (a_strides a) axis = Some st ->
  exists L, mapM (fun base => read_run buf a base st n) (axis_offsets a axis) = Ok L /\ length L = prod (reduced_shape axis (a_shape a)) /\
    (forall lv, In lv L -> length lv = n /\ exists oi, lane buf a axis oi = map Some lv) /\
    forall idx lv, inb idx (reduced_shape axis (a_shape a)) -> lane buf a axis (outer_of (a_shape a) idx) = map Some lv ->
      nth_error L (rank (reduced_shape axis (a_shape a)) idx) = Some lv.
Proof.
  intros W Hn Hs. destruct (lanes_exist buf a axis n W Hn) as [L EL]. exists L.
  split; [|split; [rewrite prod_reduced; apply (lanes_length buf a axis L EL)|split]].
  - pose proof (mapM_lanes buf a axis n st L (fun d => d) W Hn Hs EL) as H. rewrite map_id in H.
    rewrite <- H. apply mapM_ext. intros x _. destruct (read_run buf a x st n); reflexivity.
  - intros lv HL. assert (In (map Some lv) (map (map Some) L)) as I by (apply in_map; exact HL). rewrite <- EL in I.
    apply in_map_iff in I as (oi & E & _). split; [|exists oi; exact E].
    apply (f_equal (@length _)) in E. unfold lane in E. rewrite !map_length, seq_length, (nth_error_nth _ _ 0 Hn) in E. lia.
  - intros idx lv Hi Hl. pose proof (lanes_get buf a axis n L (fun d => d) 1 idx lv ltac:(lia) Hn EL Hi Hl) as H.
    rewrite map_id, fresh_get in H by lia. exact H.
Qed.
(* a function applied to every lane *)
Lemma map_lanes {V U} (buf : list V) a axis n st item (F : list V -> res U) (P : list V -> U -> Prop) : (0 < item)%Z ->
  wf buf a -> nth_error (a_shape a) axis = Some n -> nth_error (a_strides a) axis = Some st ->
  (forall lv oi, length lv = n -> lane buf a axis oi = map Some lv -> exists w, F lv = Ok w /\ P lv w) ->
  exists out, mapM (fun base => bind (read_run buf a base st n) F) (axis_offsets a axis) = Ok out /\
    length out = prod (reduced_shape axis (a_shape a)) /\
    forall idx lv, inb idx (reduced_shape axis (a_shape a)) -> lane buf a axis (outer_of (a_shape a) idx) = map Some lv ->
      exists w, get out (fresh (reduced_shape axis (a_shape a)) item) idx = Some w /\ P lv w.
Proof.
  intros HI W Hn Hs HF. destruct (read_lanes buf a axis n st W Hn Hs) as (L & E & LL & HL & HG).
  rewrite (mapM_bind_ok _ _ _ L E). destruct (mapM_all2 F P L) as (out & EO & F2).
  { intros lv Hin. destruct (HL lv Hin) as (Hlen & oi & Hoi). apply (HF lv oi); assumption. }
  exists out. split; [exact EO|]. split; [rewrite (Forall2_len _ _ _ F2); exact LL|].
  intros idx lv Hi Hl. rewrite fresh_get by exact HI. apply (Forall2_nth_l P L out _ lv F2). apply HG; assumption.
Qed.

Section Median.
Context {V K : Type}.
Variables (rd : V -> K) (leb : K -> K -> bool) (isnan : K -> bool) (zero two nan : K) (add div : K -> K -> K).
Notation mid := (mean2 two add div).
Variables (sel : (K -> K -> bool) -> list K -> nat -> list K) (ninf : K) (fmax : K -> K -> K).
Hypothesis SC : select_contract sel.

Lemma elems_size (buf : list V) a vals : elems buf a = map Some vals -> length vals = size a.
Proof. intro E. apply (f_equal (@length _)) in E. unfold elems in E. rewrite !map_length, all_idx_length in E. unfold size. lia. Qed.

Lemma median_ok f64 buf a vals : wf buf a -> elems buf a = map Some vals -> vals <> [] ->
  preorder_on leb (ninf :: map rd vals) -> max_from leb ninf fmax (map rd vals) ->
  exists m, median rd leb two nan add div sel ninf fmax f64 buf a = Ok m /\ is_median leb mid (map rd vals) m.
Proof.
  intros W E NE PO MF. unfold median. pose proof (elems_size buf a vals E) as S.
  destruct (Nat.eqb_spec (size a) 0) as [H0|H0]; [destruct vals; [easy|cbn in S; lia]|].
  rewrite (to_vec_spec rd buf f64 a vals W E). cbn [bind]. apply median_sel_ok; try assumption. destruct vals; [easy|discriminate].
Qed.
Definition not_nan (l : list K) : list K := filter (fun v => negb (isnan v)) l.
Lemma nanmedian_ok f64 buf a vals : wf buf a -> elems buf a = map Some vals ->
  preorder_on leb (ninf :: not_nan (map rd vals)) -> max_from leb ninf fmax (not_nan (map rd vals)) ->
  exists m, nanmedian rd leb isnan two nan add div sel ninf fmax f64 buf a = Ok m /\
    (not_nan (map rd vals) <> [] -> is_median leb mid (not_nan (map rd vals)) m) /\
    (not_nan (map rd vals) = [] -> m = nan).
Proof.
  intros W E PO MF. unfold nanmedian. pose proof (elems_size buf a vals E) as S.
  destruct (Nat.eqb_spec (size a) 0) as [H0|H0].
  { exists nan. split; [reflexivity|]. assert (vals = []) as -> by (destruct vals; [reflexivity|cbn in S; lia]). cbn. split; [easy|reflexivity]. }
  rewrite (to_vec_spec rd buf f64 a vals W E). cbn [bind]. fold (not_nan (map rd vals)).
  destruct (Nat.eqb_spec (length (not_nan (map rd vals))) 0) as [L0|L0].
  - exists nan. apply length_zero_iff_nil in L0. rewrite L0. split; [reflexivity|]. split; [easy|reflexivity].
  - assert (not_nan (map rd vals) <> []) as NE by (intro Z; rewrite Z in L0; cbn in L0; lia).
    destruct (median_sel_ok leb two add div sel ninf fmax _ NE PO MF SC) as (m & Em & HM). exists m. split; [exact Em|]. split; [intros _; exact HM|easy].
Qed.

Lemma median_axis_ok buf a axis n item : (0 < item)%Z -> wf buf a -> nth_error (a_shape a) axis = Some n -> 0 < n -> 2 <= ndim a ->
  (forall oi lv, lane buf a axis oi = map Some lv -> preorder_on leb (map rd lv)) ->
  exists out, median_axis rd leb zero two add div buf a axis = Ok (remove_at axis (a_shape a), out) /\ length out = prod (remove_at axis (a_shape a)) /\
    forall oi lv, inb oi (remove_at axis (a_shape a)) -> lane buf a axis oi = map Some lv ->
      exists m, get out (fresh (remove_at axis (a_shape a)) item) oi = Some m /\ is_median leb mid (map rd lv) m.
Proof.
  intros HI W Hn Hp HD PO. unfold median_axis, at_. rewrite Hn. cbn [bind].
  assert (AX : axis < length (a_shape a)) by (apply nth_error_Some; congruence).
  assert (LR : length (remove_at axis (a_shape a)) = length (a_shape a) - 1).
  { pose proof (insert_remove_at axis n (a_shape a) Hn) as IR. apply (f_equal (@length _)) in IR.
    rewrite insert_at_length in IR. lia. }
  assert ((match remove_at axis (a_shape a) with [] => [1] | r => r end) = remove_at axis (a_shape a)) as ->.
  { destruct (remove_at axis (a_shape a)); [unfold ndim in HD; cbn in LR; lia|reflexivity]. }
  set (sh := remove_at axis (a_shape a)) in *. destruct (Nat.eqb_spec (prod sh) 0) as [P0|P0].
  - cbn [orb]. eexists. split; [reflexivity|]. split; [apply repeat_length|]. intros oi lv Hi. apply inb_prod_pos in Hi. lia.
  - destruct (Nat.eqb_spec n 0); [lia|]. cbn [orb]. rewrite odometer_all.
    destruct (mapM_all2 (fun oi => bind (mapM (fun k => bind (get_element buf a (firstn axis oi ++ k :: skipn axis oi)) (fun v => Ok (rd v))) (seq 0 n)) (median_sorted leb two add div))
      (fun oi m => exists lv, lane buf a axis oi = map Some lv /\ is_median leb mid (map rd lv) m) (all_idx sh)) as (out & EO & F2).
    { intros oi Hoi. apply in_all_idx in Hoi. destruct (lane_vals buf a axis oi n W Hn Hoi) as (lv & El & Hl).
      assert (mapM (fun k => bind (get_element buf a (firstn axis oi ++ k :: skipn axis oi)) (fun v => Ok (rd v))) (seq 0 n) = Ok (map rd lv)) as ->.
      { apply Msk_Proofs.mapM_seq_list; [rewrite map_length; exact Hl|]. intros k y Hk. rewrite nth_error_map' in Hk.
        destruct (nth_error lv k) as [v|] eqn:Ek; [|discriminate]. injection Hk as <-.
        assert (k < n) by (rewrite <- Hl; apply nth_error_Some; congruence).
        assert (axis <= length oi). { rewrite (inb_length _ _ Hoi), LR. lia. }
        rewrite <- insert_at_app by assumption. unfold get_element.
        assert (inb (insert_at axis k oi) (a_shape a)) as I by (apply (lane_inb _ _ _ _ n); assumption).
        apply Idx_Assign.idx_ok_iff in I. rewrite I.
        apply (f_equal (fun l => nth_error l k)) in El. unfold lane in El. rewrite !nth_error_map', (nth_error_nth _ _ 0 Hn), nth_error_seq in El.
        destruct (Nat.ltb_spec k n); [|lia]. cbn [option_map plus] in El. rewrite Ek in El. cbn [option_map] in El. injection El as El.
        rewrite El. reflexivity. }
      cbn [bind]. destruct (median_sorted_ok leb two add div (map rd lv)) as (m & Em & HM).
      - intro Z. apply map_eq_nil in Z. subst lv. cbn in Hl. lia.
      - apply (PO oi). exact El.
      - exists m. split; [exact Em|]. exists lv. split; assumption. }
    rewrite EO. cbn [bind]. exists out. split; [reflexivity|]. pose proof (Forall2_len _ _ _ F2) as L2. rewrite all_idx_length in L2.
    split; [exact L2|]. intros oi lv Hi Hl. rewrite fresh_get by exact HI.
    destruct (Forall2_nth_l _ _ _ (rank sh oi) oi F2) as (m & Em & lv' & El' & HM); [apply nth_error_all_idx_rank; exact Hi|].
    exists m. split; [exact Em|]. rewrite Hl in El'. apply map_Some_inj in El'. subst lv'. exact HM.
Qed.

Lemma nanmedian_axis_ok buf a axis n item : (0 < item)%Z -> wf buf a -> nth_error (a_shape a) axis = Some n -> 0 < n ->
  (forall oi lv, lane buf a axis oi = map Some lv -> preorder_on leb (not_nan (map rd lv))) ->
  exists out, nanmedian_axis rd leb isnan zero two nan add div buf a axis = Ok (reduced_shape axis (a_shape a), out) /\
    length out = prod (reduced_shape axis (a_shape a)) /\
    forall idx lv, inb idx (reduced_shape axis (a_shape a)) -> lane buf a axis (outer_of (a_shape a) idx) = map Some lv ->
      exists m, get out (fresh (reduced_shape axis (a_shape a)) item) idx = Some m /\
        (not_nan (map rd lv) <> [] -> is_median leb mid (not_nan (map rd lv)) m) /\ (not_nan (map rd lv) = [] -> m = nan).
Proof.
  intros HI W Hn Hp PO. unfold nanmedian_axis. unfold at_ at 1. rewrite Hn. cbn [bind].
  destruct (strides_nth buf a axis n W Hn) as (st & Hs). unfold at_ at 1. rewrite Hs. cbn [bind]. fold (reduced_shape axis (a_shape a)).
  destruct (Nat.eqb_spec (prod (reduced_shape axis (a_shape a))) 0) as [P0|P0].
  { cbn [orb]. eexists. split; [reflexivity|]. split; [apply repeat_length|]. intros idx lv Hi. apply inb_prod_pos in Hi. lia. }
  destruct (Nat.eqb_spec n 0); [lia|]. cbn [orb].
  destruct (map_lanes buf a axis n st item (fun d => if length (filter (fun v => negb (isnan v)) (map rd d)) =? 0 then Ok nan else median_sorted leb two add div (filter (fun v => negb (isnan v)) (map rd d)))
    (fun lv m => (not_nan (map rd lv) <> [] -> is_median leb mid (not_nan (map rd lv)) m) /\ (not_nan (map rd lv) = [] -> m = nan)) HI W Hn Hs) as (out & EO & LO & GO).
  { intros lv oi _ El. cbv zeta. fold (not_nan (map rd lv)). destruct (Nat.eqb_spec (length (not_nan (map rd lv))) 0) as [L0|L0].
    - apply length_zero_iff_nil in L0. exists nan. rewrite L0. split; [reflexivity|]. split; [easy|reflexivity].
    - assert (not_nan (map rd lv) <> []) as NE by (intro Z; rewrite Z in L0; cbn in L0; lia).
      destruct (median_sorted_ok leb two add div _ NE (PO oi lv El)) as (m & Em & HM). exists m. split; [exact Em|]. split; [intros _; exact HM|easy]. }
  rewrite EO. cbn [bind]. exists out. split; [reflexivity|]. split; assumption.
Qed.
End Median.

(* ---- percentile ---- *)
Lemma nth_error_concat_uniform {A} n : forall (ls : list (list A)) i j l, (forall m, In m ls -> length m = n) -> nth_error ls i = Some l -> j < n ->
  nth_error (concat ls) (i * n + j) = nth_error l j.
Proof.
  induction ls as [|m ls IH]; intros [|i] j l HL E HJ; try discriminate; cbn [nth_error concat] in *.
  - injection E as ->. rewrite nth_error_app1; [reflexivity|]. rewrite (HL l (or_introl eq_refl)). exact HJ.
  - pose proof (HL m (or_introl eq_refl)) as LM. rewrite nth_error_app2 by (rewrite LM; cbn; lia).
    replace (S i * n + j - length m) with (i * n + j) by (rewrite LM; cbn; lia). apply IH; [|exact E|exact HJ]. intros; apply HL; right; assumption.
Qed.
Lemma concat_uniform_length {A} n (ls : list (list A)) : (forall m, In m ls -> length m = n) -> length (concat ls) = length ls * n.
Proof.
  induction ls as [|m ls IH]; intros HL; [reflexivity|]. cbn [concat length]. rewrite app_length, IH, (HL m (or_introl eq_refl)); [cbn; lia|].
  intros; apply HL; right; assumption.
Qed.
Section Percentile.
Context {V K : Type}.
Variables (rd : V -> K) (zero : K) (value : list K -> K -> res K) (P : K -> list K -> K -> Prop).
(* where the result of percentile(a, q, axis) for the qi-th percentile of the lane at idx is *)
Definition pct_index (q : list K) (qi : nat) (idx : list nat) : list nat := if length q =? 1 then idx else qi :: idx.

Lemma percentile_lanes_ok buf a q axis n item : (0 < item)%Z -> wf buf a -> nth_error (a_shape a) axis = Some n -> 0 < n ->
  (forall oi lv pct, length lv = n -> lane buf a axis oi = map Some lv -> In pct q -> exists w, value (map rd lv) pct = Ok w /\ P pct (map rd lv) w) ->
  exists out, percentile_lanes rd zero value buf a q axis = Ok (percentile_shape (length q) (a_shape a) axis, out) /\
    length out = prod (percentile_shape (length q) (a_shape a) axis) /\
    forall qi pct idx lv, nth_error q qi = Some pct -> inb idx (reduced_shape axis (a_shape a)) ->
      lane buf a axis (outer_of (a_shape a) idx) = map Some lv ->
      exists w, get out (fresh (percentile_shape (length q) (a_shape a) axis) item) (pct_index q qi idx) = Some w /\ P pct (map rd lv) w.
Proof.
  intros HI W Hn Hp HV. unfold percentile_lanes. assert (AX : axis < ndim a) by (apply nth_error_Some; congruence).
  destruct (Nat.ltb_spec axis (ndim a)); [|lia]. unfold at_ at 1. rewrite Hn. cbn [bind].
  destruct (strides_nth buf a axis n W Hn) as (st & Hs). unfold at_ at 1. rewrite Hs. cbn [bind]. fold (reduced_shape axis (a_shape a)).
  set (red := reduced_shape axis (a_shape a)). set (osh := percentile_shape (length q) (a_shape a) axis).
  assert (PS : prod osh = length q * prod red).
  { unfold osh, percentile_shape. fold (reduced_shape axis (a_shape a)). fold red. destruct (Nat.eqb_spec (length q) 1) as [->|]; cbn [prod fold_right]; lia. }
  destruct (Nat.eqb_spec n 0); [lia|]. cbn [orb]. destruct (Nat.eqb_spec (prod red) 0) as [P0|P0].
  { eexists. split; [reflexivity|]. split; [apply repeat_length|]. intros qi pct idx lv _ Hi. apply inb_prod_pos in Hi. lia. }
  destruct (read_lanes buf a axis n st W Hn Hs) as (L & E & LL & HL & HG). fold red in LL, HG.
  rewrite (mapM_bind_ok (fun base => read_run buf a base st n) (fun d => Ok (map rd d)) _ L E).
  rewrite (mapM_ok (fun d => Ok (map rd d)) (map rd) L) by reflexivity. cbn [bind].
  destruct (mapM_all2 (fun pct => mapM (fun l => value l pct) (map (map rd) L)) (fun pct row => Forall2 (fun lv w => P pct (map rd lv) w) L row) q) as (rows & ER & F2).
  { intros pct Hq. rewrite mapM_map. apply mapM_all2. intros lv Hin. destruct (HL lv Hin) as (Hlen & oi & Hoi). apply (HV oi lv pct); assumption. }
  rewrite ER. cbn [bind]. eexists. split; [reflexivity|].
  assert (UL : forall m, In m rows -> length m = prod red).
  { intros m Hm. apply In_nth_error in Hm as (i & Hi). rewrite <- LL. clear - F2 Hi. revert i Hi. induction F2; intros [|i] Hi; try discriminate.
    - injection Hi as <-. apply (Forall2_len _ _ _ H).
    - apply (IHF2 i). exact Hi. }
  split; [rewrite (concat_uniform_length _ _ UL), (Forall2_len _ _ _ F2), PS; reflexivity|].
  intros qi pct idx lv Hq Hi Hl. fold red in Hi. destruct (Forall2_nth_l _ _ _ _ _ F2 Hq) as (row & Erow & FR).
  destruct (Forall2_nth_l _ _ _ _ _ FR (HG idx lv Hi Hl)) as (w & Ew & HP). exists w. split; [|exact HP].
  rewrite fresh_get by exact HI. rewrite <- Ew. assert (R : rank red idx < prod red) by (apply rank_lt; exact Hi).
  rewrite <- (nth_error_concat_uniform _ rows qi (rank red idx) row UL Erow R). f_equal.
  unfold osh, percentile_shape, pct_index. fold (reduced_shape axis (a_shape a)). fold red.
  destruct (Nat.eqb_spec (length q) 1) as [L1|L1]; [|reflexivity].
  assert (qi < 1) by (rewrite <- L1; apply nth_error_Some; congruence). lia.
Qed.
End Percentile.
