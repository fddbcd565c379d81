(* Proofs: results written lane by lane; sort, argsort, partition along an axis. *)
From Coq Require Import Permutation Sorted.
From Verif Require Import Idx_Proofs Idx_Assign.
From Verif Require Import Base Lists Arr_Spec Arr_Model Arr_Wf Arr_Proofs Copy_Model Copy_Proofs
  Elem_Model Elem_Proofs Red_Spec Red_Model Red_Proofs Red_Scan Sort_Spec Sort_Model Sort_Proofs Sort_Select.
Local Open Scope nat_scope.

Lemma write_all_app {A} (l1 l2 : list (nat * A)) out :
  write_all (l1 ++ l2) out = bind (write_all l1 out) (write_all l2).
Proof.
  revert out; induction l1 as [|[p v] l1 IH]; intros out; cbn [app write_all]; [reflexivity|].
  destruct (p <? length out); [apply IH|reflexivity].
Qed.

Section WriteLane.
Context {W : Type}.
Variables (sh : list nat) (axis n : nat) (item : Z).
Hypothesis Hit : (0 < item)%Z.
Hypothesis Hn : nth_error sh axis = Some n.

Lemma lane_inj oi oi' j j' : inb oi (remove_at axis sh) -> inb oi' (remove_at axis sh) -> j < n -> j' < n ->
  rank sh (insert_at axis j oi) = rank sh (insert_at axis j' oi') -> j = j' /\ oi = oi'.
Proof.
  intros Ho Ho' Hj Hj' E.
  assert (EI : insert_at axis j oi = insert_at axis j' oi').
  { rewrite <- (unrank_rank sh (insert_at axis j oi)), E by (apply (lane_inb _ _ _ _ n); assumption).
    apply unrank_rank, (lane_inb _ _ _ _ n); assumption. }
  assert (HA : axis < length sh) by (apply nth_error_Some; congruence).
  pose proof (inb_length _ _ Ho) as L1. pose proof (inb_length _ _ Ho') as L2. rewrite remove_at_length in L1, L2 by exact HA.
  destruct (insert_at_parts axis j oi) as [P1 P2]; [lia|].
  destruct (insert_at_parts axis j' oi') as [Q1 Q2]; [lia|]. rewrite EI in P1, P2. split; congruence.
Qed.

Lemma lane_fresh_nth (out : list W) oi j : inb oi (remove_at axis sh) -> j < n ->
  nth_error (lane out (fresh sh item) axis oi) j = Some (nth_error out (rank sh (insert_at axis j oi))).
Proof.
  intros Ho Hj. unfold lane. cbn [fresh a_shape]. rewrite (nth_error_nth _ _ 0 Hn).
  rewrite nth_error_map', nth_error_seq. destruct (Nat.ltb_spec j n); [|lia]. cbn [option_map Nat.add].
  rewrite fresh_get by exact Hit. reflexivity.
Qed.
Lemma lane_fresh_len (out : list W) oi : length (lane out (fresh sh item) axis oi) = n.
Proof. rewrite lane_length. cbn [fresh a_shape]. apply nth_error_nth, Hn. Qed.

Lemma write_lane (out : list W) oi vals : length out = prod sh -> inb oi (remove_at axis sh) -> length vals = n ->
  exists out', write_all (combine (map (fun j => rank sh (insert_at axis j oi)) (seq 0 n)) vals) out = Ok out' /\
    length out' = prod sh /\ lane out' (fresh sh item) axis oi = map Some vals /\
    forall oi', inb oi' (remove_at axis sh) -> oi' <> oi ->
      lane out' (fresh sh item) axis oi' = lane out (fresh sh item) axis oi'.
Proof.
  intros HLO Ho HV. set (w := combine _ vals).
  assert (HW : forall p v, In (p, v) w <-> exists j, j < n /\ p = rank sh (insert_at axis j oi) /\ nth_error vals j = Some v).
  { intros p v. split.
    - intros H. apply In_nth_error in H as [j Hj]. unfold w in Hj. rewrite nth_error_combine, nth_error_map', nth_error_seq in Hj.
      destruct (Nat.ltb_spec j n) as [Hjn|]; [|discriminate]. cbn [option_map Nat.add] in Hj.
      destruct (nth_error vals j) eqn:E; [|discriminate]. injection Hj as <- <-. exists j. auto.
    - intros (j & Hj & -> & Hv). apply (nth_error_In _ j). unfold w. rewrite nth_error_combine, nth_error_map', nth_error_seq.
      destruct (Nat.ltb_spec j n); [|lia]. cbn [option_map Nat.add]. rewrite Hv. reflexivity. }
  destruct (write_all_spec w out) as (out' & EO & LO & HN).
  { intros p v H. apply HW in H as (j & Hj & -> & _). rewrite HLO. apply rank_lt, (lane_inb _ _ _ _ n); assumption. }
  exists out'. split; [exact EO|]. split; [congruence|]. split.
  - apply nth_error_ext. intros j. destruct (Nat.lt_ge_cases j n) as [Hj|Hj].
    + rewrite lane_fresh_nth by assumption. rewrite nth_error_map'.
      destruct (nth_error vals j) as [v|] eqn:Ev; [|apply nth_error_None in Ev; lia]. cbn [option_map]. f_equal.
      apply HN; [apply HW; exists j; auto|]. intros v' H'. apply HW in H' as (j' & Hj' & E & Hv').
      apply lane_inj in E; try assumption. destruct E as [<- _]. congruence.
    + assert (E1 : nth_error (lane out' (fresh sh item) axis oi) j = None) by (apply nth_error_None; rewrite lane_fresh_len; lia).
      assert (E2 : nth_error (map Some vals) j = None) by (apply nth_error_None; rewrite map_length; lia). congruence.
  - intros oi' Ho' Hne. apply nth_error_ext. intros j. destruct (Nat.lt_ge_cases j n) as [Hj|Hj].
    + rewrite !lane_fresh_nth by assumption. f_equal. apply HN. intros v H. apply HW in H as (j' & Hj' & E & _).
      apply lane_inj in E; try assumption. destruct E as [_ E]. congruence.
    + assert (E1 : nth_error (lane out' (fresh sh item) axis oi') j = None) by (apply nth_error_None; rewrite lane_fresh_len; lia).
      assert (E2 : nth_error (lane out (fresh sh item) axis oi') j = None) by (apply nth_error_None; rewrite lane_fresh_len; lia). congruence.
Qed.

Lemma write_lanes_list (vals : list nat -> list W) os : forall out, length out = prod sh -> NoDup os ->
  (forall oi, In oi os -> inb oi (remove_at axis sh) /\ length (vals oi) = n) ->
  exists out', write_all (concat (map (fun oi => combine (map (fun j => rank sh (insert_at axis j oi)) (seq 0 n)) (vals oi)) os)) out = Ok out' /\
    length out' = prod sh /\
    (forall oi, In oi os -> lane out' (fresh sh item) axis oi = map Some (vals oi)) /\
    (forall oi, inb oi (remove_at axis sh) -> ~ In oi os -> lane out' (fresh sh item) axis oi = lane out (fresh sh item) axis oi).
Proof.
  induction os as [|o os IH]; intros out HLO ND HO; cbn [map concat write_all].
  - exists out. split; [reflexivity|]. split; [exact HLO|]. split; [intros oi []|reflexivity].
  - inversion ND as [|? ? Hni ND']; subst. destruct (HO o (or_introl eq_refl)) as [Ho Hv].
    destruct (write_lane out o (vals o) HLO Ho Hv) as (out1 & E1 & L1 & A1 & B1).
    destruct (IH out1 L1 ND' (fun oi H => HO oi (or_intror H))) as (out2 & E2 & L2 & A2 & B2).
    exists out2. rewrite write_all_app, E1. cbn [bind]. split; [exact E2|]. split; [exact L2|]. split.
    + intros oi [<-|H]; [rewrite B2 by assumption; exact A1|exact (A2 oi H)].
    + intros oi Hi H. rewrite B2; [|exact Hi|intros H'; apply H; right; exact H'].
      apply B1; [exact Hi|]. intros ->. apply H; left; reflexivity.
Qed.

(* the outer indices, one per lane *)
Lemma outers : map (outer_of sh) (all_idx (reduced_shape axis sh)) = all_idx (remove_at axis sh).
Proof.
  assert (HA : axis < length sh) by (apply nth_error_Some; congruence).
  pose proof (remove_at_length axis sh HA) as HR. unfold reduced_shape, outer_of.
  destruct sh as [|s [|s2 sh']]; [simpl in HA; lia| |].
  - destruct axis; [reflexivity|simpl in HA; lia].
  - destruct (remove_at axis (s :: s2 :: sh')); [simpl in HR; lia|apply map_id].
Qed.

Theorem write_lanes_gen (vals : list nat -> list W) out0 : length out0 = prod sh ->
  (forall oi, inb oi (remove_at axis sh) -> length (vals oi) = n) ->
  exists out, write_all (concat (map (fun o => combine (map (fun j => rank sh (insert_at axis j (outer_of sh o))) (seq 0 n))
                                                      (vals (outer_of sh o))) (all_idx (reduced_shape axis sh)))) out0 = Ok out /\
    length out = prod sh /\
    forall oi, inb oi (remove_at axis sh) -> lane out (fresh sh item) axis oi = map Some (vals oi).
Proof.
  intros HLO HV.
  destruct (write_lanes_list vals (all_idx (remove_at axis sh)) out0 HLO (all_idx_nodup _)) as (out & E & L & A & _).
  - intros oi H. apply in_all_idx in H. auto.
  - exists out. rewrite <- outers, map_map in E. split; [exact E|]. split; [exact L|].
    intros oi H. apply A, in_all_idx, H.
Qed.
End WriteLane.

Lemma outer_indices_eq axis sh : outer_indices axis sh = all_idx (reduced_shape axis sh).
Proof. apply odometer_all. Qed.

Lemma lane_index_spec a axis n j oi : nth_error (a_shape a) axis = Some n ->
  inb oi (reduced_shape axis (a_shape a)) ->
  lane_index (ndim a) axis oi j = insert_at axis j (outer_of (a_shape a) oi).
Proof.
  intros Hn Hi. rewrite <- (slow_idx a axis n j oi Hn Hi). unfold lane_index.
  assert (HA : axis < length (a_shape a)) by (apply nth_error_Some; congruence).
  assert (HL : axis <= length oi).
  { apply inb_length in Hi. unfold reduced_shape in Hi. pose proof (remove_at_length axis (a_shape a) HA) as HR.
    destruct (remove_at axis (a_shape a)); simpl in *; lia. }
  rewrite Nat.min_l by exact HL.
  assert (LP : length (firstn axis oi) = axis) by (rewrite firstn_length; lia).
  cbn [app]. rewrite upd_app_r by lia. rewrite LP, Nat.sub_diag. reflexivity.
Qed.

Lemma fresh_lin sh item idx : (0 < item)%Z ->
  Z.to_nat (byte_offset_for (fresh sh item) idx / item) = rank sh idx.
Proof.
  intros H. unfold byte_offset_for, fresh; cbn [a_strides]. rewrite dot_c_strides, Z.mul_comm, Z.div_mul by lia. lia.
Qed.

Definition lane_val {V} (buf : list V) a axis oi : list V :=
  flat_map (fun o => match o with Some v => [v] | None => [] end) (lane buf a axis oi).
Lemma lane_val_eq {V} (buf : list V) a axis oi lv : lane buf a axis oi = map Some lv -> lane_val buf a axis oi = lv.
Proof. intros E. unfold lane_val. rewrite E. clear. induction lv as [|v lv IH]; simpl; [reflexivity|]. f_equal; exact IH. Qed.

Section SortAxisP.
Context {V K : Type}.
Variables (rd : V -> K) (wr : K -> V) (leb : K -> K -> bool).
Variable buf : list V.

Lemma sorted_lane_spec a axis n o lv : wf buf a -> nth_error (a_shape a) axis = Some n ->
  inb o (reduced_shape axis (a_shape a)) -> lane buf a axis (outer_of (a_shape a) o) = map Some lv ->
  sorted_lane rd leb buf a axis n o = Ok (stable_sort (by_key leb) (combine (map rd lv) (seq 0 (length lv)))).
Proof using rd leb buf. clear wr.
  intros W Hn Ho E. destruct (outer_of_inb axis (a_shape a) n o Hn Ho) as [Ho' _].
  assert (LV : length lv = n).
  { pose proof (f_equal (@length _) E) as EL. rewrite lane_length, map_length in EL. rewrite <- EL. apply nth_error_nth, Hn. }
  unfold sorted_lane. replace (mapM _ (seq 0 n)) with (Ok (combine (map rd lv) (seq 0 (length lv)))); [reflexivity|].
  symmetry. destruct lv as [|v0 lv0] eqn:EV; [simpl in LV; subst; reflexivity|]. rewrite <- EV in *.
  rewrite (mapM_ok _ (fun k => (rd (nth k lv v0), k))).
  - apply (f_equal Ok). rewrite LV. apply nth_error_ext. intros k. rewrite nth_error_combine, !nth_error_map'.
    rewrite nth_error_seq. destruct (Nat.ltb_spec k n) as [H|H]; cbn [option_map Nat.add].
    + rewrite (nth_error_nth' lv v0) by lia. reflexivity.
    + destruct (option_map rd (nth_error lv k)); reflexivity.
  - intros k Hk. apply in_seq in Hk. rewrite (lane_index_spec a axis n k o Hn Ho).
    destruct (get_element_ok buf a (insert_at axis k (outer_of (a_shape a) o)) W) as (v & E1 & E2);
      [apply (lane_inb _ _ _ _ n); try assumption; lia|]. rewrite E1. cbn [bind].
    assert (EK : nth_error lv k = Some v).
    { apply (f_equal (fun l => nth_error l k)) in E. unfold lane in E. rewrite !nth_error_map', nth_error_seq in E.
      rewrite (nth_error_nth _ _ 0 Hn) in E. destruct (Nat.ltb_spec k n); [|lia]. cbn [option_map Nat.add] in E.
      rewrite E2 in E. destruct (nth_error lv k); [|discriminate]. cbn in E. congruence. }
    rewrite (nth_error_nth lv k v0 EK). reflexivity.
Qed.

Lemma write_lanes_spec {R} (val : K * nat -> R) a axis n item out0 : wf buf a -> (0 < item)%Z ->
  nth_error (a_shape a) axis = Some n -> length out0 = size a ->
  exists out, write_lanes rd leb buf val a axis n (a_shape a) item out0 = Ok out /\ length out = size a /\
    forall oi lv, inb oi (remove_at axis (a_shape a)) -> lane buf a axis oi = map Some lv ->
      lane out (fresh (a_shape a) item) axis oi =
      map Some (map val (stable_sort (by_key leb) (combine (map rd lv) (seq 0 (length lv))))).
Proof using rd leb buf. clear wr.
  intros W Hit Hn HLO. unfold size in *.
  set (vals := fun oi => map val (stable_sort (by_key leb) (combine (map rd (lane_val buf a axis oi)) (seq 0 (length (lane_val buf a axis oi)))))).
  destruct (write_lanes_gen (a_shape a) axis n item Hit Hn vals out0 HLO) as (out & EO & LO & HL).
  { intros oi Ho. destruct (lane_vals buf a axis oi n W Hn Ho) as (lv & E & L). unfold vals. rewrite (lane_val_eq _ _ _ _ _ E).
    rewrite map_length, stable_sort_length, combine_length, map_length, seq_length. lia. }
  exists out. split; [|split; [exact LO|]].
  - unfold write_lanes. rewrite outer_indices_eq.
    rewrite (mapM_ok _ (fun o => combine (map (fun j => rank (a_shape a) (insert_at axis j (outer_of (a_shape a) o))) (seq 0 n))
                                         (vals (outer_of (a_shape a) o)))).
    + cbn [bind]. exact EO.
    + intros o Ho. apply in_all_idx in Ho. destruct (outer_of_inb axis (a_shape a) n o Hn Ho) as [Ho' _].
      destruct (lane_vals buf a axis _ n W Hn Ho') as (lv & E & L).
      rewrite (sorted_lane_spec a axis n o lv W Hn Ho E). cbn [bind]. apply (f_equal Ok). unfold vals.
      rewrite (lane_val_eq _ _ _ _ _ E). f_equal. apply map_ext. intros k.
      rewrite fresh_lin by exact Hit. f_equal. apply (lane_index_spec a axis n); assumption.
  - intros oi lv Ho E. rewrite (HL oi Ho). unfold vals. rewrite (lane_val_eq _ _ _ _ _ E). reflexivity.
Qed.

Lemma copy_lane (vals : list V) a axis oi n : (0 < a_item a)%Z -> nth_error (a_shape a) axis = Some n ->
  elems buf a = map Some vals -> inb oi (remove_at axis (a_shape a)) ->
  lane vals (fresh (a_shape a) (a_item a)) axis oi = lane buf a axis oi.
Proof.
  intros HI Hn E Ho. unfold lane. cbn [fresh a_shape]. apply map_ext_in. intros j Hj. apply in_seq in Hj.
  rewrite (nth_error_nth _ _ 0 Hn) in Hj.
  pose proof (elems_get buf vals a (fun v => v) (insert_at axis j oi) (a_item a) HI E) as G.
  rewrite map_id in G. rewrite G by (apply (lane_inb _ _ _ _ n); try assumption; lia).
  destruct (get buf a (insert_at axis j oi)); reflexivity.
Qed.

(* each lane of the result: the keys in ascending order, written back *)
Theorem sort_axis_spec typed a axis n : total_preorder leb -> wf buf a -> nth_error (a_shape a) axis = Some n ->
  exists out, sort_axis rd wr leb buf typed a axis = Ok (a_shape a, out) /\ length out = size a /\
    forall oi lv, inb oi (remove_at axis (a_shape a)) -> lane buf a axis oi = map Some lv ->
      exists r, lane out (fresh (a_shape a) (a_item a)) axis oi = map Some r /\
        (n <= 1 /\ r = lv \/ exists ks, sorts leb (map rd lv) ks /\ r = map wr ks).
Proof.
  intros TP W Hn. pose proof W as (HIt & _). unfold sort_axis.
  assert (HA : axis < ndim a) by (apply nth_error_Some; congruence).
  destruct (Nat.ltb_spec axis (ndim a)); [|lia]. rewrite (at_ok _ _ _ Hn). cbn [bind].
  destruct (copy_buf_spec buf a typed W) as (vals & EC & EV & LV). rewrite EC. cbn [bind].
  destruct (Nat.leb_spec n 1) as [H1|H1].
  - exists vals. split; [reflexivity|]. split; [exact LV|]. intros oi lv Ho E. exists lv.
    split; [|left; auto]. rewrite (copy_lane vals a axis oi n) by assumption. exact E.
  - destruct (write_lanes_spec (fun p => wr (fst p)) a axis n (a_item a) vals W HIt Hn LV) as (out & EO & LO & HL).
    exists out. rewrite EO. cbn [bind]. split; [reflexivity|]. split; [exact LO|]. intros oi lv Ho E.
    eexists. split; [apply HL; eassumption|]. right.
    exists (map fst (stable_sort (by_key leb) (combine (map rd lv) (seq 0 (length lv))))). split.
    + pose proof (sort_pairs_fst leb (map rd lv) TP) as G. rewrite map_length in G. exact G.
    + rewrite map_map. reflexivity.
Qed.

Theorem argsort_axis_spec a axis n : total_preorder leb -> wf buf a -> nth_error (a_shape a) axis = Some n ->
  exists out, argsort_axis rd leb buf a axis = Ok (a_shape a, out) /\ length out = size a /\
    forall oi lv, inb oi (remove_at axis (a_shape a)) -> lane buf a axis oi = map Some lv ->
      exists p, lane out (fresh (a_shape a) 8) axis oi = map Some (map Z.of_nat p) /\ stable_order leb (map rd lv) p.
Proof using rd leb buf. clear wr.
  intros TP W Hn. unfold argsort_axis.
  assert (HA : axis < ndim a) by (apply nth_error_Some; congruence).
  destruct (Nat.ltb_spec axis (ndim a)); [|lia]. rewrite (at_ok _ _ _ Hn). cbn [bind].
  destruct (Nat.leb_spec n 1) as [H1|H1].
  - exists (repeat 0%Z (size a)). split; [reflexivity|]. split; [apply repeat_length|]. intros oi lv Ho E. exists (repeat 0 n).
    assert (LV : length lv = n).
    { pose proof (f_equal (@length _) E) as EL. rewrite lane_length, map_length in EL. rewrite <- EL. apply nth_error_nth, Hn. }
    split.
    + rewrite map_repeat. apply nth_error_ext. intros j. destruct (Nat.lt_ge_cases j n) as [Hj|Hj].
      * rewrite (lane_fresh_nth _ axis n) by (assumption || lia).
        rewrite nth_error_map'. rewrite !nth_error_repeat; [reflexivity|lia|].
        unfold size. apply rank_lt, (lane_inb _ _ _ _ n); assumption.
      * assert (E1 : nth_error (lane (repeat 0%Z (size a)) (fresh (a_shape a) 8) axis oi) j = None)
          by (apply nth_error_None; rewrite (lane_fresh_len _ axis n) by exact Hn; lia).
        rewrite E1. symmetry. apply nth_error_None. rewrite map_length, repeat_length. lia.
    + split.
      * rewrite map_length, LV. destruct n as [|[|]]; [constructor|repeat constructor|lia].
      * intros i j pi pj x y Hij Hi Hj. exfalso.
        assert (j < length (repeat 0 n)) by (apply nth_error_Some; rewrite Hj; discriminate). rewrite repeat_length in *. lia.
  - destruct (write_lanes_spec (fun p => Z.of_nat (snd p)) a axis n 8 (repeat 0%Z (size a)) W ltac:(lia) Hn (repeat_length _ _)) as (out & EO & LO & HL).
    exists out. rewrite EO. cbn [bind]. split; [reflexivity|]. split; [exact LO|]. intros oi lv Ho E.
    exists (map snd (stable_sort (by_key leb) (combine (map rd lv) (seq 0 (length lv))))). split.
    + rewrite (map_map snd Z.of_nat). apply HL; assumption.
    + pose proof (sort_pairs_snd leb (map rd lv) TP) as G. rewrite map_length in G. exact G.
Qed.
End SortAxisP.

(* ---------- partition along an axis ---------- *)
Lemma dot_outer axis sh (st : list Z) oi n : length st = length sh -> nth_error sh axis = Some n ->
  dot oi (remove_at axis st) = dot (outer_of sh oi) (remove_at axis st).
Proof.
  intros HL Hn. unfold outer_of. destruct sh as [|x [|y sh]]; try reflexivity.
  assert (axis = 0) as -> by (destruct axis as [|[|?]]; [reflexivity|discriminate..]).
  destruct st as [|? [|]]; try discriminate HL. cbn [remove_at]. destruct oi; reflexivity.
Qed.

Lemma lane_addr sh item axis n oi k st : (0 < item)%Z -> nth_error sh axis = Some n ->
  nth_error (c_strides sh item) axis = Some st -> inb oi (remove_at axis sh) ->
  (dot oi (remove_at axis (c_strides sh item)) + Z.of_nat k * st)%Z = (item * Z.of_nat (rank sh (insert_at axis k oi)))%Z.
Proof.
  intros Hit Hn Hs Ho. rewrite <- dot_c_strides. symmetry.
  apply (lane_dot (fresh sh item) axis oi k st n); cbn [fresh a_strides a_shape]; try assumption.
  apply c_strides_length.
Qed.

Section SelectP.
Context {V : Type}.
Variable sel : (V -> V -> bool) -> list V -> nat -> list V.
Variable selI : (nat -> nat -> bool) -> list nat -> nat -> list nat.
Variable leb : V -> V -> bool.
Hypothesis HselI : select_contract selI.
Hypothesis TP : total_preorder leb.

Lemma sel_positions vals kth : kth < length vals ->
  let p := selI (pos_leb leb vals) (seq 0 (length vals)) kth in
  partitioned (pos_leb leb vals) kth (seq 0 (length vals)) p /\ (forall i, In i p -> i < length vals).
Proof.
  intros HK p. assert (HP : partitioned (pos_leb leb vals) kth (seq 0 (length vals)) p).
  { apply HselI; [apply pos_leb_on; exact TP|rewrite seq_length; exact HK]. }
  split; [exact HP|]. intros i Hi. destruct HP as [HP _]. apply (Permutation_in _ (Permutation_sym HP)) in Hi.
  apply in_seq in Hi. lia.
Qed.

Lemma partition_lane_spec sh axis n item out oi lv kth base st : (0 < item)%Z -> nth_error sh axis = Some n -> kth < n ->
  length out = prod sh -> inb oi (remove_at axis sh) ->
  (forall k, (base + Z.of_nat k * st)%Z = (item * Z.of_nat (rank sh (insert_at axis k oi)))%Z) ->
  lane out (fresh sh item) axis oi = map Some lv ->
  exists out' r, partition_lane selI leb item out base st n kth = Ok out' /\ length out' = prod sh /\
    lane out' (fresh sh item) axis oi = map Some r /\ partitioned leb kth lv r /\
    forall oi', inb oi' (remove_at axis sh) -> oi' <> oi ->
      lane out' (fresh sh item) axis oi' = lane out (fresh sh item) axis oi'.
Proof.
  intros Hit Hn HK HLO Ho HB E.
  assert (LV : length lv = n).
  { pose proof (f_equal (@length _) E) as EL. rewrite lane_length, map_length in EL. rewrite <- EL. apply nth_error_nth, Hn. }
  unfold partition_lane.
  assert (R : mapM (fun k => of_load (load out item (base + Z.of_nat k * st))) (seq 0 n) = Ok lv).
  { apply mapM_of_load. rewrite <- E. unfold lane. cbn [fresh a_shape]. rewrite (nth_error_nth _ _ 0 Hn).
    apply map_ext. intros k. rewrite HB. unfold get, byte_offset_for, fresh; cbn [a_item a_off a_strides].
    rewrite dot_c_strides, Z.add_0_l. reflexivity. }
  rewrite R. cbn [bind]. rewrite <- LV in *.
  destruct (sel_positions lv kth HK) as [HP HI].
  destruct (mapM_at lv _ HI) as (r & EM & ER). rewrite EM. cbn [bind].
  pose proof (gather_partitioned leb lv _ r kth HP ER) as HPR.
  assert (LR : length r = length lv) by (symmetry; apply Permutation_length, (proj1 HPR)).
  destruct (write_lane sh axis (length lv) item Hit Hn out oi r HLO Ho LR) as (out' & EO & LO & A & B).
  exists out', r. split; [|auto].
  rewrite <- EO. do 2 f_equal. apply map_ext. intros k. rewrite HB, Z.mul_comm, Z.div_mul by lia. lia.
Qed.

Lemma partition_lanes_spec sh axis n item kth st : (0 < item)%Z -> nth_error sh axis = Some n -> kth < n ->
  nth_error (c_strides sh item) axis = Some st ->
  forall os out, length out = prod sh -> NoDup os -> (forall oi, In oi os -> inb oi (remove_at axis sh)) ->
  exists out', partition_lanes selI leb item (map (fun oi => dot oi (remove_at axis (c_strides sh item))) os) st n kth out = Ok out' /\
    length out' = prod sh /\
    (forall oi lv, In oi os -> lane out (fresh sh item) axis oi = map Some lv ->
       exists r, lane out' (fresh sh item) axis oi = map Some r /\ partitioned leb kth lv r) /\
    (forall oi, inb oi (remove_at axis sh) -> ~ In oi os -> lane out' (fresh sh item) axis oi = lane out (fresh sh item) axis oi).
Proof.
  intros Hit Hn HK Hs. induction os as [|o os IH]; intros out HLO ND HO; cbn [map partition_lanes].
  - exists out. split; [reflexivity|]. split; [exact HLO|]. split; [intros oi lv []|reflexivity].
  - inversion ND as [|? ? Hni ND']; subst. pose proof (HO o (or_introl eq_refl)) as Ho.
    assert (exists lv, lane out (fresh sh item) axis o = map Some lv) as [lv Elv].
    { unfold lane. apply seq_somes. intros j Hj. cbn [fresh a_shape] in Hj. rewrite (nth_error_nth _ _ 0 Hn) in Hj.
      rewrite fresh_get by exact Hit.
      assert (HR : rank sh (insert_at axis j o) < length out) by (rewrite HLO; apply rank_lt, (lane_inb _ _ _ _ n); assumption).
      destruct (nth_error out (rank sh (insert_at axis j o))) eqn:EN; [eauto|apply nth_error_None in EN; lia]. }
    destruct (partition_lane_spec sh axis n item out o lv kth (dot o (remove_at axis (c_strides sh item))) st)
      as (out1 & r & E1 & L1 & A1 & P1 & B1); try assumption.
    { intros k. apply (lane_addr sh item axis n); assumption. }
    destruct (IH out1 L1 ND' (fun oi H => HO oi (or_intror H))) as (out2 & E2 & L2 & A2 & B2).
    exists out2. rewrite E1. cbn [bind]. split; [exact E2|]. split; [exact L2|]. split.
    + intros oi lv' [<-|H] E.
      * exists r. split; [rewrite B2 by assumption; exact A1|].
        assert (lv' = lv) as -> by (apply map_Some_inj; congruence). exact P1.
      * apply A2; [exact H|]. rewrite (B1 oi (HO oi (or_intror H))); [exact E|]. intros E0. apply Hni. rewrite <- E0. exact H.
    + intros oi Hi H. rewrite B2; [|exact Hi|intros H'; apply H; right; exact H'].
      apply B1; [exact Hi|]. intros ->. apply H; left; reflexivity.
Qed.

Hypothesis Hsel : select_contract sel.
Variable buf : list V.

Theorem partition_axis_spec typed listed a kth axis n : wf buf a -> nth_error (a_shape a) axis = Some n -> kth < n ->
  exists out, partition_axis sel selI leb buf typed listed a kth axis = Ok (a_shape a, out) /\ length out = size a /\
    forall oi lv, inb oi (remove_at axis (a_shape a)) -> lane buf a axis oi = map Some lv ->
      exists r, lane out (fresh (a_shape a) (a_item a)) axis oi = map Some r /\ partitioned leb kth lv r.
Proof.
  intros W Hn HK. pose proof W as (HIt & _). unfold partition_axis.
  assert (HA : axis < ndim a) by (apply nth_error_Some; congruence).
  destruct (Nat.ltb_spec axis (ndim a)) as [_|]; [|lia]. rewrite (at_ok _ _ _ Hn). cbn [bind].
  destruct (Nat.ltb_spec kth n) as [_|]; [|lia].
  destruct (copy_buf_spec buf a typed W) as (vals & EC & EV & LV). rewrite EC. cbn [bind].
  assert (CL : forall oi, inb oi (remove_at axis (a_shape a)) ->
             lane vals (fresh (a_shape a) (a_item a)) axis oi = lane buf a axis oi)
    by (intros; apply (copy_lane buf vals a axis oi n); assumption).
  assert (LL : forall oi lv, lane buf a axis oi = map Some lv -> length lv = n).
  { intros oi lv E. pose proof (f_equal (@length _) E) as EL. rewrite lane_length, map_length in EL. rewrite <- EL. apply nth_error_nth, Hn. }
  destruct (Nat.leb_spec n 1) as [H1|H1].
  { exists vals. split; [reflexivity|]. split; [exact LV|]. intros oi lv Ho E. exists lv. rewrite CL by exact Ho. split; [exact E|].
    split; [apply Permutation_refl|]. pose proof (LL oi lv E) as LE.
    destruct (nth_error lv kth) as [v|] eqn:Ev; [|apply nth_error_None in Ev; lia]. exists v. split; [reflexivity|].
    split; intros i x Hi Hx; assert (i < length lv) by (apply nth_error_Some; congruence); lia. }
  cbv zeta.
  assert (HS1 : ndim a = 1 -> a_shape a = [n] /\ axis = 0).
  { unfold ndim in *. intros HD. destruct (a_shape a) as [|s [|]]; try discriminate. destruct axis; [|simpl in HA; lia].
    cbn [nth_error] in Hn. split; congruence. }
  destruct ((ndim a =? 1) && a_c (fresh (a_shape a) (a_item a))) eqn:EF.
  - apply andb_prop in EF as [ED _]. apply Nat.eqb_eq in ED. destruct (HS1 ED) as [ES ->].
    destruct listed.
    + cbn [bind]. assert (LV' : length vals = n) by (rewrite LV; unfold size; rewrite ES; cbn; lia).
      assert (HP : partitioned leb kth vals (sel leb vals kth)).
      { apply Hsel; [apply preorder_on_all; exact TP|lia]. }
      assert (LO : length (sel leb vals kth) = length vals) by (symmetry; apply Permutation_length, (proj1 HP)).
      eexists. split; [reflexivity|]. split; [congruence|]. intros oi lv Ho E.
      assert (oi = []) as -> by (rewrite ES in Ho; cbn in Ho; inversion Ho; reflexivity).
      assert (LF : forall (o : list V), length o = n -> lane o (fresh (a_shape a) (a_item a)) 0 [] = map Some o).
      { intros o Lo. unfold lane. cbn [fresh a_shape]. rewrite (nth_error_nth _ _ 0 Hn). apply nth_error_ext. intros k.
        rewrite !nth_error_map', nth_error_seq. destruct (Nat.ltb_spec k n) as [Hk|Hk]; cbn [option_map Nat.add].
        - rewrite fresh_get by exact HIt. rewrite ES. cbn [insert_at rank prod]. replace (k * 1 + 0) with k by lia.
          destruct (nth_error o k) eqn:EN; [reflexivity|apply nth_error_None in EN; lia].
        - destruct (nth_error o k) eqn:EN; [|reflexivity]. assert (k < length o) by (apply nth_error_Some; congruence). lia. }
      exists (sel leb vals kth). split; [apply LF; congruence|].
      rewrite <- CL in E by exact Ho. rewrite LF in E by exact LV'. apply map_Some_inj in E. subst lv. exact HP.
    + destruct (lane_vals buf a 0 [] n W Hn) as (lv & Elv & Llv); [rewrite ES; constructor|].
      destruct (partition_lane_spec (a_shape a) 0 n (a_item a) vals [] lv kth 0 (a_item a)) as (out & r & EO & LO & A & P & _);
        try assumption.
      { rewrite ES; constructor. }
      { intros k. rewrite ES. cbn [insert_at rank prod]. lia. }
      { rewrite CL; [exact Elv|rewrite ES; constructor]. }
      exists out. rewrite EO. cbn [bind]. split; [reflexivity|]. split; [exact LO|]. intros oi lv' Ho E.
      assert (oi = []) as -> by (rewrite ES in Ho; cbn in Ho; inversion Ho; reflexivity).
      exists r. split; [exact A|]. assert (lv' = lv) as -> by (apply map_Some_inj; congruence). exact P.
  - cbn [fresh a_strides].
    assert (exists st, nth_error (c_strides (a_shape a) (a_item a)) axis = Some st) as [st Hs].
    { destruct (nth_error (c_strides (a_shape a) (a_item a)) axis) eqn:E; [eauto|]. apply nth_error_None in E.
      rewrite c_strides_length in E. unfold ndim in HA. lia. }
    rewrite (at_ok _ _ _ Hs). cbn [bind]. rewrite outer_indices_eq.
    rewrite (map_ext _ (fun oi => dot (outer_of (a_shape a) oi) (remove_at axis (c_strides (a_shape a) (a_item a)))))
      by (intros oi; apply (dot_outer axis (a_shape a) _ oi n); [apply c_strides_length|exact Hn]).
    rewrite <- (map_map (outer_of (a_shape a)) (fun oi => dot oi (remove_at axis (c_strides (a_shape a) (a_item a))))).
    rewrite (outers (a_shape a) axis n Hn).
    destruct (partition_lanes_spec (a_shape a) axis n (a_item a) kth st HIt Hn HK Hs
                (all_idx (remove_at axis (a_shape a))) vals LV (all_idx_nodup _)) as (out & EO & LO & A & _).
    { intros oi H. apply in_all_idx, H. }
    exists out. rewrite EO. cbn [bind]. split; [reflexivity|]. split; [exact LO|]. intros oi lv Ho E.
    apply A; [apply in_all_idx, Ho|]. rewrite CL by exact Ho. exact E.
Qed.

Theorem argpartition_axis_spec a kth axis n : wf buf a -> nth_error (a_shape a) axis = Some n -> kth < n ->
  exists out, argpartition_axis selI leb buf a kth axis = Ok (a_shape a, out) /\ length out = size a /\
    forall oi lv, inb oi (remove_at axis (a_shape a)) -> lane buf a axis oi = map Some lv ->
      exists p r, lane out (fresh (a_shape a) 8) axis oi = map Some (map Z.of_nat p) /\
        Permutation p (seq 0 (length lv)) /\ map (nth_error lv) p = map Some r /\ partitioned leb kth lv r.
Proof.
  intros W Hn HK. pose proof W as (HIt & _ & _ & HSL & _). unfold argpartition_axis.
  assert (HA : axis < ndim a) by (apply nth_error_Some; congruence).
  destruct (Nat.ltb_spec axis (ndim a)) as [_|]; [|lia]. rewrite (at_ok _ _ _ Hn). cbn [bind].
  destruct (Nat.ltb_spec kth n) as [_|]; [|lia].
  assert (LL : forall oi lv, lane buf a axis oi = map Some lv -> length lv = n).
  { intros oi lv E. pose proof (f_equal (@length _) E) as EL. rewrite lane_length, map_length in EL. rewrite <- EL. apply nth_error_nth, Hn. }
  assert (PP : forall lv, length lv = n -> let p := selI (pos_leb leb lv) (seq 0 n) kth in length p = n /\
             Permutation p (seq 0 (length lv)) /\ exists r, map (nth_error lv) p = map Some r /\ partitioned leb kth lv r).
  { intros lv Ln p. assert (HK' : kth < length lv) by lia. destruct (sel_positions lv kth HK') as [HP HI].
    rewrite Ln in HP, HI. fold p in HP, HI. split; [|split].
    - pose proof (Permutation_length (proj1 HP)) as H. rewrite seq_length in H. lia.
    - rewrite Ln. apply Permutation_sym, (proj1 HP).
    - destruct (mapM_at lv p) as (r & _ & ER); [intros i Hi; rewrite Ln; apply HI, Hi|]. exists r. split; [exact ER|].
      apply (gather_partitioned leb lv p); [|exact ER]. rewrite Ln. exact HP. }
  destruct (Nat.leb_spec n 1) as [H1|H1].
  { assert (n = 1) as -> by lia. exists (repeat 0%Z (size a)). split; [reflexivity|]. split; [apply repeat_length|]. intros oi lv Ho E.
    pose proof (LL oi lv E) as LE. exists [0], lv. destruct lv as [|v [|]]; try discriminate LE.
    split; [|split; [|split]].
    - apply nth_error_ext. intros j. destruct (Nat.lt_ge_cases j 1) as [Hj|Hj].
      * rewrite (lane_fresh_nth _ axis 1) by (assumption || lia).
        rewrite nth_error_repeat; [|unfold size; apply rank_lt, (lane_inb _ _ _ _ 1); assumption].
        assert (j = 0) as -> by lia. reflexivity.
      * assert (E1 : nth_error (lane (repeat 0%Z (size a)) (fresh (a_shape a) 8) axis oi) j = None)
          by (apply nth_error_None; rewrite (lane_fresh_len _ axis 1) by exact Hn; lia).
        rewrite E1. symmetry. apply nth_error_None. cbn. lia.
    - cbn. apply Permutation_refl.
    - reflexivity.
    - split; [apply Permutation_refl|]. exists v. assert (kth = 0) as -> by lia. split; [reflexivity|].
      split; intros i x Hi Hx; [lia|]. destruct i as [|[|]]; [lia|discriminate..]. }
  destruct (Nat.eqb_spec (size a) 0) as [H0|H0].
  { exists []. split; [reflexivity|]. split; [rewrite H0; reflexivity|]. intros oi lv Ho E. exfalso.
    assert (HI : inb (insert_at axis 0 oi) (a_shape a)) by (apply (lane_inb _ _ _ _ n); try assumption; lia).
    apply inb_prod_pos in HI. unfold size in H0. lia. }
  cbv zeta. destruct ((ndim a =? 1) && a_c a) eqn:EF.
  - apply andb_prop in EF as [ED Hc]. apply Nat.eqb_eq in ED.
    assert (HS1 : a_shape a = [n] /\ axis = 0).
    { unfold ndim in *. destruct (a_shape a) as [|s [|]]; try discriminate. destruct axis; [|simpl in HA; lia].
      cbn [nth_error] in Hn. split; congruence. }
    destruct HS1 as [ES ->].
    destruct (wf_elems buf a W) as (vals & EV & LV).
    assert (SZ : size a = n) by (unfold size; rewrite ES; cbn; lia).
    pose proof (read_contig buf a vals W Hc EV) as RC. rewrite SZ in RC. rewrite RC. cbn [bind].
    destruct (PP vals ltac:(lia)) as (LP & P1 & r & ER & PR). cbv zeta in LP, P1, ER.
    eexists. split; [reflexivity|]. split; [rewrite map_length; lia|]. intros oi lv Ho E.
    assert (oi = []) as -> by (rewrite ES in Ho; cbn in Ho; inversion Ho; reflexivity).
    assert (lv = vals) as ->.
    { apply map_Some_inj. rewrite <- E, <- EV. unfold lane, elems. rewrite ES. cbn [nth all_idx insert_at].
      clear. induction (seq 0 n) as [|x l IH]; cbn; [reflexivity|]. f_equal; exact IH. }
    eexists _, r. split; [|split; [exact P1|split; [exact ER|exact PR]]].
    unfold lane. cbn [fresh a_shape]. rewrite ES. cbn [nth]. apply nth_error_ext. intros k.
    rewrite !nth_error_map', nth_error_seq. destruct (Nat.ltb_spec k n) as [Hk|Hk]; cbn [option_map Nat.add].
    + rewrite fresh_get by lia. cbn [insert_at rank prod]. replace (k * 1 + 0) with k by lia. rewrite nth_error_map'.
      destruct (nth_error (selI _ _ _) k) eqn:EN; [reflexivity|apply nth_error_None in EN; lia].
    + destruct (nth_error (selI _ _ _) k) eqn:EN; [|reflexivity].
      assert (k < length (selI (pos_leb leb vals) (seq 0 n) kth)) by (apply nth_error_Some; congruence). lia.
  - destruct (strides_at buf a axis n W Hn) as [st Hs]. rewrite (at_ok _ _ _ Hs). cbn [bind fresh a_strides].
    assert (exists rst, nth_error (c_strides (a_shape a) 8) axis = Some rst) as [rst Hrs].
    { destruct (nth_error (c_strides (a_shape a) 8) axis) eqn:E; [eauto|]. apply nth_error_None in E.
      rewrite c_strides_length in E. unfold ndim in HA. lia. }
    rewrite (at_ok _ _ _ Hrs). cbn [bind]. rewrite outer_indices_eq.
    set (vals := fun oi => map Z.of_nat (selI (pos_leb leb (lane_val buf a axis oi)) (seq 0 n) kth)).
    rewrite (mapM_ok _ (fun o => combine (map (fun j => rank (a_shape a) (insert_at axis j (outer_of (a_shape a) o))) (seq 0 n))
                                         (vals (outer_of (a_shape a) o)))).
    + cbn [bind].
      destruct (write_lanes_gen (a_shape a) axis n 8 ltac:(lia) Hn vals (repeat 0%Z (size a))) as (out & EO & LO & HL).
      { apply repeat_length. }
      { intros oi Ho. destruct (lane_vals buf a axis oi n W Hn Ho) as (lv & E & L). unfold vals.
        rewrite (lane_val_eq _ _ _ _ _ E), map_length. apply (PP lv L). }
      exists out. rewrite EO. cbn [bind]. split; [reflexivity|]. split; [exact LO|]. intros oi lv Ho E.
      destruct (PP lv (LL oi lv E)) as (LP & P1 & r & ER & PR). cbv zeta in LP, P1, ER.
      eexists _, r. split; [rewrite (HL oi Ho); unfold vals; rewrite (lane_val_eq _ _ _ _ _ E); reflexivity|].
      split; [exact P1|split; [exact ER|exact PR]].
    + intros o Ho. apply in_all_idx in Ho. destruct (outer_of_inb axis (a_shape a) n o Hn Ho) as [Ho' _].
      destruct (lane_vals buf a axis _ n W Hn Ho') as (lv & E & L).
      rewrite (dot_outer axis (a_shape a) (a_strides a) o n HSL Hn).
      rewrite (read_lane buf a axis _ n st lv) by assumption. cbn [bind]. apply (f_equal Ok). unfold vals.
      rewrite (lane_val_eq _ _ _ _ _ E). f_equal. apply map_ext. intros k.
      rewrite (dot_outer axis (a_shape a) (c_strides (a_shape a) 8) o n) by (apply c_strides_length || exact Hn).
      rewrite (lane_addr (a_shape a) 8 axis n) by (assumption || lia). rewrite Z.mul_comm, Z.quot_mul by lia. lia.
Qed.
End SelectP.
