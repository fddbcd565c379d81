(* Proofs: cumulative, logical and arg reductions, diff. *)
From Verif Require Import Idx_Proofs Idx_Assign.
From Verif Require Import Base Lists Arr_Spec Arr_Model Arr_Wf Arr_Proofs Copy_Model Copy_Proofs
  Elem_Model Elem_Proofs Int_Model Int_Proofs F64_Model F64_Proofs Red_Spec Red_Model Red_Proofs.
Local Open Scope nat_scope.

(* ---------- all / any ---------- *)
Lemma scan_until_existsb {T} (stop : T -> bool) e l :
  scan_until stop e l = if existsb stop l then negb e else e.
Proof. induction l as [|x l IH]; simpl; [reflexivity|]. destruct (stop x); [reflexivity|exact IH]. Qed.
Lemma scan_all {T} (truthy : T -> bool) l : scan_until (fun v => negb (truthy v)) true l = forallb truthy l.
Proof.
  rewrite scan_until_existsb. induction l as [|x l IH]; simpl; [reflexivity|].
  destruct (truthy x); simpl; [exact IH|reflexivity].
Qed.
Lemma scan_any {T} (truthy : T -> bool) l : scan_until truthy false l = existsb truthy l.
Proof. rewrite scan_until_existsb. destruct (existsb truthy l); reflexivity. Qed.

Lemma elems_nil {V} (buf : list V) a vals : elems buf a = map Some vals -> size a = 0 -> vals = [].
Proof.
  intros E H0. apply (f_equal (@length _)) in E. unfold elems in E.
  rewrite !map_length, all_idx_length in E. unfold size in H0. rewrite H0 in E. destruct vals; [reflexivity|discriminate].
Qed.

Lemma all_arr_spec {T} (truthy : T -> bool) buf a vals : wf buf a -> elems buf a = map Some vals ->
  all_arr truthy buf a = Ok (forallb truthy vals).
Proof.
  intros W E. unfold all_arr. destruct (Nat.eqb_spec (size a) 0) as [H0|H0].
  - rewrite (elems_nil buf a vals E H0). reflexivity.
  - rewrite (read_offsets buf a vals W E). cbn [bind]. rewrite scan_all. reflexivity.
Qed.
Lemma any_arr_spec {T} (truthy : T -> bool) buf a vals : wf buf a -> elems buf a = map Some vals ->
  any_arr truthy buf a = Ok (existsb truthy vals).
Proof.
  intros W E. unfold any_arr. destruct (Nat.eqb_spec (size a) 0) as [H0|H0].
  - rewrite (elems_nil buf a vals E H0). reflexivity.
  - rewrite (read_offsets buf a vals W E). cbn [bind]. rewrite scan_any. reflexivity.
Qed.
Lemma count_nonzero_spec {T} (truthy : T -> bool) buf a vals : wf buf a -> elems buf a = map Some vals ->
  count_nonzero truthy buf a = Ok (length (filter truthy vals)).
Proof.
  intros W E. unfold count_nonzero. destruct (Nat.eqb_spec (size a) 0) as [H0|H0].
  - rewrite (elems_nil buf a vals E H0). reflexivity.
  - rewrite (read_offsets buf a vals W E). reflexivity.
Qed.

Lemma logical_axis_spec {T} (buf : list T) a axis n L ev stop : wf buf a ->
  nth_error (a_shape a) axis = Some n ->
  map (lane buf a axis) (all_idx (remove_at axis (a_shape a))) = map (map Some) L ->
  logical_axis buf ev stop a axis = Ok (reduced_shape axis (a_shape a), map (scan_until stop ev) L).
Proof.
  intros W Hn EL. destruct (strides_at buf a axis n W Hn) as [st Hs].
  unfold logical_axis. rewrite (at_ok _ _ _ Hn). cbn [bind]. fold (reduced_shape axis (a_shape a)).
  rewrite prod_reduced. pose proof (lanes_length buf a axis L EL) as LL.
  destruct (Nat.eqb_spec (prod (remove_at axis (a_shape a))) 0) as [H0|H0].
  { rewrite H0 in LL. destruct L; [reflexivity|discriminate]. }
  destruct (Nat.eqb_spec n 0) as [Hn0|Hn0].
  { rewrite (map_const_lanes (scan_until stop ev) L ev), LL; [reflexivity|].
    intros lv Hlv. pose proof (lanes_len buf a axis L lv n Hn EL Hlv).
    destruct lv; [reflexivity|simpl in *; lia]. }
  rewrite (at_ok _ _ _ Hs). cbn [bind]. rewrite (mapM_lanes buf a axis n st L) by assumption. reflexivity.
Qed.

(* lanes read element by element *)
Lemma slow_idx a axis n j oi : nth_error (a_shape a) axis = Some n ->
  inb oi (reduced_shape axis (a_shape a)) ->
  upd (firstn (Nat.min axis (length oi)) oi ++ [0] ++ (if axis <? ndim a - 1 then skipn axis oi else [])) axis j
  = insert_at axis j (outer_of (a_shape a) oi).
Proof.
  unfold ndim, reduced_shape. intros Hn Hi.
  assert (HA : axis < length (a_shape a)) by (apply nth_error_Some; congruence).
  assert (HR := remove_at_length axis (a_shape a) HA).
  destruct (a_shape a) as [|s [|s2 sh]].
  - simpl in HA; lia.
  - destruct axis; [|simpl in HA; lia]. inversion Hi as [|i ? r ? H1 H2]; subst. inversion H2; subst. reflexivity.
  - cbn [outer_of]. destruct (remove_at axis (s :: s2 :: sh)) eqn:E; [simpl in HR; lia|]. rewrite <- E in *.
    assert (LO : length oi = S (length sh)) by (apply inb_length in Hi; simpl in *; lia). clear Hi E HR Hn.
    simpl in HA. rewrite Nat.min_l by lia. rewrite insert_at_app by lia.
    replace (if axis <? length (s :: s2 :: sh) - 1 then skipn axis oi else []) with (skipn axis oi).
    + assert (LP : length (firstn axis oi) = axis) by (rewrite firstn_length; lia).
      cbn [app]. rewrite upd_app_r by lia. rewrite LP, Nat.sub_diag. reflexivity.
    + destruct (Nat.ltb_spec axis (length (s :: s2 :: sh) - 1)); [reflexivity|].
      apply skipn_all2. simpl in *. lia.
Qed.

Lemma slow_lanes {V W} (buf : list V) a axis n L (F : list V -> W) (g : list nat -> list nat) : wf buf a ->
  nth_error (a_shape a) axis = Some n ->
  (forall oi j, inb oi (reduced_shape axis (a_shape a)) -> j < n ->
     upd (g oi) axis j = insert_at axis j (outer_of (a_shape a) oi)) ->
  map (lane buf a axis) (all_idx (remove_at axis (a_shape a))) = map (map Some) L ->
  let osh := reduced_shape axis (a_shape a) in
  mapM (fun oi => bind (mapM (fun j => get_element buf a (upd (g oi) axis j)) (seq 0 n)) (fun d => Ok (F d)))
       (odometer (prod osh) (repeat 0 (length osh)) osh) = Ok (map F L).
Proof.
  intros WF Hn Hg EL osh. rewrite odometer_all.
  assert (EO : map (fun oi => lane buf a axis (outer_of (a_shape a) oi)) (all_idx osh) = map (map Some) L).
  { rewrite <- EL. unfold osh, reduced_shape, outer_of.
    assert (HA : axis < length (a_shape a)) by (apply nth_error_Some; congruence).
    pose proof (remove_at_length axis (a_shape a) HA) as HR.
    destruct (a_shape a) as [|s [|s2 sh]]; [simpl in HA; lia| |].
    - destruct axis; [reflexivity|simpl in HA; lia].
    - destruct (remove_at axis (s :: s2 :: sh)); [simpl in HR; lia|reflexivity]. }
  assert (HI : forall oi, In oi (all_idx osh) -> inb oi osh) by (intros oi; apply in_all_idx).
  clear EL. revert HI L EO. generalize (all_idx osh) as l.
  induction l as [|oi l IH]; intros HI L EO; destruct L as [|lv L]; try discriminate; [reflexivity|].
  cbn [map] in EO. injection EO as E1 E2. cbn [mapM map].
  assert (R : mapM (fun j => get_element buf a (upd (g oi) axis j)) (seq 0 n) = Ok lv).
  { assert (Ho := HI oi (or_introl eq_refl)). destruct (outer_of_inb axis (a_shape a) n oi Hn Ho) as [Ho' _].
    rewrite (mapM_ext _ (fun j => of_load (get buf a (insert_at axis j (outer_of (a_shape a) oi))))).
    - apply mapM_of_load. rewrite <- E1. unfold lane. rewrite (nth_error_nth _ _ 0 Hn). reflexivity.
    - intros j Hj. apply in_seq in Hj. rewrite Hg by (try assumption; lia).
      destruct (get_element_ok buf a (insert_at axis j (outer_of (a_shape a) oi)) WF) as (v & -> & ->);
        [apply (lane_inb _ _ _ _ n); try assumption; lia|reflexivity]. }
  rewrite R. cbn [bind]. rewrite (IH (fun x H => HI x (or_intror H)) L E2). reflexivity.
Qed.

Lemma logical_axis_slow_spec {T} (buf : list T) a axis n L ev stop : wf buf a ->
  nth_error (a_shape a) axis = Some n -> 0 < n ->
  map (lane buf a axis) (all_idx (remove_at axis (a_shape a))) = map (map Some) L ->
  logical_axis_slow buf ev stop a axis = Ok (reduced_shape axis (a_shape a), map (scan_until stop ev) L).
Proof.
  intros W Hn Hp EL. unfold logical_axis_slow. rewrite (at_ok _ _ _ Hn). cbn [bind].
  fold (reduced_shape axis (a_shape a)). pose proof (lanes_length buf a axis L EL) as LL.
  rewrite <- prod_reduced in LL.
  destruct (Nat.eqb_spec (prod (reduced_shape axis (a_shape a))) 0) as [H0|H0].
  { rewrite H0 in *. destruct L; [reflexivity|discriminate]. }
  destruct (Nat.eqb_spec n 0) as [Hn0|Hn0]; [lia|]. cbn [orb].
  pose proof (slow_lanes buf a axis n L (scan_until stop ev)
    (fun oi => firstn (Nat.min axis (length oi)) oi ++ [0] ++ (if axis <? ndim a - 1 then skipn axis oi else [])) W Hn) as G.
  cbv zeta beta in G. cbv zeta. rewrite G; [reflexivity| |exact EL].
  intros oi j Ho Hj. apply (slow_idx a axis n); assumption.
Qed.

(* ---------- argmax / argmin ---------- *)
Section Arg.
Context {T : Type}.
Variables (beats : T -> T -> bool).
Hypothesis b_irrefl : forall x, beats x x = false.
Hypothesis b_trans : forall x y z, beats x y = true -> beats y z = true -> beats x z = true.
Hypothesis b_neg : forall x y z, beats x y = false -> beats y z = false -> beats x z = false.

(* bv is the value at position bi of pre, best so far *)
Definition arg_inv (pre : list T) (bv : T) (bi : nat) : Prop :=
  nth_error pre bi = Some bv /\
  (forall j w, nth_error pre j = Some w -> beats w bv = false) /\
  (forall j w, j < bi -> nth_error pre j = Some w -> beats bv w = true).

Lemma arg_inv_step pre bv bi v : arg_inv pre bv bi ->
  if beats v bv then arg_inv (pre ++ [v]) v (length pre) else arg_inv (pre ++ [v]) bv bi.
Proof.
  intros (H1 & H2 & H3). assert (HB : bi < length pre) by (apply nth_error_Some; congruence).
  destruct (beats v bv) eqn:E.
  - split; [|split].
    + rewrite nth_error_app2, Nat.sub_diag by lia. reflexivity.
    + intros j w Hw. destruct (Nat.lt_ge_cases j (length pre)) as [Hj|Hj].
      * rewrite nth_error_app1 in Hw by exact Hj. destruct (beats w v) eqn:E2; [|reflexivity].
        specialize (H2 j w Hw). rewrite (b_trans w v bv E2 E) in H2. discriminate.
      * rewrite nth_error_app2 in Hw by exact Hj. destruct (j - length pre) as [|k]; [|destruct k; discriminate].
        injection Hw as <-. apply b_irrefl.
    + intros j w Hj Hw. rewrite nth_error_app1 in Hw by exact Hj.
      destruct (beats v w) eqn:E2; [reflexivity|]. rewrite (b_neg v w bv E2 (H2 j w Hw)) in E. discriminate.
  - split; [|split].
    + rewrite nth_error_app1 by exact HB. exact H1.
    + intros j w Hw. destruct (Nat.lt_ge_cases j (length pre)) as [Hj|Hj].
      * rewrite nth_error_app1 in Hw by exact Hj. exact (H2 j w Hw).
      * rewrite nth_error_app2 in Hw by exact Hj. destruct (j - length pre) as [|k]; [|destruct k; discriminate].
        injection Hw as <-. exact E.
    + intros j w Hj Hw. rewrite nth_error_app1 in Hw by lia. exact (H3 j w Hj Hw).
Qed.

Lemma arg_scan_inv l pre bv bi : arg_inv pre bv bi ->
  first_best beats (pre ++ l) (arg_scan beats l (length pre) bv bi).
Proof.
  revert pre bv bi; induction l as [|v l IH]; intros pre bv bi H; cbn [arg_scan].
  - rewrite app_nil_r. exists bv. exact H.
  - pose proof (arg_inv_step pre bv bi v H) as H'. replace (length pre + 1) with (length (pre ++ [v])) by (rewrite app_length; reflexivity).
    replace (pre ++ v :: l) with ((pre ++ [v]) ++ l) by (rewrite <- app_assoc; reflexivity).
    destruct (beats v bv); apply IH; exact H'.
Qed.

Lemma arg_from_first_spec l : l <> [] -> first_best beats l (arg_from_first beats l).
Proof.
  destruct l as [|v l]; [congruence|]. intros _. apply (arg_scan_inv l [v] v 0).
  split; [reflexivity|split].
  - intros [|j] w H; [injection H as <-; apply b_irrefl|destruct j; discriminate].
  - intros j w H; lia.
Qed.

(* the scans that start from a value worse than everything *)
Variable worst : T.
Lemma arg_scan_worst l pre : pre ++ l <> [] ->
  (forall x, In x (pre ++ l) -> beats worst x = false) ->
  (forall w, In w pre -> beats w worst = false) ->
  first_best beats (pre ++ l) (arg_scan beats l (length pre) worst 0).
Proof.
  revert pre; induction l as [|v l IH]; intros pre HN b_worst HW; cbn [arg_scan].
  - rewrite app_nil_r in *. destruct pre as [|x pre]; [congruence|]. exists x. split; [reflexivity|split].
    + intros j w Hw. apply (b_neg w worst x); [apply HW; eapply nth_error_In; eassumption|apply b_worst; left; reflexivity].
    + intros j w Hj; lia.
  - replace (length pre + 1) with (length (pre ++ [v])) by (rewrite app_length; reflexivity).
    replace (pre ++ v :: l) with ((pre ++ [v]) ++ l) by (rewrite <- app_assoc; reflexivity).
    destruct (beats v worst) eqn:E.
    + apply arg_scan_inv. split; [|split].
      * rewrite nth_error_app2, Nat.sub_diag by lia. reflexivity.
      * intros j w Hw. apply nth_error_In, in_app_or in Hw. destruct Hw as [Hw|[<-|[]]]; [|apply b_irrefl].
        apply (b_neg w worst v); [apply HW, Hw|apply b_worst, in_or_app; right; left; reflexivity].
      * intros j w Hj Hw. rewrite nth_error_app1 in Hw by exact Hj. apply nth_error_In in Hw.
        destruct (beats v w) eqn:E2; [reflexivity|]. rewrite (b_neg v w worst E2 (HW w Hw)) in E. discriminate.
    + apply IH.
      * destruct pre; discriminate.
      * intros x Hx. apply b_worst. rewrite <- app_assoc in Hx. exact Hx.
      * intros w Hw. apply in_app_or in Hw. destruct Hw as [Hw|[<-|[]]]; [apply HW, Hw|exact E].
Qed.

Lemma first_best_unique l i j : first_best beats l i -> first_best beats l j -> i = j.
Proof.
  intros (v & Hi & A1 & A2) (w & Hj & B1 & B2).
  destruct (Nat.lt_trichotomy i j) as [H|[H|H]]; [|exact H|].
  - specialize (B2 i v H Hi). rewrite (A1 j w Hj) in B2. discriminate.
  - specialize (A2 j w H Hj). rewrite (B1 i v Hi) in A2. discriminate.
Qed.

Lemma arg_full_spec typed (buf : list T) a vals : wf buf a -> elems buf a = map Some vals -> vals <> [] ->
  (forall x, In x vals -> beats worst x = false) ->
  exists i, arg_full beats worst buf typed a = Ok i /\ first_best beats vals i.
Proof.
  intros W E HN HWo. unfold arg_full. destruct (Nat.eqb_spec (size a) 0) as [H0|H0].
  - destruct HN. apply (elems_nil buf a vals E H0).
  - destruct typed; cbn [andb].
    + destruct (a_c a) eqn:Hc.
      * rewrite (read_contig buf a vals W Hc E). cbn [bind]. eexists; split; [reflexivity|].
        apply arg_from_first_spec, HN.
      * rewrite (read_offsets buf a vals W E). cbn [bind]. eexists; split; [reflexivity|].
        apply (arg_scan_worst vals []); [exact HN|exact HWo|intros w []].
    + rewrite (read_offsets buf a vals W E). cbn [bind]. eexists; split; [reflexivity|].
      apply (arg_scan_worst vals []); [exact HN|exact HWo|intros w []].
Qed.

Lemma row_scan_eq lv i bv bi :
  snd (fold_left (fun s x => if beats (snd x) (fst s) then (snd x, fst x) else s)
       (combine (seq i (length lv)) lv) (bv, bi)) = arg_scan beats lv i bv bi.
Proof.
  revert i bv bi; induction lv as [|v lv IH]; intros i bv bi; cbn [length seq combine fold_left arg_scan fst snd]; [reflexivity|].
  rewrite Nat.add_1_r. destruct (beats v bv); apply IH.
Qed.

(* position lists *)
Definition args_ok (L : list (list T)) (out : list nat) : Prop :=
  Forall2 (fun lv i => first_best beats lv i) L out.

Lemma args_ok_map L F : (forall lv, In lv L -> first_best beats lv (F lv)) -> args_ok L (map F L).
Proof.
  induction L as [|lv L IH]; intros H; constructor; [apply H; left; reflexivity|].
  apply IH; intros; apply H; right; assumption.
Qed.
End Arg.

(* ---------- contiguous lanes laid end to end ---------- *)
Lemma split_at {A} (l : list A) k x : nth_error l k = Some x -> l = firstn k l ++ x :: skipn (k + 1) l.
Proof.
  revert k; induction l as [|y l IH]; intros [|k] H; try discriminate; cbn [nth_error firstn skipn app Nat.add] in *.
  - injection H as ->. reflexivity.
  - f_equal. apply IH, H.
Qed.

Lemma rank_unit_axis sh axis n st item oi j : (0 < item)%Z -> length st = length sh ->
  nth_error sh axis = Some n -> nth_error st axis = Some item ->
  is_c_contiguous sh st item = true -> inb oi (remove_at axis sh) -> j < n ->
  rank sh (insert_at axis j oi) = rank (remove_at axis sh) oi * n + j.
Proof.
  intros HI HL Hn Hs HC Ho Hj.
  assert (HA : axis < length sh) by (apply nth_error_Some; congruence).
  assert (LO : length oi = length sh - 1) by (apply inb_length in Ho; rewrite remove_at_length in Ho by exact HA; lia).
  assert (D : forall k, k < n -> (dot oi (remove_at axis st) + Z.of_nat k * item)%Z =
                                 (item * Z.of_nat (rank sh (insert_at axis k oi)))%Z).
  { intros k Hk. rewrite <- (c_contig_dot sh st item) by (try assumption; apply (lane_inb sh axis oi k n); assumption).
    symmetry. apply (lane_dot (mkArr 0 sh st item true true) axis oi k item n); assumption. }
  assert (SP := split_at sh axis n Hn). set (pre := firstn axis sh) in *. set (post := skipn (axis + 1) sh) in *.
  assert (LP : length pre = axis) by (unfold pre; rewrite firstn_length; lia).
  assert (RS : remove_at axis sh = pre ++ post).
  { rewrite SP, <- LP. clear. induction pre as [|x pre IH]; cbn [length app remove_at]; [reflexivity|]. f_equal; exact IH. }
  assert (RK : forall k, rank sh (insert_at axis k oi) =
            rank pre (firstn axis oi) * (n * prod post) + (k * prod post + rank post (skipn axis oi))).
  { intros k. rewrite SP, insert_at_app by lia.
    rewrite rank_app by (rewrite firstn_length; lia). reflexivity. }
  assert (RO : rank (remove_at axis sh) oi = rank pre (firstn axis oi) * prod post + rank post (skipn axis oi)).
  { rewrite RS. rewrite <- (firstn_skipn axis oi) at 1. apply rank_app. rewrite firstn_length; lia. }
  rewrite RK, RO.
  assert (HP : rank post (skipn axis oi) < prod post).
  { apply rank_lt. rewrite RS in Ho. rewrite <- (firstn_skipn axis oi) in Ho.
    apply inb_app in Ho; [apply Ho|rewrite firstn_length; lia]. }
  destruct (Nat.eq_dec n 1) as [->|Hn1].
  - replace j with 0 by lia. lia.
  - assert (P1 : prod post = 1).
    { pose proof (D 0 ltac:(lia)) as D0. pose proof (D 1 ltac:(lia)) as D1. rewrite RK in D0, D1. nia. }
    rewrite P1 in *. replace (rank post (skipn axis oi)) with 0 by lia. lia.
Qed.

Lemma mapM_rows {V W} (buf : list V) a axis n L (F : list V -> W) : wf buf a -> a_c a = true ->
  nth_error (a_shape a) axis = Some n -> nth_error (a_strides a) axis = Some (a_item a) -> 0 < n ->
  map (lane buf a axis) (all_idx (remove_at axis (a_shape a))) = map (map Some) L ->
  mapM (fun row => bind (read_run buf a (Z.of_nat (row * n) * a_item a) (a_item a) n) (fun d => Ok (F d)))
       (seq 0 (prod (remove_at axis (a_shape a)))) = Ok (map F L).
Proof.
  intros WF Hc Hn Hs Hp EL. rewrite <- (mapM_lanes buf a axis n (a_item a) L F WF Hn Hs EL).
  pose proof WF as (HIt & _ & _ & HL & _ & HC & _).
  rewrite axis_offsets_spec by exact HL. rewrite mapM_map. apply mapM_seq_all.
  intros k Hk. set (oi := unrank (remove_at axis (a_shape a)) k).
  assert (Ho : inb oi (remove_at axis (a_shape a))) by (apply unrank_inb; exact Hk).
  do 2 f_equal.
  assert (HR := rank_unit_axis (a_shape a) axis n (a_strides a) (a_item a) oi 0 ltac:(lia) HL Hn Hs (HC Hc) Ho Hp).
  unfold oi in HR at 2. rewrite rank_unrank in HR by exact Hk.
  assert (D := c_contig_dot (a_shape a) (a_strides a) (a_item a) (insert_at axis 0 oi) HL
                 (lane_inb _ _ _ _ _ Hn Ho Hp) (HC Hc)).
  rewrite (lane_dot a axis oi 0 (a_item a) n) in D by assumption. rewrite HR in D. lia.
Qed.

Lemma lane_elem {V} (buf : list V) a axis n L lv x : nth_error (a_shape a) axis = Some n ->
  map (lane buf a axis) (all_idx (remove_at axis (a_shape a))) = map (map Some) L ->
  In lv L -> In x lv -> exists idx, inb idx (a_shape a) /\ get buf a idx = Some x.
Proof.
  intros Hn EL HI Hx. apply (in_map (map Some)) in HI. rewrite <- EL in HI.
  apply in_map_iff in HI as (oi & E & Ho). apply in_all_idx in Ho.
  apply (in_map Some) in Hx. rewrite <- E in Hx. unfold lane in Hx. apply in_map_iff in Hx as (j & Ej & Hj).
  apply in_seq in Hj. rewrite (nth_error_nth _ _ 0 Hn) in Hj.
  exists (insert_at axis j oi). split; [apply (lane_inb _ _ _ _ n); try assumption; lia|exact Ej].
Qed.

Lemma arg_axis_spec {T} (beats : T -> T -> bool) worst (buf : list T) a axis n L :
  (forall x, beats x x = false) ->
  (forall x y z, beats x y = true -> beats y z = true -> beats x z = true) ->
  (forall x y z, beats x y = false -> beats y z = false -> beats x z = false) ->
  wf buf a -> nth_error (a_shape a) axis = Some n -> 0 < n ->
  (forall idx v, inb idx (a_shape a) -> get buf a idx = Some v -> beats worst v = false) ->
  (a_c a = true \/ nth_error (a_strides a) axis = Some (a_item a) \/ n = 1) ->
  map (lane buf a axis) (all_idx (remove_at axis (a_shape a))) = map (map Some) L ->
  exists F, (forall lv, In lv L -> first_best beats lv (F lv)) /\
  arg_axis beats worst buf a axis = Ok (reduced_shape axis (a_shape a), map F L).
Proof.
  intros B1 B2 B3 W Hn Hp B4 HP EL. destruct (strides_at buf a axis n W Hn) as [st Hs].
  unfold arg_axis. rewrite (at_ok _ _ _ Hn). cbn [bind]. rewrite (at_ok _ _ _ Hs). cbn [bind].
  fold (reduced_shape axis (a_shape a)). rewrite prod_reduced. pose proof (lanes_length buf a axis L EL) as LL.
  assert (HLen : forall lv, In lv L -> length lv = n) by (intros; eapply lanes_len; eassumption).
  assert (HNE : forall lv, In lv L -> lv <> []) by (intros lv H; apply HLen in H; destruct lv; [simpl in H; lia|discriminate]).
  assert (HF : forall lv, In lv L -> first_best beats lv (arg_from_first beats lv))
    by (intros lv H; apply arg_from_first_spec; auto).
  destruct (Nat.eqb_spec (prod (remove_at axis (a_shape a))) 0) as [H0|H0].
  { cbn [orb bind]. rewrite H0 in *. destruct L; [|discriminate].
    exists (arg_from_first beats). split; [exact HF|reflexivity]. }
  destruct (Nat.eqb_spec n 0) as [Hn0|Hn0]; [lia|]. cbn [orb].
  destruct (Z.eqb_spec st (a_item a)) as [Est|Est].
  { exists (arg_from_first beats). split; [exact HF|].
    destruct (a_c a && (ndim a =? 2) && (axis =? 1)) eqn:E2.
    - apply andb_prop in E2 as [E2 E3]. apply andb_prop in E2 as [Hc E2].
      apply Nat.eqb_eq in E2, E3. subst axis.
      replace (nth 0 (a_shape a) 0) with (prod (remove_at 1 (a_shape a))).
      + rewrite (mapM_rows buf a 1 n L) by (try assumption; congruence). reflexivity.
      + unfold ndim in E2. destruct (a_shape a) as [|x [|y [|]]]; try discriminate. cbn. lia.
    - rewrite <- Est, (mapM_lanes buf a axis n st L) by assumption. reflexivity. }
  destruct (a_c a) eqn:Hc.
  { rewrite (row_major_spec (fun (s : T * nat) j v => if beats v (fst s) then (v, j) else s) buf a axis n L (worst, 0))
      by (try assumption; lia).
    cbn [bind]. rewrite map_map.
    eexists (fun lv => snd (fold_left _ (combine (seq 0 n) lv) (worst, 0))). split; [|reflexivity].
    intros lv H. cbv beta. rewrite <- (HLen lv H), row_scan_eq.
    apply (arg_scan_worst beats B1 B2 B3 worst lv []); [apply HNE, H| |intros w []].
    intros x Hx. destruct (lane_elem buf a axis n L lv x Hn EL H Hx) as (idx & Hi & Hv). exact (B4 idx x Hi Hv). }
  destruct HP as [HP|[HP|HP]]; [congruence|congruence|]. subst n.
  exists (fun _ => 0). split.
  - intros lv H. pose proof (HLen lv H) as H1. destruct lv as [|v [|]]; try discriminate.
    exists v. split; [reflexivity|split].
    + intros [|j] w Hw; [injection Hw as <-; apply B1|destruct j; discriminate].
    + intros j w Hj; lia.
  - cbn [Nat.ltb Nat.leb].
    rewrite (mapM_ext _ (fun base => bind (read_run buf a base st 1) (fun d => Ok ((fun _ : list T => 0) d)))).
    + rewrite (mapM_lanes buf a axis 1 st L) by assumption. reflexivity.
    + intros base _. unfold read_run. cbn [seq mapM bind Z.of_nat Z.mul]. rewrite Z.add_0_r.
      destruct (read buf a base); reflexivity.
Qed.

Lemma arg_axis_slow_spec {T} (beats : T -> T -> bool) (buf : list T) a axis n L :
  (forall x, beats x x = false) ->
  (forall x y z, beats x y = true -> beats y z = true -> beats x z = true) ->
  (forall x y z, beats x y = false -> beats y z = false -> beats x z = false) ->
  wf buf a -> nth_error (a_shape a) axis = Some n -> 0 < n ->
  map (lane buf a axis) (all_idx (remove_at axis (a_shape a))) = map (map Some) L ->
  exists F, (forall lv, In lv L -> first_best beats lv (F lv)) /\
  arg_axis_slow beats buf a axis = Ok (reduced_shape axis (a_shape a), map F L).
Proof.
  intros B1 B2 B3 W Hn Hp EL. unfold arg_axis_slow. rewrite (at_ok _ _ _ Hn). cbn [bind].
  fold (reduced_shape axis (a_shape a)). pose proof (lanes_length buf a axis L EL) as LL.
  rewrite <- prod_reduced in LL.
  exists (arg_from_first beats). split.
  { intros lv H. apply (lanes_len buf a axis L lv n Hn EL) in H. apply arg_from_first_spec; try assumption.
    destruct lv; [simpl in H; lia|discriminate]. }
  destruct (Nat.eqb_spec (prod (reduced_shape axis (a_shape a))) 0) as [H0|H0].
  { rewrite H0 in *. destruct L; [reflexivity|discriminate]. }
  destruct (Nat.eqb_spec n 0) as [Hn0|Hn0]; [lia|]. cbn [orb].
  pose proof (slow_lanes buf a axis n L (arg_from_first beats)
    (fun oi => firstn (Nat.min axis (length oi)) oi ++ [0] ++
       (if (axis <? ndim a - 1) && (axis <? length oi) then skipn axis oi else [])) W Hn) as G.
  cbv zeta beta in G. cbv zeta. rewrite G; [reflexivity| |exact EL].
  intros oi j Ho Hj. rewrite <- (slow_idx a axis n j oi Hn Ho). do 4 f_equal.
  destruct (Nat.ltb_spec axis (ndim a - 1)) as [H1|H1]; [|reflexivity]. cbn [andb].
  apply inb_length in Ho. unfold reduced_shape in Ho.
  assert (HA : axis < length (a_shape a)) by (apply nth_error_Some; congruence).
  pose proof (remove_at_length axis (a_shape a) HA) as HR. unfold ndim in H1.
  destruct (remove_at axis (a_shape a)); [simpl in HR; lia|].
  destruct (Nat.ltb_spec axis (length oi)); [reflexivity|lia].
Qed.

(* the remaining traversal of arg_axis reads outside the buffer *)
Lemma arg_axis_fault {T} (beats : T -> T -> bool) worst (buf : list T) a axis n : wf buf a ->
  nth_error (a_shape a) axis = Some n -> 1 < n -> prod (a_shape a) <> 0 ->
  a_c a = false -> nth_error (a_strides a) axis <> Some (a_item a) ->
  arg_axis beats worst buf a axis = Fault.
Proof.
  intros W Hn Hp HS Hc Hst. destruct (strides_at buf a axis n W Hn) as [st Hs].
  unfold arg_axis. rewrite (at_ok _ _ _ Hn). cbn [bind]. rewrite (at_ok _ _ _ Hs). cbn [bind].
  fold (reduced_shape axis (a_shape a)). rewrite prod_reduced.
  rewrite (prod_remove_at axis (a_shape a) n) in HS by exact Hn.
  destruct (Nat.eqb_spec (prod (remove_at axis (a_shape a))) 0) as [H0|H0]; [lia|].
  destruct (Nat.eqb_spec n 0); [lia|]. cbn [orb].
  destruct (Z.eqb_spec st (a_item a)) as [Est|Est]; [congruence|]. rewrite Hc.
  destruct (Nat.ltb_spec 1 n) as [_|]; [|lia].
  destruct (lanes_exist buf a axis n W Hn) as [L EL].
  pose proof (mapM_lanes buf a axis n st L (fun _ => tt) W Hn Hs EL) as G.
  pose proof W as (_ & _ & _ & HL & _). rewrite axis_offsets_spec in * by exact HL.
  destruct (all_idx (remove_at axis (a_shape a))) as [|oi l] eqn:EA.
  { apply (f_equal (@length _)) in EA. rewrite all_idx_length in EA. simpl in EA. lia. }
  cbn [map mapM] in *. unfold read_run in G. destruct n as [|n]; [lia|]. cbn [seq mapM] in G.
  cbn [Z.of_nat Z.mul] in G. rewrite Z.add_0_r in G.
  destruct (read buf a (dot oi (remove_at axis (a_strides a)))) eqn:ER; cbn [bind] in *; [reflexivity|discriminate..].
Qed.

(* ---------- cumulative ---------- *)
Section Cumul.
Context {T : Type}.
Variables (init : T) (comb : T -> T -> T).

Lemma cumulative_from_length acc l : length (cumulative_from comb acc l) = length l.
Proof. revert acc; induction l as [|v l IH]; intros acc; simpl; [reflexivity|]. rewrite IH; reflexivity. Qed.

Lemma cumulative_from_nth l acc k : k < length l ->
  nth_error (cumulative_from comb acc l) k = Some (fold_left comb (firstn (S k) l) acc).
Proof.
  revert acc k; induction l as [|v l IH]; intros acc k H; simpl in H; [lia|].
  destruct k as [|k]; [reflexivity|]. cbn [cumulative_from nth_error]. rewrite IH by lia. reflexivity.
Qed.

Lemma cumulative_nth l k : k < length l ->
  nth_error (cumulative init comb l) k = Some (fold_left comb (firstn (S k) l) init).
Proof. apply cumulative_from_nth. Qed.

Lemma cumulative_flat_spec (buf : list T) a vals : wf buf a -> elems buf a = map Some vals ->
  cumulative_flat init comb buf a = Ok ([length vals], cumulative init comb vals).
Proof.
  intros W E. unfold cumulative_flat.
  assert (LV : length vals = size a).
  { apply (f_equal (@length _)) in E. unfold elems in E. rewrite !map_length, all_idx_length in E. unfold size; lia. }
  destruct (Nat.eqb_spec (size a) 0) as [H0|H0].
  - rewrite (elems_nil buf a vals E H0). reflexivity.
  - rewrite LV. destruct (a_c a) eqn:Hc.
    + rewrite (read_contig buf a vals W Hc E). reflexivity.
    + rewrite (read_offsets buf a vals W E). reflexivity.
Qed.
End Cumul.

Lemma flat_idx_rev_spec li ls acc st : length li = length ls ->
  flat_idx_rev li ls acc st = acc + st * rank (rev ls) (rev li).
Proof.
  revert ls acc st; induction li as [|i li IH]; intros [|s ls] acc st H; try discriminate; cbn [flat_idx_rev].
  - cbn [rev rank]. lia.
  - rewrite IH by (simpl in H; lia). cbn [rev]. rewrite rank_app_single by (rewrite !rev_length; simpl in H; lia). lia.
Qed.
Lemma flat_idx_spec idx sh : length idx = length sh -> flat_idx idx sh = rank sh idx.
Proof.
  intros H. unfold flat_idx. rewrite flat_idx_rev_spec by (rewrite !rev_length; exact H).
  rewrite !rev_involutive. lia.
Qed.

Lemma write_all_spec {A} (l : list (nat * A)) : forall out,
  (forall p v, In (p, v) l -> p < length out) ->
  exists out', write_all l out = Ok out' /\ length out' = length out /\
    forall p, ((forall v, ~ In (p, v) l) -> nth_error out' p = nth_error out p) /\
      (forall v, In (p, v) l -> (forall v', In (p, v') l -> v' = v) -> nth_error out' p = Some v).
Proof.
  induction l as [|[q w] l IH]; intros out HB; cbn [write_all].
  - exists out. split; [reflexivity|]. split; [reflexivity|]. intros p. split; [reflexivity|intros v []].
  - assert (Hq : q < length out) by (apply (HB q w); left; reflexivity).
    destruct (Nat.ltb_spec q (length out)); [|lia].
    destruct (IH (upd out q w)) as (out' & E & HLen & HN).
    { intros p v H'. rewrite upd_length. apply (HB p v). right; exact H'. }
    rewrite upd_length in HLen. exists out'. split; [exact E|]. split; [exact HLen|]. intros p.
    destruct (HN p) as [N1 N2]. split.
    + intros H'. rewrite N1 by (intros v Hv; apply (H' v); right; exact Hv).
      apply nth_error_upd_neq. intros ->. apply (H' w). left; reflexivity.
    + intros v Hv HU. assert (D : (exists v', In (p, v') l) \/ forall v', ~ In (p, v') l).
      { clear - l. induction l as [|[q w] l IH]; [right; intros v []|].
        destruct (Nat.eq_dec q p) as [->|Hqp]; [left; exists w; left; reflexivity|].
        destruct IH as [[v' H]|H]; [left; exists v'; right; exact H|right; intros v' [E|H']; [congruence|exact (H v' H')]]. }
      destruct D as [[v' Hv']|D].
      * assert (v' = v) as -> by (apply HU; right; exact Hv').
        apply N2; [exact Hv'|]. intros v'' H''. apply HU; right; exact H''.
      * rewrite N1 by exact D. destruct Hv as [E'|Hv]; [|destruct (D v Hv)]. injection E' as -> ->.
        apply nth_error_upd_eq. exact Hq.
Qed.

(* the value that ends up at each index of a cumulative result *)
Lemma nth_error_concat {A} (n : nat) (L : list (list A)) q r : (forall l, In l L -> length l = n) -> r < n ->
  nth_error (concat L) (q * n + r) = match nth_error L q with Some l => nth_error l r | None => None end.
Proof.
  revert q; induction L as [|l L IH]; intros q HL Hr.
  - cbn [concat]. destruct q; cbn [nth_error]; apply nth_error_None; simpl; lia.
  - assert (Hl : length l = n) by (apply HL; left; reflexivity). cbn [concat].
    destruct q as [|q]; cbn [nth_error].
    + rewrite nth_error_app1 by lia. f_equal; lia.
    + rewrite nth_error_app2 by lia. rewrite <- IH by (try assumption; intros; apply HL; right; assumption).
      f_equal. lia.
Qed.

Lemma inb_split axis sh n idx : nth_error sh axis = Some n -> inb idx sh ->
  exists j oi, idx = insert_at axis j oi /\ j < n /\ inb oi (remove_at axis sh) /\
    nth axis idx 0 = j /\ remove_at axis idx = oi.
Proof.
  intros Hn Hi. pose proof (inb_length _ _ Hi) as HL.
  assert (HA : axis < length sh) by (apply nth_error_Some; congruence).
  destruct (nth_error idx axis) as [j|] eqn:Ej; [|apply nth_error_None in Ej; lia].
  exists j, (remove_at axis idx). split; [symmetry; apply insert_remove_at; exact Ej|].
  split.
  - apply (inb_nth idx sh axis) with (2 := Ej) (3 := Hn); exact Hi.
  - split; [apply inb_remove_at; exact Hi|]. split; [apply nth_error_nth; exact Ej|reflexivity].
Qed.

Lemma insert_at_parts axis (j : nat) oi : axis <= length oi ->
  nth axis (insert_at axis j oi) 0 = j /\ remove_at axis (insert_at axis j oi) = oi.
Proof.
  intros H. split; [|apply remove_insert_at; exact H].
  revert axis H; induction oi as [|x oi IH]; intros [|axis] H; simpl in *; try reflexivity; try lia. apply IH; lia.
Qed.

Lemma combine_cumul {T} init comb (lv : list T) (f : nat -> nat) k :
  nth_error (combine (map f (seq 0 (length lv))) (cumulative_from comb init lv)) k =
  nth_error (map (fun j => (f j, fold_left comb (firstn (S j) lv) init)) (seq 0 (length lv))) k.
Proof.
  assert (NC : forall A B (l : list A) (m : list B) k, nth_error (combine l m) k =
    match nth_error l k, nth_error m k with Some x, Some y => Some (x, y) | _, _ => None end).
  { clear. induction l as [|x0 l IH]; intros [|y0 m] [|k]; cbn [nth_error combine]; try reflexivity; try apply IH.
    destruct (nth_error l k); reflexivity. }
  rewrite NC, !nth_error_map'. destruct (Nat.lt_ge_cases k (length lv)) as [H|H].
  - rewrite nth_error_seq. destruct (Nat.ltb_spec k (length lv)); [|lia]. cbn [option_map].
    rewrite cumulative_from_nth by exact H. reflexivity.
  - assert (E : nth_error (seq 0 (length lv)) k = None) by (apply nth_error_None; rewrite seq_length; exact H).
    rewrite E. reflexivity.
Qed.

Theorem cumulative_axis_spec {T} init comb zero (buf : list T) a axis n : wf buf a ->
  nth_error (a_shape a) axis = Some n ->
  exists out, cumulative_axis init comb buf zero a axis = Ok (a_shape a, out) /\
    length out = size a /\
    forall idx lv, inb idx (a_shape a) -> lane buf a axis (remove_at axis idx) = map Some lv ->
      get out (fresh (a_shape a) (a_item a)) idx =
        Some (fold_left comb (firstn (S (nth axis idx 0)) lv) init).
Proof.
  intros W Hn. destruct (strides_at buf a axis n W Hn) as [st Hs].
  pose proof W as (HIt & _ & _ & HL & HG & HC & _).
  unfold cumulative_axis. destruct (Nat.eqb_spec (size a) 0) as [H0|H0].
  { exists []. split; [reflexivity|]. split; [rewrite H0; reflexivity|].
    intros idx lv Hi _. apply inb_prod_pos in Hi. unfold size in H0. lia. }
  rewrite (at_ok _ _ _ Hn). cbn [bind]. rewrite (at_ok _ _ _ Hs). cbn [bind].
  assert (HPR : size a = n * prod (remove_at axis (a_shape a))) by (apply prod_remove_at; exact Hn).
  assert (Hp : 0 < n) by (destruct n; simpl in HPR; lia).
  destruct (lanes_exist buf a axis n W Hn) as [L EL]. pose proof (lanes_length buf a axis L EL) as LL.
  assert (HLen : forall lv, In lv L -> length lv = n) by (intros; eapply lanes_len; eassumption).
  assert (HLn : forall oi lv, inb oi (remove_at axis (a_shape a)) -> lane buf a axis oi = map Some lv ->
                nth_error L (rank (remove_at axis (a_shape a)) oi) = Some lv).
  { intros oi lv Ho Hlv. pose proof EL as E.
    apply (f_equal (fun l => nth_error l (rank (remove_at axis (a_shape a)) oi))) in E.
    rewrite !nth_error_map', nth_error_all_idx_rank in E by exact Ho. cbn [option_map] in E. rewrite Hlv in E.
    destruct (nth_error L (rank (remove_at axis (a_shape a)) oi)) as [lv'|]; [|discriminate].
    cbn [option_map] in E. injection E as E. apply map_Some_inj in E. subst; reflexivity. }
  destruct ((st =? a_item a)%Z && a_c a) eqn:EC.
  - apply andb_prop in EC as [Est Hc]. apply Z.eqb_eq in Est. subst st.
    replace (size a / n) with (prod (remove_at axis (a_shape a)))
      by (rewrite HPR, Nat.mul_comm; symmetry; apply Nat.div_mul; lia).
    rewrite (mapM_rows buf a axis n L (cumulative init comb)) by assumption. cbn [bind].
    eexists; split; [reflexivity|].
    assert (HLB : forall l, In l (map (cumulative init comb) L) -> length l = n).
    { intros l H. apply in_map_iff in H as (lv & <- & H). unfold cumulative. rewrite cumulative_from_length. auto. }
    split.
    + rewrite HPR, <- LL. clear - HLB.
      induction L as [|lv L IH]; cbn [map concat length]; [lia|]. rewrite app_length, IH by (intros; apply HLB; right; assumption).
      rewrite (HLB (cumulative init comb lv)) by (left; reflexivity). lia.
    + intros idx lv Hi Hlv. rewrite fresh_get by exact HIt.
      destruct (inb_split axis (a_shape a) n idx Hn Hi) as (j & oi & -> & Hj & Ho & -> & Eo). rewrite Eo in Hlv.
      rewrite (rank_unit_axis (a_shape a) axis n (a_strides a) (a_item a)) by auto.
      rewrite (nth_error_concat n) by assumption. rewrite nth_error_map', (HLn oi lv Ho Hlv). cbn [option_map].
      apply cumulative_nth. rewrite (HLen lv); [exact Hj|]. eapply nth_error_In, HLn; eassumption.
  - cbv zeta. fold (reduced_shape axis (a_shape a)). rewrite odometer_all.
    set (osh := reduced_shape axis (a_shape a)).
    set (lvf := fun oi => flat_map (fun o => match o with Some v => [v] | None => [] end) (lane buf a axis oi)).
    assert (HF : forall oi lv, lane buf a axis oi = map Some lv -> lvf oi = lv).
    { intros oi lv E. unfold lvf. rewrite E. clear. induction lv as [|v lv IH]; simpl; [reflexivity|]. f_equal; exact IH. }
    set (wr := fun oi => map (fun j => (rank (a_shape a) (insert_at axis j (outer_of (a_shape a) oi)),
                                        fold_left comb (firstn (S j) (lvf (outer_of (a_shape a) oi))) init)) (seq 0 n)).
    rewrite (mapM_ok _ wr).
    2:{ intros oi Hoi. apply in_all_idx in Hoi. fold osh in Hoi.
        destruct (outer_of_inb axis (a_shape a) n oi Hn Hoi) as [Ho _].
        destruct (lane_vals buf a axis _ n W Hn Ho) as (lv & Elv & Llv).
        assert (DD : dot oi (remove_at axis (a_strides a)) = dot (outer_of (a_shape a) oi) (remove_at axis (a_strides a))).
        { unfold outer_of. destruct (a_shape a) as [|x [|y sh]]; try reflexivity.
          assert (axis = 0) as -> by (destruct axis as [|[|?]]; [reflexivity|discriminate..]).
          destruct (a_strides a) as [|? [|]]; try discriminate HL. cbn [remove_at]. destruct oi; reflexivity. }
        rewrite DD, (read_lane buf a axis _ n st lv) by assumption. cbn [bind]. apply (f_equal Ok).
        unfold wr. rewrite (HF _ lv Elv). rewrite <- Llv. unfold cumulative.
        replace (map (fun j => flat_idx (firstn (length (a_shape a)) (insert_at axis j oi)) (a_shape a)) (seq 0 (length lv)))
          with (map (fun j => rank (a_shape a) (insert_at axis j (outer_of (a_shape a) oi))) (seq 0 (length lv))).
        - apply nth_error_ext. intros k. apply combine_cumul.
        - apply map_ext_in. intros j Hj. apply in_seq in Hj. symmetry.
          destruct (a_shape a) as [|x [|y sh]] eqn:ES.
          + destruct axis; discriminate.
          + assert (axis = 0) as -> by (destruct axis as [|[|?]]; [reflexivity|discriminate..]).
            unfold osh, reduced_shape in Hoi. cbn [remove_at] in Hoi.
            inversion Hoi as [|i0 ? r ? Hi0 Hr]; subst. inversion Hr; subst.
            cbn [outer_of insert_at rank prod]. unfold flat_idx. cbn [length firstn rev app flat_idx_rev]. lia.
          + cbn [outer_of] in *.
            assert (HLI : length (insert_at axis j oi) = length (x :: y :: sh))
              by (apply inb_length, (lane_inb _ _ _ _ n); [exact Hn|exact Ho|lia]).
            rewrite firstn_all2 by lia. apply flat_idx_spec, HLI. }
    cbn [bind]. rewrite <- flat_map_concat_map.
    assert (HW : forall p v, In (p, v) (flat_map wr (all_idx osh)) <-> exists oi j,
               inb oi (remove_at axis (a_shape a)) /\ j < n /\
               p = rank (a_shape a) (insert_at axis j oi) /\ v = fold_left comb (firstn (S j) (lvf oi)) init).
    { intros p v. rewrite in_flat_map. split.
      - intros (oi & Hoi & H). apply in_all_idx in Hoi. unfold wr in H. apply in_map_iff in H as (j & E & Hj).
        injection E as <- <-. apply in_seq in Hj.
        exists (outer_of (a_shape a) oi), j. split; [apply (outer_of_inb axis _ n); assumption|]. split; [lia|split; reflexivity].
      - intros (oi & j & Ho & Hj & -> & ->).
        assert (exists o, inb o osh /\ outer_of (a_shape a) o = oi) as (o & Ho' & <-).
        { unfold osh, reduced_shape, outer_of. destruct (a_shape a) as [|x [|y sh]] eqn:ES.
          - destruct axis; discriminate.
          - assert (axis = 0) as -> by (destruct axis as [|[|?]]; [reflexivity|discriminate..]).
            cbn [remove_at] in *. inversion Ho; subst. exists [0]. split; [|reflexivity].
            apply Forall2_cons; [lia|constructor].
          - exists oi. split; [|reflexivity]. destruct (remove_at axis (x :: y :: sh)) eqn:E; [|exact Ho].
            apply (f_equal (@length _)) in E. rewrite remove_at_length in E by (apply nth_error_Some; congruence). simpl in E; lia. }
        exists o. split; [apply in_all_idx; exact Ho'|]. unfold wr. apply in_map_iff. exists j. split; [reflexivity|].
        apply in_seq. lia. }
    destruct (write_all_spec (flat_map wr (all_idx osh)) (repeat zero (size a))) as (out & EOut & HLO & HNO).
    { intros p v H. apply HW in H as (oi & j & Ho & Hj & -> & _). rewrite repeat_length.
      apply rank_lt, (lane_inb _ _ _ _ n); assumption. }
    exists out. rewrite EOut. cbn [bind]. split; [reflexivity|]. split; [rewrite HLO; apply repeat_length|].
    intros idx lv Hi Hlv. rewrite fresh_get by exact HIt.
    destruct (inb_split axis (a_shape a) n idx Hn Hi) as (j & oi & EI & Hj & Ho & Ej & Eo). rewrite Ej. rewrite Eo in Hlv.
    rewrite <- (HF oi lv Hlv).
    apply HNO; [apply HW; exists oi, j; rewrite EI; auto|].
    intros v' H'. apply HW in H' as (oi' & j' & Ho' & Hj' & ER & ->).
    assert (EI' : idx = insert_at axis j' oi').
    { rewrite <- (unrank_rank (a_shape a) idx), ER by exact Hi.
      apply unrank_rank, (lane_inb _ _ _ _ n); assumption. }
    destruct (insert_at_parts axis j' oi') as [P1 P2].
    { apply inb_length in Ho'. rewrite remove_at_length in Ho' by (apply nth_error_Some; congruence).
      assert (axis < length (a_shape a)) by (apply nth_error_Some; congruence). lia. }
    rewrite <- EI' in P1, P2. rewrite Ej in P1. rewrite Eo in P2. subst; reflexivity.
Qed.

(* ---------- diff ---------- *)
Lemma diff_list_length {A} (sub : A -> A -> A) l : length (diff_list sub l) = length l - 1.
Proof.
  induction l as [|x l IH]; [reflexivity|]. destruct l as [|y l]; [reflexivity|].
  cbn [diff_list length] in *. rewrite IH. lia.
Qed.
Lemma diff_list_nth {A} (sub : A -> A -> A) l k x y :
  nth_error l k = Some x -> nth_error l (S k) = Some y -> nth_error (diff_list sub l) k = Some (sub y x).
Proof.
  revert k; induction l as [|a l IH]; intros k Hx Hy; [destruct k; discriminate|].
  destruct l as [|b l]; [destruct k as [|k]; [discriminate|destruct k; discriminate]|].
  destruct k as [|k]; cbn [diff_list nth_error] in *; [congruence|].
  apply IH; assumption.
Qed.

Lemma diff_cumulative t acc x l : (0 < bits t)%Z -> Forall (representable t) l ->
  diff_list (fun y x => wrap t (y - x)) (cumulative_from (int_red_comb t RSum) acc (x :: l)) = l.
Proof.
  intros HT HF. revert acc x; induction HF as [|y l Hy HF IH]; intros acc x; [reflexivity|].
  cbn [cumulative_from]. set (a1 := int_red_comb t RSum acc x). cbn [diff_list]. f_equal.
  - cbn [int_red_comb]. rewrite wrap_sub_l by exact HT. replace (a1 + y - a1)%Z with y by lia. apply wrap_id; assumption.
  - specialize (IH a1 y). cbn [cumulative_from] in IH. exact IH.
Qed.

Lemma sub_f64_exact t x y : (Z.abs x <= 2 ^ 52)%Z -> (Z.abs y <= 2 ^ 52)%Z -> representable t (y - x) ->
  sub_f64 t y x = (y - x)%Z.
Proof.
  intros Hx Hy HR. unfold sub_f64. rewrite (f64_of_int_small x), (f64_of_int_small y) by lia.
  rewrite f64_of_int_small by lia. apply sat_id; exact HR.
Qed.

Theorem int_diff_spec t kernel (buf : list Z) a axis n : wf buf a ->
  nth_error (a_shape a) axis = Some n ->
  exists out D, int_diff t kernel buf a axis = Ok (upd (a_shape a) axis (n - 1), out) /\
    length out = prod (upd (a_shape a) axis (n - 1)) /\
    (D = sub_f64 t \/ kernel = true /\ D = fun y x => wrap t (y - x)) /\
    (ndim a = 1 -> a_c a = true -> kernel = true -> D = fun y x => wrap t (y - x)) /\
    forall idx j x y, inb idx (upd (a_shape a) axis (n - 1)) -> nth_error idx axis = Some j ->
      get buf a idx = Some x -> get buf a (upd idx axis (j + 1)) = Some y ->
      get out (fresh (upd (a_shape a) axis (n - 1)) (a_item a)) idx = Some (D y x).
Proof.
  intros W Hn. destruct (strides_at buf a axis n W Hn) as [st Hs].
  pose proof W as (HIt & _ & _ & HL & HG & _).
  assert (HA : axis < length (a_shape a)) by (apply nth_error_Some; congruence).
  assert (HD : let D := if kernel then (fun y x => wrap t (y - x)%Z) else sub_f64 t in
     (D = sub_f64 t \/ kernel = true /\ D = fun y x => wrap t (y - x)) /\
     (ndim a = 1 -> a_c a = true -> kernel = true -> D = fun y x => wrap t (y - x))).
  { destruct kernel; cbv zeta; split; auto. intros; discriminate. }
  assert (HE : prod (upd (a_shape a) axis (n - 1)) = 0 ->
     exists out D, Ok (upd (a_shape a) axis (n - 1), []) = Ok (upd (a_shape a) axis (n - 1), out) /\
    length out = prod (upd (a_shape a) axis (n - 1)) /\
    (D = sub_f64 t \/ kernel = true /\ D = fun y x => wrap t (y - x)) /\
    (ndim a = 1 -> a_c a = true -> kernel = true -> D = fun y x => wrap t (y - x)) /\
    forall idx j x y, inb idx (upd (a_shape a) axis (n - 1)) -> nth_error idx axis = Some j ->
      get buf a idx = Some x -> get buf a (upd idx axis (j + 1)) = Some y ->
      get out (fresh (upd (a_shape a) axis (n - 1)) (a_item a)) idx = Some (D y x)).
  { intros H0. eexists [], _. split; [reflexivity|]. split; [rewrite H0; reflexivity|]. destruct HD as [D1 D2].
    split; [exact D1|]. split; [exact D2|]. intros idx j x y Hi. apply inb_prod_pos in Hi. lia. }
  unfold int_diff. rewrite (at_ok _ _ _ Hn). cbn [bind].
  destruct (Nat.leb_spec n 1) as [H1|H1].
  { replace (n - 1) with 0 in * by lia. apply HE. apply prod_zero_iff.
    apply (nth_error_In _ axis). apply nth_error_upd_eq; exact HA. }
  cbv zeta. set (sh' := upd (a_shape a) axis (n - 1)) in *.
  destruct (Nat.eqb_spec (prod sh') 0) as [H0|H0]; [apply HE; exact H0|].
  destruct ((ndim a =? 1) && a_c a) eqn:E1.
  - apply andb_prop in E1 as [E1 Hc]. apply Nat.eqb_eq in E1. unfold ndim in E1.
    destruct (wf_elems buf a W) as (vals & EV & _).
    assert (ES : a_shape a = [n]).
    { destruct (a_shape a) as [|s [|]]; try discriminate. destruct axis; [|simpl in HA; lia]. cbn [nth_error] in Hn. congruence. }
    assert (A0 : axis = 0) by (rewrite ES in HA; simpl in HA; lia). subst axis.
    assert (SZ : size a = n) by (unfold size; rewrite ES; cbn; lia).
    pose proof (read_contig buf a vals W Hc EV) as RC. rewrite SZ in RC. rewrite RC. cbn [bind].
    eexists _, _. split; [reflexivity|].
    assert (LV : length vals = n).
    { pose proof (f_equal (@length _) EV) as EL. unfold elems in EL. rewrite !map_length, all_idx_length in EL. unfold size in SZ; lia. }
    split; [rewrite diff_list_length, LV; unfold sh'; rewrite ES; cbn; lia|].
    destruct HD as [D1 D2]. split; [exact D1|]. split; [exact D2|].
    intros idx j x y Hi Hj Hx Hy. rewrite fresh_get by exact HIt.
    unfold sh' in *. rewrite ES in *. cbn [upd] in *.
    inversion Hi as [|i ? r ? Hi1 Hi2]; subst. inversion Hi2; subst. cbn [nth_error] in Hj. injection Hj as ->.
    cbn [upd] in Hy.
    assert (GV : forall k v, k < length vals -> get buf a [k] = Some v -> nth_error vals k = Some v).
    { intros k v Hk Hv. apply (f_equal (fun l => nth_error l k)) in EV. unfold elems in EV. rewrite ES in EV.
      rewrite !nth_error_map', nth_error_all_idx in EV by (cbn; lia).
      cbn [unrank prod option_map] in EV. rewrite Nat.div_1_r, Hv in EV.
      destruct (nth_error vals k); [|discriminate]. cbn in EV. congruence. }
    cbn [rank prod]. replace (j * 1 + 0) with j by lia.
    apply diff_list_nth; apply GV; try assumption; lia || (replace (S j) with (j + 1) by lia; assumption || lia).
  - rewrite (at_ok _ _ _ Hs). cbn [bind].
    replace (repeat 0 (ndim a)) with (repeat 0 (length sh')) by (unfold sh', ndim; rewrite upd_length; reflexivity).
    rewrite odometer_all.
    assert (HI : forall idx, inb idx sh' -> exists j, nth_error idx axis = Some j /\ j + 1 < n /\ inb idx (a_shape a) /\
                 inb (upd idx axis (j + 1)) (a_shape a)).
    { intros idx Hi. pose proof (inb_length _ _ Hi) as HLi. unfold sh' in HLi. rewrite upd_length in HLi.
      destruct (nth_error idx axis) as [j|] eqn:Ej; [|apply nth_error_None in Ej; lia].
      assert (Hj : j < n - 1) by (apply (inb_nth idx sh' axis); [exact Hi|exact Ej|unfold sh'; apply nth_error_upd_eq; exact HA]).
      assert (HI' : inb idx (a_shape a)).
      { apply inb_iff_nth. split; [exact HLi|]. intros k i s Hk1 Hk2. destruct (Nat.eq_dec k axis) as [->|Hk].
        - rewrite Ej in Hk1. rewrite Hn in Hk2. injection Hk1 as <-. injection Hk2 as <-. lia.
        - apply (inb_nth idx sh' k i s Hi Hk1). unfold sh'. rewrite nth_error_upd_neq by exact Hk. exact Hk2. }
      exists j. split; [reflexivity|]. split; [lia|]. split; [exact HI'|].
      apply inb_iff_nth. split; [rewrite upd_length; exact HLi|]. intros k i s Hk1 Hk2.
      destruct (Nat.eq_dec k axis) as [->|Hk].
      - rewrite nth_error_upd_eq in Hk1 by lia. rewrite Hn in Hk2. injection Hk1 as <-. injection Hk2 as <-. lia.
      - rewrite nth_error_upd_neq in Hk1 by exact Hk. exact (inb_nth idx (a_shape a) k i s HI' Hk1 Hk2). }
    assert (HO : forall idx j, inb idx sh' -> nth_error idx axis = Some j ->
                 (byte_offset_for a idx + st)%Z = byte_offset_for a (upd idx axis (j + 1))).
    { intros idx j Hi Hj. unfold byte_offset_for. rewrite (dot_upd_idx idx (a_strides a) axis j st (j + 1)) by assumption. lia. }
    set (G := fun idx => bind (read buf a (byte_offset_for a idx)) (fun v1 =>
                bind (read buf a (byte_offset_for a idx + st)%Z) (fun v2 => Ok (sub_f64 t v2 v1)))).
    assert (GOK : forall idx, inb idx sh' -> forall j x y, nth_error idx axis = Some j ->
              get buf a idx = Some x -> get buf a (upd idx axis (j + 1)) = Some y -> G idx = Ok (sub_f64 t y x)).
    { intros idx Hi j x y Hj Hx Hy. unfold G. rewrite (HO idx j Hi Hj). unfold read. unfold get in Hx, Hy.
      rewrite Hx, Hy. reflexivity. }
    destruct (mapM_all_ok G (all_idx sh')) as [out EO].
    { intros idx Hi. apply in_all_idx in Hi. destruct (HI idx Hi) as (j & Hj & _ & H2 & H3).
      destruct (HG idx H2) as [x Hx]. destruct (HG _ H3) as [y Hy]. exists (sub_f64 t y x). eapply GOK; eassumption. }
    rewrite EO. cbn [bind]. exists out, (sub_f64 t). split; [reflexivity|].
    split; [apply mapM_length in EO; rewrite all_idx_length in EO; exact EO|]. split; [left; reflexivity|].
    split.
    { intros A1 A2. rewrite A1, A2 in E1. discriminate. }
    intros idx j x y Hi Hj Hx Hy. destruct (mapM_all_idx_get G sh' out (a_item a) idx HIt EO Hi) as (w & Hw & EG).
    rewrite Hw. rewrite (GOK idx Hi j x y Hj Hx Hy) in EG. congruence.
Qed.
