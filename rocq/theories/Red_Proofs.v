(* Proofs about reductions. *)
From Verif Require Import Base Lists Arr_Spec Arr_Model Arr_Wf Arr_Proofs Copy_Model Copy_Proofs Idx_Proofs
  Elem_Model Elem_Proofs Red_Spec Int_Model F64_Model Red_Model.
Local Open Scope nat_scope.

(* ---------- the eight-lane fold ---------- *)
Section Monoid.
Context {T : Type}.
Variables (init : T) (comb : T -> T -> T) (P : T -> Prop).
Hypothesis P_init : P init.
Hypothesis P_comb : forall x y, P x -> P y -> P (comb x y).
Hypothesis comb_assoc : forall x y z, P x -> P y -> P z -> comb x (comb y z) = comb (comb x y) z.
Hypothesis comb_comm : forall x y, P x -> P y -> comb x y = comb y x.
Hypothesis comb_id : forall x, P x -> comb init x = x.

Definition msum (l : list T) : T := fold_right comb init l.

Lemma msum_P l : Forall P l -> P (msum l).
Proof. induction 1; simpl; auto. Qed.
Lemma msum_app l m : Forall P l -> Forall P m -> msum (l ++ m) = comb (msum l) (msum m).
Proof.
  intros HL HM. induction HL as [|x l Hx HL IH]; simpl.
  - symmetry; apply comb_id, msum_P; exact HM.
  - rewrite IH. apply comb_assoc; auto using msum_P.
Qed.
Lemma fold_left_msum l acc : P acc -> Forall P l -> fold_left comb l acc = comb acc (msum l).
Proof.
  intros HA HL. revert acc HA. induction HL as [|x l Hx HL IH]; intros acc HA; simpl.
  - rewrite comb_comm by assumption. symmetry; apply comb_id; exact HA.
  - rewrite IH by auto. symmetry. apply comb_assoc; auto using msum_P.
Qed.
Lemma fold_init_msum l : Forall P l -> fold_left comb l init = msum l.
Proof. intros H. rewrite fold_left_msum by assumption. apply comb_id, msum_P; exact H. Qed.

Lemma zip_with_P l m : Forall P l -> Forall P m -> Forall P (zip_with comb l m).
Proof. intros HL; revert m; induction HL; intros m HM; [constructor|]. destruct HM; simpl; constructor; auto. Qed.
Lemma zip_with_length {A B C} (f : A -> B -> C) l m : length (zip_with f l m) = Nat.min (length l) (length m).
Proof. revert m; induction l as [|x l IH]; intros [|y m]; simpl; auto. Qed.
Lemma msum_zip l m : Forall P l -> Forall P m -> length l = length m ->
  msum (zip_with comb l m) = comb (msum l) (msum m).
Proof.
  intros HL; revert m; induction HL as [|x l Hx HL IH]; intros [|y m] HM E; try discriminate; simpl.
  - symmetry; apply comb_id; exact P_init.
  - inversion HM as [|? ? Hy HM']; subst. rewrite IH by (simpl in E; auto).
    pose proof (msum_P l HL) as PL. pose proof (msum_P m HM') as PM.
    rewrite <- (comb_assoc x (msum l) (comb y (msum m))) by auto.
    rewrite (comb_assoc (msum l) y (msum m)) by auto. rewrite (comb_comm (msum l) y) by auto.
    rewrite <- (comb_assoc y (msum l) (msum m)) by auto. symmetry. apply comb_assoc; auto.
Qed.

Lemma Forall_firstn n l : Forall P l -> Forall P (firstn n l).
Proof. intros H; revert n; induction H; intros [|n]; simpl; auto. Qed.
Lemma Forall_skipn n l : Forall P l -> Forall P (skipn n l).
Proof. intros H; revert n; induction H; intros [|n]; simpl; auto. Qed.

Lemma tree8_msum r : Forall P r -> length r = 8 -> tree8 init comb r = msum r.
Proof.
  intros HF HL.
  destruct r as [|r0 [|r1 [|r2 [|r3 [|r4 [|r5 [|r6 [|r7 [|? ?]]]]]]]]]; try discriminate HL.
  repeat match goal with H : Forall P (_ :: _) |- _ => inversion H; clear H; subst end.
  cbn [tree8 msum fold_right].
  rewrite (comb_comm r7 init), comb_id by auto.
  rewrite <- !comb_assoc by auto 10. reflexivity.
Qed.

Lemma firstn_add {A} i k (l : list A) : firstn (i + k) l = firstn i l ++ firstn k (skipn i l).
Proof.
  revert l; induction i as [|i IH]; intros l; [reflexivity|]. destruct l as [|x l]; simpl.
  - rewrite firstn_nil; reflexivity.
  - f_equal; apply IH.
Qed.

Lemma lanes_loop_spec data : Forall P data -> forall fuel k m r,
  m <= fuel -> Forall P r -> length r = 8 -> msum r = msum (firstn (8 * k) data) ->
  8 * (k + m) <= length data ->
  exists r', lanes_loop comb fuel data (8 * k) (8 * (k + m)) r = (8 * (k + m), r') /\
    Forall P r' /\ length r' = 8 /\ msum r' = msum (firstn (8 * (k + m)) data).
Proof.
  intros HD. induction fuel as [|fuel IH]; intros k m r Hm HP HL HS HB.
  - replace (k + m) with k in * by lia. exists r. cbn [lanes_loop]. auto.
  - cbn [lanes_loop]. destruct (Nat.ltb_spec (8 * k) (8 * (k + m))) as [Hlt|Hge].
    + replace (8 * k + 8) with (8 * S k) by lia. replace (k + m) with (S k + (m - 1)) in * by lia.
      assert (PC : Forall P (firstn 8 (skipn (8 * k) data))) by (apply Forall_firstn, Forall_skipn; exact HD).
      assert (LC : length (firstn 8 (skipn (8 * k) data)) = 8).
      { rewrite firstn_length, skipn_length. lia. }
      apply IH; [lia|apply zip_with_P; assumption|rewrite zip_with_length, HL, LC; reflexivity| |exact HB].
      rewrite msum_zip by (try assumption; rewrite LC; exact HL). rewrite HS.
      replace (8 * S k) with (8 * k + 8) by lia. rewrite firstn_add, msum_app; auto using Forall_firstn.
    + replace (k + m) with k in * by lia. exists r. auto.
Qed.

Lemma msum_map_init l : Forall P l -> msum (map (comb init) l) = msum l.
Proof. induction 1 as [|x l Hx HL IH]; simpl; [reflexivity|]. rewrite IH, comb_id by exact Hx. reflexivity. Qed.

(* the lanes are invisible *)
Theorem reduce8_fold data : Forall P data -> reduce8 init comb data = fold_left comb data init.
Proof.
  intros HD. unfold reduce8. destruct (Nat.eqb_spec (length data) 0) as [H0|H0].
  { destruct data; [reflexivity|discriminate]. }
  destruct (Nat.ltb_spec (length data) 8) as [H8|H8]; [reflexivity|].
  set (n := length data) in *. set (q := n / 8).
  assert (HQ : n = 8 * q + n mod 8) by (apply Nat.div_mod; lia).
  assert (Q1 : 1 <= q) by (apply Nat.div_le_lower_bound; lia).
  assert (EN : n - n mod 8 = 8 * (1 + (q - 1))) by lia.
  assert (L1 : length (firstn 8 data) = 8) by (rewrite firstn_length; fold n; lia).
  destruct (lanes_loop_spec data HD n 1 (q - 1) (map (comb init) (firstn 8 data))) as (r' & E & PR & LR & SR).
  - lia.
  - apply Forall_map. apply Forall_firstn with (n := 8) in HD. eapply Forall_impl; [|exact HD]. auto.
  - rewrite map_length; exact L1.
  - apply msum_map_init, Forall_firstn; exact HD.
  - fold n; lia.
  - rewrite <- EN in *. change 8 with (8 * 1) at 1. rewrite E. cbv beta iota.
    rewrite tree8_msum by assumption. rewrite SR.
    rewrite fold_left_msum by (auto using Forall_skipn, msum_P, Forall_firstn).
    rewrite <- msum_app by auto using Forall_skipn, Forall_firstn.
    rewrite firstn_skipn. symmetry; apply fold_init_msum; exact HD.
Qed.

Lemma msum_perm l l' : Permutation.Permutation l l' -> Forall P l -> msum l = msum l'.
Proof.
  induction 1 as [|x l l' HP IH|x y l|l l' l'' H1 IH1 H2 IH2]; intros HF.
  - reflexivity.
  - inversion HF; subst; simpl. rewrite IH by assumption. reflexivity.
  - inversion HF as [|? ? Hy HF']; subst; inversion HF' as [|? ? Hx HF'']; subst. simpl.
    rewrite !comb_assoc by auto using msum_P. rewrite (comb_comm y x) by assumption. reflexivity.
  - rewrite IH1 by exact HF. apply IH2. eapply Permutation.Permutation_Forall; eassumption.
Qed.
End Monoid.

(* shorter than eight elements: no law needed *)
Lemma reduce8_short {T} (init : T) comb data : length data < 8 ->
  reduce8 init comb data = fold_left comb data init.
Proof.
  intros H. unfold reduce8. destruct (Nat.eqb_spec (length data) 0) as [H0|H0].
  - destruct data; [reflexivity|discriminate].
  - destruct (Nat.ltb_spec (length data) 8); [reflexivity|lia].
Qed.

(* ---------- reading whole arrays and lanes ---------- *)
Lemma elems_mapM {V} (buf : list V) a vals : elems buf a = map Some vals ->
  mapM (fun idx => of_load (get buf a idx)) (all_idx (a_shape a)) = Ok vals.
Proof. intros E. apply mapM_of_load. exact E. Qed.

Lemma read_contig {V} (buf : list V) a vals : wf buf a -> a_c a = true ->
  elems buf a = map Some vals -> read_run buf a 0 (a_item a) (size a) = Ok vals.
Proof.
  intros W Hc E. rewrite <- (elems_mapM buf a vals E). unfold read_run, size. apply mapM_seq_all.
  intros k Hk. rewrite Z.add_0_l, (contig_off buf a k W Hc Hk). reflexivity.
Qed.

Lemma read_at {V} (buf : list V) a vals k v : wf buf a -> a_c a = true ->
  elems buf a = map Some vals -> nth_error vals k = Some v ->
  read buf a (Z.of_nat k * a_item a) = Ok v.
Proof.
  intros W Hc E Hv.
  assert (HK : k < size a).
  { apply (f_equal (@length _)) in E. unfold elems in E. rewrite !map_length, all_idx_length in E.
    unfold size. rewrite E. apply nth_error_Some. congruence. }
  rewrite (contig_off buf a k W Hc HK).
  apply (f_equal (fun l => nth_error l k)) in E. unfold elems in E.
  rewrite !nth_error_map', nth_error_all_idx, Hv in E by exact HK. cbn [option_map] in E.
  injection E as E. unfold read. unfold get in E. rewrite E. reflexivity.
Qed.

Lemma read_1d {V} (buf : list V) a vals : wf buf a -> ndim a <= 1 ->
  elems buf a = map Some vals ->
  bind (if ndim a =? 0 then Ok 0%Z else at_ (a_strides a) 0)
       (fun stride => read_run buf a 0 stride (size a)) = Ok vals.
Proof.
  intros W H1 E. rewrite <- (elems_mapM buf a vals E). pose proof W as (_ & _ & _ & HL & _).
  unfold ndim in *. unfold read_run, size.
  destruct (a_shape a) as [|n [|? ?]] eqn:ES; [| |simpl in H1; lia].
  - cbn [length Nat.eqb bind]. apply (mapM_seq_all _ _ []).
    intros k Hk. cbn [prod] in Hk. replace k with 0 by lia. unfold read, get, byte_offset_for. cbn [unrank dot].
    do 2 f_equal.
  - destruct (a_strides a) as [|s [|? ?]] eqn:SS; try discriminate.
    cbn [length Nat.eqb at_ nth_error bind]. apply mapM_seq_all.
    intros k Hk. cbn [prod] in Hk. rewrite Nat.mul_1_r in Hk.
    assert (U : unrank [n] k = [k]).
    { cbn [unrank prod]. rewrite Nat.div_1_r. reflexivity. }
    rewrite U. unfold read, get, byte_offset_for. rewrite SS. cbn [dot]. f_equal; f_equal; lia.
Qed.

Lemma dispatch_reduce_spec {T} init comb (buf : list T) a vals : wf buf a -> elems buf a = map Some vals ->
  dispatch_reduce init comb buf a =
  Ok (if (size a =? 0) || a_c a || (ndim a <=? 1) then Some (reduce8 init comb vals) else None).
Proof.
  intros W E. unfold dispatch_reduce. destruct (Nat.eqb_spec (size a) 0) as [H0|H0].
  - cbn [orb]. assert (vals = []) as ->; [|reflexivity].
    apply (f_equal (@length _)) in E. unfold elems in E. rewrite !map_length, all_idx_length in E.
    apply length_zero_iff_nil. unfold size in H0. lia.
  - cbn [orb]. destruct (a_c a) eqn:Hc.
    + rewrite (read_contig buf a vals W Hc E). reflexivity.
    + cbn [orb]. destruct (Nat.leb_spec (ndim a) 1) as [H1|H1]; [|reflexivity].
      pose proof (read_1d buf a vals W H1 E) as R.
      destruct (if ndim a =? 0 then Ok 0%Z else at_ (a_strides a) 0); cbn [bind] in *; try discriminate.
      rewrite R. reflexivity.
Qed.

Lemma trait_reduce_spec {T} init comb (buf : list T) a vals : wf buf a -> elems buf a = map Some vals ->
  trait_reduce init comb buf a = Ok (fold_left comb vals init).
Proof.
  intros W E. unfold trait_reduce. destruct (Nat.eqb_spec (size a) 0) as [H0|H0].
  - assert (vals = []) as ->; [|reflexivity].
    apply (f_equal (@length _)) in E. unfold elems in E. rewrite !map_length, all_idx_length in E.
    apply length_zero_iff_nil. unfold size in H0. lia.
  - rewrite (read_offsets buf a vals W E). reflexivity.
Qed.

(* ---------- lanes ---------- *)
Lemma axis_offsets_spec a axis : length (a_strides a) = length (a_shape a) ->
  axis_offsets a axis =
  map (fun oi => dot oi (remove_at axis (a_strides a))) (all_idx (remove_at axis (a_shape a))).
Proof.
  intros HL. unfold axis_offsets.
  assert (HR : length (remove_at axis (a_strides a)) = length (remove_at axis (a_shape a))).
  { revert axis HL. generalize (a_shape a) as sh, (a_strides a) as st.
    induction sh as [|s sh IH]; intros [|x st] [|axis] H; simpl in *; try discriminate; auto. }
  destruct (Nat.eqb_spec (length (remove_at axis (a_shape a))) 0) as [H0|H0].
  - destruct (remove_at axis (a_shape a)) as [|]; [|discriminate].
    destruct (remove_at axis (a_strides a)) as [|]; [|discriminate]. reflexivity.
  - rewrite strided_offsets_spec by exact HR. apply map_ext. intros oi. lia.
Qed.

Lemma lane_dot a axis oi j st n :
  length (a_strides a) = length (a_shape a) ->
  nth_error (a_strides a) axis = Some st -> nth_error (a_shape a) axis = Some n ->
  inb oi (remove_at axis (a_shape a)) ->
  dot (insert_at axis j oi) (a_strides a) = (dot oi (remove_at axis (a_strides a)) + Z.of_nat j * st)%Z.
Proof.
  intros HL Hs Hn Ho. apply inb_length in Ho.
  assert (AX : axis < length (a_shape a)) by (apply nth_error_Some; congruence).
  rewrite remove_at_length in Ho by exact AX.
  rewrite <- (insert_remove_at axis st (a_strides a) Hs) at 1.
  rewrite dot_insert_at; [lia| |lia].
  rewrite remove_at_length by lia. lia.
Qed.

Lemma lane_inb sh axis oi j n : nth_error sh axis = Some n -> inb oi (remove_at axis sh) -> j < n ->
  inb (insert_at axis j oi) sh.
Proof. intros Hn Ho Hj. rewrite <- (insert_remove_at axis n sh Hn). apply inb_insert_at; assumption. Qed.

Lemma lane_vals {V} (buf : list V) a axis oi n : wf buf a ->
  nth_error (a_shape a) axis = Some n -> inb oi (remove_at axis (a_shape a)) ->
  exists lv, lane buf a axis oi = map Some lv /\ length lv = n.
Proof.
  intros W Hn Ho. unfold lane. rewrite (nth_error_nth _ _ 0 Hn).
  destruct (seq_somes (fun j => get buf a (insert_at axis j oi)) n) as [lv E].
  - intros j Hj. apply wf_get; [exact W|]. apply (lane_inb _ _ _ _ n); assumption.
  - exists lv. split; [exact E|]. apply (f_equal (@length _)) in E. rewrite !map_length, seq_length in E. lia.
Qed.

Lemma read_lane {V} (buf : list V) a axis oi n st lv : wf buf a ->
  nth_error (a_shape a) axis = Some n -> nth_error (a_strides a) axis = Some st ->
  inb oi (remove_at axis (a_shape a)) -> lane buf a axis oi = map Some lv ->
  read_run buf a (dot oi (remove_at axis (a_strides a))) st n = Ok lv.
Proof.
  intros W Hn Hs Ho E. unfold read_run. apply mapM_of_load. rewrite <- E.
  unfold lane. rewrite (nth_error_nth _ _ 0 Hn). apply map_ext. intros j.
  unfold get, byte_offset_for. pose proof W as (_ & _ & _ & HL & _).
  rewrite (lane_dot a axis oi j st n) by assumption. reflexivity.
Qed.

(* all lanes, in the order of the output *)
Lemma lanes_exist {V} (buf : list V) a axis n : wf buf a -> nth_error (a_shape a) axis = Some n ->
  exists L, map (lane buf a axis) (all_idx (remove_at axis (a_shape a))) = map (map Some) L.
Proof.
  intros W Hn.
  assert (G : forall l, (forall oi, In oi l -> inb oi (remove_at axis (a_shape a))) ->
              exists L, map (lane buf a axis) l = map (map Some) L).
  { induction l as [|oi l IH]; intros H; [exists []; reflexivity|].
    destruct (lane_vals buf a axis oi n W Hn) as (lv & E & _); [apply H; left; reflexivity|].
    destruct IH as [L EL]; [intros; apply H; right; assumption|].
    exists (lv :: L). cbn [map]. rewrite E, EL. reflexivity. }
  apply G. intros oi. apply in_all_idx.
Qed.

Lemma mapM_lanes {V W} (buf : list V) a axis n st L (F : list V -> W) : wf buf a ->
  nth_error (a_shape a) axis = Some n -> nth_error (a_strides a) axis = Some st ->
  map (lane buf a axis) (all_idx (remove_at axis (a_shape a))) = map (map Some) L ->
  mapM (fun base => bind (read_run buf a base st n) (fun d => Ok (F d))) (axis_offsets a axis) = Ok (map F L).
Proof.
  intros WF Hn Hs. pose proof WF as (_ & _ & _ & HL & _).
  rewrite axis_offsets_spec by exact HL. rewrite mapM_map.
  assert (HI : forall oi, In oi (all_idx (remove_at axis (a_shape a))) -> inb oi (remove_at axis (a_shape a))).
  { intros oi. apply in_all_idx. }
  revert HI L. generalize (all_idx (remove_at axis (a_shape a))) as l.
  induction l as [|oi l IH]; intros HI L E; destruct L as [|lv L]; try discriminate; [reflexivity|].
  cbn [map] in E. injection E as E1 E2. cbn [mapM map].
  rewrite (read_lane buf a axis oi n st lv) by (try assumption; apply HI; left; reflexivity).
  cbn [bind]. rewrite (IH (fun x H => HI x (or_intror H)) L E2). reflexivity.
Qed.

(* ---------- row-major accumulation ---------- *)
Lemma rank_app sh1 sh2 i1 i2 : length i1 = length sh1 ->
  rank (sh1 ++ sh2) (i1 ++ i2) = rank sh1 i1 * prod sh2 + rank sh2 i2.
Proof.
  revert i1; induction sh1 as [|s sh1 IH]; intros [|i i1] H; try discriminate; cbn [app rank]; [reflexivity|].
  rewrite IH by (simpl in H; lia). rewrite prod_app. lia.
Qed.

Lemma combine_map {A B C} (f : A -> B) (g : A -> C) l : combine (map f l) (map g l) = map (fun x => (f x, g x)) l.
Proof. induction l as [|x l IH]; simpl; [reflexivity|]. f_equal; exact IH. Qed.
Lemma combine_app {A B} (l1 l2 : list A) (m1 m2 : list B) : length l1 = length m1 ->
  combine (l1 ++ l2) (m1 ++ m2) = combine l1 m1 ++ combine l2 m2.
Proof. revert m1; induction l1 as [|x l1 IH]; intros [|y m1] H; try discriminate; simpl; [reflexivity|]. f_equal; apply IH; auto. Qed.
Lemma combine_flat_map {A B C} (f : A -> list B) (g : A -> list C) l :
  (forall x, length (f x) = length (g x)) ->
  combine (flat_map f l) (flat_map g l) = flat_map (fun x => combine (f x) (g x)) l.
Proof. intros H. induction l as [|x l IH]; simpl; [reflexivity|]. rewrite combine_app by apply H. f_equal; exact IH. Qed.
Lemma filter_flat_map {A B} (p : B -> bool) (f : A -> list B) l :
  filter p (flat_map f l) = flat_map (fun x => filter p (f x)) l.
Proof. induction l as [|x l IH]; simpl; [reflexivity|]. rewrite filter_app. f_equal; exact IH. Qed.
Lemma flat_map_select {A} (F : nat -> list A) k n s :
  flat_map (fun o => if o =? k then F o else []) (seq s n) = if (s <=? k) && (k <? s + n) then F k else [].
Proof.
  revert s; induction n as [|n IH]; intros s; cbn [seq flat_map].
  - destruct (Nat.leb_spec s k), (Nat.ltb_spec k (s + 0)); simpl; try reflexivity; lia.
  - rewrite IH. destruct (Nat.eqb_spec s k) as [->|Hne].
    + destruct (Nat.leb_spec (S k) k); [lia|]. cbn [andb].
      destruct (Nat.leb_spec k k); [|lia]. destruct (Nat.ltb_spec k (k + S n)); [|lia]. apply app_nil_r.
    + cbn [app]. destruct (Nat.leb_spec (S s) k), (Nat.leb_spec s k), (Nat.ltb_spec k (S s + n)),
        (Nat.ltb_spec k (s + S n)); simpl; try reflexivity; lia.
Qed.
Lemma flat_map_nil {A B} (l : list A) : flat_map (fun _ => @nil B) l = [].
Proof. induction l; auto. Qed.

Section RowMajor.
Context {T X : Type}.
Variables (step : X -> nat -> T -> X).

Definition run1 (accs : list X) (x : (nat * nat) * T) : list X :=
  match nth_error accs (fst (fst x)) with
  | Some acc => upd accs (fst (fst x)) (step acc (snd (fst x)) (snd x))
  | None => accs
  end.
Lemma run1_length accs x : length (run1 accs x) = length accs.
Proof. unfold run1. destruct (nth_error accs (fst (fst x))); [apply upd_length|reflexivity]. Qed.

Lemma row_major_run_pure (buf : list T) a vals steps k accs : wf buf a -> a_c a = true ->
  elems buf a = map Some vals -> k + length steps <= length vals ->
  (forall s, In s steps -> fst s < length accs) ->
  row_major_run buf step a steps k accs = Ok (fold_left run1 (combine steps (skipn k vals)) accs).
Proof.
  intros W Hc E. revert k accs; induction steps as [|[o j] steps IH]; intros k accs HK HT; [reflexivity|].
  cbn [row_major_run]. cbn [length] in HK.
  destruct (nth_error vals k) as [v|] eqn:Ev; [|apply nth_error_None in Ev; lia].
  rewrite (read_at buf a vals k v W Hc E Ev). cbn [bind].
  destruct (nth_error accs o) as [acc|] eqn:Ea.
  2:{ apply nth_error_None in Ea. specialize (HT (o, j) (or_introl eq_refl)). simpl in HT. lia. }
  rewrite IH; [|lia|intros s Hs; rewrite upd_length; apply HT; right; exact Hs].
  assert (ES : skipn k vals = v :: skipn (k + 1) vals).
  { clear -Ev. revert k Ev; induction vals as [|x vals IH]; intros [|k] Ev; try discriminate.
    - injection Ev as ->. reflexivity.
    - apply (IH k Ev). }
  rewrite ES. cbn [combine fold_left]. unfold run1 at 3. cbn [fst snd]. rewrite Ea. reflexivity.
Qed.

(* accumulator p sees exactly the steps that name it, in order *)
Lemma run1_nth l accs p :
  nth_error (fold_left run1 l accs) p =
  option_map (fun s => fold_left (fun s x => step s (snd (fst x)) (snd x))
                                 (filter (fun x => fst (fst x) =? p) l) s) (nth_error accs p).
Proof.
  revert accs; induction l as [|[[o j] v] l IH]; intros accs.
  - simpl. destruct (nth_error accs p); reflexivity.
  - cbn [fold_left filter fst snd]. rewrite IH. unfold run1; cbn [fst snd].
    destruct (Nat.eqb_spec o p) as [->|Hne].
    + destruct (nth_error accs p) as [s|] eqn:Es; [|rewrite Es; reflexivity].
      rewrite nth_error_upd_eq by (apply nth_error_Some; congruence). reflexivity.
    + destruct (nth_error accs o) as [s|] eqn:Eo; [|reflexivity].
      rewrite nth_error_upd_neq by auto. reflexivity.
Qed.

Lemma filter_single (F : nat -> (nat * nat) * T) k m base :
  (forall i, fst (fst (F i)) = base + i) -> k < m ->
  filter (fun x => fst (fst x) =? base + k) (map F (seq 0 m)) = [F k].
Proof.
  intros HF Hk.
  assert (G : forall s, s <= k -> k < s + m ->
    filter (fun x => fst (fst x) =? base + k) (map F (seq s m)) = [F k]).
  2:{ apply G; lia. }
  clear Hk. induction m as [|m IH]; intros s H1 H2; [lia|]. cbn [seq map filter]. rewrite HF.
  destruct (Nat.eqb_spec (base + s) (base + k)) as [E|E].
  - assert (s = k) by lia. subst s. f_equal.
    assert (N : forall t, k < t -> filter (fun x => fst (fst x) =? base + k) (map F (seq t m)) = []).
    { clear -HF. induction m as [|m IH]; intros t Ht; [reflexivity|]. cbn [seq map filter]. rewrite HF.
      destruct (Nat.eqb_spec (base + t) (base + k)); [lia|]. apply IH; lia. }
    apply N; lia.
  - apply IH; lia.
Qed.
Lemma filter_none {A} (p : A -> bool) l : (forall x, In x l -> p x = false) -> filter p l = [].
Proof.
  induction l as [|x l IH]; simpl; intros H; [reflexivity|]. rewrite (H x (or_introl eq_refl)).
  apply IH; intros; apply H; right; assumption.
Qed.

Lemma row_major_filter (v : nat -> T) outer n inner o i : o < outer -> i < inner ->
  filter (fun x => fst (fst x) =? o * inner + i)
    (combine (row_major_steps outer n inner) (map v (seq 0 (outer * (n * inner))))) =
  map (fun j => ((o * inner + i, j), v ((o * n + j) * inner + i))) (seq 0 n).
Proof.
  intros Ho Hi. unfold row_major_steps. rewrite map_seq_blocks.
  rewrite (flat_map_ext_in (fun o' => map (fun j => v (o' * (n * inner) + j)) (seq 0 (n * inner)))
             (fun o' => flat_map (fun j => map (fun i' => v (o' * (n * inner) + (j * inner + i'))) (seq 0 inner)) (seq 0 n)))
    by (intros o' _; apply (map_seq_blocks (fun r => v (o' * (n * inner) + r)) n inner)).
  rewrite combine_flat_map.
  2:{ intros o'. rewrite !(flat_map_const_length _ _ inner) by (intros; rewrite map_length, seq_length; reflexivity).
      reflexivity. }
  rewrite filter_flat_map.
  rewrite (flat_map_ext_in _ (fun o' => if o' =? o then
     map (fun j => ((o * inner + i, j), v ((o * n + j) * inner + i))) (seq 0 n) else [])).
  - rewrite (flat_map_select (fun _ => map (fun j => ((o * inner + i, j), v ((o * n + j) * inner + i))) (seq 0 n))).
    destruct (Nat.ltb_spec o (0 + outer)); [reflexivity|lia].
  - intros o' _. rewrite combine_flat_map by (intros; rewrite !map_length; reflexivity).
    rewrite filter_flat_map. destruct (Nat.eqb_spec o' o) as [->|Hne].
    + rewrite (flat_map_ext_in _ (fun j => [((o * inner + i, j), v ((o * n + j) * inner + i))])).
      { generalize (seq 0 n) as l. induction l as [|j l IH]; simpl; [reflexivity|]. f_equal; exact IH. }
      intros j _. rewrite combine_map.
      rewrite (filter_single _ i inner (o * inner)) by (try exact Hi; intros; reflexivity).
      do 3 f_equal; lia.
    + rewrite (flat_map_ext_in _ (fun _ => [])); [apply flat_map_nil|].
      intros j _. rewrite combine_map. apply filter_none. intros x Hx.
      apply in_map_iff in Hx as (i' & <- & Hi'). apply in_seq in Hi'. cbn [fst].
      apply Nat.eqb_neq. intros E. apply Hne.
      apply (Nat.mul_cancel_r o' o inner); [lia|].
      destruct (Nat.lt_trichotomy o' o) as [H|[H|H]]; [|subst; lia|];
        [assert ((o' + 1) * inner <= o * inner) by (apply Nat.mul_le_mono_r; lia)
        |assert ((o + 1) * inner <= o' * inner) by (apply Nat.mul_le_mono_r; lia)]; nia.
Qed.

Lemma row_major_steps_spec outer n inner :
  length (row_major_steps outer n inner) = outer * (n * inner) /\
  forall s, In s (row_major_steps outer n inner) -> fst s < outer * inner.
Proof.
  unfold row_major_steps. split.
  - rewrite (flat_map_const_length _ _ (n * inner)); [rewrite seq_length; reflexivity|].
    intros o _. rewrite (flat_map_const_length _ _ inner); [rewrite seq_length; reflexivity|].
    intros j _. rewrite map_length, seq_length. reflexivity.
  - intros s Hs. apply in_flat_map in Hs as (o & Ho & Hs). apply in_flat_map in Hs as (j & Hj & Hs).
    apply in_map_iff in Hs as (i & <- & Hi). apply in_seq in Ho, Hi. cbn [fst].
    assert ((o + 1) * inner <= outer * inner) by (apply Nat.mul_le_mono_r; lia). lia.
Qed.

Lemma fold_left_map' {A B C} (f : C -> B -> C) (h : A -> B) l s :
  fold_left f (map h l) s = fold_left (fun s x => f s (h x)) l s.
Proof. revert s; induction l as [|x l IH]; intros s; simpl; auto. Qed.
Lemma list_eta {A} (l : list A) d : l = map (fun k => nth k l d) (seq 0 (length l)).
Proof.
  apply nth_error_ext. intros k. rewrite nth_error_map', nth_error_seq.
  destruct (Nat.ltb_spec k (length l)) as [H|H].
  - cbn [option_map]. rewrite Nat.add_0_l. apply nth_error_nth'; exact H.
  - apply nth_error_None; exact H.
Qed.

Theorem row_major_spec (buf : list T) a axis n L s0 : wf buf a -> a_c a = true ->
  nth_error (a_shape a) axis = Some n -> 0 < n -> 0 < prod (remove_at axis (a_shape a)) ->
  map (lane buf a axis) (all_idx (remove_at axis (a_shape a))) = map (map Some) L ->
  row_major_run buf step a
    (row_major_steps (Nat.max (prod (firstn axis (a_shape a))) 1) n
                     (Nat.max (prod (skipn (axis + 1) (a_shape a))) 1))
    0 (repeat s0 (prod (remove_at axis (a_shape a))))
  = Ok (map (fun lv => fold_left (fun s x => step s (fst x) (snd x)) (combine (seq 0 n) lv) s0) L).
Proof.
  intros W Hc Hn Hn0 HP EL. destruct (wf_elems buf a W) as (vals & E & HV).
  assert (AX : axis < length (a_shape a)) by (apply nth_error_Some; congruence).
  set (pre := firstn axis (a_shape a)) in *. set (post := skipn (axis + 1) (a_shape a)) in *.
  assert (ESH : a_shape a = pre ++ n :: post).
  { rewrite <- (insert_remove_at axis n (a_shape a) Hn).
    rewrite insert_at_app by (rewrite remove_at_length by exact AX; lia).
    rewrite remove_at_app by exact AX.
    assert (LP : length (firstn axis (a_shape a)) = axis) by (rewrite firstn_length; lia).
    rewrite firstn_app, LP, Nat.sub_diag, firstn_O, app_nil_r, firstn_firstn, Nat.min_id.
    rewrite skipn_app, LP, Nat.sub_diag, skipn_O, skipn_all2 by lia.
    unfold pre, post. replace (axis + 1) with (S axis) by lia. reflexivity. }
  assert (LP : length pre = axis) by (unfold pre; rewrite firstn_length; lia).
  assert (ER : remove_at axis (a_shape a) = pre ++ post).
  { rewrite remove_at_app by exact AX. unfold pre, post. replace (axis + 1) with (S axis) by lia. reflexivity. }
  rewrite ER in *. rewrite prod_app in HP.
  assert (P1 : 0 < prod pre) by nia. assert (P2 : 0 < prod post) by nia.
  rewrite !Nat.max_l by lia. set (outer := prod pre) in *. set (inner := prod post) in *.
  assert (HS : size a = outer * (n * inner)).
  { unfold size. rewrite ESH, prod_app. cbn [prod]. reflexivity. }
  destruct (row_major_steps_spec outer n inner) as (SL & SB).
  rewrite (row_major_run_pure buf a vals); [|exact W|exact Hc|exact E|rewrite SL; lia|].
  2:{ intros s Hs. rewrite repeat_length, prod_app. apply SB; exact Hs. }
  apply (f_equal Ok). cbn [skipn]. apply nth_error_ext. intros p. rewrite run1_nth.
  destruct (Nat.lt_ge_cases p (outer * inner)) as [Hp|Hp].
  2:{ rewrite (proj2 (nth_error_None _ _)) by (rewrite repeat_length, prod_app; exact Hp).
      symmetry. apply nth_error_None. rewrite map_length.
      apply (f_equal (@length _)) in EL. rewrite !map_length, all_idx_length, prod_app in EL.
      fold outer inner in EL. lia. }
  rewrite nth_error_repeat by (rewrite prod_app; exact Hp). cbn [option_map].
  (* the lane of output position p *)
  assert (HLn : length vals = outer * (n * inner)) by lia.
  destruct vals as [|d vs] eqn:EV; [simpl in HLn; nia|]. rewrite <- EV in *. clear EV vs.
  set (oi := unrank (pre ++ post) p).
  assert (Ho : inb oi (pre ++ post)) by (apply unrank_inb; rewrite prod_app; exact Hp).
  assert (HN : nth_error (map (lane buf a axis) (all_idx (pre ++ post))) p = Some (lane buf a axis oi)).
  { rewrite nth_error_map', nth_error_all_idx by (rewrite prod_app; exact Hp). reflexivity. }
  rewrite EL, nth_error_map' in HN. rewrite nth_error_map'.
  destruct (nth_error L p) as [lv|] eqn:ELp; [|discriminate]. cbn [option_map] in *. injection HN as HN.
  apply (f_equal Some).
  set (g := fun k => nth k vals d).
  assert (HLV : lv = map (fun j => g ((p / inner * n + j) * inner + p mod inner)) (seq 0 n)).
  { apply map_Some_inj. rewrite HN. unfold lane. rewrite (nth_error_nth _ _ 0 Hn), map_map.
    apply map_ext_in. intros j Hj. apply in_seq in Hj.
    assert (HI : inb (insert_at axis j oi) (a_shape a)).
    { apply (lane_inb _ _ _ _ n Hn); [rewrite ER; exact Ho|lia]. }
    apply (f_equal (fun l => nth_error l (rank (a_shape a) (insert_at axis j oi)))) in E.
    unfold elems in E. rewrite !nth_error_map', nth_error_all_idx_rank in E by exact HI.
    cbn [option_map] in E.
    assert (ERK : rank (a_shape a) (insert_at axis j oi) = (p / inner * n + j) * inner + p mod inner).
    { pose proof (inb_length _ _ Ho) as LO. rewrite app_length in LO.
      rewrite insert_at_app by lia. rewrite ESH.
      rewrite <- (firstn_skipn axis oi) in Ho.
      assert (LF : length (firstn axis oi) = length pre) by (rewrite firstn_length; lia).
      rewrite rank_app by exact LF. cbn [prod rank].
      apply (inb_app _ _ _ _ LF) in Ho as [Ho1 Ho2].
      pose proof (rank_lt _ _ Ho2) as HR2.
      assert (EP : p = rank pre (firstn axis oi) * inner + rank post (skipn axis oi)).
      { unfold inner. rewrite <- rank_app by exact LF. rewrite firstn_skipn. unfold oi.
        rewrite rank_unrank; [reflexivity|rewrite prod_app; exact Hp]. }
      assert (ED : p / inner = rank pre (firstn axis oi)).
      { symmetry. apply (Nat.div_unique p inner _ (rank post (skipn axis oi))); [exact HR2|lia]. }
      assert (EM : p mod inner = rank post (skipn axis oi)).
      { symmetry. apply (Nat.mod_unique p inner (rank pre (firstn axis oi))); [exact HR2|lia]. }
      rewrite ED, EM. fold inner. nia. }
    rewrite ERK in E. unfold g.
    assert (HB : (p / inner * n + j) * inner + p mod inner < length vals).
    { rewrite <- ERK. rewrite HV. unfold size. apply rank_lt; exact HI. }
    rewrite (nth_error_nth' vals d HB) in E. cbn [option_map] in E. injection E as E. exact E. }
  rewrite (list_eta vals d) at 1. rewrite HLn. fold g.
  assert (HI0 : 0 < inner) by exact P2.
  pose proof (row_major_filter g outer n inner (p / inner) (p mod inner)
                ltac:(apply Nat.div_lt_upper_bound; lia) ltac:(apply Nat.mod_upper_bound; lia)) as RF.
  rewrite (Nat.mul_comm (p / inner) inner), <- (Nat.div_mod p inner) in RF by lia.
  rewrite RF, HLV. rewrite <- (map_id (seq 0 n)) at 2. rewrite combine_map, !fold_left_map'. reflexivity.
Qed.
End RowMajor.

(* ---------- axis reductions ---------- *)
Lemma prod_reduced axis sh : prod (reduced_shape axis sh) = prod (remove_at axis sh).
Proof. unfold reduced_shape. destruct (remove_at axis sh); reflexivity. Qed.

Lemma lanes_length {V} (buf : list V) a axis L :
  map (lane buf a axis) (all_idx (remove_at axis (a_shape a))) = map (map Some) L ->
  length L = prod (remove_at axis (a_shape a)).
Proof. intros E. apply (f_equal (@length _)) in E. rewrite !map_length, all_idx_length in E. lia. Qed.

Lemma lane_length {V} (buf : list V) a axis oi : length (lane buf a axis oi) = nth axis (a_shape a) 0.
Proof. unfold lane. rewrite map_length, seq_length. reflexivity. Qed.
Lemma lanes_len {V} (buf : list V) a axis L lv n : nth_error (a_shape a) axis = Some n ->
  map (lane buf a axis) (all_idx (remove_at axis (a_shape a))) = map (map Some) L ->
  In lv L -> length lv = n.
Proof.
  intros Hn E H. assert (HI : In (map Some lv) (map (map Some) L)) by (apply in_map; exact H).
  rewrite <- E in HI. apply in_map_iff in HI as (oi & E1 & _).
  apply (f_equal (@length _)) in E1. rewrite lane_length, map_length in E1.
  rewrite (nth_error_nth _ _ 0 Hn) in E1. lia.
Qed.

Lemma map_const_lanes {A B} (f : list A -> B) (L : list (list A)) c :
  (forall lv, In lv L -> f lv = c) -> map f L = repeat c (length L).
Proof.
  induction L as [|lv L IH]; intros H; simpl; [reflexivity|]. rewrite (H lv (or_introl eq_refl)).
  f_equal; apply IH; intros; apply H; right; assumption.
Qed.

Lemma at_ok {A} (l : list A) k x : nth_error l k = Some x -> at_ l k = Ok x.
Proof. intros H. unfold at_. rewrite H. reflexivity. Qed.

Lemma strides_at {V} (buf : list V) a axis n : wf buf a -> nth_error (a_shape a) axis = Some n ->
  exists s, nth_error (a_strides a) axis = Some s.
Proof.
  intros (_ & _ & _ & HL & _) Hn. destruct (nth_error (a_strides a) axis) eqn:E; [eauto|].
  apply nth_error_None in E. assert (axis < length (a_shape a)) by (apply nth_error_Some; congruence). lia.
Qed.

Lemma fold_combine_seq {T} (comb : T -> T -> T) lv n init : length lv = n ->
  fold_left (fun s x => comb s (snd x)) (combine (seq 0 n) lv) init = fold_left comb lv init.
Proof.
  generalize 0 as k. revert n init. induction lv as [|v lv IH]; intros n init k E; destruct n; try discriminate.
  - reflexivity.
  - cbn [seq combine fold_left snd]. apply IH. simpl in E; lia.
Qed.

Theorem dispatch_reduce_axis_spec {T} init comb (buf : list T) a axis n L : wf buf a ->
  nth_error (a_shape a) axis = Some n ->
  map (lane buf a axis) (all_idx (remove_at axis (a_shape a))) = map (map Some) L ->
  exists R, (R = reduce8 init comb \/ R = fun d => fold_left comb d init) /\
    dispatch_reduce_axis init comb buf a axis = Ok (reduced_shape axis (a_shape a), map R L).
Proof.
  intros W Hn EL. destruct (strides_at buf a axis n W Hn) as [st Hs].
  unfold dispatch_reduce_axis. rewrite (at_ok _ _ _ Hn). cbn [bind]. rewrite (at_ok _ _ _ Hs). cbn [bind].
  fold (reduced_shape axis (a_shape a)). rewrite prod_reduced. pose proof (lanes_length buf a axis L EL) as LL.
  destruct (Nat.eqb_spec (prod (remove_at axis (a_shape a))) 0) as [H0|H0].
  { cbn [orb bind]. exists (reduce8 init comb). split; [left; reflexivity|].
    rewrite H0 in *. destruct L; [reflexivity|discriminate]. }
  destruct (Nat.eqb_spec n 0) as [Hn0|Hn0].
  { cbn [orb bind]. exists (reduce8 init comb). split; [left; reflexivity|].
    rewrite (map_const_lanes (reduce8 init comb) L init), LL; [reflexivity|].
    intros lv Hlv. pose proof (lanes_len buf a axis L lv n Hn EL Hlv).
    destruct lv; [reflexivity|simpl in *; lia]. }
  cbn [orb]. destruct (Z.eqb_spec st (a_item a)) as [Est|Est].
  { rewrite <- Est, (mapM_lanes buf a axis n st L) by assumption. eexists; split; [left; reflexivity|reflexivity]. }
  destruct (a_c a) eqn:Hc.
  { rewrite (row_major_spec (fun acc (_ : nat) v => comb acc v) buf a axis n L init) by (try assumption; lia).
    cbn [bind]. eexists; split; [right; reflexivity|]. do 2 f_equal. apply map_ext_in. intros lv Hlv.
    apply (fold_combine_seq comb lv n init). eapply lanes_len; eassumption. }
  rewrite (mapM_lanes buf a axis n st L) by assumption. eexists; split; [left; reflexivity|reflexivity].
Qed.

Lemma trait_reduce_axis_spec {T} init comb zero (buf : list T) a axis n L : wf buf a ->
  nth_error (a_shape a) axis = Some n -> 0 < n ->
  map (lane buf a axis) (all_idx (remove_at axis (a_shape a))) = map (map Some) L ->
  trait_reduce_axis init comb buf zero a axis =
    Ok (reduced_shape axis (a_shape a), map (fun d => fold_left comb d init) L).
Proof.
  intros W Hn Hp EL. destruct (strides_at buf a axis n W Hn) as [st Hs].
  unfold trait_reduce_axis. rewrite (at_ok _ _ _ Hn). cbn [bind]. rewrite (at_ok _ _ _ Hs). cbn [bind].
  fold (reduced_shape axis (a_shape a)). rewrite prod_reduced. pose proof (lanes_length buf a axis L EL) as LL.
  destruct (Nat.eqb_spec (prod (remove_at axis (a_shape a))) 0) as [H0|H0].
  { cbn [orb bind]. rewrite H0 in *. destruct L; [reflexivity|discriminate]. }
  destruct (Nat.eqb_spec n 0) as [Hn0|Hn0]; [lia|]. cbn [orb].
  rewrite (mapM_lanes buf a axis n st L) by assumption. reflexivity.
Qed.

(* reading one entry of a reduced array *)
Lemma outer_of_inb axis sh n idx : nth_error sh axis = Some n -> inb idx (reduced_shape axis sh) ->
  inb (outer_of sh idx) (remove_at axis sh) /\
  rank (reduced_shape axis sh) idx = rank (remove_at axis sh) (outer_of sh idx).
Proof.
  intros Hn H. unfold reduced_shape in *. destruct sh as [|s [|s2 sh]].
  - destruct axis; discriminate.
  - destruct axis as [|axis]; [|destruct axis; discriminate]. cbn [remove_at] in *. cbn [outer_of].
    split; [constructor|]. inversion H as [|i ? r ? Hi Hr]; subst. inversion Hr; subst. cbn [rank prod]. lia.
  - cbn [outer_of]. destruct (remove_at axis (s :: s2 :: sh)) eqn:E.
    + apply (f_equal (@length _)) in E. rewrite remove_at_length in E by (apply nth_error_Some; congruence).
      simpl in E. lia.
    + split; [exact H|reflexivity].
Qed.

Lemma lanes_get {V W} (buf : list V) a axis n L (F : list V -> W) item idx lv : (0 < item)%Z ->
  nth_error (a_shape a) axis = Some n ->
  map (lane buf a axis) (all_idx (remove_at axis (a_shape a))) = map (map Some) L ->
  inb idx (reduced_shape axis (a_shape a)) ->
  lane buf a axis (outer_of (a_shape a) idx) = map Some lv ->
  get (map F L) (fresh (reduced_shape axis (a_shape a)) item) idx = Some (F lv).
Proof.
  intros HI Hn EL Hi Hlv. rewrite fresh_get by exact HI.
  destruct (outer_of_inb axis (a_shape a) n idx Hn Hi) as (HO & ->).
  apply (f_equal (fun l => nth_error l (rank (remove_at axis (a_shape a)) (outer_of (a_shape a) idx)))) in EL.
  rewrite !nth_error_map', nth_error_all_idx_rank in EL by exact HO. cbn [option_map] in EL.
  rewrite nth_error_map'. rewrite Hlv in EL.
  destruct (nth_error L (rank (remove_at axis (a_shape a)) (outer_of (a_shape a) idx))) as [lv'|]; [|discriminate].
  cbn [option_map] in *. injection EL as EL. apply map_Some_inj in EL. subst lv'. reflexivity.
Qed.

(* ---------- integer kernels ---------- *)
From Verif Require Import Int_Proofs F64_Proofs.

Section IntLaws.
Variable t : ity.
Hypothesis HT : (0 < bits t)%Z.
Local Open Scope Z_scope.

Lemma i_bounds : i_min t <= 0 <= i_max t.
Proof.
  unfold i_min, i_max. assert (0 < 2 ^ bits t) by (apply Z.pow_pos_nonneg; lia).
  assert (0 < 2 ^ (bits t - 1)) by (apply Z.pow_pos_nonneg; lia). destruct (signed t); lia.
Qed.

(* 1 is not a value of a one-bit signed type *)
Definition init_ok (op : rop) : Prop := op = RProd -> representable t 1.

Lemma int_red_laws op : init_ok op ->
  let P := representable t in let i := int_red_init t op in let c := int_red_comb t op in
  P i /\ (forall x y, P x -> P y -> P (c x y)) /\
  (forall x y z, P x -> P y -> P z -> c x (c y z) = c (c x y) z) /\
  (forall x y, P x -> P y -> c x y = c y x) /\ (forall x, P x -> c i x = x).
Proof.
  intros HO P i c. unfold P, i, c. pose proof i_bounds as HB.
  destruct op; cbn [int_red_init int_red_comb].
  - split; [unfold representable; lia|]. split; [intros; apply wrap_rep; exact HT|].
    split; [intros; rewrite wrap_add_l, wrap_add_r by exact HT; f_equal; lia|].
    split; [intros; f_equal; lia|]. intros x Hx. rewrite Z.add_0_l. apply wrap_id; assumption.
  - split; [apply HO; reflexivity|]. split; [intros; apply wrap_rep; exact HT|].
    split; [intros; rewrite wrap_mul_l, wrap_mul_r by exact HT; f_equal; lia|].
    split; [intros; f_equal; lia|]. intros x Hx. rewrite Z.mul_1_l. apply wrap_id; assumption.
  - unfold representable. split; [lia|]. split; [intros x y Hx Hy; destruct (Z.ltb_spec x y); lia|].
    split; [intros x y z _ _ _; destruct (Z.ltb_spec y z), (Z.ltb_spec x y);
            repeat match goal with |- context [?p <? ?q] => destruct (Z.ltb_spec p q) end; lia|].
    split; [intros x y _ _; destruct (Z.ltb_spec x y), (Z.ltb_spec y x); lia|].
    intros x Hx. destruct (Z.ltb_spec (i_min t) x); lia.
  - unfold representable. split; [lia|]. split; [intros x y Hx Hy; destruct (Z.ltb_spec y x); lia|].
    split; [intros x y z _ _ _; destruct (Z.ltb_spec z y), (Z.ltb_spec y x);
            repeat match goal with |- context [?p <? ?q] => destruct (Z.ltb_spec p q) end; lia|].
    split; [intros x y _ _; destruct (Z.ltb_spec x y), (Z.ltb_spec y x); lia|].
    intros x Hx. destruct (Z.ltb_spec x (i_max t)); lia.
Qed.

Lemma int_trait_comb_eq op x y : int_trait_comb t op x y = int_red_comb t op x y.
Proof. destruct op; cbn [int_trait_comb int_red_comb]; try reflexivity; destruct (Z.ltb_spec x y), (Z.ltb_spec y x); lia. Qed.

Lemma fold_left_ext2 {A B} (f g : A -> B -> A) l s : (forall x y, f x y = g x y) -> fold_left f l s = fold_left g l s.
Proof. intros H. revert s; induction l as [|x l IH]; intros s; simpl; [reflexivity|]. rewrite H. apply IH. Qed.

Lemma int_reduce8 op vals : init_ok op -> Forall (representable t) vals ->
  reduce8 (int_red_init t op) (int_red_comb t op) vals = fold_left (int_red_comb t op) vals (int_red_init t op).
Proof.
  intros HO HF. destruct (int_red_laws op HO) as (L1 & L2 & L3 & L4 & L5).
  apply (reduce8_fold _ _ (representable t)); assumption.
Qed.

(* the folds are the mathematical quantities *)
Lemma fold_sum vals s : representable t s ->
  fold_left (int_red_comb t RSum) vals s = wrap t (s + zsum vals).
Proof.
  revert s; induction vals as [|v vals IH]; intros s Hs; cbn [fold_left zsum fold_right].
  - rewrite Z.add_0_r. symmetry; apply wrap_id; assumption.
  - rewrite IH by (apply wrap_rep; exact HT). cbn [int_red_comb]. rewrite wrap_add_l by exact HT.
    f_equal. fold (zsum vals). lia.
Qed.
Lemma fold_prod vals s : representable t s ->
  fold_left (int_red_comb t RProd) vals s = wrap t (s * zprod vals).
Proof.
  revert s; induction vals as [|v vals IH]; intros s Hs; cbn [fold_left zprod fold_right].
  - rewrite Z.mul_1_r. symmetry; apply wrap_id; assumption.
  - rewrite IH by (apply wrap_rep; exact HT). cbn [int_red_comb]. rewrite wrap_mul_l by exact HT.
    f_equal. fold (zprod vals). lia.
Qed.
Lemma fold_max vals s : is_max (s :: vals) (fold_left (int_red_comb t RMax) vals s).
Proof.
  revert s; induction vals as [|v vals IH]; intros s; cbn [fold_left].
  - split; [left; reflexivity|]. intros x [->|[]]; lia.
  - destruct (IH (int_red_comb t RMax s v)) as [HI HM]. split.
    + cbn [int_red_comb] in *. destruct (Z.ltb_spec s v); destruct HI as [HI|HI]; try (right; right; exact HI).
      * right; left; exact HI.
      * left; exact HI.
    + intros x Hx. assert (int_red_comb t RMax s v <= fold_left (int_red_comb t RMax) vals (int_red_comb t RMax s v))
        by (apply HM; left; reflexivity).
      cbn [int_red_comb] in *. destruct Hx as [<-|[<-|Hx]]; [| |apply HM; right; exact Hx];
        destruct (Z.ltb_spec s v); lia.
Qed.
Lemma fold_min vals s : is_min (s :: vals) (fold_left (int_red_comb t RMin) vals s).
Proof.
  revert s; induction vals as [|v vals IH]; intros s; cbn [fold_left].
  - split; [left; reflexivity|]. intros x [->|[]]; lia.
  - destruct (IH (int_red_comb t RMin s v)) as [HI HM]. split.
    + cbn [int_red_comb] in *. destruct (Z.ltb_spec v s); destruct HI as [HI|HI]; try (right; right; exact HI).
      * right; left; exact HI.
      * left; exact HI.
    + intros x Hx. assert (fold_left (int_red_comb t RMin) vals (int_red_comb t RMin s v) <= int_red_comb t RMin s v)
        by (apply HM; left; reflexivity).
      cbn [int_red_comb] in *. destruct Hx as [<-|[<-|Hx]]; [| |apply HM; right; exact Hx];
        destruct (Z.ltb_spec v s); lia.
Qed.
Lemma fold_init_max vals : vals <> [] -> Forall (representable t) vals ->
  is_max vals (fold_left (int_red_comb t RMax) vals (int_red_init t RMax)).
Proof.
  intros HN HF. destruct vals as [|v vals]; [congruence|]. cbn [fold_left].
  inversion HF; subst. replace (int_red_comb t RMax (int_red_init t RMax) v) with v.
  - apply fold_max.
  - cbn [int_red_comb int_red_init]. unfold representable in *. destruct (Z.ltb_spec (i_min t) v); lia.
Qed.
Lemma fold_init_min vals : vals <> [] -> Forall (representable t) vals ->
  is_min vals (fold_left (int_red_comb t RMin) vals (int_red_init t RMin)).
Proof.
  intros HN HF. destruct vals as [|v vals]; [congruence|]. cbn [fold_left].
  inversion HF; subst. replace (int_red_comb t RMin (int_red_init t RMin) v) with v.
  - apply fold_min.
  - cbn [int_red_comb int_red_init]. unfold representable in *. destruct (Z.ltb_spec v (i_max t)); lia.
Qed.

Lemma fold_rep op vals : init_ok op -> Forall (representable t) vals ->
  representable t (fold_left (int_red_comb t op) vals (int_red_init t op)).
Proof.
  intros HO HF. destruct (int_red_laws op HO) as (L1 & L2 & _).
  assert (G : forall s, representable t s -> representable t (fold_left (int_red_comb t op) vals s)).
  { clear L1. induction HF as [|v l Hv HF IH]; intros s Hs; cbn [fold_left]; [exact Hs|]. apply IH, L2; assumption. }
  apply G; exact L1.
Qed.

Theorem int_reduce_scalar_spec op (buf : list Z) a vals : init_ok op -> wf buf a ->
  elems buf a = map Some vals -> Forall (representable t) vals ->
  int_reduce_scalar t op buf a =
    Ok (f64_of_int (fold_left (int_red_comb t op) vals (int_red_init t op))).
Proof.
  intros HO W E HF. unfold int_reduce_scalar, int_reduce_all. rewrite (dispatch_reduce_spec _ _ _ _ vals W E).
  cbn [bind]. destruct ((size a =? 0)%nat || a_c a || (ndim a <=? 1)%nat).
  - cbn [bind]. rewrite int_reduce8, f64_through by (try assumption; apply fold_rep; assumption). reflexivity.
  - rewrite (trait_reduce_spec _ _ _ _ vals W E). cbn [bind].
    rewrite (fold_left_ext2 _ (int_red_comb t op)) by (intros; apply int_trait_comb_eq). reflexivity.
Qed.
End IntLaws.
