(* Lemmas about Shp_Model: atleast_1d/2d/3d, the stack functions and the split functions. *)
From Verif Require Import Base Lists Arr_Spec Arr_Model Arr_Wf Arr_Proofs Arr_Hist Arr_Props Copy_Model Copy_Proofs Idx_Model
  Int_Model F64_Model Elem_Model Red_Spec Red_Model Man_Spec Man_Model Man_Proofs Man_Edit Man_Props Shp_Spec Shp_Model Shp_Proofs.
Local Open Scope nat_scope.

Lemma reshaped {V} (buf : list V) a sh : wf buf a -> a_c a = true -> prod (a_shape a) = prod sh ->
  a_shape (reshape_or_same a sh) = sh /\ wf buf (reshape_or_same a sh) /\
  elems buf (reshape_or_same a sh) = elems buf a.
Proof.
  intros W HC HP. destruct (C07_reshape_partial V buf a sh W HC HP) as (r & E & S & W' & G).
  unfold reshape_or_same. rewrite E. split; [exact S|]. split; [exact W'|]. unfold elems. rewrite S. exact G.
Qed.

(* equal element lists at equal row-major positions *)
Lemma elems_rank {V} (b1 b2 : list V) a1 a2 i1 i2 : elems b1 a1 = elems b2 a2 ->
  inb i1 (a_shape a1) -> inb i2 (a_shape a2) -> rank (a_shape a1) i1 = rank (a_shape a2) i2 ->
  get b1 a1 i1 = get b2 a2 i2.
Proof.
  intros E H1 H2 HR. assert (HE := f_equal (fun l => nth_error l (rank (a_shape a1) i1)) E). cbn beta in HE.
  unfold elems in HE. rewrite !nth_error_map' in HE. rewrite HR in HE at 2.
  rewrite !nth_error_all_idx_rank in HE by assumption. cbn [option_map] in HE. injection HE as HE. exact HE.
Qed.

(* the same with a trailing axis of length 1, for either layout *)
Lemma reshaped_sheet {V} (buf : list V) a m n : wf buf a -> a_shape a = [m; n] -> a_c a || a_f a = true ->
  a_shape (reshape_or_same a [m; n; 1]) = [m; n; 1] /\ wf buf (reshape_or_same a [m; n; 1]) /\
  forall i j, i < m -> j < n -> get buf (reshape_or_same a [m; n; 1]) [i; j; 0] = get buf a [i; j].
Proof.
  intros W HS HF. destruct (a_c a) eqn:HC.
  - destruct (reshaped buf a [m; n; 1] W HC) as (S & W' & E); [rewrite HS; cbn; lia|].
    split; [exact S|]. split; [exact W'|]. intros i j Hi Hj. apply (elems_rank buf buf).
    + exact E.
    + rewrite S. repeat constructor; lia.
    + rewrite HS. repeat constructor; lia.
    + rewrite S, HS. cbn. lia.
  - cbn [orb] in HF. unfold reshape_or_same, reshape, usize_prod. rewrite HS.
    replace (prod [m; n; 1]) with (prod [m; n]) by (cbn; lia). rewrite Z.eqb_refl, HC, HF. cbn [negb andb].
    pose proof W as (W1 & W2 & W3 & W4 & W5 & _ & W7). rewrite HS in *.
    destruct (view0_is_view buf a [m; n; 1] (f_strides [m; n; 1] (a_item a)) (firstn 2) W) as (S & W' & G).
    { unfold f_strides. apply f_strides_from_length. }
    { intros idx Hi. rewrite HS. pose proof (inb_length _ _ Hi) as HL.
      destruct idx as [|i [|j [|k [|? ?]]]]; cbn in HL; try lia. cbn [firstn].
      apply inb_cons in Hi as [H1 Hi]. apply inb_cons in Hi as [H2 Hi]. apply inb_cons in Hi as [H3 _].
      assert (HB : inb [i; j] [m; n]) by (repeat constructor; assumption). split; [exact HB|].
      pose proof (f_contig_dot [m; n] (a_strides a) (a_item a) [i; j] W4 HB (W7 HF)) as HD. rewrite HD.
      unfold f_strides. cbn [f_strides_from dot]. cbn [frank] in *. nia. }
    split; [exact S|]. split; [exact W'|]. intros i j Hi Hj.
    destruct (G [i; j; 0]) as [_ ->]; [repeat constructor; lia|]. reflexivity.
Qed.

(* ---------- lanes put one after the other along the first axis ---------- *)
Lemma rows_concat {A I O} (os : list O) (s : A -> nat) (g : A -> nat -> O -> I) : forall (l : list A) (f : nat -> O -> I) N,
  N = list_sum (map s l) ->
  (forall o, In o os -> map (fun i => f i o) (seq 0 N) = concat (map (fun x => map (fun i => g x i o) (seq 0 (s x))) l)) ->
  flat_map (fun i => map (f i) os) (seq 0 N) = concat (map (fun x => flat_map (fun i => map (g x i) os) (seq 0 (s x))) l).
Proof.
  induction l as [|x l IH]; intros f N HN H; cbn [map list_sum concat] in *.
  - subst N. reflexivity.
  - change (list_sum (s x :: map s l)) with (s x + list_sum (map s l)) in HN. subst N. rewrite seq_app, flat_map_app. cbn [Nat.add]. f_equal.
    + apply flat_map_ext_in. intros i Hi. apply map_ext_in. intros o Ho. specialize (H o Ho).
      rewrite seq_app, map_app in H. cbn [Nat.add] in H.
      assert (E1 : map (fun i => f i o) (seq 0 (s x)) = map (fun i => g x i o) (seq 0 (s x))).
      { apply (f_equal (firstn (s x))) in H. rewrite !firstn_app, !map_length, !seq_length, Nat.sub_diag, !firstn_O, !app_nil_r in H.
        rewrite !firstn_all2 in H by (rewrite map_length, seq_length; lia). exact H. }
      assert (HE := f_equal (fun z => nth_error z i) E1). cbn beta in HE. rewrite !nth_error_map', nth_error_seq in HE.
      apply in_seq in Hi. destruct (Nat.ltb_spec i (s x)); [|lia]. cbn in HE. injection HE as HE. exact HE.
    + assert (ES : forall B (h : nat -> list B), flat_map h (seq (s x) (list_sum (map s l))) = flat_map (fun i => h (s x + i)) (seq 0 (list_sum (map s l)))).
      { intros B h. rewrite !flat_map_concat_map. f_equal. apply map_seq_shift. }
      rewrite ES. apply (IH (fun i => f (s x + i)) _ eq_refl). intros o Ho. specialize (H o Ho).
      rewrite seq_app, map_app in H. cbn [Nat.add] in H.
      apply (f_equal (skipn (s x))) in H. rewrite !skipn_app, !map_length, !seq_length, Nat.sub_diag in H.
      rewrite (skipn_all2 (n := s x) (map (fun i => f i o) (seq 0 (s x)))) in H by (rewrite map_length, seq_length; lia).
      rewrite (skipn_all2 (n := s x) (map (fun i => g x i o) (seq 0 (s x)))) in H by (rewrite map_length, seq_length; lia). cbn [app skipn] in H.
      rewrite map_seq_shift in H. exact H.
Qed.

Lemma elems_rows {V} (buf : list V) a s t : a_shape a = s :: t ->
  elems buf a = flat_map (fun i => map (fun oi => get buf a (i :: oi)) (all_idx t)) (seq 0 s).
Proof.
  intros E. unfold elems. rewrite E. cbn [all_idx]. rewrite !flat_map_concat_map, concat_map, map_map.
  f_equal. apply map_ext. intros i. rewrite map_map. reflexivity.
Qed.

Lemma elems_fresh {V} (out : list V) sh item : (0 < item)%Z -> length out = prod sh ->
  elems out (fresh sh item) = map Some out.
Proof.
  intros HI HL. unfold elems. cbn [fresh a_shape]. apply nth_error_ext. intros k.
  rewrite !nth_error_map'. destruct (Nat.lt_ge_cases k (prod sh)) as [H|H].
  - rewrite nth_error_all_idx by exact H. cbn [option_map]. rewrite fresh_get by exact HI. rewrite rank_unrank by assumption.
    destruct (nth_error out k) eqn:E; [reflexivity|]. apply nth_error_None in E. lia.
  - rewrite (proj2 (nth_error_None _ _)) by (rewrite all_idx_length; exact H).
    rewrite (proj2 (nth_error_None _ _)) by lia. reflexivity.
Qed.

(* concatenation along the first axis appends the row-major element lists *)
Lemma concat_first {V} (zero : V) (l : list nd) x0 n t : nth_error l 0 = Some x0 ->
  (forall x, In x l -> wf (fst x) (snd x)) -> a_shape (snd x0) = n :: t ->
  (forall x, In x l -> exists m, a_shape (snd x) = m :: t) ->
  exists out, concat_nd zero l 0 = Ok (list_sum (map (fun x => nth 0 (a_shape (snd x)) 0) l) :: t, out) /\
    map Some out = concat (map (fun x => elems (fst x) (snd x)) l).
Proof.
  intros E0 W HS HT. destruct (concat_nd_spec zero l x0 0 E0 W) as [S1 _]. rewrite HS in S1. cbn [length remove_at upd] in S1.
  destruct S1 as (out & E & L & HL).
  { split; [lia|]. intros x Hx. destruct (HT x Hx) as [m ->]. cbn. auto. }
  exists out. split; [exact E|].
  set (N := list_sum (map (axis_len 0) l)) in *.
  rewrite <- (elems_fresh out (N :: t) 1 ltac:(lia) L).
  rewrite (elems_rows out (fresh (N :: t) 1) N t eq_refl).
  rewrite (rows_concat (all_idx t) (axis_len 0) (fun x i oi => get (fst x) (snd x) (i :: oi)) l
             (fun i oi => get out (fresh (N :: t) 1) (i :: oi)) N eq_refl).
  - f_equal. apply map_ext_in. intros x Hx. destruct (HT x Hx) as [m HM]. rewrite (elems_rows _ _ m t HM).
    unfold axis_len. rewrite HM. reflexivity.
  - intros oi Ho. apply in_all_idx in Ho. specialize (HL 1%Z oi ltac:(lia) Ho). unfold lane in HL.
    cbn [fresh a_shape nth insert_at] in HL. exact HL.
Qed.

(* ---------- splitting a concatenation ---------- *)
Lemma split_concat {V} (zero : V) (l : list nd) sh axis item n : l <> [] ->
  (forall x, In x l -> wf (fst x) (snd x) /\ a_shape (snd x) = sh) -> nth_error sh axis = Some n ->
  (0 < item)%Z -> (Z.of_nat (length l * prod sh) * item < 2 ^ 63)%Z ->
  exists out ps, concat_nd zero l axis = Ok (upd sh axis (length l * n), out) /\
    Man_Model.split (fresh (upd sh axis (length l * n)) item) (length l) axis = Ok ps /\ length ps = length l /\
    forall k p x, nth_error ps k = Some p -> nth_error l k = Some x ->
      a_shape p = sh /\ forall idx, inb idx sh -> get out p idx = get (fst x) (snd x) idx.
Proof.
  intros HNE HW Hn HI HB. destruct l as [|x0 l0]; [congruence|]. set (l := x0 :: l0) in *.
  assert (HA : axis < length sh) by (apply nth_error_Some; congruence).
  assert (S0 : a_shape (snd x0) = sh) by (apply HW; left; reflexivity).
  destruct (concat_nd_spec zero l x0 axis eq_refl) as [S1 _]; [intros x Hx; apply HW; exact Hx|]. rewrite S0 in S1.
  assert (SUM : list_sum (map (axis_len axis) l) = length l * n).
  { clear - HW Hn. induction l as [|x l IH]; [reflexivity|]. cbn [map length]. change (list_sum (?a :: ?b)) with (a + list_sum b).
    rewrite IH by (intros y Hy; apply HW; right; exact Hy). unfold axis_len.
    destruct (HW x (or_introl eq_refl)) as [_ ->]. rewrite (nth_error_nth _ _ 0 Hn). cbn. lia. }
  rewrite SUM in S1. destruct S1 as (out & E & L & HL).
  { split; [exact HA|]. intros x Hx. destruct (HW x Hx) as [_ ->]. auto. }
  set (osh := upd sh axis (length l * n)) in *. set (K := length l) in *.
  assert (HK : 0 < K) by (unfold K, l; cbn; lia).
  assert (PO : prod osh = K * prod sh).
  { rewrite (prod_remove_at axis osh (K * n)) by (apply nth_error_upd_eq; exact HA).
    rewrite (prod_remove_at axis sh n Hn).
    assert (RO : remove_at axis osh = remove_at axis sh).
    { apply nth_error_ext. intros k. rewrite !nth_error_remove_at. unfold osh. apply nth_error_upd_neq. destruct (Nat.ltb_spec k axis); lia. }
    rewrite RO. lia. }
  assert (WF : wf out (fresh osh item)).
  { apply fresh_wf; [exact HI| |exact L]. rewrite L, PO. exact HB. }
  assert (HO : nth_error (a_shape (fresh osh item)) axis = Some (K * n)).
  { cbn [fresh a_shape]. apply nth_error_upd_eq. exact HA. }
  assert (HLen : axis < length (a_strides (fresh osh item))).
  { cbn [fresh a_strides]. rewrite c_strides_length. unfold osh. rewrite upd_length. exact HA. }
  destruct (nth_error (a_strides (fresh osh item)) axis) as [st|] eqn:EST; [|apply nth_error_None in EST; lia].
  assert (HST : (0 <= st)%Z).
  { cbn [fresh a_strides] in EST. revert EST. clear - HI. clearbody osh. revert axis. induction osh as [|s t IH]; intros [|k] E; try discriminate.
    - rewrite c_strides_cons in E. cbn in E. injection E as <-. nia.
    - rewrite c_strides_cons in E. cbn in E. exact (IH k E). }
  destruct (array_split_spec out (fresh osh item) K axis (K * n) st WF HK HO EST HST) as (ps & EP & LP & HP).
  exists out, ps. split; [exact E|]. split.
  { rewrite (C40_split (fresh osh item) K axis (K * n) HO). destruct (Nat.eqb_spec K 0); [lia|]. cbn [orb].
    rewrite Nat.mul_comm, Nat.mod_mul by lia. exact EP. }
  split; [exact LP|]. intros k p x Hp Hx. destruct (HP k p Hp) as (WP & SP & _ & GP).
  assert (Hk : k < K) by (apply nth_error_Some; congruence).
  assert (PS : part_size (K * n) K k = n).
  { unfold part_size. rewrite (Nat.mul_comm K n), Nat.mod_mul, Nat.div_mul by lia. reflexivity. }
  assert (PT : part_start (K * n) K k = k * n).
  { unfold part_start. rewrite (Nat.mul_comm K n), Nat.mod_mul, Nat.div_mul by lia. lia. }
  rewrite PS, PT in *. cbn [fresh a_shape] in SP, GP.
  assert (SPH : a_shape p = sh).
  { rewrite SP. unfold osh. rewrite upd_upd. apply upd_same. exact Hn. }
  split; [exact SPH|]. destruct (HW x (nth_error_In _ _ Hx)) as [_ SX].
  rewrite <- SPH. apply (lanes_eq out (fst x) p (snd x) axis); [congruence|rewrite SPH; exact HA|].
  intros oi Ho. assert (RO : remove_at axis osh = remove_at axis sh).
  { apply nth_error_ext. intros q. rewrite !nth_error_remove_at. unfold osh. apply nth_error_upd_neq. destruct (Nat.ltb_spec q axis); lia. }
  rewrite SPH in Ho. rewrite GP by (rewrite RO; exact Ho).
  assert (HLN : map (fun j => get out (fresh osh item) (insert_at axis j oi)) (seq (k * n) n) =
                firstn n (skipn (k * n) (lane out (fresh osh item) axis oi))).
  { apply lane_seq. rewrite (nth_error_nth _ _ 0 HO). nia. }
  rewrite HLN, (HL item oi HI Ho).
  assert (HE : forall (m : list (list V * arr)) k x, (forall y, In y m -> a_shape (snd y) = sh) -> nth_error m k = Some x ->
     firstn n (skipn (k * n) (concat (map (fun y => lane (fst y) (snd y) axis oi) m))) = lane (fst x) (snd x) axis oi).
  { clear - Hn. induction m as [|y m IH]; intros k x HM Hk; [destruct k; discriminate|]. cbn [map concat].
    assert (LL : length (lane (fst y) (snd y) axis oi) = n).
    { unfold lane. rewrite map_length, seq_length, (HM y (or_introl eq_refl)). apply nth_error_nth. exact Hn. }
    destruct k as [|k]; cbn in Hk.
    - injection Hk as ->. cbn [Nat.mul skipn]. rewrite firstn_app, LL, Nat.sub_diag, firstn_O, app_nil_r. apply firstn_all2. lia.
    - rewrite skipn_app, skipn_all2 by (rewrite LL; cbn; lia). cbn [app]. rewrite LL.
      replace (S k * n - n) with (k * n) by lia. apply IH; [intros z Hz; apply HM; right; exact Hz|exact Hk]. }
  apply HE; [|exact Hx]. intros y Hy. apply HW. exact Hy.
Qed.
