(* Claims C01-C07 and C09-C11. *)
From Verif Require Import Base Lists Arr_Spec Arr_Model Arr_Wf Arr_Proofs Arr_Hist.
From Coq Require Import Permutation Sorted.
Local Open Scope nat_scope.

(* ---------------- C01 ---------------- *)
(* lexicographic order on index tuples: last coordinate fastest *)
Inductive lex_lt : list nat -> list nat -> Prop :=
| lex_here i j l m : i < j -> lex_lt (i :: l) (j :: m)
| lex_next i l m : lex_lt l m -> lex_lt (i :: l) (i :: m).

Lemma lex_sorted_block i (ls : list (list nat)) :
  StronglySorted lex_lt ls -> StronglySorted lex_lt (map (cons i) ls).
Proof.
  induction 1 as [|l ls H IH HF]; simpl; constructor; auto.
  rewrite Forall_map. eapply Forall_impl; [|exact HF]. intros m Hm. apply lex_next; exact Hm.
Qed.
Lemma ssorted_app {A} (R : A -> A -> Prop) l1 l2 :
  StronglySorted R l1 -> StronglySorted R l2 -> (forall x y, In x l1 -> In y l2 -> R x y) ->
  StronglySorted R (l1 ++ l2).
Proof.
  induction 1 as [|x l1 H IH HF]; simpl; intros H2 HR; [exact H2|].
  constructor; [apply IH; auto|]. apply Forall_app; split; [exact HF|].
  apply Forall_forall. intros y Hy. apply HR; auto.
Qed.
Lemma all_idx_lex sh : StronglySorted lex_lt (all_idx sh).
Proof.
  induction sh as [|s sh IH]; simpl; [repeat constructor|].
  generalize 0 as a. induction s as [|s IHs]; intros a; simpl; [constructor|].
  apply ssorted_app; [apply lex_sorted_block; exact IH|apply IHs|].
  intros x y Hx Hy. apply in_map_iff in Hx as (x' & <- & _).
  apply in_flat_map in Hy as (j & Hj & Hy). apply in_map_iff in Hy as (y' & <- & _).
  apply in_seq in Hj. apply lex_here; lia.
Qed.

(* all_idx really is "every index tuple, once, row-major" *)
Theorem C01_all_idx_is_row_major : forall sh,
  (forall idx, In idx (all_idx sh) <-> inb idx sh) /\ NoDup (all_idx sh) /\
  StronglySorted lex_lt (all_idx sh).
Proof. intros sh. split; [intros idx; apply in_all_idx|]. split; [apply all_idx_nodup|apply all_idx_lex]. Qed.

(* the strided iterator: any shape, any strides, any base offset *)
Theorem C01_strided_iter_row_major : forall sh st base,
  length st = length sh ->
  strided_offsets sh st base = map (fun idx => (base + dot idx st)%Z) (all_idx sh).
Proof. exact strided_offsets_spec. Qed.

(* the index odometer used by the element-wise fallbacks *)
Theorem C01_odometer_row_major : forall sh,
  odometer (prod sh) (repeat 0 (length sh)) sh = all_idx sh.
Proof. exact odometer_all. Qed.

Example C01_nonvacuous :
  strided_offsets [2; 0; 3] [24; 8; -8]%Z 5 = [] /\
  strided_offsets [2; 3] [-24; 0]%Z 24 = [24; 24; 24; 0; 0; 0]%Z /\
  odometer (prod [2; 1; 2]) [0; 0; 0] [2; 1; 2] = [[0;0;0]; [0;0;1]; [1;0;0]; [1;0;1]].
Proof. repeat split. Qed.

(* ---------------- C02 ---------------- *)
Theorem C02_fresh_row_major : forall V (buf : list V) sh item idx,
  (0 < item)%Z -> get buf (fresh sh item) idx = nth_error buf (rm_rank sh idx).
Proof. intros V buf sh item idx H. rewrite rm_rank_eq. apply fresh_get; exact H. Qed.

Theorem C02_column_major_strides : forall sh item idx,
  length idx = length sh ->
  dot idx (f_strides sh item) = (item * Z.of_nat (rm_rank (rev sh) (rev idx)))%Z.
Proof.
  intros sh item idx H. unfold f_strides. rewrite dot_f_strides_from, frank_rev by exact H. reflexivity.
Qed.

(* no gap, no overlap: the row-major rank is a bijection onto 0..size-1 *)
Theorem C02_rank_bijective : forall sh,
  (forall idx, inb idx sh -> rm_rank sh idx < prod sh /\ rm_unrank sh (rm_rank sh idx) = idx) /\
  (forall k, k < prod sh -> inb (rm_unrank sh k) sh /\ rm_rank sh (rm_unrank sh k) = k).
Proof.
  intros sh. split.
  - intros idx H. rewrite rm_unrank_eq, rm_rank_eq. split; [apply rank_lt; exact H|apply unrank_rank; exact H].
  - intros k H. rewrite rm_unrank_eq, rm_rank_eq. split; [apply unrank_inb|apply rank_unrank]; exact H.
Qed.

Example C02_nonvacuous :
  c_strides [2; 3; 4] 8 = [96; 32; 8]%Z /\ f_strides [2; 3; 4] 8 = [8; 16; 48]%Z /\
  get [10; 11; 12; 13; 14; 15] (fresh [2; 3] 8) [1; 2] = Some 15.
Proof. repeat split. Qed.

(* ---------------- C03 ---------------- *)
Theorem C03_c_contiguous_sound : forall V (buf : list V) sh st item off,
  length st = length sh -> is_c_contiguous sh st item = true ->
  map (fun k => load buf item (off + item * Z.of_nat k)) (seq 0 (prod sh)) =
  map (fun idx => load buf item (off + dot idx st)) (all_idx sh).
Proof.
  intros V buf sh st item off HL HC. rewrite all_idx_unrank, map_map. apply map_ext_in.
  intros k Hk. apply in_seq in Hk.
  rewrite (c_contig_dot sh st item) by (auto; apply unrank_inb; lia).
  rewrite rank_unrank by lia. reflexivity.
Qed.

Theorem C03_f_contiguous_sound : forall V (buf : list V) sh st item off,
  length st = length sh -> is_f_contiguous sh st item = true ->
  map (fun k => load buf item (off + item * Z.of_nat k)) (seq 0 (prod sh)) =
  map (fun idx => load buf item (off + dot (rev idx) st)) (all_idx (rev sh)).
Proof.
  intros V buf sh st item off HL HC. rewrite all_idx_unrank, map_map, prod_rev. apply map_ext_in.
  intros k Hk. apply in_seq in Hk.
  assert (HI : inb (unrank (rev sh) k) (rev sh)) by (apply unrank_inb; rewrite prod_rev; lia).
  assert (HI' : inb (rev (unrank (rev sh) k)) sh).
  { apply inb_rev in HI. rewrite rev_involutive in HI. exact HI. }
  rewrite (f_contig_dot sh st item) by (auto; exact HC).
  rewrite frank_rev by (apply inb_length; exact HI').
  rewrite rev_involutive, rank_unrank by (rewrite prod_rev; lia). reflexivity.
Qed.

(* the test misses nothing: a non-empty view whose elements do sit consecutively
   in row-major order is recognised *)
Theorem C03_c_contiguous_complete : forall sh st item,
  length st = length sh -> 0 < prod sh ->
  (forall idx, inb idx sh -> dot idx st = (item * Z.of_nat (rm_rank sh idx))%Z) ->
  is_c_contiguous sh st item = true.
Proof.
  intros sh st item HL HP H. apply c_contig_complete; try assumption.
  
Qed.

Example C03_nonvacuous :
  is_c_contiguous [2; 1; 3] [24; 999; 8]%Z 8 = true /\
  is_c_contiguous [2; 3] [32; 8]%Z 8 = false /\
  is_f_contiguous [2; 3] [8; 16]%Z 8 = true /\ is_f_contiguous [2; 3] [24; 8]%Z 8 = false.
Proof. repeat split. Qed.

(* ---------------- C04 ---------------- *)
Theorem C04_transpose : forall V (buf : list V) a,
  wf buf a ->
  a_shape (transpose a) = rev (a_shape a) /\ wf buf (transpose a) /\
  forall idx, inb idx (rev (a_shape a)) ->
    inb (rev idx) (a_shape a) /\ get buf (transpose a) idx = get buf a (rev idx).
Proof. intros V buf a W. exact (transpose_is_view buf a W). Qed.

Theorem C04_permute : forall V (buf : list V) a axes,
  wf buf a -> Permutation axes (seq 0 (ndim a)) ->
  exists a', transpose_axes a axes = Ok a' /\ wf buf a' /\
    a_shape a' = map (fun i => nth i (a_shape a) 0) axes /\
    forall idx old, length idx = length axes -> inb old (a_shape a) ->
      (forall d, d < length axes -> nth (nth d axes 0) old 0 = nth d idx 0) ->
      get buf a' idx = get buf a old.
Proof.
  intros V buf a axes W HP.
  destruct (transpose_axes_is_view buf a axes W HP) as (a' & E & S & W' & G).
  exists a'; split; [exact E|]. split; [exact W'|]. split; [exact S|].
  intros idx old HL HO HD.
  pose proof (Permutation_length HP) as HLen. rewrite seq_length in HLen.
  pose proof (inb_length _ _ HO) as HLo. unfold ndim in *.
  assert (ND : NoDup axes) by (eapply Permutation_NoDup; [symmetry; exact HP|apply seq_NoDup]).
  assert (HB : forall i, In i axes -> i < length (a_shape a)).
  { intros i Hi. eapply Permutation_in in Hi; [|exact HP]. apply in_seq in Hi. lia. }
  assert (Hi : inb idx (map (fun i => nth i (a_shape a) 0) axes)).
  { apply inb_iff_nth. split; [rewrite map_length; exact HL|]. intros d i s H1 H2.
    assert (Hd : d < length axes) by (rewrite <- HL; apply nth_error_Some; rewrite H1; discriminate).
    rewrite nth_error_map', (nth_error_nth' axes 0) in H2 by exact Hd. injection H2 as <-.
    rewrite <- (nth_error_nth _ _ 0 H1), <- HD by exact Hd.
    assert (Hn : nth d axes 0 < length (a_shape a)) by (apply HB, nth_In; exact Hd).
    eapply (inb_nth old (a_shape a) (nth d axes 0)); [exact HO| |]; apply nth_error_nth'; lia. }
  destruct (G idx Hi) as [_ ->]. f_equal.
  apply nth_error_ext. intros k. unfold unpermute. rewrite nth_error_map', nth_error_seq.
  destruct (Nat.ltb_spec k (length axes)) as [Hk|Hk].
  - cbn [option_map plus]. symmetry. rewrite (nth_error_nth' old 0) by lia. f_equal.
    pose proof (index_of_in k axes (perm_in axes (length (a_shape a)) k HP ltac:(lia))) as Hix.
    assert (Hixl : index_of k axes < length axes) by (apply nth_error_Some; rewrite Hix; discriminate).
    rewrite <- HD by exact Hixl. rewrite (nth_error_nth _ _ 0 Hix). reflexivity.
  - symmetry. apply nth_error_None. lia.
Qed.

Theorem C04_transpose_involutive : forall V (buf : list V) a,
  wf buf a ->
  a_shape (transpose (transpose a)) = a_shape a /\
  a_strides (transpose (transpose a)) = a_strides a /\
  a_off (transpose (transpose a)) = a_off a.
Proof.
  intros V buf a (_ & _ & HO & _). unfold transpose, view_with; cbn [a_shape a_strides a_off].
  rewrite !rev_involutive. split; [reflexivity|]. split; [reflexivity|].
  unfold wrap_usize. rewrite !Z.add_0_r, Z.mod_mod by discriminate. apply Z.mod_small; exact HO.
Qed.

Theorem C04_swapaxes : forall V (buf : list V) a i j,
  wf buf a -> i < ndim a -> j < ndim a ->
  exists a', swapaxes_view a i j = Ok a' /\ wf buf a' /\
    a_shape a' = swap_at i j (a_shape a) /\
    (forall idx, inb idx (a_shape a') ->
       inb (swap_at i j idx) (a_shape a) /\ get buf a' idx = get buf a (swap_at i j idx)).
Proof.
  intros V buf a i j W Hi Hj. destruct (swapaxes_is_view buf a i j W Hi Hj) as (a' & E & S & W' & G).
  exists a'. rewrite S. auto.
Qed.

Theorem C04_swap_involutive : forall i j l,
  i < length l -> j < length l -> swap_at i j (swap_at i j l) = l.
Proof.
  intros i j l Hi Hj.
  assert (HL : length (swap_at i j l) = length l) by (unfold swap_at; rewrite !upd_length; reflexivity).
  rewrite swap_at_map by (rewrite HL; assumption). rewrite HL.
  apply nth_error_ext; intros k. rewrite nth_error_map', nth_error_seq.
  destruct (Nat.ltb_spec k (length l)) as [Hk|Hk].
  - cbn [option_map plus]. pose proof (transp_lt i j k (length l) Hi Hj) as HT.
    rewrite swap_at_map by assumption.
    symmetry. rewrite (nth_error_nth' l 0) by exact Hk. f_equal. symmetry.
    apply nth_error_nth. rewrite nth_error_map', nth_error_seq.
    destruct (Nat.ltb_spec (transp i j k) (length l)); [|lia].
    cbn [option_map plus]. rewrite transp_invol. f_equal.
  - symmetry; apply nth_error_None; exact Hk.
Qed.

Example C04_nonvacuous :
  wf [10; 11; 12; 13; 14; 15] (fresh [2; 3] 8) /\
  get [10; 11; 12; 13; 14; 15] (transpose (fresh [2; 3] 8)) [2; 1] = Some 15 /\
  get [10; 11; 12; 13; 14; 15] (transpose (fresh [2; 3] 8)) [1; 0] = Some 11.
Proof. split; [apply fresh_wf; reflexivity|split; reflexivity]. Qed.

(* ---------------- C05 ---------------- *)
(* Full claim: as below without the hypothesis on the stride.  It fails, see
   C05_slice_refuted and C05_slice_fault_refuted. *)
Theorem C05_slice_partial : forall V (buf : list V) a axis start stop step len,
  wf buf a -> nth_error (a_shape a) axis = Some len -> py_slice len start stop step ->
  (0 <= nth axis (a_strides a) 0)%Z \/ start = 0%Z ->
  exists a' n, slice_axis a axis start stop step = Ok a' /\
    (forall j, j < n <-> in_slice start stop step j) /\
    a_shape a' = upd (a_shape a) axis n /\ wf buf a' /\
    forall idx, inb idx (a_shape a') ->
      inb (slice_idx axis start step idx) (a_shape a) /\
      get buf a' idx = get buf a (slice_idx axis start step idx).
Proof.
  intros V buf a axis start stop step len W HL HP HN.
  assert (Hax : axis < length (a_shape a)) by (apply nth_error_Some; rewrite HL; discriminate).
  destruct (slice_axis_is_view buf a axis start stop step len _ W HL (strides_nth buf a axis W Hax) HP HN)
    as (a' & n & E & Hn & S & W' & G).
  exists a', n. rewrite S. auto.
Qed.

(* x = [0..9]; y = x[2:7][::-1] = [6,5,4,3,2]; y[1:5] should be [5,4,3,2], the
   code produces a view that starts at position 7 *)
Theorem C05_slice_refuted : exists (buf : list nat) a axis start stop step len a' idx,
  wf buf a /\ nth_error (a_shape a) axis = Some len /\ py_slice len start stop step /\
  slice_axis a axis start stop step = Ok a' /\ inb idx (a_shape a') /\
  inb (slice_idx axis start step idx) (a_shape a) /\
  get buf a (slice_idx axis start step idx) = Some 5 /\ get buf a' idx = Some 7.
Proof.
  assert (W0 : wf (seq 0 10) (fresh [10] 8)) by (apply fresh_wf; reflexivity).
  assert (HH : history [VSlice 0 2 7 1; VSlice 0 4 (-1) (-1)] [10] [5]
                 (fun i => slice_idx 0 2 1 (slice_idx 0 4 (-1) i))).
  { eapply (H_cons _ _ [10] [5] [5]); [|eapply (H_cons _ _ [5] [5] [5] _ (fun i => i)); [|constructor]].
    - apply (D_slice 0 2 7 1 [10] 10 5); [reflexivity|left; lia|].
      intros j; unfold in_slice; lia.
    - apply (D_slice 0 4 (-1) (-1) [5] 5 5); [reflexivity|right; lia|].
      intros j; unfold in_slice; lia. }
  destruct (history_refines _ _ _ _ _ W0 HH eq_refl) as (a & E & S & W & _).
  exists (seq 0 10), a, 0, 1%Z, 5%Z, 1%Z, 5.
  vm_compute in E. injection E as <-.
  eexists; exists [0].
  split; [exact W|]. split; [reflexivity|]. split; [left; lia|].
  split; [vm_compute; reflexivity|]. split; [repeat constructor|].
  split; [unfold slice_idx; cbn; repeat constructor|]. split; reflexivity.
Qed.

(* flipping a fresh 3-element array and slicing [1:3] addresses memory outside it *)
Theorem C05_slice_fault_refuted : exists (buf : list nat) ops a idx,
  length buf = 3 /\ ops = [VFlip 0; VSlice 0 1 3 1] /\
  run_vops ops (fresh [3] 8) = Ok a /\ inb idx (a_shape a) /\ get buf a idx = None.
Proof.
  exists [10; 11; 12], [VFlip 0; VSlice 0 1 3 1]. eexists; exists [0].
  split; [reflexivity|]. split; [reflexivity|]. split; [vm_compute; reflexivity|].
  split; [repeat constructor|reflexivity].
Qed.

Example C05_nonvacuous :
  py_slice 10 8 1 (-3) /\
  (forall j, j < 3 <-> in_slice 8 1 (-3) j) /\
  exists a', slice_axis (fresh [10] 8) 0 8 1 (-3) = Ok a' /\
    map (get (seq 0 10) a') [[0]; [1]; [2]] = [Some 8; Some 5; Some 2].
Proof.
  split; [right; lia|]. split; [unfold in_slice; lia|].
  eexists; split; [vm_compute; reflexivity|reflexivity].
Qed.

(* ---------------- C06 ---------------- *)
Theorem C06_flip_partial : forall V (buf : list V) a axis len,
  wf buf a -> nth_error (a_shape a) axis = Some len ->
  (0 <= nth axis (a_strides a) 0)%Z \/ len <= 1 ->
  exists a', flip a axis = Ok a' /\ a_shape a' = a_shape a /\ wf buf a' /\
    forall idx, inb idx (a_shape a) ->
      inb (flip_idx axis len idx) (a_shape a) /\ get buf a' idx = get buf a (flip_idx axis len idx).
Proof.
  intros V buf a axis len W HL HN.
  assert (Hax : axis < length (a_shape a)) by (apply nth_error_Some; rewrite HL; discriminate).
  exact (flip_is_view buf a axis len _ W HL (strides_nth buf a axis W Hax) HN).
Qed.

(* flipping twice should give back the array; the second flip reads outside *)
Theorem C06_flip_twice_refuted : exists (buf : list nat) a idx,
  length buf = 3 /\ run_vops [VFlip 0; VFlip 0] (fresh [3] 8) = Ok a /\
  inb idx (a_shape a) /\ get buf a idx = None.
Proof.
  exists [10; 11; 12]. eexists; exists [0].
  split; [reflexivity|]. split; [vm_compute; reflexivity|]. split; [repeat constructor|reflexivity].
Qed.

Example C06_nonvacuous :
  exists a', flip (fresh [2; 3] 8) 1 = Ok a' /\
    map (get (seq 0 6) a') (all_idx [2; 3]) = map Some [2; 1; 0; 5; 4; 3].
Proof. eexists; split; [vm_compute; reflexivity|reflexivity]. Qed.

(* ---------------- C07 ---------------- *)
Theorem C07_reshape_partial : forall V (buf : list V) a sh,
  wf buf a -> a_c a = true -> prod (a_shape a) = prod sh ->
  exists a', reshape a sh = Ok a' /\ a_shape a' = sh /\ wf buf a' /\
    map (get buf a') (all_idx sh) = map (get buf a) (all_idx (a_shape a)).
Proof.
  intros V buf a sh W HC HP. destruct (reshape_c_is_view buf a sh W HC HP) as (a' & E & S & W' & G).
  exists a'; split; [exact E|]. split; [exact S|]. split; [exact W'|].
  rewrite !all_idx_unrank, !map_map, HP. apply map_ext_in. intros k Hk. apply in_seq in Hk.
  assert (Hi : inb (unrank sh k) sh) by (apply unrank_inb; lia).
  destruct (G _ Hi) as [_ ->]. rewrite rm_unrank_eq, rm_rank_eq, rank_unrank by lia. reflexivity.
Qed.

(* a wrong number of elements is always rejected *)
Theorem C07_reshape_size_mismatch_partial : forall a sh,
  (Z.of_nat (prod (a_shape a)) < 2 ^ 64)%Z -> (Z.of_nat (prod sh) < 2 ^ 64)%Z ->
  prod (a_shape a) <> prod sh -> reshape a sh = Err.
Proof.
  intros a sh H1 H2 H. unfold reshape, usize_prod, wrap_usize, two64.
  rewrite !Z.mod_small by lia.
  destruct (Z.eqb_spec (Z.of_nat (prod (a_shape a))) (Z.of_nat (prod sh))); [lia|reflexivity].
Qed.
(* products are computed modulo 2^64: an empty array can be reshaped to 2^32 x 2^32 *)
Theorem C07_reshape_overflow_refuted : exists sh a',
  prod sh <> 0 /\ reshape (fresh [0] 8) sh = Ok a' /\ a_shape a' = sh.
Proof.
  set (n := Z.to_nat (2 ^ 32)). exists [n; n].
  assert (Hn : Z.of_nat n = (2 ^ 32)%Z) by (unfold n; rewrite Z2Nat.id; lia).
  assert (HP : Z.of_nat (prod [n; n]) = (2 ^ 64)%Z).
  { cbn [prod]. rewrite !Nat2Z.inj_mul, Hn. reflexivity. }
  exists (view_with (fresh [0] 8) 0 [n; n] (c_strides [n; n] 8)). clearbody n. split.
  - intros H. rewrite H in HP. discriminate.
  - split; [|reflexivity]. unfold reshape, usize_prod. rewrite HP. reflexivity.
Qed.

(* a.T.reshape(-1) of a 2x3 array lists the elements in memory order *)
Theorem C07_reshape_transposed_refuted : exists (buf : list nat) a a',
  wf buf a /\ reshape a [6] = Ok a' /\ size a = 6 /\
  map (get buf a) (all_idx (a_shape a)) = map Some [0; 3; 1; 4; 2; 5] /\
  map (get buf a') (all_idx [6]) = map Some [0; 1; 2; 3; 4; 5].
Proof.
  exists (seq 0 6), (transpose (fresh [2; 3] 8)). eexists.
  split; [apply transpose_is_view; apply fresh_wf; reflexivity|].
  split; [vm_compute; reflexivity|]. repeat split.
Qed.

(* a strided view (here every other element) cannot be reshaped at all *)
Theorem C07_reshape_strided_refuted : exists a,
  run_vops [VSlice 0 0 6 2] (fresh [6] 8) = Ok a /\ a_shape a = [3] /\ reshape a [3; 1] = Err.
Proof. eexists; split; [vm_compute; reflexivity|]. split; reflexivity. Qed.

Example C07_nonvacuous :
  wf (seq 0 6) (fresh [2; 3] 8) /\ a_c (fresh [2; 3] 8) = true /\
  exists a', reshape (fresh [2; 3] 8) [3; 2] = Ok a' /\ get (seq 0 6) a' [2; 1] = Some 5.
Proof.
  split; [apply fresh_wf; reflexivity|]. split; [reflexivity|].
  eexists; split; [vm_compute; reflexivity|reflexivity].
Qed.

(* ---------------- C09 ---------------- *)
Theorem C09_broadcast_to : forall V (buf : list V) a sh,
  wf buf a ->
  (broadcastable (a_shape a) sh ->
   exists a', broadcast_to a sh = Ok a' /\ a_shape a' = sh /\ wf buf a' /\
     forall idx, inb idx sh ->
       inb (unbroadcast (a_shape a) idx) (a_shape a) /\
       get buf a' idx = get buf a (unbroadcast (a_shape a) idx)) /\
  (~ broadcastable (a_shape a) sh -> broadcast_to a sh = Err).
Proof. intros V buf a sh W. exact (broadcast_to_is_view buf a sh W). Qed.

Example C09_nonvacuous :
  broadcastable [3; 1] [2; 3; 2] /\
  exists a', broadcast_to (fresh [3; 1] 8) [2; 3; 2] = Ok a' /\
    map (get [7; 8; 9] a') (all_idx [2; 3; 2]) = map Some [7; 7; 8; 8; 9; 9; 7; 7; 8; 8; 9; 9].
Proof.
  split; [split; [simpl; lia|constructor; [left; reflexivity|constructor; [right; reflexivity|constructor]]]|].
  eexists; split; [vm_compute; reflexivity|reflexivity].
Qed.

(* ---------------- C10 ---------------- *)
Theorem C10_expand_dims : forall V (buf : list V) a axis,
  wf buf a ->
  (axis <= ndim a ->
   exists a', expand_dims a axis = Ok a' /\ a_shape a' = insert_at axis 1 (a_shape a) /\ wf buf a' /\
     forall idx, inb idx (a_shape a) -> get buf a' (insert_at axis 0 idx) = get buf a idx) /\
  (ndim a < axis -> expand_dims a axis = Err).
Proof.
  intros V buf a axis W. destruct (expand_dims_is_view buf a axis W) as [H1 H2]. split; [|exact H2].
  intros Hax. destruct (H1 Hax) as (a' & E & S & W' & G).
  exists a'; split; [exact E|]. split; [exact S|]. split; [exact W'|].
  intros idx Hi. pose proof (inb_length _ _ Hi) as HL. unfold ndim in Hax.
  destruct (G (insert_at axis 0 idx)) as [_ ->]; [apply inb_insert_at; [exact Hi|lia]|].
  rewrite remove_insert_at by lia. reflexivity.
Qed.

Theorem C10_squeeze_axis : forall V (buf : list V) a axis,
  wf buf a ->
  (nth_error (a_shape a) axis = Some 1 ->
   a_shape (squeeze_axis a axis) = remove_at axis (a_shape a) /\ wf buf (squeeze_axis a axis) /\
   forall idx, inb idx (remove_at axis (a_shape a)) ->
     get buf (squeeze_axis a axis) idx = get buf a (insert_at axis 0 idx)) /\
  (nth_error (a_shape a) axis <> Some 1 -> squeeze_axis a axis = a).
Proof.
  intros V buf a axis W. destruct (squeeze_axis_is_view buf a axis W) as [H1 H2]. split; [|exact H2].
  intros Hax. destruct (H1 Hax) as (S & W' & G). split; [exact S|]. split; [exact W'|].
  intros idx Hi. apply G; exact Hi.
Qed.

Theorem C10_squeeze : forall V (buf : list V) a,
  wf buf a ->
  a_shape (squeeze a) = squeeze_shape (a_shape a) /\ wf buf (squeeze a) /\
  forall idx, inb idx (a_shape (squeeze a)) ->
    inb (unsqueeze (a_shape a) idx) (a_shape a) /\
    get buf (squeeze a) idx = get buf a (unsqueeze (a_shape a) idx).
Proof.
  intros V buf a W. destruct (squeeze_is_view buf a W) as (S & W' & G). rewrite S. auto.
Qed.

(* squeezing the axis just added gives back the same view *)
Theorem C10_squeeze_expand : forall V (buf : list V) a axis,
  wf buf a -> axis <= ndim a ->
  exists a', expand_dims a axis = Ok a' /\
    a_shape (squeeze_axis a' axis) = a_shape a /\
    forall idx, inb idx (a_shape a) -> get buf (squeeze_axis a' axis) idx = get buf a idx.
Proof.
  intros V buf a axis W Hax. unfold ndim in Hax.
  destruct (expand_dims_is_view buf a axis W) as [H1 _].
  destruct (H1 Hax) as (a' & E & S & W' & G). exists a'; split; [exact E|].
  assert (HN : nth_error (a_shape a') axis = Some 1).
  { rewrite S, nth_error_insert_at by exact Hax. rewrite Nat.ltb_irrefl, Nat.eqb_refl. reflexivity. }
  destruct (squeeze_axis_is_view buf a' axis W') as [H2 _].
  destruct (H2 HN) as (S2 & _ & G2).
  assert (ES : remove_at axis (a_shape a') = a_shape a) by (rewrite S; apply remove_insert_at; exact Hax).
  rewrite ES in *. split; [exact S2|]. intros idx Hi.
  destruct (G2 idx Hi) as [Hi2 ->]. rewrite S in Hi2. destruct (G _ Hi2) as [_ ->].
  pose proof (inb_length _ _ Hi). rewrite remove_insert_at by lia. reflexivity.
Qed.

Example C10_nonvacuous :
  squeeze_shape [1; 2; 1; 3] = [2; 3] /\
  get (seq 0 6) (squeeze (fresh [1; 2; 1; 3] 8)) [1; 2] = Some 5 /\
  unsqueeze [1; 2; 1; 3] [1; 2] = [0; 1; 0; 2].
Proof. repeat split. Qed.

(* ---------------- C11 ---------------- *)
(* Full claim: without steps_ok.  C05/C06/C07 refute it.  steps_ok ops a is an
   executable check on the history: no slice with non-zero start along a
   negative stride, no second flip of an axis, reshape only of C-contiguous views. *)
Theorem C11_history_partial : forall V (buf : list V) sh item ops sh' f,
  (0 < item)%Z -> (Z.of_nat (length buf) * item < 2 ^ 63)%Z -> length buf = prod sh ->
  history ops sh sh' f -> steps_ok ops (fresh sh item) = true ->
  exists a', run_vops ops (fresh sh item) = Ok a' /\ a_shape a' = sh' /\
    forall idx, inb idx sh' ->
      inb (f idx) sh /\ get buf a' idx = nth_error buf (rm_rank sh (f idx)).
Proof. intros V buf sh item ops sh' f. exact (fresh_history buf sh item ops sh' f). Qed.

(* every history of transposes, permutations, swaps, positive-step slices,
   broadcasts, expand_dims, squeezes and 2-d diagonals: no guard at all *)
Theorem C11_forward_history_partial : forall V (buf : list V) sh item ops sh' f,
  (0 < item)%Z -> (Z.of_nat (length buf) * item < 2 ^ 63)%Z -> length buf = prod sh ->
  history ops sh sh' f -> forallb forward_op ops = true ->
  exists a', run_vops ops (fresh sh item) = Ok a' /\ a_shape a' = sh' /\
    forall idx, inb idx sh' ->
      inb (f idx) sh /\ get buf a' idx = nth_error buf (rm_rank sh (f idx)).
Proof. intros V buf sh item ops sh' f. exact (fresh_forward_history buf sh item ops sh' f). Qed.

(* the unguarded claim is false *)
Theorem C11_history_refuted : exists (buf : list nat) sh ops sh' f a' idx,
  length buf = prod sh /\ history ops sh sh' f /\ run_vops ops (fresh sh 8) = Ok a' /\
  inb idx sh' /\ get buf a' idx <> nth_error buf (rm_rank sh (f idx)).
Proof.
  exists [10; 11; 12], [3], [VFlip 0; VFlip 0], [3]. eexists. eexists. exists [0].
  split; [reflexivity|]. split.
  { eapply H_cons; [apply (D_flip 0 [3] 3); reflexivity|].
    eapply H_cons; [apply (D_flip 0 [3] 3); reflexivity|constructor]. }
  split; [vm_compute; reflexivity|]. split; [repeat constructor|]. discriminate.
Qed.

Example C11_nonvacuous :
  exists f a', history [VReshape [2; 3; 2]; VTranspose; VSlice 1 0 3 2; VFlip 0; VSwap 0 1; VExpand 1; VSqueeze]
                    [4; 3] [2; 2; 2] f /\
  steps_ok [VReshape [2; 3; 2]; VTranspose; VSlice 1 0 3 2; VFlip 0; VSwap 0 1; VExpand 1; VSqueeze]
           (fresh [4; 3] 8) = true /\
  run_vops [VReshape [2; 3; 2]; VTranspose; VSlice 1 0 3 2; VFlip 0; VSwap 0 1; VExpand 1; VSqueeze]
           (fresh [4; 3] 8) = Ok a' /\
  map (get (seq 0 12) a') (all_idx [2; 2; 2]) = map Some [1; 7; 0; 6; 5; 11; 4; 10].
Proof.
  eexists; eexists. split.
  { eapply H_cons; [apply (D_reshape [4; 3] [2; 3; 2]); reflexivity|].
    eapply H_cons; [apply D_transpose|].
    eapply H_cons; [apply (D_slice 1 0 3 2 [2; 3; 2] 3 2); [reflexivity|left; lia|unfold in_slice; lia]|].
    eapply H_cons; [apply (D_flip 0 [2; 2; 2] 2); reflexivity|].
    eapply H_cons; [apply (D_swap 0 1 [2; 2; 2]); simpl; lia|].
    eapply H_cons; [apply (D_expand 1 [2; 2; 2]); simpl; lia|].
    eapply H_cons; [apply (D_squeeze [2; 1; 2; 2])|constructor]. }
  split; [vm_compute; reflexivity|]. split; [vm_compute; reflexivity|reflexivity].
Qed.

Print Assumptions C01_all_idx_is_row_major.
Print Assumptions C01_strided_iter_row_major.
Print Assumptions C01_odometer_row_major.
Print Assumptions C02_fresh_row_major.
Print Assumptions C02_column_major_strides.
Print Assumptions C02_rank_bijective.
Print Assumptions C03_c_contiguous_sound.
Print Assumptions C03_f_contiguous_sound.
Print Assumptions C03_c_contiguous_complete.
Print Assumptions C04_transpose.
Print Assumptions C04_permute.
Print Assumptions C04_transpose_involutive.
Print Assumptions C04_swapaxes.
Print Assumptions C04_swap_involutive.
Print Assumptions C05_slice_partial.
Print Assumptions C05_slice_refuted.
Print Assumptions C05_slice_fault_refuted.
Print Assumptions C06_flip_partial.
Print Assumptions C06_flip_twice_refuted.
Print Assumptions C07_reshape_partial.
Print Assumptions C07_reshape_size_mismatch_partial.
Print Assumptions C07_reshape_overflow_refuted.
Print Assumptions C07_reshape_transposed_refuted.
Print Assumptions C07_reshape_strided_refuted.
Print Assumptions C09_broadcast_to.
Print Assumptions C10_expand_dims.
Print Assumptions C10_squeeze_axis.
Print Assumptions C10_squeeze.
Print Assumptions C10_squeeze_expand.
Print Assumptions C11_history_partial.
Print Assumptions C11_forward_history_partial.
Print Assumptions C11_history_refuted.
