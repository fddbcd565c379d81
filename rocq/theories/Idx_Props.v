(* Claims C13, C14, C15, C64, C65. *)
From Verif Require Import Base Lists Arr_Spec Arr_Model Arr_Wf Arr_Proofs Arr_Hist
  Idx_Spec Idx_Model Idx_Wf Idx_Proofs Idx_Assign.
Local Open Scope nat_scope.

(* ---------------- C13 ---------------- *)
(* a[k0, k1, ..., None, ...] is the selection Python/numpy define: the shape and
   every element.  Missing: slices outside [subs_ok] (see the refutations) and
   axes with a negative stride (see C05). *)
Theorem C13_tuple_partial : forall V (buf : list V) a ks sh',
  wf buf a -> nonneg_strides a -> dims_fit (a_shape a) ->
  length (filter is_ellipsis ks) <= 1 ->
  subs_ok (written_out (length (a_shape a)) ks) (a_shape a) = true ->
  sel_shape (written_out (length (a_shape a)) ks) (a_shape a) = Some sh' ->
  (exists v, getitem_tuple buf a ks = Ok (Scalar v) /\ sh' = [] /\
     get buf a (sel_src (written_out (length (a_shape a)) ks) (a_shape a) []) = Some v) \/
  (exists a', getitem_tuple buf a ks = Ok (View a') /\
     is_view buf a a' sh' (sel_src (written_out (length (a_shape a)) ks) (a_shape a))).
Proof. intros V buf a ks sh'. exact (getitem_tuple_spec buf a ks sh'). Qed.

(* with positive steps and isize-sized bounds there is no restriction at all on
   the slices *)
Definition plain_sub (k : subscript) : bool :=
  match k with
  | SNew => true
  | SInt i => fits_isize i
  | SSlice b e st => opt_all fits_isize b && opt_all fits_isize e && (0 <? st)%Z && fits_isize st
  | SEllipsis => true
  end.
Lemma plain_subs_ok ks sh : forallb plain_sub ks = true -> subs_ok ks sh = true.
Proof.
  revert sh; induction ks as [|k ks IH]; intros sh H; [reflexivity|].
  cbn [forallb] in H. apply andb_true_iff in H as [H1 H2].
  destruct k as [|i|b e st|]; cbn [subs_ok plain_sub] in *.
  - apply IH; exact H2.
  - destruct sh; [reflexivity|]. rewrite H1. apply IH; exact H2.
  - destruct sh as [|s sh]; [reflexivity|]. rewrite (IH sh H2), andb_true_r.
    apply andb_true_iff in H1 as [H1 Hf]. apply andb_true_iff in H1 as [H1 Hp].
    apply andb_true_iff in H1 as [Hb He]. unfold slice_ok. rewrite Hf.
    destruct (Z.gtb_spec st 0); [|lia]. unfold fits_isize in *.
    destruct b as [b|]; destruct e as [e|]; cbn [opt_all] in *; lia.
  - reflexivity.
Qed.
Theorem C13_forward_slices : forall V (buf : list V) a ks sh',
  wf buf a -> nonneg_strides a -> dims_fit (a_shape a) ->
  length (filter is_ellipsis ks) <= 1 -> forallb plain_sub ks = true ->
  sel_shape (written_out (length (a_shape a)) ks) (a_shape a) = Some sh' ->
  (exists v, getitem_tuple buf a ks = Ok (Scalar v) /\ sh' = [] /\
     get buf a (sel_src (written_out (length (a_shape a)) ks) (a_shape a) []) = Some v) \/
  (exists a', getitem_tuple buf a ks = Ok (View a') /\
     is_view buf a a' sh' (sel_src (written_out (length (a_shape a)) ks) (a_shape a))).
Proof.
  intros V buf a ks sh' W HN HF HC HP HE. apply C13_tuple_partial; try assumption.
  apply plain_subs_ok. unfold written_out. generalize (length (a_shape a) - length (filter consumes ks)) as m.
  intros m. clear HC HE. induction ks as [|k ks IH]; [reflexivity|].
  cbn [flat_map forallb] in *. apply andb_true_iff in HP as [H1 H2]. rewrite forallb_app, IH by exact H2.
  rewrite andb_true_r. destruct k; cbn [forallb]; try (rewrite H1; reflexivity); try reflexivity.
  clear. induction m; [reflexivity|]. cbn [repeat forallb]. rewrite IHm. reflexivity.
Qed.

(* x[start:stop:step] on its own: every slice, both signs of step *)
Theorem C13_single_slice : forall V (buf : list V) a s sh b e st b' e',
  wf buf a -> nonneg_strides a -> a_shape a = s :: sh -> st <> 0%Z ->
  py_indices b e st (Z.of_nat s) = (b', e') ->
  exists a', getitem_slice a b e st = Ok a' /\
    is_view buf a a' (py_count b' e' st :: sh)
      (fun idx => match idx with [] => [] | x :: r => Z.to_nat (b' + Z.of_nat x * st) :: r end).
Proof. intros V buf a s sh b e st b' e'. exact (getitem_slice_spec buf a s sh b e st b' e'). Qed.

(* x[k0, k1, ...] = ...: every tuple of integers and slices *)
Theorem C13_assignment_target : forall V (buf : list V) a ks sh',
  wf buf a -> nonneg_strides a -> dims_fit (a_shape a) ->
  forallb set_sub_ok ks = true -> set_shape ks (a_shape a) = Some sh' ->
  exists a', setitem_view ks a 0 = Ok a' /\ is_view buf a a' sh' (set_src ks (a_shape a)).
Proof.
  intros V buf a ks sh' W HN HF HG HE.
  exact (setitem_view_spec buf ks a [] (a_shape a) sh' W eq_refl HN HF HG HE).
Qed.

(* a[5::-1,] on 3 elements has 4 elements, the first outside the buffer *)
Theorem C13_start_beyond_end_refuted : exists (buf : list nat) a ks a' i,
  wf buf a /\ sel_shape ks (a_shape a) = Some [3] /\
  getitem_tuple buf a ks = Ok (View a') /\ a_shape a' = [4] /\ inb i [4] /\ get buf a' i = None.
Proof.
  exists [7; 8; 9], (fresh [3] 8), [SSlice (Some 5%Z) None (-1)%Z]. eexists. exists [0].
  split; [apply fresh_wf; [lia|cbn; lia|reflexivity]|].
  split; [reflexivity|]. split; [vm_compute; reflexivity|]. split; [reflexivity|].
  split; [repeat constructor|reflexivity].
Qed.
(* a[::-1,] on an empty axis has one element, outside the buffer *)
Theorem C13_empty_axis_refuted : exists (buf : list nat) a ks a' i,
  wf buf a /\ sel_shape ks (a_shape a) = Some [0] /\
  getitem_tuple buf a ks = Ok (View a') /\ a_shape a' = [1] /\ inb i [1] /\ get buf a' i = None.
Proof.
  exists [], (fresh [0] 8), [SSlice None None (-1)%Z]. eexists. exists [0].
  split; [apply fresh_wf; [lia|cbn; lia|reflexivity]|].
  split; [reflexivity|]. split; [vm_compute; reflexivity|]. split; [reflexivity|].
  split; [repeat constructor|reflexivity].
Qed.
(* a[2**63:,] selects everything instead of nothing *)
Theorem C13_huge_start_refuted : exists (buf : list nat) a ks a',
  wf buf a /\ sel_shape ks (a_shape a) = Some [0] /\
  getitem_tuple buf a ks = Ok (View a') /\ a_shape a' = [3].
Proof.
  exists [7; 8; 9], (fresh [3] 8), [SSlice (Some (2 ^ 63)%Z) None 1%Z]. eexists.
  split; [apply fresh_wf; [lia|cbn; lia|reflexivity]|].
  split; [reflexivity|]. split; [vm_compute; reflexivity|reflexivity].
Qed.
(* a[-9::-1,] selects the first element instead of nothing *)
Theorem C13_start_before_begin_refuted : exists (buf : list nat) a ks a',
  wf buf a /\ sel_shape ks (a_shape a) = Some [0] /\
  getitem_tuple buf a ks = Ok (View a') /\ a_shape a' = [1].
Proof.
  exists [7; 8; 9], (fresh [3] 8), [SSlice (Some (-9)%Z) None (-1)%Z]. eexists.
  split; [apply fresh_wf; [lia|cbn; lia|reflexivity]|].
  split; [reflexivity|]. split; [vm_compute; reflexivity|reflexivity].
Qed.
(* the exact slice length of the model is the isize one unless the step is
   within the span of 2^63 ... *)
Theorem C13_slice_len_exact : forall start stop step,
  (Z.abs step + Z.abs (stop - start) < 2 ^ 63)%Z ->
  slice_len_isize start stop step = slice_len start stop step.
Proof.
  assert (WI : forall z, (- 2 ^ 63 <= z < 2 ^ 63)%Z -> wrap_isize z = z).
  { intros z H. unfold wrap_isize, to_isize, two64. destruct (Z.leb_spec 0 z).
    - rewrite Z.mod_small by lia. destruct (Z.ltb_spec z (2 ^ 63)); lia.
    - replace (z mod 2 ^ 64)%Z with (z + 2 ^ 64)%Z.
      + destruct (Z.ltb_spec (z + 2 ^ 64) (2 ^ 63)); lia.
      + apply Z.mod_unique with (-1)%Z; lia. }
  intros start stop step H. unfold slice_len_isize, slice_len.
  destruct (Z.gtb_spec step 0).
  - destruct (Z.gtb_spec stop start); [|reflexivity].
    rewrite (WI (stop - start)%Z) by lia. rewrite (WI (stop - start + step)%Z) by lia. rewrite WI by lia. reflexivity.
  - destruct (Z.gtb_spec start stop); [|reflexivity]. destruct (Z.eqb_spec step 0); [reflexivity|].
    rewrite (WI (start - stop)%Z) by lia. rewrite (WI (start - stop - step)%Z) by lia.
    rewrite (WI (- step)%Z) by lia. rewrite WI by lia. reflexivity.
Qed.
(* ... where x[::sys.maxsize] loses its only element *)
Theorem C13_huge_step_refuted :
  slice_len 0 2 (2 ^ 63 - 1) = Ok 1%Z /\ slice_len_isize 0 2 (2 ^ 63 - 1) = Ok (-1)%Z /\
  py_count 0 2 (2 ^ 63 - 1) = 1.
Proof. repeat split. Qed.

Example C13_nonvacuous :
  let a := fresh [3; 4; 5] 8 in
  let ks := [SInt (-1)%Z; SEllipsis; SNew; SSlice (Some (-4)%Z) (Some 100%Z) 2%Z] in
  subs_ok (written_out 3 ks) [3; 4; 5] = true /\
  sel_shape (written_out 3 ks) [3; 4; 5] = Some [4; 1; 2] /\
  sel_src (written_out 3 ks) [3; 4; 5] [2; 0; 1] = [2; 2; 3] /\
  exists a', getitem_tuple (seq 0 60) a ks = Ok (View a') /\ get (seq 0 60) a' [2; 0; 1] = Some 53.
Proof.
  cbv zeta. split; [reflexivity|]. split; [reflexivity|]. split; [reflexivity|].
  eexists. split; [vm_compute; reflexivity|reflexivity].
Qed.
Example C13_negative_nonvacuous :
  subs_ok [SSlice (Some 2%Z) None (-2)%Z] [4] = true /\
  exists a', getitem_tuple (seq 0 4) (fresh [4] 8) [SSlice (Some 2%Z) None (-2)%Z] = Ok (View a') /\
    map (get (seq 0 4) a') (all_idx [2]) = [Some 2; Some 0].
Proof. split; [reflexivity|]. eexists. split; [vm_compute; reflexivity|reflexivity]. Qed.

(* ---------------- C14 ---------------- *)
(* a full tuple of integers: the element when all are in range, otherwise a
   Python exception (a Rust panic) and no memory access *)
Fixpoint in_range (is_ : list Z) (sh : list nat) : bool :=
  match is_, sh with
  | i :: r, s :: sh' => (- Z.of_nat s <=? i)%Z && (i <? Z.of_nat s)%Z && in_range r sh'
  | [], [] => true
  | _, _ => false
  end.
Fixpoint from_end (is_ : list Z) (sh : list nat) : list nat :=
  match is_, sh with
  | i :: r, s :: sh' => Z.to_nat (if (i <? 0)%Z then i + Z.of_nat s else i) :: from_end r sh'
  | _, _ => []
  end.
Lemma normalize_index_range i s :
  fits_isize i = true -> (Z.of_nat s <= isize_max)%Z ->
  ((0 <=? normalize_index i s) && (normalize_index i s <? Z.of_nat s))%Z =
  ((- Z.of_nat s <=? i) && (i <? Z.of_nat s))%Z.
Proof.
  unfold normalize_index, fits_isize, isize_max, isize_min, wrap_usize, two64. intros H1 H2.
  destruct (Z.ltb_spec i 0).
  - destruct (Z.leb_spec (- Z.of_nat s) i).
    + rewrite Z.mod_small by lia. lia.
    + replace ((Z.of_nat s + i) mod 2 ^ 64)%Z with (Z.of_nat s + i + 2 ^ 64)%Z; [lia|].
      apply Z.mod_unique with (-1)%Z; lia.
  - lia.
Qed.
Theorem C14_all_integers : forall V (buf : list V) a is_,
  wf buf a -> dims_fit (a_shape a) -> length is_ = length (a_shape a) ->
  forallb fits_isize is_ = true ->
  if in_range is_ (a_shape a)
  then exists v, getitem_tuple buf a (map SInt is_) = Ok (Scalar v) /\
                 get buf a (from_end is_ (a_shape a)) = Some v
  else getitem_tuple buf a (map SInt is_) = Panic.
Proof.
  intros V buf a is_ W HF HL HB.
  assert (Ex : expand_ellipsis (map SInt is_) (ndim a) = Ok (map IInt is_)).
  { unfold expand_ellipsis.
    assert (C0 : count_ellipsis (map SInt is_) = 0)
      by (unfold count_ellipsis; clear; induction is_; cbn in *; auto).
    rewrite C0. cbn [Nat.ltb Nat.leb andb]. generalize (ndim a - count_explicit (map SInt is_)). intros n.
    clear -HB. induction is_ as [|i r IH]; [reflexivity|]. cbn [forallb] in HB.
    apply andb_true_iff in HB as [H1 H2]. cbn [map expand_items]. rewrite H1. cbn [bind].
    rewrite IH by exact H2. reflexivity. }
  unfold getitem_tuple. rewrite Ex. cbn [bind]. rewrite map_length. unfold ndim. rewrite HL, Nat.eqb_refl.
  assert (EA : forallb is_int (map IInt is_) = true) by (clear; induction is_; cbn; auto).
  rewrite EA. cbn [andb]. unfold get_elementZ.
  assert (ER : idx_okZ (int_indices (map IInt is_) (a_shape a)) (a_shape a) = in_range is_ (a_shape a)).
  { clear -HF HL HB. revert HF HL HB. generalize (a_shape a) as sh.
    induction is_ as [|i r IH]; intros [|s sh] HF HL HB; try discriminate; [reflexivity|].
    cbn [forallb] in HB. apply andb_true_iff in HB as [H1 H2]. inversion HF; subst.
    cbn [map int_indices idx_okZ in_range]. rewrite normalize_index_range by assumption.
    rewrite IH by (auto; simpl in HL; lia). reflexivity. }
  rewrite ER. destruct (in_range is_ (a_shape a)) eqn:EI; [|reflexivity].
  assert (EM : map Z.to_nat (int_indices (map IInt is_) (a_shape a)) = from_end is_ (a_shape a) /\
               inb (from_end is_ (a_shape a)) (a_shape a)).
  { clear -HF EI. revert HF EI. generalize (a_shape a) as sh.
    induction is_ as [|i r IH]; intros [|s sh] HF EI; try discriminate; [split; [reflexivity|constructor]|].
    cbn [in_range] in EI. apply andb_true_iff in EI as [H1 H2]. apply andb_true_iff in H1 as [H0 H1].
    inversion HF; subst. apply Z.leb_le in H0. apply Z.ltb_lt in H1.
    destruct (IH sh ltac:(assumption) H2) as [E1 E2].
    cbn [map int_indices from_end]. rewrite E1.
    destruct (normalize_index_ok i s (conj H0 H1) ltac:(assumption)) as [_ ->]. split; [reflexivity|].
    apply inb_cons. split; [destruct (Z.ltb_spec i 0); lia|exact E2]. }
  destruct EM as [-> EM]. destruct (get_element_ok buf a _ W EM) as (v & _ & E2).
  rewrite E2. exists v. auto.
Qed.

(* one integer: the sub-array, when it is in range *)
Theorem C14_single_integer_partial : forall V (buf : list V) a s sh i,
  wf buf a -> nonneg_strides a -> a_shape a = s :: sh -> (Z.of_nat s <= isize_max)%Z ->
  (- Z.of_nat s <= i < Z.of_nat s)%Z ->
  exists a', getitem_int a i = Ok a' /\
    is_view buf a a' sh (cons (Z.to_nat (if (i <? 0)%Z then i + Z.of_nat s else i))).
Proof. intros V buf a s sh i. exact (getitem_int_spec buf a s sh i). Qed.

(* more indices than axes is always an error *)
Definition item_consumes (it : item) : bool := match it with NewAxis => false | _ => true end.
Lemma slice_axis_ndim a axis b e st a' : slice_axis a axis b e st = Ok a' -> ndim a' = ndim a.
Proof.
  unfold slice_axis. destruct (nth_error (a_strides a) axis); [|discriminate].
  destruct (nth_error (a_shape a) axis); [|discriminate].
  destruct (slice_len b e st); cbn [bind]; try discriminate. intros H; injection H as <-.
  unfold ndim. cbn. apply upd_length.
Qed.
Lemma apply_items_rank items : forall a axis sq r,
  axis <= ndim a -> apply_items items a axis sq = Ok r ->
  axis + length (filter item_consumes items) <= ndim a.
Proof.
  induction items as [|it items IH]; intros a axis sq r HA H; cbn [filter length]; [lia|].
  destruct it as [|i|b e st]; cbn [apply_items item_consumes] in *.
  - unfold expand_dims in H. destruct (Nat.ltb_spec (ndim a) axis); [lia|]. cbn [bind] in H.
    apply IH in H; unfold ndim in *; cbn in *; rewrite insert_at_length in * by lia; lia.
  - destruct (nth_error (a_shape a) axis) eqn:E; [|discriminate].
    assert (axis < ndim a) by (apply nth_error_Some; rewrite E; discriminate).
    destruct (slice_axis a axis _ _ _) as [a1| | |] eqn:E1; cbn [bind] in H; try discriminate.
    apply slice_axis_ndim in E1. apply IH in H; [|lia]. cbn [length]. lia.
  - destruct (nth_error (a_shape a) axis) eqn:E; [|discriminate].
    assert (axis < ndim a) by (apply nth_error_Some; rewrite E; discriminate).
    destruct (normalize_slice _ _ _ _) as [b' e'].
    destruct (slice_axis a axis _ _ _) as [a1| | |] eqn:E1; cbn [bind] in H; try discriminate.
    apply slice_axis_ndim in E1. apply IH in H; [|lia]. cbn [length]. lia.
Qed.
Lemma expand_items_consumes n ks items :
  expand_items n ks = Ok items -> length (filter consumes ks) <= length (filter item_consumes items).
Proof.
  revert items; induction ks as [|k ks IH]; intros items H; cbn [expand_items] in H; [cbn; lia|].
  destruct k as [|i|b e st|]; cbn [bind filter consumes length] in *.
  - destruct (expand_items n ks) as [r| | |]; cbn [bind] in H; try discriminate. injection H as <-.
    cbn. apply IH; reflexivity.
  - destruct (fits_isize i); cbn [bind] in H; [|discriminate].
    destruct (expand_items n ks) as [r| | |]; cbn [bind] in H; try discriminate. injection H as <-.
    specialize (IH r eq_refl). cbn. lia.
  - destruct (expand_items n ks) as [r| | |]; cbn [bind] in H; try discriminate. injection H as <-.
    specialize (IH r eq_refl). cbn. lia.
  - destruct (expand_items n ks) as [r| | |]; cbn [bind] in H; try discriminate. injection H as <-.
    specialize (IH r eq_refl). rewrite filter_app, app_length. lia.
Qed.
Lemma filter_len {A} (f : A -> bool) l : length (filter f l) <= length l.
Proof. induction l as [|x l IH]; cbn; [lia|]. destruct (f x); cbn; lia. Qed.
Theorem C14_too_many_indices : forall V (buf : list V) a ks g,
  length (a_shape a) < length (filter consumes ks) -> getitem_tuple buf a ks <> Ok g.
Proof.
  intros V buf a ks g H E. unfold getitem_tuple in E.
  destruct (expand_ellipsis ks (ndim a)) as [items| | |] eqn:E1; cbn [bind] in E; try discriminate.
  unfold expand_ellipsis in E1. destruct (1 <? _); [discriminate|]. destruct (_ && _); [discriminate|].
  apply expand_items_consumes in E1.
  destruct ((length items =? ndim a) && _) eqn:E2.
  - apply andb_true_iff in E2 as [E2 _]. apply Nat.eqb_eq in E2.
    pose proof (filter_len item_consumes items). unfold ndim in *. lia.
  - destruct (apply_items items a 0 []) as [r| | |] eqn:E3; cbn [bind] in E; try discriminate.
    apply apply_items_rank in E3; [|lia]. unfold ndim in *. lia.
Qed.

(* x[i] = v out of range never writes *)
Theorem C14_set_element : forall V (buf : list V) a idx v,
  wf buf a ->
  (inb idx (a_shape a) ->
   exists buf', set_element buf a idx v = Ok buf' /\ length buf' = length buf /\ get buf' a idx = Some v) /\
  (~ inb idx (a_shape a) -> set_element buf a idx v = Panic).
Proof.
  intros V buf a idx v W. unfold set_element. split; intros H.
  - rewrite (proj2 (idx_ok_iff _ _) H). pose proof W as (W1 & _ & _ & _ & W5 & _).
    destruct (W5 idx H) as [w Hw]. destruct (store_ok buf (a_item a) _ w v W1 Hw) as (buf' & E & L & G).
    exists buf'. split; [exact E|]. split; [exact L|]. unfold get. rewrite G, Z.eqb_refl. reflexivity.
  - destruct (idx_ok idx (a_shape a)) eqn:E; [|reflexivity]. exfalso. apply H. apply idx_ok_iff; exact E.
Qed.

(* x[3] on three elements: a 0-d array outside the buffer *)
Theorem C14_single_integer_refuted : exists (buf : list nat) a a',
  wf buf a /\ a_shape a = [3] /\ getitem_int a 3 = Ok a' /\ a_shape a' = [] /\ get buf a' [] = None.
Proof.
  exists [7; 8; 9], (fresh [3] 8). eexists.
  split; [apply fresh_wf; [lia|cbn; lia|reflexivity]|]. split; [reflexivity|].
  split; [vm_compute; reflexivity|]. split; reflexivity.
Qed.
(* x[0:1, 5] on a 2x3 array: an element of the other row *)
Theorem C14_mixed_tuple_refuted : exists (buf : list nat) a ks a',
  wf buf a /\ a_shape a = [2; 3] /\ sel_shape ks (a_shape a) = None /\
  getitem_tuple buf a ks = Ok (View a') /\ a_shape a' = [1] /\ get buf a' [0] = get buf a [1; 2].
Proof.
  exists (seq 0 6), (fresh [2; 3] 8), [SSlice (Some 0%Z) (Some 1%Z) 1%Z; SInt 5%Z]. eexists.
  split; [apply fresh_wf; [lia|cbn; lia|reflexivity]|]. split; [reflexivity|]. split; [reflexivity|].
  split; [vm_compute; reflexivity|]. split; reflexivity.
Qed.
(* x[0:1, 5] = 99 on a 2x3 array overwrites an element of the other row *)
Theorem C14_assignment_refuted : exists (buf buf' : list nat) a ks a',
  wf buf a /\ a_shape a = [2; 3] /\ set_shape ks (a_shape a) = None /\
  setitem_view ks a 0 = Ok a' /\ fill_scalar buf a' 99 = Ok buf' /\ get buf' a [1; 2] = Some 99.
Proof.
  exists (seq 0 6). eexists. exists (fresh [2; 3] 8), [SSlice (Some 0%Z) (Some 1%Z) 1%Z; SInt 5%Z]. eexists.
  split; [apply fresh_wf; [lia|cbn; lia|reflexivity]|]. split; [reflexivity|]. split; [reflexivity|].
  split; [vm_compute; reflexivity|]. split; [vm_compute; reflexivity|reflexivity].
Qed.
Example C14_nonvacuous :
  getitem_tuple (seq 0 6) (fresh [2; 3] 8) [SInt (-1)%Z; SInt 1%Z] = Ok (Scalar 4) /\
  getitem_tuple (seq 0 6) (fresh [2; 3] 8) [SInt (-3)%Z; SInt 1%Z] = Panic /\
  getitem_tuple (seq 0 6) (fresh [2; 3] 8) [SInt 0%Z; SInt 1%Z; SInt 0%Z] = Err.
Proof. repeat split. Qed.

(* ---------------- C15 ---------------- *)
(* x[dst] = x[src]: exact whenever no cell is read after it was written.  Missing:
   the remaining overlaps (refuted below).  conv is the element's round trip
   through f64. *)
Theorem C15_assign_partial : forall V (conv : V -> V) (buf : list V) dst src,
  wf buf dst -> wf buf src -> a_item dst = a_item src -> a_shape dst = a_shape src ->
  injective dst -> no_late_read dst src ->
  exists buf', fill_array conv buf dst src = Ok buf' /\ length buf' = length buf /\
    (forall i, inb i (a_shape dst) -> get buf' dst i = option_map conv (get buf src i)) /\
    (forall ad, (forall i, inb i (a_shape dst) -> addr dst i <> ad) ->
       load buf' (a_item dst) ad = load buf (a_item dst) ad).
Proof.
  intros V conv buf dst src WD WS EI ESH HJ HR.
  destruct (fill_array_safe conv buf dst src WD WS EI ESH) as (buf' & E & L & G1 & G2).
  exists buf'. auto.
Qed.
(* ... in particular for views that share no cell *)
Theorem C15_assign_disjoint : forall V (conv : V -> V) (buf : list V) dst src,
  wf buf dst -> wf buf src -> a_item dst = a_item src -> a_shape dst = a_shape src ->
  injective dst ->
  (forall i j, inb i (a_shape dst) -> inb j (a_shape src) -> addr dst i <> addr src j) ->
  exists buf', fill_array conv buf dst src = Ok buf' /\
    (forall i, inb i (a_shape dst) -> get buf' dst i = option_map conv (get buf src i)) /\
    (forall j, inb j (a_shape src) -> get buf' src j = get buf src j).
Proof.
  intros V conv buf dst src WD WS EI ESH HJ HD.
  destruct (C15_assign_partial V conv buf dst src WD WS EI ESH HJ) as (buf' & E & L & G1 & G2).
  { intros i j Hi Hj _. apply HD; [exact Hi|rewrite <- ESH; exact Hj]. }
  exists buf'. split; [exact E|]. split; [exact G1|]. intros j Hj. unfold get. rewrite <- EI. apply G2.
  intros i Hi. apply HD; assumption.
Qed.
(* whatever the overlap, assignment between well-formed views stays inside the
   buffer and changes no cell outside the destination *)
Theorem C15_assign_safe : forall V (conv : V -> V) (buf : list V) dst src,
  wf buf dst -> wf buf src -> a_item dst = a_item src -> a_shape dst = a_shape src ->
  exists buf', fill_array conv buf dst src = Ok buf' /\ length buf' = length buf /\
    (forall ad, (forall i, inb i (a_shape dst) -> addr dst i <> ad) ->
       load buf' (a_item dst) ad = load buf (a_item dst) ad).
Proof.
  intros V conv buf dst src WD WS EI ESH.
  destruct (fill_array_safe conv buf dst src WD WS EI ESH) as (buf' & E & L & G1 & _).
  exists buf'. auto.
Qed.
(* x[dst] = scalar *)
Theorem C15_assign_scalar : forall V (buf : list V) dst v,
  wf buf dst ->
  exists buf', fill_scalar buf dst v = Ok buf' /\ length buf' = length buf /\
    (forall i, inb i (a_shape dst) -> get buf' dst i = Some v) /\
    (forall ad, (forall i, inb i (a_shape dst) -> addr dst i <> ad) ->
       load buf' (a_item dst) ad = load buf (a_item dst) ad).
Proof.
  intros V buf dst v W. destruct (fill_scalar_safe buf dst v W) as (buf' & E & L & G1 & G2).
  exists buf'. auto.
Qed.
(* a[1:] = a[:-1] copies the first element everywhere *)
Theorem C15_overlap_refuted : exists (buf buf' : list nat) a dst src i,
  wf buf a /\ getitem_slice a (Some 1%Z) None 1 = Ok dst /\ getitem_slice a None (Some (-1)%Z) 1 = Ok src /\
  a_shape dst = a_shape src /\ fill_array (fun v => v) buf dst src = Ok buf' /\
  inb i (a_shape dst) /\ get buf' dst i <> get buf src i.
Proof.
  exists [7; 8; 9]. eexists. exists (fresh [3] 8). eexists. eexists. exists [1].
  split; [apply fresh_wf; [lia|cbn; lia|reflexivity]|].
  split; [vm_compute; reflexivity|]. split; [vm_compute; reflexivity|]. split; [reflexivity|].
  split; [vm_compute; reflexivity|]. split; [repeat constructor|vm_compute; discriminate].
Qed.
(* a[:-1] = a[1:] is within the partial theorem *)
Example C15_nonvacuous : exists dst src buf',
  getitem_slice (fresh [4] 8) None (Some (-1)%Z) 1 = Ok dst /\
  getitem_slice (fresh [4] 8) (Some 1%Z) None 1 = Ok src /\
  injective dst /\ no_late_read dst src /\
  fill_array (fun v => v) [6; 7; 8; 9] dst src = Ok buf' /\ buf' = [7; 8; 9; 9].
Proof.
  eexists. eexists. eexists. split; [vm_compute; reflexivity|]. split; [vm_compute; reflexivity|].
  assert (S1 : forall i, inb i [3] -> exists x, i = [x]).
  { intros i H. inversion H as [|x ? r ? Hx Hr]; subst. inversion Hr; subst. exists x; reflexivity. }
  split; [|split; [|split; [vm_compute; reflexivity|reflexivity]]].
  - intros i j Hi Hj E. destruct (S1 i Hi) as [x ->]. destruct (S1 j Hj) as [y ->].
    unfold addr, byte_offset_for in E. cbn [a_off a_strides dot] in E. f_equal. lia.
  - intros i j Hi Hj Hr E. destruct (S1 i Hi) as [x ->]. destruct (S1 j Hj) as [y ->].
    unfold addr, byte_offset_for in E. cbn [a_off a_strides dot] in E. cbn in Hr. lia.
Qed.

(* ---------------- C64 ---------------- *)
(* reshape(..., -1, ...): accepted iff the other lengths multiply to a non-zero
   divisor of the size; then the number of elements is right.  Missing: known
   products of 2^64 and more, where the usize product wraps. *)
Theorem C64_infer_partial : forall pre post n,
  Forall (fun d => 0 <= d)%Z pre -> Forall (fun d => 0 <= d)%Z post ->
  (zprod pre * zprod post < 2 ^ 64)%Z ->
  let known := (zprod pre * zprod post)%Z in
  if ((0 <? known) && (Z.of_nat n mod known =? 0))%Z
  then exists m, resolve_reshape_shape (pre ++ (-1)%Z :: post) n
                 = Ok (map Z.to_nat pre ++ m :: map Z.to_nat post) /\
       prod (map Z.to_nat pre ++ m :: map Z.to_nat post) = n
  else resolve_reshape_shape (pre ++ (-1)%Z :: post) n = Err.
Proof.
  intros pre post n HP HQ HB known.
  pose proof (zprod_nonneg pre HP). pose proof (zprod_nonneg post HQ).
  assert (HK : (0 <= known)%Z) by (unfold known; nia).
  unfold resolve_reshape_shape.
  replace (scan_dims (pre ++ (-1)%Z :: post) 0 None 1) with
    (scan_dims (pre ++ (-1)%Z :: post) 0 None (wrap_usize 1)) by reflexivity.
  rewrite scan_dims_one by assumption. cbn [bind].
  rewrite Z.mul_1_l. fold known. unfold wrap_usize, two64. rewrite (Z.mod_small known) by (unfold known in *; lia).
  cbn [Nat.add].
  destruct (Z.ltb_spec 0 known) as [HK0|HK0]; cbn [andb].
  - destruct (Z.eqb_spec known 0); [lia|].
    destruct (Z.eqb_spec (Z.of_nat n mod known) 0) as [EM|EM]; cbn [negb]; [|reflexivity].
    exists (Z.to_nat (Z.of_nat n / known)). split.
    + f_equal. rewrite map_app. cbn [map]. rewrite <- (map_length Z.to_nat pre). apply upd_mid.
    + apply Nat2Z.inj. rewrite prod_app. cbn [prod].
      rewrite !Nat2Z.inj_mul, !prod_to_nat by assumption.
      rewrite Z2Nat.id by (apply Z.div_pos; lia).
      pose proof (Z.div_mod (Z.of_nat n) known ltac:(lia)) as HD. rewrite EM in HD.
      unfold known in *. nia.
  - destruct (Z.eqb_spec known 0); [reflexivity|lia].
Qed.
(* the inferred length is the only one that fits *)
Theorem C64_unique : forall pre post n m m',
  (0 < prod (pre ++ post)) ->
  prod (pre ++ m :: post) = n -> prod (pre ++ m' :: post) = n -> m = m'.
Proof.
  intros pre post n m m' H0 H1 H2. rewrite prod_app in *. cbn [prod] in *. nia.
Qed.
(* no -1: passed on unchanged; two -1 or an entry below -1: rejected *)
Theorem C64_explicit : forall shape n,
  Forall (fun d => 0 <= d)%Z shape -> resolve_reshape_shape shape n = Ok (map Z.to_nat shape).
Proof.
  intros shape n H. unfold resolve_reshape_shape.
  replace (scan_dims shape 0 None 1) with (scan_dims shape 0 None (wrap_usize 1)) by reflexivity.
  rewrite scan_dims_known by exact H. reflexivity.
Qed.
Theorem C64_rejects : forall shape n,
  Exists (fun d => d < -1)%Z shape \/ 1 < length (filter (fun d => (d =? -1)%Z) shape) ->
  resolve_reshape_shape shape n = Err.
Proof.
  intros shape n H. unfold resolve_reshape_shape. rewrite scan_dims_err; [reflexivity|].
  destruct H as [H|H]; [left; exact H|right; lia].
Qed.
(* 274177 * 67280421310721 = 2^64 + 1: six elements become 6 * (2^64 + 1) *)
Theorem C64_overflow_refuted : exists shape r a',
  resolve_reshape_shape shape 6 = Ok r /\ reshape (fresh [6] 8) r = Ok a' /\
  (6 < Z.of_nat (prod r))%Z.
Proof.
  set (p := 274177%Z). set (q := 67280421310721%Z).
  exists [(-1)%Z; p; q], [6; Z.to_nat p; Z.to_nat q].
  assert (EP : Z.of_nat (prod [6; Z.to_nat p; Z.to_nat q]) = (6 * (p * q))%Z).
  { cbn [prod]. rewrite !Nat2Z.inj_mul, !Z2Nat.id by (unfold p, q; lia). lia. }
  eexists. split; [|split].
  - unfold resolve_reshape_shape.
    replace (scan_dims [(-1)%Z; p; q] 0 None 1) with (Ok (Some 0, 1%Z)) by (vm_compute; reflexivity).
    cbn [bind]. replace (1 =? 0)%Z with false by reflexivity.
    replace (Z.of_nat 6 mod 1 =? 0)%Z with true by reflexivity. cbn [negb].
    replace (Z.to_nat (Z.of_nat 6 / 1)) with 6 by reflexivity. reflexivity.
  - unfold reshape, usize_prod. rewrite EP.
    replace (wrap_usize (6 * (p * q))) with (wrap_usize (Z.of_nat (prod (a_shape (fresh [6] 8)))))
      by (vm_compute; reflexivity).
    rewrite Z.eqb_refl. cbn [negb fresh a_c andb]. reflexivity.
  - rewrite EP. unfold p, q. lia.
Qed.
Example C64_nonvacuous :
  resolve_reshape_shape [2; -1; 3]%Z 24 = Ok [2; 4; 3] /\ resolve_reshape_shape [5; -1]%Z 24 = Err /\
  resolve_reshape_shape [0; -1]%Z 0 = Err /\ resolve_reshape_shape [-1; -1]%Z 4 = Err.
Proof. repeat split. Qed.

(* ---------------- C65 ---------------- *)
(* x.flat[i] is element i of the row-major order; out of range is an error *)
Theorem C65_flat_index : forall V (buf : list V) a i,
  wf buf a ->
  ((- Z.of_nat (size a) <= i < Z.of_nat (size a))%Z ->
   exists v, flat_getitem buf a i = Ok v /\
     nth_error (map (get buf a) (all_idx (a_shape a)))
       (Z.to_nat (if (i <? 0)%Z then i + Z.of_nat (size a) else i)) = Some (Some v)) /\
  ((i < - Z.of_nat (size a) \/ Z.of_nat (size a) <= i)%Z -> flat_getitem buf a i = Err).
Proof. intros V buf a i W. exact (flat_getitem_spec buf a i W). Qed.
(* iterating x.flat lists the elements in row-major order *)
Theorem C65_flat_iterates : forall V (buf : list V) a,
  wf buf a ->
  exists vs, flat_iter buf a = Ok vs /\ map Some vs = map (get buf a) (all_idx (a_shape a)).
Proof. intros V buf a W. exact (flat_iter_spec buf a W). Qed.
Example C65_nonvacuous :
  flat_iter (seq 0 6) (transpose (fresh [2; 3] 8)) = Ok [0; 3; 1; 4; 2; 5] /\
  flat_getitem (seq 0 6) (transpose (fresh [2; 3] 8)) (-2) = Ok 2.
Proof. split; reflexivity. Qed.

Print Assumptions C13_tuple_partial.
Print Assumptions C13_forward_slices.
Print Assumptions C13_single_slice.
Print Assumptions C13_assignment_target.
Print Assumptions C13_start_beyond_end_refuted.
Print Assumptions C13_empty_axis_refuted.
Print Assumptions C13_huge_start_refuted.
Print Assumptions C13_start_before_begin_refuted.
Print Assumptions C13_slice_len_exact.
Print Assumptions C13_huge_step_refuted.
Print Assumptions C14_all_integers.
Print Assumptions C14_single_integer_partial.
Print Assumptions C14_too_many_indices.
Print Assumptions C14_set_element.
Print Assumptions C14_single_integer_refuted.
Print Assumptions C14_mixed_tuple_refuted.
Print Assumptions C14_assignment_refuted.
Print Assumptions C15_assign_partial.
Print Assumptions C15_assign_disjoint.
Print Assumptions C15_assign_safe.
Print Assumptions C15_assign_scalar.
Print Assumptions C15_overlap_refuted.
Print Assumptions C64_infer_partial.
Print Assumptions C64_unique.
Print Assumptions C64_explicit.
Print Assumptions C64_rejects.
Print Assumptions C64_overflow_refuted.
Print Assumptions C65_flat_index.
Print Assumptions C65_flat_iterates.
