(* C23-C31: reductions, cumulative operations, all/any, argmax/argmin. *)
From Coq Require Import Permutation.
From Verif Require Import Base Lists Arr_Spec Arr_Model Arr_Wf Arr_Proofs Copy_Model Copy_Proofs
  Elem_Model Elem_Proofs Int_Model Int_Proofs Int_Props F64_Model F64_Proofs Red_Spec Red_Model Red_Proofs Red_Scan.
Local Open Scope nat_scope.

(* [kernel_laws P init comb]: on the values satisfying P the kernel is an
   associative, commutative operation with identity init *)
Definition kernel_laws {T} (P : T -> Prop) (init : T) (comb : T -> T -> T) : Prop :=
  P init /\ (forall x y, P x -> P y -> P (comb x y)) /\
  (forall x y z, P x -> P y -> P z -> comb x (comb y z) = comb (comb x y) z) /\
  (forall x y, P x -> P y -> comb x y = comb y x) /\ (forall x, P x -> comb init x = x).

(* integer dtypes (everything but a one-bit signed integer) *)
Definition int_dtype (t : ity) : Prop := (0 < bits t)%Z /\ representable t 1.

Lemma int_laws t op : int_dtype t -> kernel_laws (representable t) (int_red_init t op) (int_red_comb t op).
Proof. intros [H1 H2]. apply int_red_laws; [exact H1|]. intros _. exact H2. Qed.

(* ---- C23 ------------------------------------------------------------------ *)

(* Eight accumulators and their tree: the same value as one left-to-right fold,
   for every length and every commutative monoid. *)
Theorem C23_lanes_invisible : forall {T} (P : T -> Prop) init comb (data : list T),
  kernel_laws P init comb -> Forall P data ->
  reduce8 init comb data = fold_left comb data init.
Proof. intros T P init comb data (L1 & L2 & L3 & L4 & L5) HF. apply (reduce8_fold init comb P); assumption. Qed.

(* ... so the result depends on the multiset of elements only *)
Theorem C23_order_independent : forall {T} (P : T -> Prop) init comb (d1 d2 : list T),
  kernel_laws P init comb -> Forall P d1 -> Permutation d1 d2 ->
  reduce8 init comb d1 = reduce8 init comb d2.
Proof.
  intros T P init comb d1 d2 (L1 & L2 & L3 & L4 & L5) HF HP.
  assert (HF2 : Forall P d2) by (eapply Permutation_Forall; eassumption).
  rewrite !(reduce8_fold init comb P) by assumption. rewrite !(fold_init_msum init comb P) by assumption.
  apply (msum_perm init comb P); assumption.
Qed.

(* a.sum(), a.prod(), a.max(), a.min() of an integer array, whatever its length,
   rank and layout.  The value handed to Python is a double: for dtypes up to 53
   bits (int8 .. uint32) it is the modular value itself; see C24 for 64 bits. *)
Lemma small_f64 t z : (bits t <= 53)%Z -> (0 < bits t)%Z -> representable t z -> f64_of_int z = z.
Proof.
  intros H1 H0 HR. apply f64_of_int_small. unfold representable, i_min, i_max in HR.
  assert (2 ^ bits t <= 2 ^ 53)%Z by (apply Z.pow_le_mono_r; lia).
  assert (2 ^ (bits t - 1) <= 2 ^ 53)%Z by (apply Z.pow_le_mono_r; lia).
  destruct (signed t); lia.
Qed.

Theorem C23_sum : forall t (buf : list Z) a vals, int_dtype t -> (bits t <= 53)%Z -> wf buf a ->
  elems buf a = map Some vals -> Forall (representable t) vals ->
  int_reduce_scalar t RSum buf a = Ok (wrap t (zsum vals)).
Proof.
  intros t buf a vals [HT H1] HB W E HF. rewrite (int_reduce_scalar_spec t HT RSum buf a vals) by (assumption || intros _; assumption).
  rewrite (fold_sum t HT) by (unfold representable; pose proof (i_bounds t HT); cbn [int_red_init]; lia).
  cbn [int_red_init]. rewrite Z.add_0_l. apply (f_equal Ok), (small_f64 t); [exact HB|exact HT|apply wrap_rep; exact HT].
Qed.
Theorem C23_prod : forall t (buf : list Z) a vals, int_dtype t -> (bits t <= 53)%Z -> wf buf a ->
  elems buf a = map Some vals -> Forall (representable t) vals ->
  int_reduce_scalar t RProd buf a = Ok (wrap t (zprod vals)).
Proof.
  intros t buf a vals [HT H1] HB W E HF. rewrite (int_reduce_scalar_spec t HT RProd buf a vals) by (assumption || intros _; assumption).
  rewrite (fold_prod t HT) by exact H1.
  cbn [int_red_init]. rewrite Z.mul_1_l. apply (f_equal Ok), (small_f64 t); [exact HB|exact HT|apply wrap_rep; exact HT].
Qed.
Theorem C23_max : forall t (buf : list Z) a vals, int_dtype t -> (bits t <= 53)%Z -> wf buf a ->
  elems buf a = map Some vals -> Forall (representable t) vals -> vals <> [] ->
  exists m, int_reduce_scalar t RMax buf a = Ok m /\ is_max vals m.
Proof.
  intros t buf a vals [HT H1] HB W E HF HN. rewrite (int_reduce_scalar_spec t HT RMax buf a vals) by (assumption || intros _; assumption).
  rewrite (small_f64 t); [|exact HB|exact HT|apply fold_rep; [exact HT|intros _; exact H1|exact HF]].
  eexists; split; [reflexivity|]. apply (fold_init_max t); assumption.
Qed.
Theorem C23_min : forall t (buf : list Z) a vals, int_dtype t -> (bits t <= 53)%Z -> wf buf a ->
  elems buf a = map Some vals -> Forall (representable t) vals -> vals <> [] ->
  exists m, int_reduce_scalar t RMin buf a = Ok m /\ is_min vals m.
Proof.
  intros t buf a vals [HT H1] HB W E HF HN. rewrite (int_reduce_scalar_spec t HT RMin buf a vals) by (assumption || intros _; assumption).
  rewrite (small_f64 t); [|exact HB|exact HT|apply fold_rep; [exact HT|intros _; exact H1|exact HF]].
  eexists; split; [reflexivity|]. apply (fold_init_min t); assumption.
Qed.

(* Any two arrays (layouts, ranks, buffers) with the same elements up to order
   reduce to the same value, at every width. *)
Theorem C23_layout : forall t op (buf : list Z) a vals (buf2 : list Z) a2 vals2, int_dtype t ->
  wf buf a -> wf buf2 a2 -> elems buf a = map Some vals -> elems buf2 a2 = map Some vals2 ->
  Forall (representable t) vals -> Permutation vals vals2 ->
  int_reduce_scalar t op buf a = int_reduce_scalar t op buf2 a2.
Proof.
  intros t op buf a vals buf2 a2 vals2 HD W W2 E E2 HF HP. pose proof HD as [HT H1].
  assert (HF2 : Forall (representable t) vals2) by (eapply Permutation_Forall; eassumption).
  rewrite (int_reduce_scalar_spec t HT op buf a vals), (int_reduce_scalar_spec t HT op buf2 a2 vals2)
    by (assumption || intros _; assumption).
  rewrite <- !(int_reduce8 t HT op) by (assumption || intros _; assumption).
  do 2 f_equal. apply (C23_order_independent (representable t)); [apply int_laws; exact HD|exact HF|exact HP].
Qed.

Example C23_nonvacuous :
  int_dtype int8 /\
  int_reduce_scalar int8 RSum [100; 100; 3; 4; 5; 6; 7; 8; 9; 10]%Z (fresh [10] 1) = Ok (-4)%Z /\
  int_reduce_scalar int8 RMax [100; 127; 3; 4; 5; 6; 7; 8; 9; 10]%Z (mkArr 9 [5] [-2]%Z 1 false false) = Ok 127%Z /\
  int_reduce_scalar int8 RProd [1; 2; 3; 4; 5; 6]%Z (mkArr 0 [3; 2] [1; 3]%Z 1 false true) = Ok (-48)%Z.
Proof. split; [split; [reflexivity|split; intros H; discriminate H]|]. repeat split; vm_compute; reflexivity. Qed.

(* ---- C24 ------------------------------------------------------------------ *)

(* the double returned is the nearest double to the modular value, and the value
   itself when that is at most 2^53 in absolute value *)
Theorem C24_sum_partial : forall t (buf : list Z) a vals, int_dtype t -> wf buf a ->
  elems buf a = map Some vals -> Forall (representable t) vals ->
  exists r, int_reduce_scalar t RSum buf a = Ok r /\ double_int r /\
    (forall d, double_int d -> Z.abs (wrap t (zsum vals) - r) <= Z.abs (wrap t (zsum vals) - d))%Z /\
    (representable t (zsum vals) -> (Z.abs (zsum vals) <= 2 ^ 53)%Z -> r = zsum vals).
Proof.
  intros t buf a vals [HT H1] W E HF. rewrite (int_reduce_scalar_spec t HT RSum buf a vals) by (assumption || intros _; assumption).
  rewrite (fold_sum t HT) by (unfold representable; pose proof (i_bounds t HT); cbn [int_red_init]; lia).
  cbn [int_red_init]. rewrite Z.add_0_l. eexists; split; [reflexivity|]. split; [apply f64_of_int_double|].
  split; [intros d Hd; apply f64_of_int_nearest; exact Hd|].
  intros HR HS. rewrite wrap_id by assumption. apply f64_of_int_small; exact HS.
Qed.
Theorem C24_max_partial : forall t (buf : list Z) a vals, int_dtype t -> wf buf a ->
  elems buf a = map Some vals -> Forall (representable t) vals -> vals <> [] ->
  exists m, is_max vals m /\ int_reduce_scalar t RMax buf a = Ok (f64_of_int m) /\
    ((Z.abs m <= 2 ^ 53)%Z -> int_reduce_scalar t RMax buf a = Ok m).
Proof.
  intros t buf a vals [HT H1] W E HF HN. rewrite (int_reduce_scalar_spec t HT RMax buf a vals) by (assumption || intros _; assumption).
  eexists. split; [apply (fold_init_max t); assumption|]. split; [reflexivity|].
  intros H. rewrite f64_of_int_small by exact H. reflexivity.
Qed.
Theorem C24_min_partial : forall t (buf : list Z) a vals, int_dtype t -> wf buf a ->
  elems buf a = map Some vals -> Forall (representable t) vals -> vals <> [] ->
  exists m, is_min vals m /\ int_reduce_scalar t RMin buf a = Ok (f64_of_int m) /\
    ((Z.abs m <= 2 ^ 53)%Z -> int_reduce_scalar t RMin buf a = Ok m).
Proof.
  intros t buf a vals [HT H1] W E HF HN. rewrite (int_reduce_scalar_spec t HT RMin buf a vals) by (assumption || intros _; assumption).
  eexists. split; [apply (fold_init_min t); assumption|]. split; [reflexivity|].
  intros H. rewrite f64_of_int_small by exact H. reflexivity.
Qed.
(* int64 [2^53, 1]: the sum 2^53+1 comes back as 2^53; max of [2^53+1] likewise *)
Theorem C24_exact_refuted :
  exists buf a vals, wf buf a /\ elems buf a = map Some vals /\ Forall (representable int64) vals /\
    representable int64 (zsum vals) /\ int_reduce_scalar int64 RSum buf a <> Ok (zsum vals).
Proof.
  exists [2 ^ 53; 1]%Z, (fresh [2] 8), [2 ^ 53; 1]%Z.
  split; [apply fresh_wf; reflexivity|]. split; [reflexivity|].
  split; [apply Forall_cons; [|apply Forall_cons; [|constructor]]; split; intros H; discriminate H|].
  split; [split; intros H; discriminate H|]. vm_compute. discriminate.
Qed.
Theorem C24_max_refuted :
  int_reduce_scalar int64 RMax [2 ^ 53 + 1]%Z (fresh [1] 8) = Ok (2 ^ 53)%Z.
Proof. vm_compute. reflexivity. Qed.
Example C24_nonvacuous :
  int_reduce_scalar int64 RSum [2 ^ 52; 7; -9]%Z (fresh [3] 8) = Ok (2 ^ 52 - 2)%Z.
Proof. vm_compute. reflexivity. Qed.

(* ---- C25 ------------------------------------------------------------------ *)

Definition sum_squares {T} (zero : T) (add mul : T -> T -> T) (l : list T) : T :=
  fold_left (fun acc v => add acc (mul v v)) l zero.

(* correct for fewer than eight elements, C-contiguous or at most 1-D *)
Theorem C25_norm_partial : forall {T} (zero : T) add mul buf a vals, wf buf a ->
  elems buf a = map Some vals -> length vals < 8 -> a_c a = true \/ ndim a <= 1 ->
  sum_of_squares zero add mul buf a = Ok (sum_squares zero add mul vals).
Proof.
  intros T zero add mul buf a vals W E HL HP. unfold sum_of_squares.
  rewrite (dispatch_reduce_spec _ _ buf a vals W E). cbn [bind].
  replace ((size a =? 0) || a_c a || (ndim a <=? 1)) with true.
  - rewrite reduce8_short by exact HL. reflexivity.
  - destruct HP as [->|H]; [rewrite Bool.orb_true_r; reflexivity|].
    apply Nat.leb_le in H. rewrite H, Bool.orb_true_r. reflexivity.
Qed.
(* From eight elements on the partial sums are squared again: norm of eight ones
   is sqrt 42.  A non-contiguous matrix has norm 0. *)
Theorem C25_norm_long_refuted :
  sum_of_squares 0%Z Z.add Z.mul (repeat 1%Z 8) (fresh [8] 8) = Ok 42%Z /\
  sum_squares 0%Z Z.add Z.mul (repeat 1%Z 8) = 8%Z.
Proof. split; vm_compute; reflexivity. Qed.
Theorem C25_norm_transposed_refuted :
  sum_of_squares 0%Z Z.add Z.mul [3; 4; 5; 6]%Z (mkArr 0 [2; 2] [8; 16]%Z 8 false true) = Ok 0%Z /\
  elems [3; 4; 5; 6]%Z (mkArr 0 [2; 2] [8; 16]%Z 8 false true) = map Some [3; 5; 4; 6]%Z.
Proof. split; vm_compute; reflexivity. Qed.
(* every non-contiguous array of two or more dimensions has norm 0 *)
Theorem C25_norm_strided_refuted : forall {T} (zero : T) add mul buf a, wf buf a ->
  a_c a = false -> 2 <= ndim a ->
  sum_of_squares zero add mul buf a = Ok zero.
Proof.
  intros T zero add mul buf a W Hc Hd. destruct (wf_elems buf a W) as (vals & E & _).
  unfold sum_of_squares. rewrite (dispatch_reduce_spec _ _ buf a vals W E). cbn [bind]. rewrite Hc.
  destruct (Nat.leb_spec (ndim a) 1); [lia|]. destruct (Nat.eqb_spec (size a) 0) as [H0|H0]; [|reflexivity].
  rewrite (elems_nil buf a vals E H0). reflexivity.
Qed.
Example C25_nonvacuous :
  sum_of_squares 0%Z Z.add Z.mul [3; 4; 5; 6]%Z (fresh [2; 2] 8) = Ok 86%Z.
Proof. vm_compute. reflexivity. Qed.

(* ---- C26 ------------------------------------------------------------------ *)

(* Entry idx of the result is computed from exactly the values of the lane at
   idx, in order: either by the eight-lane reduction or by a plain fold.  Any
   kernel, floating point included; any axis, shape and layout. *)
Theorem C26_lanes_only : forall {T} init comb (buf : list T) a axis n, wf buf a ->
  nth_error (a_shape a) axis = Some n ->
  exists out R, (R = reduce8 init comb \/ R = fun d => fold_left comb d init) /\
    dispatch_reduce_axis init comb buf a axis = Ok (reduced_shape axis (a_shape a), out) /\
    length out = prod (reduced_shape axis (a_shape a)) /\
    forall idx lv, inb idx (reduced_shape axis (a_shape a)) ->
      lane buf a axis (outer_of (a_shape a) idx) = map Some lv ->
      get out (fresh (reduced_shape axis (a_shape a)) (a_item a)) idx = Some (R lv).
Proof.
  intros T init comb buf a axis n W Hn. destruct (lanes_exist buf a axis n W Hn) as [L EL].
  destruct (dispatch_reduce_axis_spec init comb buf a axis n L W Hn EL) as (R & HR & E).
  exists (map R L), R. split; [exact HR|]. split; [exact E|].
  split; [rewrite map_length, prod_reduced; apply (lanes_length buf a axis L EL)|].
  intros idx lv Hi Hlv. destruct W as (HI & _). apply (lanes_get buf a axis n L R (a_item a) idx lv); assumption.
Qed.

(* With an associative, commutative kernel: the fold of the lane, whichever of
   the three traversals the code picks; an empty lane gives the identity. *)
Theorem C26_axis_fold : forall {T} (P : T -> Prop) init comb (buf : list T) a axis n,
  kernel_laws P init comb -> wf buf a -> nth_error (a_shape a) axis = Some n ->
  (forall idx v, inb idx (a_shape a) -> get buf a idx = Some v -> P v) ->
  exists out, dispatch_reduce_axis init comb buf a axis = Ok (reduced_shape axis (a_shape a), out) /\
    length out = prod (reduced_shape axis (a_shape a)) /\
    forall idx lv, inb idx (reduced_shape axis (a_shape a)) ->
      lane buf a axis (outer_of (a_shape a) idx) = map Some lv ->
      get out (fresh (reduced_shape axis (a_shape a)) (a_item a)) idx = Some (fold_left comb lv init).
Proof.
  intros T P init comb buf a axis n HK W Hn HP.
  destruct (C26_lanes_only init comb buf a axis n W Hn) as (out & R & HR & E & HL & HG).
  exists out. split; [exact E|]. split; [exact HL|]. intros idx lv Hi Hlv. rewrite (HG idx lv Hi Hlv).
  destruct HR as [->| ->]; [|reflexivity]. f_equal. apply (C23_lanes_invisible P); [exact HK|].
  apply Forall_forall. intros v Hv. apply In_nth_error in Hv as [j Hj].
  destruct (outer_of_inb axis (a_shape a) n idx Hn Hi) as [Ho _].
  assert (Hjn : j < n).
  { pose proof (lane_length buf a axis (outer_of (a_shape a) idx)) as LL. rewrite Hlv, map_length in LL.
    rewrite (nth_error_nth _ _ 0 Hn) in LL. rewrite <- LL. apply nth_error_Some. congruence. }
  apply (HP (insert_at axis j (outer_of (a_shape a) idx)) v); [apply (lane_inb _ _ _ _ n); assumption|].
  apply (f_equal (fun l => nth_error l j)) in Hlv. unfold lane in Hlv.
  rewrite (nth_error_nth _ _ 0 Hn), !nth_error_map', Hj, nth_error_seq in Hlv.
  destruct (Nat.ltb_spec j n); [|lia]. cbn [option_map Nat.add] in Hlv. injection Hlv as Hlv. exact Hlv.
Qed.

(* a.sum(axis) and a.prod(axis) of an integer array: the exact modular value *)
Theorem C26_int_sum : forall t (buf : list Z) a axis n, int_dtype t -> wf buf a ->
  nth_error (a_shape a) axis = Some n ->
  (forall idx v, inb idx (a_shape a) -> get buf a idx = Some v -> representable t v) ->
  exists out, int_reduce_axis t RSum buf a axis = Ok (reduced_shape axis (a_shape a), out) /\
    forall idx lv, inb idx (reduced_shape axis (a_shape a)) ->
      lane buf a axis (outer_of (a_shape a) idx) = map Some lv ->
      get out (fresh (reduced_shape axis (a_shape a)) (a_item a)) idx = Some (wrap t (zsum lv)).
Proof.
  intros t buf a axis n HD W Hn HR. pose proof HD as [HT _].
  destruct (C26_axis_fold (representable t) _ _ buf a axis n (int_laws t RSum HD) W Hn HR) as (out & E & _ & HG).
  exists out. split; [exact E|]. intros idx lv Hi Hlv. rewrite (HG idx lv Hi Hlv).
  rewrite (fold_sum t HT) by (unfold representable; pose proof (i_bounds t HT); cbn [int_red_init]; lia).
  cbn [int_red_init]. rewrite Z.add_0_l. reflexivity.
Qed.
Theorem C26_int_max : forall t (buf : list Z) a axis n, int_dtype t -> wf buf a ->
  nth_error (a_shape a) axis = Some n -> 0 < n ->
  (forall idx v, inb idx (a_shape a) -> get buf a idx = Some v -> representable t v) ->
  exists out, int_reduce_axis t RMax buf a axis = Ok (reduced_shape axis (a_shape a), out) /\
    forall idx lv, inb idx (reduced_shape axis (a_shape a)) ->
      lane buf a axis (outer_of (a_shape a) idx) = map Some lv -> Forall (representable t) lv ->
      exists m, get out (fresh (reduced_shape axis (a_shape a)) (a_item a)) idx = Some m /\ is_max lv m.
Proof.
  intros t buf a axis n HD W Hn Hp HR. pose proof HD as [HT _].
  destruct (C26_axis_fold (representable t) _ _ buf a axis n (int_laws t RMax HD) W Hn HR) as (out & E & _ & HG).
  exists out. split; [exact E|]. intros idx lv Hi Hlv HF. rewrite (HG idx lv Hi Hlv).
  eexists; split; [reflexivity|]. apply (fold_init_max t); [|exact HF].
  apply (f_equal (@length _)) in Hlv. rewrite lane_length, map_length, (nth_error_nth _ _ 0 Hn) in Hlv.
  destruct lv; [simpl in Hlv; lia|discriminate].
Qed.

(* bool and datetime reductions (registry / trait loops): same, for non-empty lanes *)
Theorem C26_trait_partial : forall {T} init comb zero (buf : list T) a axis n, wf buf a ->
  nth_error (a_shape a) axis = Some n -> 0 < n ->
  exists out, trait_reduce_axis init comb buf zero a axis = Ok (reduced_shape axis (a_shape a), out) /\
    forall idx lv, inb idx (reduced_shape axis (a_shape a)) ->
      lane buf a axis (outer_of (a_shape a) idx) = map Some lv ->
      get out (fresh (reduced_shape axis (a_shape a)) (a_item a)) idx = Some (fold_left comb lv init).
Proof.
  intros T init comb zero buf a axis n W Hn Hp. destruct (lanes_exist buf a axis n W Hn) as [L EL].
  eexists. split; [apply (trait_reduce_axis_spec init comb zero buf a axis n L W Hn Hp EL)|].
  intros idx lv Hi Hlv. destruct W as (HI & _).
  apply (lanes_get buf a axis n L (fun d => fold_left comb d init) (a_item a) idx lv); assumption.
Qed.
(* prod of a (2, 0) bool array along axis 1: False instead of the empty product *)
Theorem C26_trait_empty_refuted :
  trait_reduce_axis true andb [] false (fresh [2; 0] 1) 1 = Ok ([2], [false; false]).
Proof. vm_compute. reflexivity. Qed.

Example C26_nonvacuous :
  (* contiguous axis, row-major and strided traversals of the same 2x3 matrix *)
  int_reduce_axis int64 RSum [1; 2; 3; 4; 5; 6]%Z (fresh [2; 3] 8) 1 = Ok ([2], [6; 15]%Z) /\
  int_reduce_axis int64 RSum [1; 2; 3; 4; 5; 6]%Z (fresh [2; 3] 8) 0 = Ok ([3], [5; 7; 9]%Z) /\
  int_reduce_axis int64 RSum [1; 4; 2; 5; 3; 6]%Z (mkArr 0 [2; 3] [8; 16]%Z 8 false true) 1 = Ok ([2], [6; 15]%Z) /\
  int_reduce_axis int64 RProd [] (fresh [2; 0] 8) 1 = Ok ([2], [1; 1]%Z) /\
  int_reduce_axis int64 RSum [5; 6]%Z (fresh [2] 8) 0 = Ok ([1], [11]%Z).
Proof. repeat split; vm_compute; reflexivity. Qed.

(* ---- C27 ------------------------------------------------------------------ *)

Theorem C27_keepdims_partial : forall {T} (out : list T) a axis n item, (0 < item)%Z ->
  (Z.of_nat (length out) * item < 2 ^ 63)%Z ->
  nth_error (a_shape a) axis = Some n -> 2 <= ndim a ->
  length out = prod (reduced_shape axis (a_shape a)) ->
  let '(buf', r) := keepdims_axis (reduced_shape axis (a_shape a)) out item axis in
  a_shape r = upd (a_shape a) axis 1 /\
  forall idx, inb idx (upd (a_shape a) axis 1) ->
    get buf' r idx = get out (fresh (reduced_shape axis (a_shape a)) item) (remove_at axis idx).
Proof.
  intros T out a axis n item HI HB Hn Hd HL. unfold keepdims_axis.
  assert (HA : axis < length (a_shape a)) by (apply nth_error_Some; congruence).
  assert (ES : reduced_shape axis (a_shape a) = remove_at axis (a_shape a)).
  { unfold reduced_shape. destruct (remove_at axis (a_shape a)) eqn:E; [|reflexivity].
    apply (f_equal (@length _)) in E. rewrite remove_at_length in E by exact HA. unfold ndim in Hd. simpl in E. lia. }
  rewrite ES in *. set (sh := remove_at axis (a_shape a)) in *.
  assert (LS : length sh = length (a_shape a) - 1) by (apply remove_at_length; exact HA).
  destruct (expand_dims_is_view out (fresh sh item) axis) as [H _]; [apply fresh_wf; assumption|].
  destruct H as (r & E & V1 & V2 & V3); [unfold ndim, fresh; cbn [a_shape]; lia|]. rewrite E.
  cbn [fresh a_shape] in V1, V3.
  assert (EI : insert_at axis 1 sh = upd (a_shape a) axis 1).
  { unfold sh. clear -Hn. revert axis Hn; induction (a_shape a) as [|s l IH]; intros [|k] H; try discriminate; cbn [remove_at insert_at upd nth_error] in *.
    - destruct l; reflexivity.
    - f_equal. apply IH, H. }
  rewrite EI in *. split; [exact V1|]. intros idx Hi. apply V3, Hi.
Qed.
(* a one-dimensional array: the reduced array already has one dimension, and
   keepdims adds another: shape (1, 1) *)
Theorem C27_keepdims_1d_refuted : forall {T} (v : T) n item,
  a_shape (snd (keepdims_axis (reduced_shape 0 [n]) [v] item 0)) = [1; 1].
Proof. reflexivity. Qed.
Theorem C27_keepdims_all : forall t a value,
  fst (keepdims_all t a value) = map (fun _ => 1) (a_shape a) /\ (representable t value -> snd (keepdims_all t a value) = [value]).
Proof.
  intros t a value. split.
  - cbn [keepdims_all fst]. unfold ndim. induction (a_shape a); cbn [repeat length map]; [reflexivity|]. f_equal; assumption.
  - intros HR. cbn [keepdims_all snd]. rewrite sat_id by exact HR. reflexivity.
Qed.
Example C27_nonvacuous :
  a_shape (snd (keepdims_axis (reduced_shape 1 [2; 3; 4]) (repeat 0%Z 8) 8 1)) = [2; 1; 4].
Proof. vm_compute. reflexivity. Qed.

(* ---- C28 ------------------------------------------------------------------ *)

(* cumsum/cumprod of the whole array: entry k folds elements 0..k in order *)
Theorem C28_flat : forall {T} init comb (buf : list T) a vals, wf buf a -> elems buf a = map Some vals ->
  exists out, cumulative_flat init comb buf a = Ok ([length vals], out) /\ length out = length vals /\
    forall k, k < length vals -> nth_error out k = Some (fold_left comb (firstn (S k) vals) init).
Proof.
  intros T init comb buf a vals W E. eexists. split; [apply cumulative_flat_spec; eassumption|].
  split; [apply cumulative_from_length|]. intros k Hk. apply cumulative_nth; exact Hk.
Qed.
(* along an axis: each lane independently, for every axis, shape and layout *)
Theorem C28_axis : forall {T} init comb zero (buf : list T) a axis n, wf buf a ->
  nth_error (a_shape a) axis = Some n ->
  exists out, cumulative_axis init comb buf zero a axis = Ok (a_shape a, out) /\
    length out = size a /\
    forall idx lv, inb idx (a_shape a) -> lane buf a axis (remove_at axis idx) = map Some lv ->
      get out (fresh (a_shape a) (a_item a)) idx =
        Some (fold_left comb (firstn (S (nth axis idx 0)) lv) init).
Proof. intros; eapply cumulative_axis_spec; eassumption. Qed.
(* the last entry is the sum *)
Theorem C28_last : forall t (buf : list Z) a vals, int_dtype t -> wf buf a ->
  elems buf a = map Some vals -> Forall (representable t) vals -> vals <> [] ->
  exists out, cumulative_flat (int_red_init t RSum) (int_red_comb t RSum) buf a = Ok ([length vals], out) /\
    nth_error out (length vals - 1) = Some (wrap t (zsum vals)).
Proof.
  intros t buf a vals [HT _] W E HF HN.
  destruct (C28_flat (int_red_init t RSum) (int_red_comb t RSum) buf a vals W E) as (out & E1 & _ & HG).
  exists out. split; [exact E1|].
  assert (0 < length vals) by (destruct vals; [congruence|simpl; lia]).
  rewrite HG by lia. replace (S (length vals - 1)) with (length vals) by lia. rewrite firstn_all.
  rewrite (fold_sum t HT) by (unfold representable; pose proof (i_bounds t HT); cbn [int_red_init]; lia).
  cbn [int_red_init]. rewrite Z.add_0_l. reflexivity.
Qed.
(* diff(cumsum(a)) = a[1:] for the flat cumsum, every integer dtype with a
   wrapping diff kernel ([kernel] = true: all but int8), overflow included *)
Theorem C28_diff_cumsum_partial : forall t (buf : list Z) a v vals out, int_dtype t -> wf buf a ->
  elems buf a = map Some (v :: vals) -> Forall (representable t) vals ->
  (Z.of_nat (length out) * a_item a < 2 ^ 63)%Z ->
  cumulative_flat (int_red_init t RSum) (int_red_comb t RSum) buf a = Ok ([length (v :: vals)], out) ->
  int_diff t true out (fresh [length (v :: vals)] (a_item a)) 0 = Ok ([length vals], vals).
Proof.
  intros t buf a v vals out [HT _] W E HF HB EC. rewrite (cumulative_flat_spec _ _ buf a (v :: vals) W E) in EC.
  assert (out = cumulative (int_red_init t RSum) (int_red_comb t RSum) (v :: vals)) as -> by congruence. clear EC.
  destruct W as (HI & _).
  set (c := cumulative (int_red_init t RSum) (int_red_comb t RSum) (v :: vals)) in *.
  assert (LC : length c = S (length vals)) by (unfold c, cumulative; rewrite cumulative_from_length; reflexivity).
  assert (WF : wf c (fresh [S (length vals)] (a_item a))) by (apply fresh_wf; [exact HI|exact HB|rewrite LC; cbn; lia]).
  cbn [length]. set (fr := fresh [S (length vals)] (a_item a)) in *.
  assert (FS : a_shape fr = [S (length vals)]) by reflexivity.
  assert (FI : a_item fr = a_item a) by reflexivity. assert (FC : a_c fr = true) by reflexivity.
  assert (FG : forall k, k < S (length vals) -> get c fr (unrank [S (length vals)] k) = nth_error c k).
  { intros k Hk. unfold fr. rewrite fresh_get by exact HI. rewrite rank_unrank by (cbn [prod]; lia). reflexivity. }
  clearbody fr.
  assert (EE : elems c fr = map Some c).
  { apply nth_error_ext. intros k. unfold elems. rewrite !nth_error_map', FS.
    destruct (Nat.lt_ge_cases k (S (length vals))) as [Hk|Hk].
    - rewrite nth_error_all_idx by (cbn [prod]; lia). cbn [option_map]. rewrite (FG k Hk).
      destruct (nth_error c k) eqn:Ek; [reflexivity|]. apply nth_error_None in Ek. lia.
    - assert (nth_error (all_idx [S (length vals)]) k = None) as -> by (apply nth_error_None; rewrite all_idx_length; cbn [prod]; lia).
      assert (nth_error c k = None) as -> by (apply nth_error_None; lia). reflexivity. }
  unfold int_diff. rewrite FS. cbn [at_ nth_error bind].
  destruct (Nat.leb_spec (S (length vals)) 1) as [H1|H1].
  { destruct vals; [reflexivity|simpl in H1; lia]. }
  cbn [upd Nat.sub]. rewrite Nat.sub_0_r.
  destruct (Nat.eqb_spec (prod [length vals]) 0) as [H0|H0]; [cbn in H0; lia|].
  unfold ndim. rewrite FS, FC. cbn [length Nat.eqb andb].
  pose proof (read_contig c fr c WF FC EE) as RC.
  unfold size in RC. rewrite FS in RC. cbn [prod] in RC. rewrite Nat.mul_1_r in RC.
  rewrite RC. cbn [bind]. do 2 f_equal.
  apply (diff_cumulative t); assumption.
Qed.
(* what diff computes in general: y - x along the axis, in wrapping arithmetic or
   in double arithmetic with saturation; exact when nothing overflows *)
Theorem C28_diff : forall t kernel (buf : list Z) a axis n, (0 < bits t)%Z -> wf buf a ->
  nth_error (a_shape a) axis = Some n ->
  exists out, int_diff t kernel buf a axis = Ok (upd (a_shape a) axis (n - 1), out) /\
    length out = prod (upd (a_shape a) axis (n - 1)) /\
    forall idx j x y, inb idx (upd (a_shape a) axis (n - 1)) -> nth_error idx axis = Some j ->
      get buf a idx = Some x -> get buf a (upd idx axis (j + 1)) = Some y ->
      (Z.abs x <= 2 ^ 52)%Z -> (Z.abs y <= 2 ^ 52)%Z -> representable t (y - x)%Z ->
      get out (fresh (upd (a_shape a) axis (n - 1)) (a_item a)) idx = Some (y - x)%Z.
Proof.
  intros t kernel buf a axis n HT W Hn. destruct (int_diff_spec t kernel buf a axis n W Hn) as (out & D & E & HL & HD & _ & HG).
  exists out. split; [exact E|]. split; [exact HL|]. intros idx j x y Hi Hj Hx Hy Bx By HR.
  rewrite (HG idx j x y Hi Hj Hx Hy). f_equal. destruct HD as [->|[_ ->]].
  - apply sub_f64_exact; assumption.
  - apply wrap_id; assumption.
Qed.
(* 2-D (and int8) differences saturate: diff(cumsum) of uint8 [[3, 255]] along the
   axis gives 0, not 255 *)
Theorem C28_diff_cumsum_refuted :
  cumulative_axis (int_red_init uint8 RSum) (int_red_comb uint8 RSum) [3; 255]%Z 0%Z (fresh [1; 2] 1) 1 = Ok ([1; 2], [3; 2]%Z) /\
  int_diff uint8 true [3; 2]%Z (fresh [1; 2] 1) 1 = Ok ([1; 1], [0]%Z) /\
  int_diff int8 false [100; -56]%Z (fresh [2] 1) 0 = Ok ([1], [-128]%Z).
Proof. repeat split; vm_compute; reflexivity. Qed.
Example C28_nonvacuous :
  cumulative_flat 0%Z Z.add [1; 2; 3; 4]%Z (mkArr 0 [2; 2] [8; 16]%Z 8 false true) = Ok ([4], [1; 4; 6; 10]%Z) /\
  cumulative_axis 0%Z Z.add [1; 2; 3; 4; 5; 6]%Z 0%Z (fresh [2; 3] 8) 0 = Ok ([2; 3], [1; 2; 3; 5; 7; 9]%Z) /\
  cumulative_axis 0%Z Z.add [1; 2; 3; 4; 5; 6]%Z 0%Z (mkArr 40 [3] [-16]%Z 8 false false) 0 = Ok ([3], [6; 10; 12]%Z) /\
  int_diff uint8 true [200; 100; 0]%Z (fresh [3] 1) 0 = Ok ([2], [156; 156]%Z).
Proof. repeat split; vm_compute; reflexivity. Qed.

(* ---- C29 ------------------------------------------------------------------ *)

Theorem C29_all : forall {T} (truthy : T -> bool) buf a, wf buf a ->
  exists b, all_arr truthy buf a = Ok b /\
    (b = true <-> forall idx v, inb idx (a_shape a) -> get buf a idx = Some v -> truthy v = true).
Proof.
  intros T truthy buf a W. destruct (wf_elems buf a W) as (vals & E & _).
  exists (forallb truthy vals). split; [apply all_arr_spec; assumption|]. rewrite forallb_forall.
  unfold elems in E. split.
  - intros H idx v Hi Hv. apply H. apply in_all_idx in Hi. apply (in_map (get buf a)) in Hi. rewrite E, Hv in Hi.
    apply in_map_iff in Hi as (v' & Ev & Hi). injection Ev as ->. exact Hi.
  - intros H v Hv. apply (in_map Some) in Hv. rewrite <- E in Hv. apply in_map_iff in Hv as (idx & Ev & Hi).
    apply in_all_idx in Hi. exact (H idx v Hi Ev).
Qed.
Theorem C29_any : forall {T} (truthy : T -> bool) buf a, wf buf a ->
  exists b, any_arr truthy buf a = Ok b /\
    (b = true <-> exists idx v, inb idx (a_shape a) /\ get buf a idx = Some v /\ truthy v = true).
Proof.
  intros T truthy buf a W. destruct (wf_elems buf a W) as (vals & E & _).
  exists (existsb truthy vals). split; [apply any_arr_spec; assumption|]. rewrite existsb_exists.
  unfold elems in E. split.
  - intros (v & Hv & Ht). apply (in_map Some) in Hv. rewrite <- E in Hv. apply in_map_iff in Hv as (idx & Ev & Hi).
    apply in_all_idx in Hi. exists idx, v. auto.
  - intros (idx & v & Hi & Hv & Ht). apply in_all_idx in Hi. apply (in_map (get buf a)) in Hi. rewrite E, Hv in Hi.
    apply in_map_iff in Hi as (v' & Ev & Hi). injection Ev as ->. exists v; auto.
Qed.
Theorem C29_de_morgan : forall {T} (truthy : T -> bool) buf a, wf buf a ->
  exists b, any_arr truthy buf a = Ok b /\ all_arr (fun v => negb (truthy v)) buf a = Ok (negb b).
Proof.
  intros T truthy buf a W. destruct (wf_elems buf a W) as (vals & E & _).
  exists (existsb truthy vals). split; [apply any_arr_spec; assumption|].
  rewrite (all_arr_spec _ buf a vals W E). f_equal. clear. induction vals as [|v l IH]; simpl; [reflexivity|].
  rewrite IH. destruct (truthy v); reflexivity.
Qed.
(* count_nonzero counts the truthy elements, and is zero iff any is false *)
Theorem C29_count_nonzero : forall {T} (truthy : T -> bool) buf a vals, wf buf a -> elems buf a = map Some vals ->
  count_nonzero truthy buf a = Ok (length (filter truthy vals)) /\
  (any_arr truthy buf a = Ok false <-> length (filter truthy vals) = 0).
Proof.
  intros T truthy buf a vals W E. split; [apply count_nonzero_spec; assumption|].
  rewrite (any_arr_spec _ buf a vals W E). clear. induction vals as [|v l IH]; simpl; [tauto|].
  destruct (truthy v); simpl; [split; intros H; discriminate H|exact IH].
Qed.
(* along an axis; the dtypes with typed dispatch: empty lanes included *)
Theorem C29_axis : forall {T} (truthy : T -> bool) buf a axis n, wf buf a -> nth_error (a_shape a) axis = Some n ->
  exists outAll outAny,
    all_axis true truthy buf a axis = Ok (reduced_shape axis (a_shape a), outAll) /\
    any_axis true truthy buf a axis = Ok (reduced_shape axis (a_shape a), outAny) /\
    forall idx lv, inb idx (reduced_shape axis (a_shape a)) ->
      lane buf a axis (outer_of (a_shape a) idx) = map Some lv ->
      get outAll (fresh (reduced_shape axis (a_shape a)) 1) idx = Some (forallb truthy lv) /\
      get outAny (fresh (reduced_shape axis (a_shape a)) 1) idx = Some (existsb truthy lv).
Proof.
  intros T truthy buf a axis n W Hn. destruct (lanes_exist buf a axis n W Hn) as [L EL].
  eexists _, _. unfold all_axis, any_axis. split; [apply (logical_axis_spec buf a axis n L); assumption|].
  split; [apply (logical_axis_spec buf a axis n L); assumption|]. intros idx lv Hi Hlv.
  rewrite <- scan_all, <- scan_any.
  split; (eapply lanes_get; [lia|exact Hn|exact EL|exact Hi|exact Hlv]).
Qed.
(* the dtypes without (int8, datetime64, timedelta64): non-empty lanes *)
Theorem C29_axis_slow_partial : forall {T} (truthy : T -> bool) buf a axis n, wf buf a ->
  nth_error (a_shape a) axis = Some n -> 0 < n ->
  exists outAll outAny,
    all_axis false truthy buf a axis = Ok (reduced_shape axis (a_shape a), outAll) /\
    any_axis false truthy buf a axis = Ok (reduced_shape axis (a_shape a), outAny) /\
    forall idx lv, inb idx (reduced_shape axis (a_shape a)) ->
      lane buf a axis (outer_of (a_shape a) idx) = map Some lv ->
      get outAll (fresh (reduced_shape axis (a_shape a)) 1) idx = Some (forallb truthy lv) /\
      get outAny (fresh (reduced_shape axis (a_shape a)) 1) idx = Some (existsb truthy lv).
Proof.
  intros T truthy buf a axis n W Hn Hp. destruct (lanes_exist buf a axis n W Hn) as [L EL].
  eexists _, _. unfold all_axis, any_axis. split; [apply (logical_axis_slow_spec buf a axis n L); assumption|].
  split; [apply (logical_axis_slow_spec buf a axis n L); assumption|]. intros idx lv Hi Hlv.
  rewrite <- scan_all, <- scan_any.
  split; (eapply lanes_get; [lia|exact Hn|exact EL|exact Hi|exact Hlv]).
Qed.
(* all of an empty int8 lane: false *)
Theorem C29_axis_slow_refuted : forall (truthy : Z -> bool),
  all_axis false truthy [] (fresh [2; 0] 1) 1 = Ok ([2], [false; false]).
Proof. reflexivity. Qed.
Example C29_nonvacuous :
  let t := fun v => negb (v =? 0)%Z in
  all_arr t [1; 0; 2]%Z (mkArr 0 [2] [16]%Z 8 false false) = Ok true /\
  any_arr t [0; 1; 0]%Z (mkArr 16 [2] [-16]%Z 8 false false) = Ok false /\
  all_axis true t [1; 0; 2; 3]%Z (fresh [2; 2] 8) 1 = Ok ([2], [false; true]) /\
  all_axis true t [] (fresh [2; 0] 8) 1 = Ok ([2], [true; true]) /\
  any_axis false t [1; 0; 2; 0]%Z (fresh [2; 2] 1) 0 = Ok ([2], [true; false]).
Proof. repeat split; vm_compute; reflexivity. Qed.

(* ---- C30 ------------------------------------------------------------------ *)

(* [beats x y]: x > y (argmax) or x < y (argmin), a strict weak order. *)
Definition order_laws {T} (beats : T -> T -> bool) : Prop :=
  (forall x, beats x x = false) /\
  (forall x y z, beats x y = true -> beats y z = true -> beats x z = true) /\
  (forall x y z, beats x y = false -> beats y z = false -> beats x z = false).

(* [worst]: the starting value of the strided scans (-inf, or the dtype's
   minimum), which beats no element *)
Theorem C30_argmax : forall {T} (beats : T -> T -> bool) worst typed (buf : list T) a vals,
  order_laws beats -> wf buf a -> elems buf a = map Some vals -> vals <> [] ->
  (forall x, In x vals -> beats worst x = false) ->
  exists i, arg_full beats worst buf typed a = Ok i /\ first_best beats vals i.
Proof. intros T beats worst typed buf a vals (O1 & O2 & O3) W E HN HWo. apply arg_full_spec; assumption. Qed.
(* the position is determined: every layout gives the same answer *)
Theorem C30_layout : forall {T} (beats : T -> T -> bool) worst typed typed2 (buf : list T) a buf2 a2 vals,
  order_laws beats -> wf buf a -> wf buf2 a2 ->
  elems buf a = map Some vals -> elems buf2 a2 = map Some vals ->
  (forall x, In x vals -> beats worst x = false) ->
  arg_full beats worst buf typed a = arg_full beats worst buf2 typed2 a2.
Proof.
  intros T beats worst typed typed2 buf a buf2 a2 vals O W W2 E E2 HWo. pose proof O as (O1 & O2 & O3).
  destruct vals as [|v vals].
  - unfold arg_full.
    assert (size a = 0) as -> by (apply (f_equal (@length _)) in E; unfold elems in E; rewrite !map_length, all_idx_length in E; exact E).
    assert (size a2 = 0) as -> by (apply (f_equal (@length _)) in E2; unfold elems in E2; rewrite !map_length, all_idx_length in E2; exact E2).
    reflexivity.
  - destruct (C30_argmax beats worst typed buf a _ O W E ltac:(discriminate) HWo) as (i & -> & Hi).
    destruct (C30_argmax beats worst typed2 buf2 a2 _ O W2 E2 ltac:(discriminate) HWo) as (j & -> & Hj).
    f_equal. apply (first_best_unique beats (v :: vals)); assumption.
Qed.
(* integers: argmax in plain words *)
Theorem C30_int_argmax : forall t typed (buf : list Z) a vals, wf buf a -> elems buf a = map Some vals -> vals <> [] ->
  Forall (representable t) vals ->
  exists i m, arg_full (fun x y => y <? x)%Z (i_min t) buf typed a = Ok i /\ nth_error vals i = Some m /\
    is_max vals m /\ forall j v, j < i -> nth_error vals j = Some v -> (v < m)%Z.
Proof.
  intros t typed buf a vals W E HN HF.
  destruct (C30_argmax (fun x y => y <? x)%Z (i_min t) typed buf a vals) as (i & Hi & m & H1 & H2 & H3); try assumption.
  - split; [intros; apply Z.ltb_irrefl|]. split; [intros x y z; rewrite !Z.ltb_lt; lia|intros x y z; rewrite !Z.ltb_ge; lia].
  - intros x Hx. rewrite Forall_forall in HF. specialize (HF x Hx). unfold representable in HF. apply Z.ltb_ge. lia.
  - exists i, m. split; [exact Hi|]. split; [exact H1|]. split.
    + split; [eapply nth_error_In; exact H1|]. intros x Hx. apply In_nth_error in Hx as [j Hj].
      specialize (H2 j x Hj). apply Z.ltb_ge in H2. exact H2.
    + intros j v Hj Hv. specialize (H3 j v Hj Hv). apply Z.ltb_lt in H3. exact H3.
Qed.
Example C30_nonvacuous :
  let gt := fun x y => (y <? x)%Z in
  arg_full gt (-128)%Z [3; 7; 7; 1]%Z true (fresh [4] 1) = Ok 1 /\
  arg_full gt (-128)%Z [3; 7; 7; 1]%Z true (mkArr 3 [4] [-1]%Z 1 false false) = Ok 1 /\
  arg_full gt (-128)%Z [-128; -128]%Z true (mkArr 1 [2] [-1]%Z 1 false false) = Ok 0 /\
  first_best gt [3; 7; 7; 1]%Z 1.
Proof.
  repeat (split; [vm_compute; reflexivity|]). exists 7%Z. split; [reflexivity|]. split.
  - intros [|[|[|[|j]]]] w H; cbn in H; try (injection H as <-; reflexivity). destruct j; discriminate.
  - intros [|j] w Hj H; [injection H as <-; reflexivity|lia].
Qed.

(* ---- C31 ------------------------------------------------------------------ *)

(* argmax(a, axis) of the dtypes with a typed implementation, when a is
   C-contiguous, or the axis is contiguous, or the axis has length 1 *)
Theorem C31_axis_partial : forall {T} (beats : T -> T -> bool) worst (buf : list T) a axis n,
  order_laws beats -> wf buf a -> nth_error (a_shape a) axis = Some n -> 0 < n ->
  (forall idx v, inb idx (a_shape a) -> get buf a idx = Some v -> beats worst v = false) ->
  (a_c a = true \/ nth_error (a_strides a) axis = Some (a_item a) \/ n = 1) ->
  exists out, arg_axis beats worst buf a axis = Ok (reduced_shape axis (a_shape a), out) /\
    forall idx lv, inb idx (reduced_shape axis (a_shape a)) ->
      lane buf a axis (outer_of (a_shape a) idx) = map Some lv ->
      exists i, get out (fresh (reduced_shape axis (a_shape a)) 8) idx = Some i /\ first_best beats lv i.
Proof.
  intros T beats worst buf a axis n (O1 & O2 & O3) W Hn Hp O4 HC. destruct (lanes_exist buf a axis n W Hn) as [L EL].
  destruct (arg_axis_spec beats worst buf a axis n L O1 O2 O3 W Hn Hp O4 HC EL) as (F & HF & E).
  exists (map F L). split; [exact E|]. intros idx lv Hi Hlv. exists (F lv). split.
  - eapply lanes_get; [lia|exact Hn|exact EL|exact Hi|exact Hlv].
  - apply HF. assert (HI : In (map Some lv) (map (map Some) L)).
    { rewrite <- EL, <- Hlv. apply in_map, in_all_idx. apply (outer_of_inb axis (a_shape a) n idx Hn Hi). }
    apply in_map_iff in HI as (lv' & Elv & HI). apply map_Some_inj in Elv. subst; exact HI.
Qed.
(* every other view: the code dereferences a data byte as a pointer *)
Theorem C31_strided_refuted : forall {T} (beats : T -> T -> bool) worst (buf : list T) a axis n, wf buf a ->
  nth_error (a_shape a) axis = Some n -> 1 < n -> prod (a_shape a) <> 0 ->
  a_c a = false -> nth_error (a_strides a) axis <> Some (a_item a) ->
  arg_axis beats worst buf a axis = Fault.
Proof. intros; eapply arg_axis_fault; eassumption. Qed.
(* the untyped implementation (int8, bool, float16, complex) is right everywhere *)
Theorem C31_axis_slow : forall {T} (beats : T -> T -> bool) (buf : list T) a axis n,
  order_laws beats -> wf buf a -> nth_error (a_shape a) axis = Some n -> 0 < n ->
  exists out, arg_axis_slow beats buf a axis = Ok (reduced_shape axis (a_shape a), out) /\
    forall idx lv, inb idx (reduced_shape axis (a_shape a)) ->
      lane buf a axis (outer_of (a_shape a) idx) = map Some lv ->
      exists i, get out (fresh (reduced_shape axis (a_shape a)) 8) idx = Some i /\ first_best beats lv i.
Proof.
  intros T beats buf a axis n (O1 & O2 & O3) W Hn Hp. destruct (lanes_exist buf a axis n W Hn) as [L EL].
  destruct (arg_axis_slow_spec beats buf a axis n L O1 O2 O3 W Hn Hp EL) as (F & HF & E).
  exists (map F L). split; [exact E|]. intros idx lv Hi Hlv. exists (F lv). split.
  - eapply lanes_get; [lia|exact Hn|exact EL|exact Hi|exact Hlv].
  - apply HF. assert (HI : In (map Some lv) (map (map Some) L)).
    { rewrite <- EL, <- Hlv. apply in_map, in_all_idx. apply (outer_of_inb axis (a_shape a) n idx Hn Hi). }
    apply in_map_iff in HI as (lv' & Elv & HI). apply map_Some_inj in Elv. subst; exact HI.
Qed.
Example C31_nonvacuous :
  let gt := fun x y => (y <? x)%Z in
  arg_axis gt (-99)%Z [3; 7; 7; 1; 1; 9]%Z (fresh [2; 3] 8) 1 = Ok ([2], [1; 2]) /\
  arg_axis gt (-99)%Z [3; 7; 7; 1; 1; 9]%Z (fresh [2; 3] 8) 0 = Ok ([3], [0; 0; 1]) /\
  arg_axis gt (-99)%Z [3; 7; 7; 1; 1; 9]%Z (mkArr 0 [3; 2] [8; 24]%Z 8 false true) 0 = Ok ([2], [1; 2]) /\
  arg_axis gt (-99)%Z [3; 7; 7; 1; 1; 9]%Z (mkArr 0 [3; 2] [8; 24]%Z 8 false true) 1 = Fault /\
  arg_axis_slow gt [3; 7; 7; 1; 1; 9]%Z (mkArr 0 [3; 2] [1; 3]%Z 1 false true) 1 = Ok ([3], [0; 0; 1]).
Proof. repeat split; vm_compute; reflexivity. Qed.

Print Assumptions C23_lanes_invisible.
Print Assumptions C23_order_independent.
Print Assumptions C23_sum.
Print Assumptions C23_prod.
Print Assumptions C23_max.
Print Assumptions C23_min.
Print Assumptions C23_layout.
Print Assumptions C24_sum_partial.
Print Assumptions C24_max_partial.
Print Assumptions C24_min_partial.
Print Assumptions C24_exact_refuted.
Print Assumptions C24_max_refuted.
Print Assumptions C25_norm_partial.
Print Assumptions C25_norm_long_refuted.
Print Assumptions C25_norm_transposed_refuted.
Print Assumptions C25_norm_strided_refuted.
Print Assumptions C26_lanes_only.
Print Assumptions C26_axis_fold.
Print Assumptions C26_int_sum.
Print Assumptions C26_int_max.
Print Assumptions C26_trait_partial.
Print Assumptions C26_trait_empty_refuted.
Print Assumptions C27_keepdims_partial.
Print Assumptions C27_keepdims_1d_refuted.
Print Assumptions C27_keepdims_all.
Print Assumptions C28_flat.
Print Assumptions C28_axis.
Print Assumptions C28_last.
Print Assumptions C28_diff_cumsum_partial.
Print Assumptions C28_diff.
Print Assumptions C28_diff_cumsum_refuted.
Print Assumptions C29_all.
Print Assumptions C29_any.
Print Assumptions C29_de_morgan.
Print Assumptions C29_count_nonzero.
Print Assumptions C29_axis.
Print Assumptions C29_axis_slow_partial.
Print Assumptions C29_axis_slow_refuted.
Print Assumptions C30_argmax.
Print Assumptions C30_layout.
Print Assumptions C30_int_argmax.
Print Assumptions C31_axis_partial.
Print Assumptions C31_strided_refuted.
Print Assumptions C31_axis_slow.
