(* C136-C139: moving axes, adding axes, stacking and splitting, flipping and
   broadcasting several arrays. *)
From Verif Require Import Base Lists Arr_Spec Arr_Model Arr_Wf Arr_Proofs Arr_Hist Arr_Props Wf_Check Bcast_Model Bcast_Proofs
  Copy_Model Copy_Proofs Idx_Model Red_Spec Red_Model Man_Spec Man_Model Man_Proofs Shp_Spec Shp_Model Shp_Proofs Shp_Stack.
From Coq Require Import Permutation Sorted.
Local Open Scope nat_scope.

Ltac wfc := apply wf_check_sound; vm_compute; reflexivity.

(* ---- C136 ----------------------------------------------------------------- *)

(* one axis: the axis of place s is taken out and put back at place d, in the
   shape and in every index alike; nothing is copied or lost *)
Theorem C136_moveaxis_one : forall V (buf : list V) a x y s d,
  wf buf a -> (Z.of_nat (ndim a) < 2 ^ 63)%Z -> axis_is (ndim a) x s -> axis_is (ndim a) y d ->
  exists r, moveaxis a [x] [y] = Ok r /\ wf buf r /\ a_shape r = moved s d (a_shape a) /\
    forall idx, inb idx (a_shape a) -> get buf r (moved s d idx) = get buf a idx.
Proof.
  intros V buf a x y s d W HN HX HY. pose proof (proj1 HX) as Hs. pose proof (proj1 HY) as Hd.
  unfold moveaxis. cbn [map length Nat.eqb negb].
  rewrite (to_axis_is _ _ _ HX HN), (to_axis_is _ _ _ HY HN).
  change [Z.of_nat s] with (map Z.of_nat [s]). rewrite filter_in_Z.
  change [Z.of_nat d] with (map Z.of_nat [d]). rewrite move_insert_nat.
  rewrite filter_seq_one by exact Hs. cbn [combine fold_left]. unfold ins. cbn [fst snd].
  rewrite remove_at_length by (rewrite seq_length; exact Hs). rewrite seq_length.
  replace (Nat.min d (ndim a - 1)) with d by lia.
  replace (insert_at d s (remove_at s (seq 0 (ndim a)))) with (moved s d (seq 0 (ndim a)))
    by (unfold moved; rewrite nth_seq0 by exact Hs; reflexivity).
  assert (HP : Permutation (moved s d (seq 0 (ndim a))) (seq 0 (ndim a))) by (apply moved_perm; rewrite seq_length; exact Hs).
  rewrite transpose_usize_nat by exact HP.
  destruct (permuted buf a _ W HP) as (r & E & W' & SH & G). exists r. split; [exact E|]. split; [exact W'|].
  unfold ndim in *. split; [rewrite SH; apply listed_moved; exact Hs|].
  intros idx Hi. rewrite <- (G idx Hi). f_equal. rewrite <- (inb_length _ _ Hi). symmetry. apply listed_moved.
  rewrite (inb_length _ _ Hi). exact Hs.
Qed.
Example C136_moveaxis_one_nonvacuous : exists r, moveaxis (fresh [2; 3; 4] 8) [0]%Z [-1]%Z = Ok r /\
  a_shape r = [3; 4; 2] /\ get (seq 0 24) r [2; 3; 1] = get (seq 0 24) (fresh [2; 3; 4] 8) [1; 2; 3].
Proof. eexists. split; [vm_compute; reflexivity|]. split; vm_compute; reflexivity. Qed.

(* moving an axis there and back gives the array back *)
Theorem C136_moveaxis_back : forall V (buf : list V) a x y s d,
  wf buf a -> (Z.of_nat (ndim a) < 2 ^ 63)%Z -> axis_is (ndim a) x s -> axis_is (ndim a) y d ->
  exists r q, moveaxis a [x] [y] = Ok r /\ moveaxis r [y] [x] = Ok q /\ a_shape q = a_shape a /\
    forall idx, inb idx (a_shape a) -> get buf q idx = get buf a idx.
Proof.
  intros V buf a x y s d W HN HX HY. pose proof (proj1 HX) as Hs. pose proof (proj1 HY) as Hd.
  destruct (C136_moveaxis_one V buf a x y s d W HN HX HY) as (r & E & W1 & S1 & G1). unfold ndim in *.
  assert (HR : length (a_shape r) = length (a_shape a)) by (rewrite S1; apply moved_length; exact Hs).
  destruct (C136_moveaxis_one V buf r y x d s W1) as (q & E2 & W2 & S2 & G2); unfold ndim; rewrite ?HR; try assumption.
  exists r, q. split; [exact E|]. split; [exact E2|]. split; [rewrite S2, S1; apply moved_back; assumption|].
  intros idx Hi. pose proof (inb_length _ _ Hi) as HL.
  assert (HB : inb (moved s d idx) (a_shape r)).
  { rewrite S1. unfold moved. apply inb_insert_at.
    - apply inb_remove_at. exact Hi.
    - apply (inb_nth idx (a_shape a) s); [exact Hi| |]; apply nth_error_nth'; lia. }
  rewrite <- (G1 idx Hi), <- (G2 _ HB). rewrite moved_back by lia. reflexivity.
Qed.

(* several axes whose destinations are given in ascending order: axis src[k] ends
   up at place dst[k], the others keep their order *)
Theorem C136_moveaxis_partial : forall V (buf : list V) a xs ys src dst,
  wf buf a -> (Z.of_nat (ndim a) < 2 ^ 63)%Z ->
  Forall2 (axis_is (ndim a)) xs src -> Forall2 (axis_is (ndim a)) ys dst ->
  length src = length dst -> NoDup src -> StronglySorted lt dst ->
  exists r axes, moveaxis a xs ys = Ok r /\ moves (ndim a) src dst axes /\ wf buf r /\
    a_shape r = listed axes (a_shape a) /\
    forall idx, inb idx (a_shape a) -> get buf r (listed axes idx) = get buf a idx.
Proof.
  intros V buf a xs ys src dst W HN HX HY HL ND HS.
  assert (FS : Forall (fun k => k < ndim a) src).
  { clear - HX. induction HX as [|x k xs ks H1 H2 IH]; constructor; [apply H1|exact IH]. }
  assert (FD : Forall (fun k => k < ndim a) dst).
  { clear - HY. induction HY as [|x k xs ks H1 H2 IH]; constructor; [apply H1|exact IH]. }
  unfold moveaxis. rewrite (to_axis_map _ _ _ HX HN), (to_axis_map _ _ _ HY HN), !map_length, HL, Nat.eqb_refl. cbn [negb].
  rewrite filter_in_Z, move_insert_nat.
  pose proof (moves_ins (ndim a) src dst HL ND FS HS FD) as HM.
  set (axes := fold_left ins _ _) in *. pose proof (proj1 HM) as HP.
  rewrite transpose_usize_nat by exact HP.
  destruct (permuted buf a axes W HP) as (r & E & W' & SH & G). exists r, axes. auto.
Qed.
Example C136_moveaxis_nonvacuous : exists r, moveaxis (fresh [2; 3; 4; 5] 8) [3; 0]%Z [0; 2]%Z = Ok r /\
  a_shape r = [5; 3; 2; 4] /\ moves 4 [3; 0] [0; 2] [3; 1; 0; 2].
Proof.
  eexists. split; [vm_compute; reflexivity|]. split; [reflexivity|]. split.
  - apply NoDup_Permutation; [repeat constructor; cbn; lia|apply seq_NoDup|]. intros x. cbn. lia.
  - split; [|repeat constructor; lia]. intros [|[|k]] s d H1 H2; cbn in *; try congruence.
    + injection H1 as <-. injection H2 as <-. reflexivity.
    + injection H1 as <-. injection H2 as <-. reflexivity.
    + destruct k; discriminate.
Qed.

(* missing: destinations that are not ascending.  moveaxis(a, [0, 1], [1, 0]) of a
   three-dimensional array should exchange its first two axes; axis 0 ends up last *)
Theorem C136_moveaxis_refuted : exists a r, a_shape a = [2; 3; 4] /\
  moveaxis a [0; 1]%Z [1; 0]%Z = Ok r /\ a_shape r = [3; 4; 2] /\
  (forall axes, moves 3 [0; 1] [1; 0] axes -> listed axes (a_shape a) <> a_shape r).
Proof.
  exists (fresh [2; 3; 4] 8). eexists. split; [reflexivity|]. split; [vm_compute; reflexivity|]. split; [reflexivity|].
  intros axes (HP & HM & _). pose proof (HM 0 0 1 eq_refl eq_refl) as H0.
  unfold listed. destruct axes as [|u [|v w]]; try discriminate. cbn in H0. injection H0 as ->. cbn. discriminate.
Qed.
(* an axis that does not exist is a panic, a destination that does not exist is
   silently the last place *)
Theorem C136_moveaxis_range_refuted : exists a r, a_shape a = [2; 3] /\
  moveaxis a [5]%Z [0]%Z = Panic /\ moveaxis a [0]%Z [7]%Z = Ok r /\ a_shape r = [3; 2].
Proof.
  exists (fresh [2; 3] 8). eexists. split; [reflexivity|]. split; [vm_compute; reflexivity|]. split; [vm_compute; reflexivity|reflexivity].
Qed.

(* rollaxis(a, axis, start): the axis lands in front of the axis that was at place
   start (start = ndim: at the end) *)
Theorem C136_rollaxis_partial : forall V (buf : list V) a x s start t,
  wf buf a -> (Z.of_nat (ndim a) < 2 ^ 63)%Z -> axis_is (ndim a) x s ->
  axis_is (ndim a) start t \/ (start = Z.of_nat (ndim a) /\ t = ndim a) ->
  let d := if s <? t then t - 1 else t in
  exists r, rollaxis a x start = Ok r /\ wf buf r /\ a_shape r = moved s d (a_shape a) /\
    forall idx, inb idx (a_shape a) -> get buf r (moved s d idx) = get buf a idx.
Proof.
  intros V buf a x s start t W HN HX HT d. pose proof (proj1 HX) as Hs.
  unfold rollaxis. rewrite (to_axis_is _ _ _ HX HN).
  assert (ET : (if (start <? 0)%Z then to_axis (ndim a) start else Z.min start (Z.of_nat (ndim a))) = Z.of_nat t /\ t <= ndim a).
  { destruct HT as [HT|[-> ->]].
    - pose proof (proj1 HT). split; [|lia]. destruct (Z.ltb_spec start 0); [apply to_axis_is; assumption|].
      destruct HT as [H1 [H2|H2]]; lia.
    - split; [|lia]. destruct (Z.ltb_spec (Z.of_nat (ndim a)) 0); lia. }
  destruct ET as [ET HT'].
  rewrite ET. destruct (Z.leb_spec (Z.of_nat (ndim a)) (Z.of_nat s)); [lia|]. rewrite Nat2Z.id.
  assert (ED : (if (Z.of_nat s <? Z.of_nat t)%Z then (Z.of_nat t - 1)%Z else Z.of_nat t) = Z.of_nat d).
  { unfold d. destruct (Z.ltb_spec (Z.of_nat s) (Z.of_nat t)), (Nat.ltb_spec s t); lia. }
  rewrite ED. assert (Hd : d < ndim a) by (unfold d; destruct (Nat.ltb_spec s t); lia).
  unfold vec_insert. rewrite <- map_remove_at, map_length.
  rewrite remove_at_length by (rewrite seq_length; exact Hs). rewrite seq_length, Nat2Z.id.
  destruct (Z.ltb_spec (Z.of_nat (ndim a - 1)) (Z.of_nat d)); [lia|]. cbn [bind]. rewrite <- map_insert_at.
  replace (insert_at d s (remove_at s (seq 0 (ndim a)))) with (moved s d (seq 0 (ndim a)))
    by (unfold moved; rewrite nth_seq0 by exact Hs; reflexivity).
  assert (HP : Permutation (moved s d (seq 0 (ndim a))) (seq 0 (ndim a))) by (apply moved_perm; rewrite seq_length; exact Hs).
  rewrite transpose_usize_nat by exact HP.
  destruct (permuted buf a _ W HP) as (r & E & W' & SH & G). exists r. split; [exact E|]. split; [exact W'|].
  clearbody d. unfold ndim in *. split; [rewrite SH; apply listed_moved; exact Hs|].
  intros idx Hi. rewrite <- (G idx Hi). f_equal. rewrite <- (inb_length _ _ Hi). symmetry. apply listed_moved.
  rewrite (inb_length _ _ Hi). exact Hs.
Qed.
Example C136_rollaxis_nonvacuous : exists r q, rollaxis (fresh [2; 3; 4; 5] 8) 3 1 = Ok r /\ a_shape r = [2; 5; 3; 4] /\
  rollaxis (fresh [2; 3; 4; 5] 8) 0 (-1) = Ok q /\ a_shape q = [3; 4; 2; 5].
Proof. eexists. eexists. split; [vm_compute; reflexivity|]. split; [reflexivity|]. split; [vm_compute; reflexivity|reflexivity]. Qed.

(* missing: a start outside the array is not reported as an error *)
Theorem C136_rollaxis_refuted : exists a r, a_shape a = [2; 3] /\
  rollaxis a 0 (-4) = Panic /\ rollaxis a 0 9 = Ok r /\ a_shape r = [3; 2].
Proof.
  exists (fresh [2; 3] 8). eexists. split; [reflexivity|]. split; [vm_compute; reflexivity|]. split; [vm_compute; reflexivity|reflexivity].
Qed.

(* matrix_transpose exchanges the last two axes; arrays without them are rejected *)
Theorem C136_matrix_transpose : forall V (buf : list V) a, wf buf a ->
  (ndim a < 2 -> matrix_transpose a = Err) /\
  (2 <= ndim a -> exists r, matrix_transpose a = Ok r /\ wf buf r /\
     forall sh m n, a_shape a = sh ++ [m; n] -> a_shape r = sh ++ [n; m] /\
       forall idx i j, inb idx sh -> i < m -> j < n -> get buf r (idx ++ [j; i]) = get buf a (idx ++ [i; j])).
Proof.
  intros V buf a W. unfold matrix_transpose. split; intros HN.
  { destruct (Nat.ltb_spec (ndim a) 2); [reflexivity|lia]. }
  destruct (Nat.ltb_spec (ndim a) 2); [lia|].
  destruct (C04_swapaxes V buf a (ndim a - 2) (ndim a - 1) W ltac:(lia) ltac:(lia)) as (r & E & W' & S & G).
  unfold swapaxes_view in E.
  replace ((ndim a - 2 <? ndim a) && (ndim a - 1 <? ndim a)) with true in E
    by (symmetry; apply andb_true_iff; split; apply Nat.ltb_lt; lia).
  exists r. split; [exact E|]. split; [exact W'|]. intros sh m n HS.
  assert (ND : ndim a = length sh + 2) by (unfold ndim; rewrite HS, app_length; reflexivity).
  assert (SW : forall (l : list nat) u v, length l = length sh -> swap_at (ndim a - 2) (ndim a - 1) (l ++ [u; v]) = l ++ [v; u]).
  { intros l u v HL. rewrite ND. unfold swap_at. replace (length sh + 2 - 2) with (length l) by lia. replace (length sh + 2 - 1) with (length l + 1) by lia.
    rewrite !app_nth2 by lia. rewrite Nat.sub_diag. replace (length l + 1 - length l) with 1 by lia. cbn [nth].
    rewrite (upd_app_r l [u; v]) by lia. rewrite Nat.sub_diag. cbn [upd].
    rewrite upd_app_r by lia. replace (length l + 1 - length l) with 1 by lia. reflexivity. }
  split; [rewrite S, HS; apply SW; reflexivity|].
  intros idx i j Hi H1 H2. pose proof (inb_length _ _ Hi) as HL.
  destruct (G (idx ++ [j; i])) as [_ ->].
  - rewrite S, HS, SW by reflexivity. apply Forall2_app; [exact Hi|repeat constructor; assumption].
  - rewrite SW by exact HL. reflexivity.
Qed.
Example C136_matrix_transpose_nonvacuous : exists r, matrix_transpose (fresh [2; 3; 4] 8) = Ok r /\ a_shape r = [2; 4; 3] /\
  get (seq 0 24) r [1; 3; 2] = Some 23 /\ matrix_transpose (fresh [4] 8) = Err.
Proof. eexists. split; [vm_compute; reflexivity|]. split; [reflexivity|]. split; vm_compute; reflexivity. Qed.

(* ---- C137 ----------------------------------------------------------------- *)

(* atleast_1d, 2d and 3d of an array that is contiguous, or has enough axes: the
   documented shape and the same elements in the same order *)
Theorem C137_atleast_partial : forall V (buf : list V) a, wf buf a -> a_c a = true ->
  (a_shape (atleast_1d a) = match a_shape a with [] => [1] | sh => sh end /\
   wf buf (atleast_1d a) /\ elems buf (atleast_1d a) = elems buf a) /\
  (a_shape (atleast_2d a) = match a_shape a with [] => [1; 1] | [n] => [1; n] | sh => sh end /\
   wf buf (atleast_2d a) /\ elems buf (atleast_2d a) = elems buf a) /\
  (a_shape (atleast_3d a) = match a_shape a with [] => [1; 1; 1] | [n] => [1; n; 1] | [m; n] => [m; n; 1] | sh => sh end /\
   wf buf (atleast_3d a) /\ elems buf (atleast_3d a) = elems buf a).
Proof.
  intros V buf a W HC. unfold atleast_1d, atleast_2d, atleast_3d. unfold size.
  destruct (a_shape a) as [|m [|n [|p sh]]] eqn:HS; cbn [prod]; rewrite ?Nat.mul_1_r;
    (split; [|split]); first [rewrite HS; auto; fail | apply reshaped; [exact W|exact HC|rewrite HS; cbn; lia]].
Qed.
Example C137_atleast_nonvacuous :
  a_shape (atleast_2d (fresh [3] 8)) = [1; 3] /\ a_shape (atleast_3d (fresh [3] 8)) = [1; 3; 1] /\
  a_shape (atleast_1d (fresh [] 8)) = [1] /\ elems [7; 8; 9] (atleast_3d (fresh [3] 8)) = map Some [7; 8; 9].
Proof. repeat split. Qed.

(* enough axes: the array itself, whatever its layout *)
Theorem C137_atleast_same : forall a,
  (1 <= ndim a -> atleast_1d a = a) /\ (2 <= ndim a -> atleast_2d a = a) /\ (3 <= ndim a -> atleast_3d a = a).
Proof.
  intros a. unfold ndim, atleast_1d, atleast_2d, atleast_3d. destruct (a_shape a) as [|m [|n [|p sh]]]; cbn [length];
    (split; [|split]); intros H; try lia; reflexivity.
Qed.

(* missing: views that are not contiguous keep their number of dimensions.
   arange(6)[::2] has one dimension, and so has what atleast_2d returns *)
Theorem C137_atleast_refuted : exists (buf : list nat) a, wf buf a /\ elems buf a = map Some [0; 2; 4] /\
  ndim (atleast_2d a) = 1 /\ ndim (atleast_3d a) = 1.
Proof.
  exists (seq 0 6), (mkArr 0 [3] [16]%Z 8 false false). split; [wfc|]. split; [reflexivity|]. split; reflexivity.
Qed.

(* ---- C138 ----------------------------------------------------------------- *)

(* a one-dimensional operand counts as one row *)
Definition row_shape (sh : list nat) : list nat := match sh with [n] => [1; n] | _ => sh end.

Lemma as_row_ok {V} (x : @nd V) : wf (fst x) (snd x) -> (ndim (snd x) = 1 -> a_c (snd x) = true) ->
  fst (as_row x) = fst x /\ wf (fst (as_row x)) (snd (as_row x)) /\ a_shape (snd (as_row x)) = row_shape (a_shape (snd x)) /\
  elems (fst (as_row x)) (snd (as_row x)) = elems (fst x) (snd x).
Proof.
  intros W HC. unfold as_row, row_shape, ndim, size in *. destruct (a_shape (snd x)) as [|n [|m sh]] eqn:HS; auto.
  destruct (reshaped (fst x) (snd x) [1; prod [n]] W (HC eq_refl)) as (S & W' & E); [rewrite HS; cbn; lia|].
  cbn [fst snd]. rewrite S. cbn [prod] in *. rewrite Nat.mul_1_r in *. auto.
Qed.

(* vstack: the rows of the operands one after the other.  In row-major order the
   elements of the result are those of the first operand, then those of the second ... *)
Theorem C138_vstack_partial : forall V (zero : V) (l : list nd) x0 n t,
  nth_error l 0 = Some x0 -> (forall x, In x l -> wf (fst x) (snd x) /\ (ndim (snd x) = 1 -> a_c (snd x) = true)) ->
  row_shape (a_shape (snd x0)) = n :: t -> (forall x, In x l -> exists m, row_shape (a_shape (snd x)) = m :: t) ->
  exists out, vstack zero l = Ok (list_sum (map (fun x => nth 0 (row_shape (a_shape (snd x))) 0) l) :: t, out) /\
    map Some out = concat (map (fun x => elems (fst x) (snd x)) l).
Proof.
  intros V zero l x0 n t E0 HW HS HT. unfold vstack. destruct l as [|y l]; [discriminate|]. injection E0 as ->.
  set (L := x0 :: l) in *.
  assert (HR : forall x, In x L -> wf (fst (as_row x)) (snd (as_row x)) /\ a_shape (snd (as_row x)) = row_shape (a_shape (snd x)) /\
                 elems (fst (as_row x)) (snd (as_row x)) = elems (fst x) (snd x)).
  { intros x Hx. destruct (HW x Hx) as [W HC]. apply (as_row_ok x W HC). }
  destruct (concat_first zero (map as_row L) (as_row x0) n t eq_refl) as (out & E & HE).
  - intros x Hx. apply in_map_iff in Hx as (y & <- & Hy). apply HR. exact Hy.
  - destruct (HR x0 (or_introl eq_refl)) as (_ & -> & _). exact HS.
  - intros x Hx. apply in_map_iff in Hx as (y & <- & Hy). destruct (HR y Hy) as (_ & -> & _). apply HT. exact Hy.
  - exists out. rewrite E. split.
    + f_equal. f_equal. f_equal. f_equal. rewrite map_map. apply map_ext_in. intros x Hx. destruct (HR x Hx) as (_ & -> & _). reflexivity.
    + rewrite HE, map_map. f_equal. apply map_ext_in. intros x Hx. apply HR. exact Hx.
Qed.
Example C138_vstack_nonvacuous :
  vstack 0 [([1; 2; 3], fresh [3] 8); ([4; 5; 6; 7; 8; 9], fresh [2; 3] 8)] = Ok ([3; 3], [1; 2; 3; 4; 5; 6; 7; 8; 9]).
Proof. vm_compute. reflexivity. Qed.

(* missing: one-dimensional operands that are not contiguous.  vstack([a[::2], b[::2]])
   should have two rows; it has one dimension *)
Theorem C138_vstack_refuted : exists (x y : @nd nat), wf (fst x) (snd x) /\ wf (fst y) (snd y) /\
  elems (fst x) (snd x) = map Some [0; 2] /\ elems (fst y) (snd y) = map Some [10; 12] /\
  vstack 0 [x; y] = Ok ([4], [0; 2; 10; 12]) /\ column_stack 0 [x; y] = Err /\ dstack 0 [x; y] = Err.
Proof.
  exists (seq 0 4, mkArr 0 [2] [16]%Z 8 false false), (seq 10 4, mkArr 0 [2] [16]%Z 8 false false).
  split; [wfc|]. split; [wfc|]. split; [reflexivity|]. split; [reflexivity|]. split; [vm_compute; reflexivity|]. split; vm_compute; reflexivity.
Qed.
(* zero-dimensional operands should count as length-1 arrays *)
Theorem C138_scalars_refuted : exists (x : @nd nat), wf (fst x) (snd x) /\ a_shape (snd x) = [] /\
  vstack 0 [x; x] = Err /\ hstack 0 [x; x] = Err /\ dstack 0 [x; x] = Err.
Proof. exists ([5], fresh [] 8). split; [wfc|]. split; [reflexivity|]. split; [|split]; vm_compute; reflexivity. Qed.

(* hstack of one-dimensional arrays appends them *)
Theorem C138_hstack_1d : forall V (zero : V) (l : list nd), l <> [] ->
  (forall x, In x l -> wf (fst x) (snd x) /\ ndim (snd x) = 1) ->
  exists out, hstack zero l = Ok ([length out], out) /\ map Some out = concat (map (fun x => elems (fst x) (snd x)) l).
Proof.
  intros V zero l HNE HW. destruct l as [|x0 l]; [congruence|]. set (L := x0 :: l) in *. unfold hstack, L.
  destruct (HW x0 (or_introl eq_refl)) as [W0 N0]. rewrite N0. cbn [Nat.eqb]. fold L.
  assert (H1 : forall x, In x L -> exists m, a_shape (snd x) = [m]).
  { intros x Hx. destruct (HW x Hx) as [_ N]. unfold ndim in N. destruct (a_shape (snd x)) as [|m [|? ?]]; cbn in N; try lia. exists m. reflexivity. }
  destruct (H1 x0 (or_introl eq_refl)) as [n HN].
  destruct (concat_first zero L x0 n [] eq_refl) as (out & E & HE); [intros x Hx; apply HW; exact Hx|exact HN|exact H1|].
  exists out. split; [|exact HE]. rewrite E. f_equal. f_equal. f_equal.
  apply (f_equal (@length _)) in HE. rewrite map_length in HE. rewrite HE. clear - H1.
  induction L as [|x L IH]; [reflexivity|]. cbn [map concat]. rewrite app_length, <- IH by (intros y Hy; apply H1; right; exact Hy).
  destruct (H1 x (or_introl eq_refl)) as [m HM]. unfold elems. rewrite map_length, all_idx_length, HM. unfold list_sum. cbn [fold_right nth prod]. lia.
Qed.

(* hstack of arrays of rank two or more: every row is the operands' rows one after
   the other; anything else is an error *)
Theorem C138_hstack : forall V (zero : V) (l : list nd) x0,
  nth_error l 0 = Some x0 -> (forall x, In x l -> wf (fst x) (snd x)) -> ndim (snd x0) <> 1 ->
  let sh := a_shape (snd x0) in
  let compatible := 2 <= length sh /\
    (forall x, In x l -> length (a_shape (snd x)) = length sh /\ remove_at 1 (a_shape (snd x)) = remove_at 1 sh) in
  (compatible -> exists out, hstack zero l = Ok (upd sh 1 (list_sum (map (fun x => nth 1 (a_shape (snd x)) 0) l)), out) /\
     forall item oi, (0 < item)%Z -> inb oi (remove_at 1 sh) ->
       lane out (fresh (upd sh 1 (list_sum (map (fun x => nth 1 (a_shape (snd x)) 0) l))) item) 1 oi =
       concat (map (fun x => lane (fst x) (snd x) 1 oi) l)) /\
  (~ compatible -> hstack zero l = Err).
Proof.
  intros V zero l x0 E0 HW HN sh compatible. destruct (concat_nd_spec zero l x0 1 E0 HW) as [S1 S2]. fold sh in S1, S2.
  unfold hstack. destruct l as [|y l]; [discriminate|]. injection E0 as ->.
  destruct (Nat.eqb_spec (ndim (snd x0)) 1); [contradiction|]. split.
  - intros [C1 C2]. destruct S1 as (out & E & _ & HL); [split; [lia|exact C2]|]. exists out. split; [exact E|exact HL].
  - intros NC. apply S2. intros [C1 C2]. apply NC. split; [lia|exact C2].
Qed.
Example C138_hstack_nonvacuous :
  hstack 0 [([1; 2; 3; 4], fresh [2; 2] 8); ([5; 6], fresh [2; 1] 8)] = Ok ([2; 3], [1; 2; 5; 3; 4; 6]) /\
  hstack 0 [([1; 2], fresh [2] 8); ([5], fresh [1] 8)] = Ok ([3], [1; 2; 5]).
Proof. split; vm_compute; reflexivity. Qed.

(* what an operand contributes to row oi of column_stack, and to the stack at
   place oi of dstack *)
Definition column_part {V} (x : @nd V) (oi : list nat) : list (option V) :=
  if ndim (snd x) =? 1 then [get (fst x) (snd x) oi] else lane (fst x) (snd x) 1 oi.
Definition depth_part {V} (x : @nd V) (oi : list nat) : list (option V) :=
  match ndim (snd x) with
  | 1 => [get (fst x) (snd x) (tl oi)]
  | 2 => [get (fst x) (snd x) oi]
  | _ => lane (fst x) (snd x) 2 oi
  end.
Definition column_shape (sh : list nat) : list nat := match sh with [n] => [n; 1] | _ => sh end.
Definition depth_shape (sh : list nat) : list nat := match sh with [n] => [1; n; 1] | [m; n] => [m; n; 1] | _ => sh end.

Lemma as_column_ok {V} (x : @nd V) : wf (fst x) (snd x) -> (ndim (snd x) = 1 -> a_c (snd x) = true) ->
  wf (fst (as_column x)) (snd (as_column x)) /\ a_shape (snd (as_column x)) = column_shape (a_shape (snd x)) /\
  forall oi, inb oi (remove_at 1 (column_shape (a_shape (snd x)))) ->
    lane (fst (as_column x)) (snd (as_column x)) 1 oi = column_part x oi.
Proof.
  intros W HC. unfold as_column, column_shape, column_part, ndim, size in *.
  destruct (a_shape (snd x)) as [|n [|m sh]] eqn:HS; auto.
  destruct (reshaped (fst x) (snd x) [prod [n]; 1] W (HC eq_refl)) as (S & W' & E); [rewrite HS; cbn; lia|].
  cbn [fst snd length Nat.eqb]. split; [exact W'|].
  split; [rewrite S; cbn; f_equal; lia|]. intros oi Ho. cbn [remove_at] in Ho. unfold lane. rewrite S. cbn [nth seq map]. f_equal.
  pose proof (inb_length _ _ Ho) as HL. destruct oi as [|i [|? ?]]; cbn in HL; try lia. apply inb_cons in Ho as [Hi _].
  cbn [insert_at]. apply (elems_rank (fst x) (fst x)); [exact E| | |].
  - rewrite S. cbn [prod]. repeat (apply Forall2_cons; [lia|]); apply Forall2_nil.
  - rewrite HS. repeat (apply Forall2_cons; [lia|]); apply Forall2_nil.
  - rewrite S, HS. cbn. lia.
Qed.

(* column_stack: every row of the result is the operands' rows one after the other,
   where a one-dimensional operand is a column *)
Theorem C138_column_stack_partial : forall V (zero : V) (l : list nd) x0,
  nth_error l 0 = Some x0 -> (forall x, In x l -> wf (fst x) (snd x) /\ (ndim (snd x) = 1 -> a_c (snd x) = true)) ->
  let sh := column_shape (a_shape (snd x0)) in
  let osh := upd sh 1 (list_sum (map (fun x => nth 1 (column_shape (a_shape (snd x))) 0) l)) in
  let compatible := 2 <= length sh /\
    (forall x, In x l -> length (column_shape (a_shape (snd x))) = length sh /\
                         remove_at 1 (column_shape (a_shape (snd x))) = remove_at 1 sh) in
  (compatible -> exists out, column_stack zero l = Ok (osh, out) /\
     forall item oi, (0 < item)%Z -> inb oi (remove_at 1 sh) ->
       lane out (fresh osh item) 1 oi = concat (map (fun x => column_part x oi) l)) /\
  (~ compatible -> column_stack zero l = Err).
Proof.
  intros V zero l x0 E0 HW sh osh compatible. unfold column_stack. destruct l as [|y l]; [discriminate|]. injection E0 as ->.
  set (L := x0 :: l) in *.
  assert (HR : forall x, In x L -> wf (fst (as_column x)) (snd (as_column x)) /\ a_shape (snd (as_column x)) = column_shape (a_shape (snd x)) /\
     forall oi, inb oi (remove_at 1 (column_shape (a_shape (snd x)))) -> lane (fst (as_column x)) (snd (as_column x)) 1 oi = column_part x oi).
  { intros x Hx. destruct (HW x Hx) as [W HC]. apply (as_column_ok x W HC). }
  destruct (concat_nd_spec zero (map as_column L) (as_column x0) 1 eq_refl) as [S1 S2].
  { intros x Hx. apply in_map_iff in Hx as (y & <- & Hy). apply HR. exact Hy. }
  destruct (HR x0 (or_introl eq_refl)) as (_ & SX0 & _). rewrite SX0 in S1, S2. fold sh in S1, S2.
  assert (ES : list_sum (map (axis_len 1) (map as_column L)) = list_sum (map (fun x => nth 1 (column_shape (a_shape (snd x))) 0) L)).
  { f_equal. rewrite map_map. apply map_ext_in. intros x Hx. unfold axis_len. destruct (HR x Hx) as (_ & -> & _). reflexivity. }
  rewrite ES in S1. fold osh in S1.
  assert (EC : compatible <-> (1 < length sh /\ forall x, In x (map as_column L) -> length (a_shape (snd x)) = length sh /\ remove_at 1 (a_shape (snd x)) = remove_at 1 sh)).
  { unfold compatible. split; intros [C1 C2]; (split; [lia|]); intros x Hx.
    - apply in_map_iff in Hx as (y & <- & Hy). destruct (HR y Hy) as (_ & -> & _). apply C2. exact Hy.
    - destruct (HR x Hx) as (_ & <- & _). apply C2. apply in_map. exact Hx. }
  split.
  - intros HC. destruct (S1 (proj1 EC HC)) as (out & E & _ & HL). exists out. split; [exact E|].
    intros item oi HI Ho. rewrite (HL item oi HI Ho), map_map. f_equal. apply map_ext_in. intros x Hx.
    apply HR; [exact Hx|]. destruct HC as [_ C2]. rewrite (proj2 (C2 x Hx)). exact Ho.
  - intros HC. apply S2. intros C. apply HC, EC. exact C.
Qed.
Example C138_column_stack_nonvacuous :
  column_stack 0 [([1; 2], fresh [2] 8); ([3; 4; 5; 6], fresh [2; 2] 8)] = Ok ([2; 3], [1; 3; 4; 2; 5; 6]).
Proof. vm_compute. reflexivity. Qed.

Lemma as_sheet_ok {V} (x : @nd V) : wf (fst x) (snd x) -> (ndim (snd x) = 1 -> a_c (snd x) = true) ->
  (ndim (snd x) = 2 -> a_c (snd x) || a_f (snd x) = true) ->
  wf (fst (as_sheet x)) (snd (as_sheet x)) /\ a_shape (snd (as_sheet x)) = depth_shape (a_shape (snd x)) /\
  forall oi, inb oi (remove_at 2 (depth_shape (a_shape (snd x)))) ->
    lane (fst (as_sheet x)) (snd (as_sheet x)) 2 oi = depth_part x oi.
Proof.
  intros W HC HC2. unfold as_sheet, depth_shape, depth_part, ndim, size in *.
  destruct (a_shape (snd x)) as [|n [|m [|p sh]]] eqn:HS; auto.
  - destruct (reshaped (fst x) (snd x) [1; prod [n]; 1] W (HC eq_refl)) as (S & W' & E); [rewrite HS; cbn; lia|].
    cbn [fst snd length]. split; [exact W'|].
    split; [rewrite S; cbn; f_equal; f_equal; lia|]. intros oi Ho. cbn [remove_at] in Ho. unfold lane. rewrite S. cbn [nth seq map]. f_equal.
    pose proof (inb_length _ _ Ho) as HL. destruct oi as [|h [|i [|? ?]]]; cbn in HL; try lia. apply inb_cons in Ho as [Hh Ho]. apply inb_cons in Ho as [Hi _].
    cbn [insert_at tl]. apply (elems_rank (fst x) (fst x)); [exact E| | |].
    + rewrite S. cbn [prod]. repeat (apply Forall2_cons; [lia|]); apply Forall2_nil.
    + rewrite HS. repeat (apply Forall2_cons; [lia|]); apply Forall2_nil.
    + rewrite S, HS. cbn. nia.
  - destruct (reshaped_sheet (fst x) (snd x) n m W HS (HC2 eq_refl)) as (S & W' & G).
    cbn [fst snd length]. split; [exact W'|]. split; [exact S|]. intros oi Ho. cbn [remove_at] in Ho. unfold lane. rewrite S. cbn [nth seq map]. f_equal.
    pose proof (inb_length _ _ Ho) as HL. destruct oi as [|i [|j [|? ?]]]; cbn in HL; try lia. apply inb_cons in Ho as [Hi Ho]. apply inb_cons in Ho as [Hj _].
    cbn [insert_at]. apply G; assumption.
Qed.

(* dstack: behind every place of the plane, the operands' items one after the other *)
Theorem C138_dstack_partial : forall V (zero : V) (l : list nd) x0,
  nth_error l 0 = Some x0 ->
  (forall x, In x l -> wf (fst x) (snd x) /\ (ndim (snd x) = 1 -> a_c (snd x) = true) /\
                       (ndim (snd x) = 2 -> a_c (snd x) || a_f (snd x) = true)) ->
  let sh := depth_shape (a_shape (snd x0)) in
  let osh := upd sh 2 (list_sum (map (fun x => nth 2 (depth_shape (a_shape (snd x))) 0) l)) in
  let compatible := 3 <= length sh /\
    (forall x, In x l -> length (depth_shape (a_shape (snd x))) = length sh /\
                         remove_at 2 (depth_shape (a_shape (snd x))) = remove_at 2 sh) in
  (compatible -> exists out, dstack zero l = Ok (osh, out) /\
     forall item oi, (0 < item)%Z -> inb oi (remove_at 2 sh) ->
       lane out (fresh osh item) 2 oi = concat (map (fun x => depth_part x oi) l)) /\
  (~ compatible -> dstack zero l = Err).
Proof.
  intros V zero l x0 E0 HW sh osh compatible. unfold dstack. destruct l as [|y l]; [discriminate|]. injection E0 as ->.
  set (L := x0 :: l) in *.
  assert (HR : forall x, In x L -> wf (fst (as_sheet x)) (snd (as_sheet x)) /\ a_shape (snd (as_sheet x)) = depth_shape (a_shape (snd x)) /\
     forall oi, inb oi (remove_at 2 (depth_shape (a_shape (snd x)))) -> lane (fst (as_sheet x)) (snd (as_sheet x)) 2 oi = depth_part x oi).
  { intros x Hx. destruct (HW x Hx) as (W & HC & HC2). apply (as_sheet_ok x W HC HC2). }
  destruct (concat_nd_spec zero (map as_sheet L) (as_sheet x0) 2 eq_refl) as [S1 S2].
  { intros x Hx. apply in_map_iff in Hx as (y & <- & Hy). apply HR. exact Hy. }
  destruct (HR x0 (or_introl eq_refl)) as (_ & SX0 & _). rewrite SX0 in S1, S2. fold sh in S1, S2.
  assert (ES : list_sum (map (axis_len 2) (map as_sheet L)) = list_sum (map (fun x => nth 2 (depth_shape (a_shape (snd x))) 0) L)).
  { f_equal. rewrite map_map. apply map_ext_in. intros x Hx. unfold axis_len. destruct (HR x Hx) as (_ & -> & _). reflexivity. }
  rewrite ES in S1. fold osh in S1.
  assert (EC : compatible <-> (2 < length sh /\ forall x, In x (map as_sheet L) -> length (a_shape (snd x)) = length sh /\ remove_at 2 (a_shape (snd x)) = remove_at 2 sh)).
  { unfold compatible. split; intros [C1 C2]; (split; [lia|]); intros x Hx.
    - apply in_map_iff in Hx as (y & <- & Hy). destruct (HR y Hy) as (_ & -> & _). apply C2. exact Hy.
    - destruct (HR x Hx) as (_ & <- & _). apply C2. apply in_map. exact Hx. }
  split.
  - intros HC. destruct (S1 (proj1 EC HC)) as (out & E & _ & HL). exists out. split; [exact E|].
    intros item oi HI Ho. rewrite (HL item oi HI Ho), map_map. f_equal. apply map_ext_in. intros x Hx.
    apply HR; [exact Hx|]. destruct HC as [_ C2]. rewrite (proj2 (C2 x Hx)). exact Ho.
  - intros HC. apply S2. intros C. apply HC, EC. exact C.
Qed.
Example C138_dstack_nonvacuous :
  dstack 0 [([1; 2; 3], fresh [3] 8); ([4; 5; 6], fresh [3] 8)] = Ok ([1; 3; 2], [1; 4; 2; 5; 3; 6]) /\
  dstack 0 [([1; 2; 3; 4], fresh [2; 2] 8); ([5; 6; 7; 8], mkArr 0 [2; 2] [8; 16]%Z 8 false true)] =
    Ok ([2; 2; 2], [1; 5; 2; 7; 3; 6; 4; 8]).
Proof. split; vm_compute; reflexivity. Qed.

(* hsplit, vsplit and dsplit take apart what hstack, vstack and dstack of arrays of
   one shape put together *)
Theorem C138_split_undoes_stack : forall V (zero : V) (l : list nd) sh item, l <> [] ->
  (forall x, In x l -> wf (fst x) (snd x) /\ a_shape (snd x) = sh) ->
  (0 < item)%Z -> (Z.of_nat (length l * prod sh) * item < 2 ^ 63)%Z ->
  let pieces out ps := length ps = length l /\
    forall k p x, nth_error ps k = Some p -> nth_error l k = Some x ->
      a_shape p = sh /\ forall idx, inb idx sh -> get out p idx = get (fst x) (snd x) idx in
  (1 <= length sh -> exists osh out ps, hstack zero l = Ok (osh, out) /\ hsplit (fresh osh item) (length l) = Ok ps /\ pieces out ps) /\
  (2 <= length sh -> exists osh out ps, vstack zero l = Ok (osh, out) /\ vsplit (fresh osh item) (length l) = Ok ps /\ pieces out ps) /\
  (3 <= length sh -> exists osh out ps, dstack zero l = Ok (osh, out) /\ dsplit (fresh osh item) (length l) = Ok ps /\ pieces out ps).
Proof.
  intros V zero l sh item HNE HW HI HB pieces.
  assert (HX : forall axis, axis < length sh -> exists osh out ps, length osh = length sh /\
    concat_nd zero l axis = Ok (osh, out) /\ Man_Model.split (fresh osh item) (length l) axis = Ok ps /\ pieces out ps).
  { intros axis HA. destruct (split_concat zero l sh axis item (nth axis sh 0) HNE HW (nth_error_nth' sh 0 HA) HI HB) as (out & ps & E1 & E2 & LP & HP).
    eexists. exists out, ps. split; [|split; [exact E1|split; [exact E2|split; [exact LP|exact HP]]]]. apply upd_length. }
  assert (HM : forall f : @nd V -> @nd V, (forall x, In x l -> f x = x) -> map f l = l).
  { intros f Hf. rewrite <- (map_id l) at 2. apply map_ext_in. exact Hf. }
  split; [|split]; intros HR.
  - unfold hstack, hsplit. destruct l as [|x0 l]; [congruence|]. set (L := x0 :: l) in *.
    destruct (HW x0 (or_introl eq_refl)) as [_ S0]. unfold ndim. rewrite S0.
    destruct (Nat.eqb_spec (length sh) 1) as [E|E].
    + destruct (HX 0 ltac:(lia)) as (osh & out & ps & HL & E1 & E2 & HP). exists osh, out, ps. cbn [fresh a_shape]. rewrite HL, E. auto.
    + destruct (HX 1 ltac:(lia)) as (osh & out & ps & HL & E1 & E2 & HP). exists osh, out, ps. cbn [fresh a_shape]. rewrite HL.
      destruct (Nat.eqb_spec (length sh) 1); [lia|]. auto.
  - destruct (HX 0 ltac:(lia)) as (osh & out & ps & HL & E1 & E2 & HP). exists osh, out, ps.
    unfold vstack, vsplit. rewrite HM; [|intros x Hx; unfold as_row; destruct (HW x Hx) as [_ ->]; destruct sh as [|? [|? ?]]; cbn in HR; try lia; reflexivity].
    destruct l as [|x0 l]; [congruence|]. unfold ndim. cbn [fresh a_shape]. rewrite HL. destruct (Nat.ltb_spec (length sh) 2); [lia|]. auto.
  - destruct (HX 2 ltac:(lia)) as (osh & out & ps & HL & E1 & E2 & HP). exists osh, out, ps.
    unfold dstack, dsplit. rewrite HM; [|intros x Hx; unfold as_sheet; destruct (HW x Hx) as [_ ->]; destruct sh as [|? [|? [|? ?]]]; cbn in HR; try lia; reflexivity].
    destruct l as [|x0 l]; [congruence|]. unfold ndim. cbn [fresh a_shape]. rewrite HL. destruct (Nat.ltb_spec (length sh) 3); [lia|]. auto.
Qed.
Example C138_split_undoes_stack_nonvacuous : exists ps,
  hstack 0 [([1; 2; 3; 4], fresh [2; 2] 8); ([5; 6; 7; 8], fresh [2; 2] 8)] = Ok ([2; 4], [1; 2; 5; 6; 3; 4; 7; 8]) /\
  hsplit (fresh [2; 4] 8) 2 = Ok ps /\ map (elems [1; 2; 5; 6; 3; 4; 7; 8]) ps = [map Some [1; 2; 3; 4]; map Some [5; 6; 7; 8]].
Proof. eexists. split; [vm_compute; reflexivity|]. split; [vm_compute; reflexivity|vm_compute; reflexivity]. Qed.

(* ---- C139 ----------------------------------------------------------------- *)

(* flip without an axis reverses every axis of an array whose strides are not
   negative (or whose axes are that short) *)
Theorem C139_flip_all_partial : forall V (buf : list V) a, wf buf a ->
  (forall axis, axis < ndim a -> (0 <= nth axis (a_strides a) 0)%Z \/ nth axis (a_shape a) 0 <= 1) ->
  exists r, py_flip a None = Ok r /\ a_shape r = a_shape a /\ wf buf r /\
    forall idx, inb idx (a_shape a) -> get buf r idx = get buf a (mirrored (a_shape a) idx).
Proof.
  intros V buf a W HN. destruct (flip_all_to buf a W HN (ndim a) (Nat.le_refl _)) as (r & E & (S & W' & G) & _).
  exists r. split; [exact E|]. split; [exact S|]. split; [exact W'|]. intros idx Hi. destruct (G idx Hi) as [_ ->].
  unfold ndim. rewrite flipped_all by (apply inb_length; exact Hi). reflexivity.
Qed.
Example C139_flip_all_nonvacuous : exists r, py_flip (fresh [2; 3] 8) None = Ok r /\
  elems (seq 0 6) r = map Some [5; 4; 3; 2; 1; 0].
Proof. eexists. split; [vm_compute; reflexivity|vm_compute; reflexivity]. Qed.
(* missing: reversed views.  flip(flip(a)) of a vector reads outside the buffer *)
Theorem C139_flip_all_refuted : exists (buf : list nat) a r q, wf buf a /\
  py_flip a None = Ok r /\ py_flip r None = Ok q /\ get buf q [0] = None.
Proof.
  exists [1; 2; 3], (fresh [3] 8). eexists. eexists. split; [wfc|]. split; [vm_compute; reflexivity|]. split; [vm_compute; reflexivity|reflexivity].
Qed.

(* one axis, counted from either end; other numbers are rejected *)
Theorem C139_flip_axis_partial : forall V (buf : list V) a x, wf buf a ->
  (forall k, axis_is (ndim a) x k -> (0 <= nth k (a_strides a) 0)%Z \/ nth k (a_shape a) 0 <= 1 ->
     exists r, py_flip a (Some x) = Ok r /\ a_shape r = a_shape a /\ wf buf r /\
       forall idx, inb idx (a_shape a) -> get buf r idx = get buf a (flip_idx k (nth k (a_shape a) 0) idx)) /\
  ((forall k, ~ axis_is (ndim a) x k) -> py_flip a (Some x) = Err).
Proof.
  intros V buf a x W. unfold py_flip, norm_axis. split.
  - intros k [HK HX] HN.
    assert (E : (if (x <? 0)%Z then (Z.of_nat (ndim a) + x)%Z else x) = Z.of_nat k) by (destruct (Z.ltb_spec x 0); lia).
    rewrite E. destruct (Z.ltb_spec (Z.of_nat k) 0); [lia|]. destruct (Z.leb_spec (Z.of_nat (ndim a)) (Z.of_nat k)); [lia|]. cbn [orb]. rewrite Nat2Z.id.
    unfold ndim in HK. destruct (C06_flip_partial V buf a k (nth k (a_shape a) 0) W (nth_error_nth' _ 0 HK) HN) as (r & ER & S & W' & G).
    exists r. split; [exact ER|]. split; [exact S|]. split; [exact W'|]. intros idx Hi. apply G. exact Hi.
  - intros HK. destruct ((_ <? 0)%Z || _)%bool eqn:E; [reflexivity|exfalso].
    apply orb_false_iff in E as [E1 E2]. apply Z.ltb_ge in E1. apply Z.leb_gt in E2.
    apply (HK (Z.to_nat (if (x <? 0)%Z then (Z.of_nat (ndim a) + x)%Z else x))). unfold axis_is. destruct (Z.ltb_spec x 0); lia.
Qed.
(* flipud and fliplr are flips of the first and of the second axis *)
Theorem C139_flipud_fliplr : forall a,
  flipud a = (if ndim a <? 1 then Err else py_flip a (Some 0%Z)) /\
  fliplr a = (if ndim a <? 2 then Err else py_flip a (Some 1%Z)).
Proof.
  intros a. unfold flipud, fliplr, py_flip, norm_axis. split.
  - destruct (Nat.ltb_spec (ndim a) 1); [reflexivity|]. cbn [Z.ltb Z.compare orb].
    destruct (Z.leb_spec (Z.of_nat (ndim a)) 0); [lia|]. cbn [Z.to_nat]. unfold flip.
    destruct (nth_error (a_shape a) 0) as [[|n]|] eqn:E; [reflexivity| |apply nth_error_None in E; unfold ndim in *; lia].
    unfold slice_axis. destruct (nth_error (a_strides a) 0); [|reflexivity]. rewrite E.
    destruct (slice_len _ _ _) eqn:ES; try reflexivity. exfalso. unfold slice_len in ES. cbn in ES. destruct (_ >? _)%Z in ES; discriminate.
  - destruct (Nat.ltb_spec (ndim a) 2); [reflexivity|]. cbn [Z.ltb Z.compare orb].
    destruct (Z.leb_spec (Z.of_nat (ndim a)) 1); [lia|]. change (Z.to_nat 1) with 1. unfold flip.
    destruct (nth_error (a_shape a) 1) as [[|n]|] eqn:E; [reflexivity| |apply nth_error_None in E; unfold ndim in *; lia].
    unfold slice_axis. destruct (nth_error (a_strides a) 1); [|reflexivity]. rewrite E.
    destruct (slice_len _ _ _) eqn:ES; try reflexivity. exfalso. unfold slice_len in ES. cbn in ES. destruct (_ >? _)%Z in ES; discriminate.
Qed.

(* broadcast_arrays: every array is seen with the least common shape; when there
   is no common shape it is an error *)
Theorem C139_broadcast_arrays : forall V (bufs : list (list V)) (l : list arr), Forall2 wf bufs l -> l <> [] ->
  (forall c, (forall a, In a l -> broadcastable (a_shape a) c) ->
     exists sh rs, broadcast_arrays l = Ok rs /\ common_shape (map a_shape l) sh /\ length rs = length l /\
       forall k buf a r, nth_error bufs k = Some buf -> nth_error l k = Some a -> nth_error rs k = Some r ->
         a_shape r = sh /\ wf buf r /\
         forall idx, inb idx sh -> get buf r idx = get buf a (unbroadcast (a_shape a) idx)) /\
  ((forall c, ~ (forall a, In a l -> broadcastable (a_shape a) c)) -> broadcast_arrays l = Err).
Proof.
  intros V bufs l HW HNE. split.
  - intros c HC. destruct (multi_least c (map a_shape l)) as (sh & E & _).
    { intros s Hs. apply in_map_iff in Hs as (a & <- & Ha). apply HC. exact Ha. }
    pose proof (multi_common _ _ E) as HCS. exists sh.
    assert (HB : forall a, In a l -> broadcastable (a_shape a) sh).
    { intros a Ha. apply (proj1 HCS). apply in_map. exact Ha. }
    assert (HM : exists rs, mapM (fun a => broadcast_to a sh) l = Ok rs /\ length rs = length l /\
       forall k buf a r, nth_error bufs k = Some buf -> nth_error l k = Some a -> nth_error rs k = Some r ->
         a_shape r = sh /\ wf buf r /\ forall idx, inb idx sh -> get buf r idx = get buf a (unbroadcast (a_shape a) idx)).
    { clear E HCS HC HNE. induction HW as [|buf a bufs l W1 W2 IH].
      - exists []. split; [reflexivity|]. split; [reflexivity|]. intros [|k] buf a r H; discriminate.
      - destruct IH as (rs & ER & LR & HR); [intros b Hb; apply HB; right; exact Hb|].
        destruct (C09_broadcast_to V buf a sh W1) as [G1 _]. destruct (G1 (HB a (or_introl eq_refl))) as (r & E1 & S1 & WR & GR).
        exists (r :: rs). cbn [mapM]. rewrite E1. cbn [bind]. rewrite ER. cbn [bind]. split; [reflexivity|]. split; [cbn; lia|].
        intros [|k] b x y H1 H2 H3; cbn in H1, H2, H3.
        + injection H1 as <-. injection H2 as <-. injection H3 as <-. split; [exact S1|]. split; [exact WR|]. intros idx Hi. apply GR. exact Hi.
        + apply (HR k); assumption. }
    destruct HM as (rs & EM & LM & HM). exists rs. unfold broadcast_arrays. destruct l as [|a l]; [congruence|]. rewrite E. auto.
  - intros HC. unfold broadcast_arrays. destruct l as [|a l]; [congruence|].
    destruct (broadcast_multi_shapes (map a_shape (a :: l))) as [sh|] eqn:E; [|reflexivity]. exfalso. apply (HC sh).
    intros b Hb. apply (multi_upper _ _ E). apply in_map. exact Hb.
Qed.
Example C139_broadcast_arrays_nonvacuous : exists rs, broadcast_arrays [fresh [3] 8; fresh [2; 1] 8] = Ok rs /\
  map a_shape rs = [[2; 3]; [2; 3]] /\ broadcast_arrays [fresh [3] 8; fresh [2] 8] = Err.
Proof. eexists. split; [vm_compute; reflexivity|]. split; vm_compute; reflexivity. Qed.

(* broadcast_shapes of any number of shapes: the least common shape, and an error
   exactly when there is none *)
Theorem C139_broadcast_shapes : forall shs,
  (forall r, py_broadcast_shapes shs = Some r -> common_shape shs r) /\
  (forall c, (forall s, In s shs -> broadcastable s c) -> exists r, py_broadcast_shapes shs = Some r).
Proof.
  intros shs. rewrite py_broadcast_is. split; [apply multi_common|].
  intros c HC. destruct (multi_least c shs HC) as (r & E & _). exists r. exact E.
Qed.
Example C139_broadcast_shapes_nonvacuous : py_broadcast_shapes [[]; [3; 1]; []; [1; 4]; [5; 1; 1]] = Some [5; 3; 4].
Proof. reflexivity. Qed.

Print Assumptions C136_moveaxis_one.
Print Assumptions C136_moveaxis_back.
Print Assumptions C136_moveaxis_partial.
Print Assumptions C136_moveaxis_refuted.
Print Assumptions C136_moveaxis_range_refuted.
Print Assumptions C136_rollaxis_partial.
Print Assumptions C136_rollaxis_refuted.
Print Assumptions C136_matrix_transpose.
Print Assumptions C137_atleast_partial.
Print Assumptions C137_atleast_same.
Print Assumptions C137_atleast_refuted.
Print Assumptions C138_vstack_partial.
Print Assumptions C138_vstack_refuted.
Print Assumptions C138_scalars_refuted.
Print Assumptions C138_hstack_1d.
Print Assumptions C138_hstack.
Print Assumptions C138_column_stack_partial.
Print Assumptions C138_dstack_partial.
Print Assumptions C138_split_undoes_stack.
Print Assumptions C139_flip_all_partial.
Print Assumptions C139_flip_all_refuted.
Print Assumptions C139_flip_axis_partial.
Print Assumptions C139_flipud_fliplr.
Print Assumptions C139_broadcast_arrays.
Print Assumptions C139_broadcast_shapes.
