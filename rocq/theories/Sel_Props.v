(* C46-C48, C69: selecting and replacing elements by index or mask. *)
From Verif Require Import Base Lists Arr_Spec Arr_Model Arr_Wf Arr_Proofs Wf_Check Copy_Model Copy_Proofs
  Idx_Model Idx_Wf Idx_Assign Int_Model F64_Model F64_Proofs Elem_Proofs Red_Model Red_Spec Red_Proofs Red_Scan
  Man_Model Man_Proofs Man_Ops Sel_Spec Sel_Model Sel_Proofs Sel_Ops Sel_Ops2.
Local Open Scope nat_scope.

Ltac wfc := apply wf_check_sound; vm_compute; reflexivity.

(* ---- C46 ------------------------------------------------------------------ *)

(* take(a, idx, axis): position i along the axis is a's position idx[i], counted
   from the end if negative; an index out of range is an error.
   Missing: a with the C-contiguous flag whose first stride is not a whole row
   (hypothesis packed; see the refutations below). *)
Theorem C46_take_partial : forall {V} (zero : V) (buf : list V) a ibuf ia iv axis_opt axis n,
  wf buf a -> wf ibuf ia -> elems ibuf ia = map Some iv ->
  Forall i64_range iv -> (Z.of_nat n <= isize_max)%Z ->
  axis = match axis_opt with Some x => x | None => 0 end -> nth_error (a_shape a) axis = Some n ->
  (axis = 0 -> a_c a = true -> 2 <= ndim a ->
     nth 0 (a_strides a) 0%Z = (a_item a * Z.of_nat (prod (tl (a_shape a))))%Z) ->
  let osh := upd (a_shape a) axis (size ia) in
  (forall js, map (fun i => py_index i n) iv = map Some js ->
   exists out, take zero buf a ibuf ia axis_opt = Ok (osh, out) /\ length out = prod osh /\
     forall item idx, (0 < item)%Z -> inb idx osh ->
       get out (fresh osh item) idx = get buf a (upd idx axis (nth (nth axis idx 0) js 0))) /\
  ((exists i, In i iv /\ py_index i n = None) -> take zero buf a ibuf ia axis_opt = Err).
Proof. intros V zero buf a ibuf ia iv axis_opt axis n W WI E HR Hn HA Hax HP. apply take_spec; assumption. Qed.
Example C46_take_nonvacuous :
  let a := mkArr 0 [2; 3] [8; 16]%Z 8 false true in      (* columns 1,2 / 3,4 / 5,6 *)
  wf [1; 2; 3; 4; 5; 6] a /\
  take 0 [1; 2; 3; 4; 5; 6] a [-1; 0; 0; 1]%Z (fresh [4] 8) (Some 1) = Ok ([2; 4], [5; 1; 1; 3; 6; 2; 2; 4]) /\
  take 0 [1; 2; 3; 4; 5; 6] a [1; -2]%Z (fresh [2] 8) None = Ok ([2; 3], [2; 4; 6; 1; 3; 5]) /\
  take 0 [1; 2; 3; 4; 5; 6] a [3]%Z (fresh [1] 8) (Some 1) = Err.
Proof. split; [wfc|]. repeat split; vm_compute; reflexivity. Qed.

(* every freshly allocated array is packed *)
Theorem C46_take_fresh_packed : forall sh item axis,
  axis = 0 -> a_c (fresh sh item) = true -> 2 <= ndim (fresh sh item) ->
  nth 0 (a_strides (fresh sh item)) 0%Z = (a_item (fresh sh item) * Z.of_nat (prod (tl (a_shape (fresh sh item)))))%Z.
Proof. intros sh item axis H1 H2 H3. exact (packed_rows_fresh sh item axis H1 H2 H3). Qed.

(* expand_dims(x, 0).take([0]): only the first element of the row is copied *)
Theorem C46_take_expanded_refuted : exists (a : arr) (buf : list nat),
  wf buf a /\ a_shape a = [1; 3] /\ elems buf a = [Some 1; Some 2; Some 3] /\
  take 0 buf a [0]%Z (fresh [1] 8) (Some 0) = Ok ([1; 3], [1; 0; 0]).
Proof.
  exists (mkArr 0 [1; 3] [8; 8]%Z 8 true false), [1; 2; 3]. split; [wfc|]. repeat split; vm_compute; reflexivity.
Qed.
(* a[::2].take([0, 0]) of a 2x2 array: the copy runs past the result *)
Theorem C46_take_overrun_refuted : exists (a : arr) (buf : list nat),
  wf buf a /\ a_shape a = [1; 2] /\ take 0 buf a [0; 0]%Z (fresh [2] 8) (Some 0) <> Ok ([2; 2], [1; 2; 1; 2]) /\
  take 0 buf a [0; 0]%Z (fresh [2] 8) (Some 0) = Fault.
Proof.
  exists (mkArr 0 [1; 2] [32; 8]%Z 8 true false), [1; 2; 3; 4]. split; [wfc|]. repeat split; vm_compute; try reflexivity. discriminate.
Qed.
(* without an axis the first axis is used: take does not flatten *)
Theorem C46_take_flat_refuted : exists (buf : list nat) a, wf buf a /\ a_shape a = [2; 2] /\
  take 0 buf a [3]%Z (fresh [1] 8) None = Err /\ nth_error (elems buf a) 3 = Some (Some 4).
Proof. exists [1; 2; 3; 4], (fresh [2; 2] 8). split; [wfc|]. repeat split; vm_compute; reflexivity. Qed.

(* a[mask]: in row-major order exactly the elements whose mask entry is true *)
Theorem C46_mask : forall {V} (buf : list V) a mbuf m vals bs, wf buf a -> wf mbuf m ->
  elems buf a = map Some vals -> elems mbuf m = map Some bs ->
  (a_shape m = a_shape a -> select_by_mask buf a mbuf m = Ok ([length (keep bs vals)], keep bs vals)) /\
  (a_shape m <> a_shape a -> select_by_mask buf a mbuf m = Err).
Proof. intros V buf a mbuf m vals bs W WM E EM. apply select_by_mask_spec; assumption. Qed.
Example C46_mask_nonvacuous :
  let a := mkArr 0 [2; 3] [8; 16]%Z 8 false true in
  wf [1; 2; 3; 4; 5; 6] a /\ wf [true; false; false; true; true; false] (fresh [2; 3] 1) /\
  select_by_mask [1; 2; 3; 4; 5; 6] a [true; false; false; true; true; false] (fresh [2; 3] 1) = Ok ([3], [1; 2; 4]).
Proof. split; [wfc|]. split; [wfc|]. vm_compute. reflexivity. Qed.

(* compress without an axis: the mask applies to the row-major elements *)
Theorem C46_compress_flat : forall {V} (cond : list bool) (buf : list V) a vals, wf buf a -> elems buf a = map Some vals ->
  compress_flat cond buf a = Ok ([length (keep cond vals)], keep cond vals).
Proof. intros V cond buf a vals W E. apply compress_flat_spec; assumption. Qed.
Example C46_compress_flat_nonvacuous :
  compress_flat [false; true; true] [1; 2; 3; 4] (mkArr 0 [2; 2] [8; 16]%Z 8 false true) = Ok ([2], [3; 2]).
Proof. vm_compute. reflexivity. Qed.

(* compress along an axis: every lane keeps the elements whose condition is true *)
Theorem C46_compress_axis : forall {V} (zero : V) (cond : list bool) (buf : list V) a axis n,
  wf buf a -> nth_error (a_shape a) axis = Some n ->
  let osh := upd (a_shape a) axis (length (true_positions 0 (firstn n cond))) in
  exists out, compress_axis zero cond buf a axis = Ok (osh, out) /\ length out = prod osh /\
    forall item oi, (0 < item)%Z -> inb oi (remove_at axis (a_shape a)) ->
      lane out (fresh osh item) axis oi = keep cond (lane buf a axis oi).
Proof. intros V zero cond buf a axis n W Hn. apply compress_axis_spec; assumption. Qed.
Example C46_compress_axis_nonvacuous :
  compress_axis 0 [true; false; true] [1; 2; 3; 4; 5; 6] (fresh [2; 3] 8) 1 = Ok ([2; 2], [1; 3; 4; 6]).
Proof. vm_compute. reflexivity. Qed.

(* a[index array]: row i of the result is row idx[i] of a.  Missing: arrays whose
   rows are empty, and index values that do not survive the float conversion. *)
Theorem C46_rows_partial : forall {V} (zero : V) as_idx (buf : list V) a ibuf ia iv n rest,
  wf buf a -> wf ibuf ia -> elems ibuf ia = map Some iv ->
  a_shape a = n :: rest -> Forall i64_range iv -> (Z.of_nat n <= isize_max)%Z ->
  (forall i, In i iv -> as_idx i = i) -> (0 < prod rest \/ size ia = 0) ->
  let osh := size ia :: rest in
  (forall js, map (fun i => py_index i n) iv = map Some js ->
   exists out, select_by_indices zero as_idx buf a ibuf ia = Ok (osh, out) /\ length out = prod osh /\
     forall item i idx, (0 < item)%Z -> inb (i :: idx) osh ->
       get out (fresh osh item) (i :: idx) = get buf a (nth i js 0 :: idx)) /\
  ((exists i, In i iv /\ py_index i n = None) -> select_by_indices zero as_idx buf a ibuf ia = Err).
Proof. intros V zero as_idx buf a ibuf ia iv n rest W WI E Hs HR Hn HA HP. apply select_by_indices_spec; assumption. Qed.
Example C46_rows_nonvacuous :
  select_by_indices 0 (through_f64 (mkIty 64 true)) [1; 2; 3; 4; 5; 6] (mkArr 0 [3; 2] [8; 24]%Z 8 false true)
    [2; -3; 2]%Z (fresh [3] 8) = Ok ([3; 2], [3; 6; 1; 4; 3; 6]).
Proof. vm_compute. reflexivity. Qed.
(* rows without elements: one element per row is copied all the same *)
Theorem C46_rows_empty_refuted : exists (a : arr) (buf : list nat), wf buf a /\ a_shape a = [2; 0] /\
  select_by_indices 0 (fun i => i) buf a [0]%Z (fresh [1] 8) = Fault.
Proof. exists (fresh [2; 0] 8), []. split; [wfc|]. split; vm_compute; reflexivity. Qed.
(* an index array with more dimensions is flattened: NumPy keeps its shape *)
Theorem C46_rows_shape_refuted : exists (buf : list nat) out, 
  select_by_indices 0 (fun i => i) buf (fresh [2] 8) [0; 1; 1; 0]%Z (fresh [2; 2] 8) = Ok ([4], out).
Proof. exists [7; 8], [7; 8; 8; 7]. vm_compute. reflexivity. Qed.

(* ---- C47 ------------------------------------------------------------------ *)
Theorem C47_flatnonzero : forall {V} (truthy : V -> bool) (buf : list V) a vals, wf buf a -> elems buf a = map Some vals ->
  let ks := true_positions 0 (map truthy vals) in flatnonzero truthy buf a = Ok ([length ks], map Z.of_nat ks).
Proof. intros V truthy buf a vals W E. apply flatnonzero_spec; assumption. Qed.

(* the listed positions are increasing and are exactly the truthy ones *)
Theorem C47_positions : forall mask,
  (forall k, In k (true_positions 0 mask) <-> nth_error mask k = Some true) /\
  (forall i k k', nth_error (true_positions 0 mask) i = Some k -> nth_error (true_positions 0 mask) (S i) = Some k' -> k < k').
Proof.
  assert (A : forall mask s k, In k (true_positions s mask) <-> s <= k /\ nth_error mask (k - s) = Some true).
  { induction mask as [|b mask IH]; intros s k; cbn [true_positions].
    - split; [intros []|]. intros [_ H]. destruct (k - s); discriminate.
    - destruct (Nat.eq_dec k s) as [->|Hne].
      + rewrite Nat.sub_diag. cbn [nth_error]. destruct b.
        * split; [intros _; split; [lia|reflexivity]|intros _; left; reflexivity].
        * split; [intros H; apply IH in H; lia|intros [_ H]; discriminate].
      + assert (E : s <= k -> nth_error (b :: mask) (k - s) = nth_error mask (k - S s)) by (intros; replace (k - s) with (S (k - S s)) by lia; reflexivity).
        destruct b; cbn [In]; rewrite IH; split.
        * intros [H|[H1 H2]]; [congruence|]. split; [lia|]. rewrite E by lia. exact H2.
        * intros [H1 H2]. right. split; [lia|]. rewrite <- E by lia. exact H2.
        * intros [H1 H2]. split; [lia|]. rewrite E by lia. exact H2.
        * intros [H1 H2]. split; [lia|]. rewrite <- E by lia. exact H2. }
  intros mask. split.
  - intros k. rewrite A, Nat.sub_0_r. intuition lia.
  - assert (B : forall mask s i k k', nth_error (true_positions s mask) i = Some k -> nth_error (true_positions s mask) (S i) = Some k' -> k < k').
    { induction mask0 as [|b m IH]; intros s i k k' H1 H2; [destruct i; discriminate|]. cbn [true_positions] in *. destruct b.
      - destruct i as [|i]; [|eapply IH; [exact H1|exact H2]].
        injection H1 as <-. change (nth_error (true_positions (S s) m) 0 = Some k') in H2. apply nth_error_In in H2. apply A in H2. lia.
      - eapply IH; [exact H1|exact H2]. }
    intros i k k'. apply B.
Qed.

(* argwhere: one row per truthy element, its index tuple, in row-major order.
   Missing: 0-d arrays. *)
Theorem C47_argwhere_partial : forall {V} (truthy : V -> bool) (buf : list V) a vals, wf buf a -> elems buf a = map Some vals -> 0 < ndim a ->
  let rows := keep (map truthy vals) (all_idx (a_shape a)) in
  argwhere truthy buf a = Ok ([length rows; ndim a], flat_map (map Z.of_nat) rows).
Proof. intros V truthy buf a vals W E HN. apply argwhere_spec; assumption. Qed.

(* nonzero: per dimension the coordinates of the truthy elements.
   Missing: dimensions above 2^53 (the indices pass through f64), and element types
   for which the test by get_element differs from the truth value. *)
Theorem C47_nonzero_partial : forall {V} (nz : V -> bool) (buf : list V) a vals, wf buf a -> elems buf a = map Some vals ->
  Forall (fun s => Z.of_nat s <= 2 ^ 53)%Z (a_shape a) ->
  let rows := keep (map nz vals) (all_idx (a_shape a)) in
  nonzero nz buf a = Ok (map (fun d => map (fun r => Z.of_nat (nth d r 0)) rows) (seq 0 (ndim a))).
Proof. intros V nz buf a vals W E HS. apply nonzero_spec; assumption. Qed.

(* the three agree: as many positions as count_nonzero says, and the rows of
   argwhere are the index tuples of the flat positions *)
Theorem C47_agree : forall {V} (truthy : V -> bool) (buf : list V) a vals, wf buf a -> elems buf a = map Some vals ->
  let ks := true_positions 0 (map truthy vals) in
  count_nonzero truthy buf a = Ok (length ks) /\
  keep (map truthy vals) (all_idx (a_shape a)) = map (unrank (a_shape a)) ks /\
  (forall k, In k ks -> inb (unrank (a_shape a) k) (a_shape a) /\ rank (a_shape a) (unrank (a_shape a) k) = k).
Proof.
  intros V truthy buf a vals W E ks. split; [|split].
  - rewrite (count_nonzero_spec truthy buf a vals W E). f_equal. apply keep_filter_len.
  - pose proof (elems_length _ _ _ E) as HL. rewrite all_idx_unrank. fold (size a). rewrite <- HL. unfold ks.
    rewrite <- (map_length truthy vals). apply keep_seq.
  - intros k Hk. apply (proj1 (C47_positions (map truthy vals))) in Hk.
    assert (Hlt : k < size a).
    { rewrite <- (elems_length _ _ _ E), <- (map_length truthy vals). apply nth_error_Some. congruence. }
    split; [apply unrank_inb|apply rank_unrank]; exact Hlt.
Qed.
Example C47_nonvacuous :
  let a := mkArr 0 [2; 3] [8; 16]%Z 8 false true in let buf := [0; 2; 3; 0; 0; 6]%Z in
  let t := fun v => negb (v =? 0)%Z in
  wf buf a /\ flatnonzero t buf a = Ok ([3], [1; 3; 5]%Z) /\
  argwhere t buf a = Ok ([3; 2], [0; 1; 1; 0; 1; 2]%Z) /\ nonzero t buf a = Ok [[0; 1; 1]; [1; 0; 2]]%Z /\
  count_nonzero t buf a = Ok 3.
Proof. split; [wfc|]. repeat split; vm_compute; reflexivity. Qed.

(* argwhere of a non-zero 0-d array should have shape (1, 0) *)
Theorem C47_argwhere_0d_refuted : argwhere (fun v => negb (v =? 0)%Z) [5%Z] (fresh [] 8) = Ok ([1; 1], [0%Z]).
Proof. vm_compute. reflexivity. Qed.
(* complex arrays: every element tests as zero in nonzero (read_f64 has no answer),
   whereas flatnonzero finds it *)
Theorem C47_nonzero_complex_refuted : exists (buf : list (Z * Z)) a,
  let truthy := fun c => negb ((fst c =? 0) && (snd c =? 0))%Z in
  let get_f64_nonzero := fun _ : Z * Z => false in
  wf buf a /\ flatnonzero truthy buf a = Ok ([1], [1%Z]) /\ nonzero get_f64_nonzero buf a = Ok [[]].
Proof. exists [(0, 0)%Z; (3, 4)%Z], (fresh [2] 16). split; [wfc|]. split; vm_compute; reflexivity. Qed.

(* ---- C48 ------------------------------------------------------------------ *)

(* put(a, idx, v): ws lists position idx[i] with value v[i mod len v] in turn.  The
   elements of a afterwards are a's with these replaced, later ones winning; all
   other memory keeps its contents; an index out of range leaves an error and no
   new buffer.  Missing: empty v, values that double precision changes, and views
   in which two positions share memory (for the element statement). *)
Theorem C48_put_partial : forall {V} (via : V -> V) (buf : list V) a indices values vals,
  wf buf a -> elems buf a = map Some vals ->
  Forall i64_range indices -> (Z.of_nat (size a) <= isize_max)%Z -> values <> [] -> (forall v, In v values -> via v = v) ->
  (forall js ws, map (fun i => py_index i (size a)) indices = map Some js ->
     map fst ws = js -> (forall i w, nth_error ws i = Some w -> cycled values i = Some (snd w)) ->
   exists buf', put via buf a indices values = Ok buf' /\ length buf' = length buf /\
     (injective a -> elems buf' a = map Some (put_list ws vals)) /\
     (forall ad, (forall k, In k js -> ad <> addr a (unrank (a_shape a) k)) -> load buf' (a_item a) ad = load buf (a_item a) ad)) /\
  ((exists i, In i indices /\ py_index i (size a) = None) -> put via buf a indices values = Err).
Proof. intros V via buf a indices values vals W E HR HS HV HA. apply put_spec; assumption. Qed.

(* later writes win: position p ends up with the value of the last entry for p *)
Theorem C48_last_wins : forall {A} (ws : list (nat * A)) l p,
  (p < length l -> forall ws1 v ws2, ws = ws1 ++ (p, v) :: ws2 -> ~ In p (map fst ws2) -> nth_error (put_list ws l) p = Some v) /\
  (~ In p (map fst ws) -> nth_error (put_list ws l) p = nth_error l p).
Proof.
  intros A. assert (LEN : forall (ws : list (nat * A)) l, length (put_list ws l) = length l).
  { induction ws as [|[k v] ws IH]; intros l; [reflexivity|]. unfold put_list in *. cbn [fold_left fst snd]. rewrite IH. apply upd_length. }
  assert (NOT : forall (ws : list (nat * A)) l p, ~ In p (map fst ws) -> nth_error (put_list ws l) p = nth_error l p).
  { induction ws as [|[k v] ws IH]; intros l p H; [reflexivity|]. cbn [map fst In] in H. unfold put_list in *. cbn [fold_left fst snd].
    rewrite IH by tauto. apply nth_error_upd_neq. intros ->. apply H. left; reflexivity. }
  intros ws l p. split; [|apply NOT].
  intros Hp ws1 v ws2 -> Hn. rewrite put_list_app. change (put_list ((p, v) :: ws2) (put_list ws1 l)) with (put_list ws2 (upd (put_list ws1 l) p v)).
  rewrite NOT by exact Hn. apply nth_error_upd_eq. rewrite LEN. exact Hp.
Qed.
Example C48_put_nonvacuous :
  let a := mkArr 8 [2; 2] [32; 8]%Z 8 false false in      (* columns 1, 2 of a 2x4 array *)
  let buf := [10; 11; 12; 13; 14; 15; 16; 17] in
  wf buf a /\ injective a /\
  put (fun v => v) buf a [0; -1; 0]%Z [7; 8] = Ok [10; 7; 12; 13; 14; 15; 8; 17] /\
  put (fun v => v) buf a [0; 4]%Z [7; 8] = Err.
Proof.
  split; [wfc|]. split; [|split; vm_compute; reflexivity].
  intros x y Hx Hy E. destruct x as [|x0 [|x1 [|]]]; try (cbn in Hx; destruct Hx as (? & Hx); try destruct Hx as (? & Hx); contradiction);
  try (apply inb_length in Hx; discriminate). destruct y as [|y0 [|y1 [|]]]; try (apply inb_length in Hy; discriminate).
  apply inb_cons in Hx as [Hx0 Hx]. apply inb_cons in Hx as [Hx1 _]. apply inb_cons in Hy as [Hy0 Hy]. apply inb_cons in Hy as [Hy1 _].
  unfold addr, byte_offset_for in E. cbn [dot a_strides a_off] in E. assert (x0 = y0 /\ x1 = y1) as [-> ->] by lia. reflexivity.
Qed.
(* int64 values pass through a double *)
Theorem C48_put_int64_refuted : exists (buf : list Z) v, (2 ^ 53 < v < 2 ^ 54)%Z /\
  put (through_f64 (mkIty 64 true)) buf (fresh [1] 8) [0]%Z [v] = Ok [v - 1]%Z.
Proof. exists [0%Z], (2 ^ 53 + 1)%Z. split; [lia|vm_compute; reflexivity]. Qed.
(* no values: the remainder by zero panics *)
Theorem C48_put_empty_refuted : forall {V} (via : V -> V) (buf : list V) a i indices,
  py_index i (size a) <> None -> i64_range i -> (Z.of_nat (size a) <= isize_max)%Z -> indices = [i] -> put via buf a indices [] = Panic.
Proof.
  intros V via buf a i indices Hi HR HS ->. unfold put. cbn [mapM]. rewrite norm_index_spec by assumption.
  destruct (py_index i (size a)); [|contradiction]. reflexivity.
Qed.
(* a broadcast view: writing position 0 changes position 1 too *)
Theorem C48_put_broadcast_refuted : exists (buf buf' : list nat) a, wf buf a /\ elems buf a = [Some 5; Some 5] /\
  put (fun v => v) buf a [0]%Z [9] = Ok buf' /\ elems buf' a = [Some 9; Some 9].
Proof. exists [5], [9], (mkArr 0 [2] [0]%Z 8 false false). split; [wfc|]. repeat split; vm_compute; reflexivity. Qed.

(* ---- C69 ------------------------------------------------------------------ *)

(* take_along_axis: every element comes from the same lane, at the given index *)
Theorem C69_take_along_axis : forall {V} (zero : V) (buf : list V) a ibuf ia axis n, wf buf a -> wf ibuf ia ->
  (forall i, In (Some i) (elems ibuf ia) -> i64_range i) -> (Z.of_nat n <= isize_max)%Z ->
  nth_error (a_shape a) axis = Some n ->
  length (a_shape ia) = length (a_shape a) -> remove_at axis (a_shape ia) = remove_at axis (a_shape a) ->
  ((forall idx, inb idx (a_shape ia) -> exists i k, get ibuf ia idx = Some i /\ py_index i n = Some k) ->
   exists out, take_along_axis buf a ibuf ia axis = Ok (a_shape ia, out) /\ length out = size ia /\
     forall item idx i k, (0 < item)%Z -> inb idx (a_shape ia) -> get ibuf ia idx = Some i -> py_index i n = Some k ->
       get out (fresh (a_shape ia) item) idx = get buf a (upd idx axis k)) /\
  ((exists idx i, inb idx (a_shape ia) /\ get ibuf ia idx = Some i /\ py_index i n = None) ->
   take_along_axis buf a ibuf ia axis = Err).
Proof. intros V zero buf a ibuf ia axis n W WI HR Hn Hax HL HM. exact (take_along_axis_spec zero buf a ibuf ia axis n W WI HR Hn Hax HL HM). Qed.
Theorem C69_take_along_axis_mismatch : forall {V} (buf : list V) a ibuf ia axis,
  ~ (axis < ndim a /\ ndim ia = ndim a /\ remove_at axis (a_shape ia) = remove_at axis (a_shape a)) ->
  take_along_axis buf a ibuf ia axis = Err.
Proof. intros V buf a ibuf ia axis H. apply take_along_axis_mismatch; exact H. Qed.
Example C69_take_along_axis_nonvacuous :
  take_along_axis [1; 2; 3; 4; 5; 6] (fresh [2; 3] 8) [2; -3; 1; 1]%Z (fresh [2; 2] 8) 1 = Ok ([2; 2], [3; 1; 5; 5]) /\
  take_along_axis [1; 2; 3; 4; 5; 6] (fresh [2; 3] 8) [2; 3; 1; 1]%Z (fresh [2; 2] 8) 1 = Err /\
  take_along_axis [1; 2; 3; 4; 5; 6] (fresh [2; 3] 8) [0; 0; 0]%Z (fresh [3; 1] 8) 1 = Err.
Proof. repeat split; vm_compute; reflexivity. Qed.

(* choose with choices of one dtype and the shape of the selector *)
Theorem C69_choose_partial : forall {V} (zero : V) ibuf ia (choices : list (list V * arr)), wf ibuf ia ->
  (forall i, In (Some i) (elems ibuf ia) -> i64_range i) -> (Z.of_nat (length choices) < 2 ^ 63)%Z ->
  Forall (fun c => wf (fst c) (snd c) /\ a_shape (snd c) = a_shape ia) choices -> choices <> [] ->
  ((forall idx i, inb idx (a_shape ia) -> get ibuf ia idx = Some i -> (0 <= i < Z.of_nat (length choices))%Z) ->
   exists out, choose ibuf ia choices = Ok (a_shape ia, out) /\ length out = size ia /\
     forall item idx i c, (0 < item)%Z -> inb idx (a_shape ia) -> get ibuf ia idx = Some i ->
       nth_error choices (Z.to_nat i) = Some c -> get out (fresh (a_shape ia) item) idx = get (fst c) (snd c) idx) /\
  ((exists idx i, inb idx (a_shape ia) /\ get ibuf ia idx = Some i /\ ~ (0 <= i < Z.of_nat (length choices))%Z) ->
   choose ibuf ia choices = Err).
Proof. intros V zero ibuf ia choices WI HR HN HF HE. exact (choose_spec zero ibuf ia choices WI HR HN HF HE). Qed.
Example C69_choose_nonvacuous :
  choose [1; 0; 1]%Z (fresh [3] 8) [([1; 2; 3], fresh [3] 8); ([7; 8; 9], mkArr 16 [3] [-8]%Z 8 false false)] = Ok ([3], [9; 2; 7]).
Proof. vm_compute. reflexivity. Qed.
(* choices of another shape are not broadcast *)
Theorem C69_choose_broadcast_refuted : choose [1; 0]%Z (fresh [2] 8) [([1], fresh [1] 8); ([7], fresh [1] 8)] = Err.
Proof. vm_compute. reflexivity. Qed.

(* put_along_axis with all indices in range: ws pairs, in row-major order of the
   index array, the addressed position of a (its row-major number) with the value;
   nothing but the addressed elements changes *)
Theorem C69_put_along_axis_partial : forall {V} (via : V -> V) (buf : list V) a ibuf ia vbuf va axis n vals ws,
  wf buf a -> wf ibuf ia -> wf vbuf va -> elems buf a = map Some vals ->
  nth_error (a_shape a) axis = Some n -> (Z.of_nat n <= isize_max)%Z ->
  length (a_shape ia) = length (a_shape a) -> remove_at axis (a_shape ia) = remove_at axis (a_shape a) -> a_shape va = a_shape ia ->
  (forall i, In (Some i) (elems ibuf ia) -> i64_range i) -> (forall v, In (Some v) (elems vbuf va) -> via v = v) ->
  Forall2 (fun oi w => exists i k, get ibuf ia oi = Some i /\ py_index i n = Some k /\
             fst w = rank (a_shape a) (upd oi axis k) /\ get vbuf va oi = Some (snd w)) (all_idx (a_shape ia)) ws ->
  exists buf', put_along_axis via buf a ibuf ia vbuf va axis = Ok (buf', true) /\ length buf' = length buf /\
    (injective a -> elems buf' a = map Some (put_list ws vals)) /\
    (forall ad, (forall w, In w ws -> ad <> addr a (unrank (a_shape a) (fst w))) -> load buf' (a_item a) ad = load buf (a_item a) ad).
Proof.
  intros V via buf a ibuf ia vbuf va axis n vals ws W WI WV E Hn Hb HL HM HVS HR HA H2.
  unfold put_along_axis. assert (Hax : axis < ndim a) by (apply nth_error_Some; unfold ndim; congruence).
  destruct (Nat.leb_spec (ndim a) axis); [lia|]. rewrite HVS, list_eqb_refl. unfold ndim. rewrite HL, Nat.eqb_refl. cbn [negb orb].
  rewrite (proj2 (match_off_spec axis (a_shape a) (a_shape ia) (eq_sym HL) Hax)) by (symmetry; exact HM).
  cbn [negb]. rewrite <- HL. unfold size. rewrite odometer_all.
  destruct (put_along_loop_spec via a ibuf ia vbuf va axis n Hn Hb (eq_sym HL) (eq_sym HM) HVS WI WV HR HA (all_idx (a_shape ia)) buf vals ws)
    as (b & Eb & Lb & _ & Sb & Ob); [|exact W|exact E|exact H2|exists b; auto].
  apply Forall_forall. intros oi. apply in_all_idx.
Qed.
Example C69_put_along_axis_nonvacuous :
  put_along_axis (fun v => v) [1; 2; 3; 4; 5; 6] (fresh [2; 3] 8) [-1; 0]%Z (fresh [2; 1] 8) [70; 80] (fresh [2; 1] 8) 1
    = Ok ([1; 2; 70; 80; 5; 6], true).
Proof. vm_compute. reflexivity. Qed.
(* an index out of range: the call fails, but the earlier elements are written *)
Theorem C69_put_along_axis_partial_write_refuted : exists (buf buf' : list nat),
  put_along_axis (fun v => v) buf (fresh [3] 8) [0; 9]%Z (fresh [2] 8) [7; 8] (fresh [2] 8) 0 = Ok (buf', false) /\ buf' <> buf.
Proof. exists [1; 2; 3], [7; 2; 3]. split; [vm_compute; reflexivity|discriminate]. Qed.

Print Assumptions C46_take_partial.
Print Assumptions C46_take_fresh_packed.
Print Assumptions C46_take_expanded_refuted.
Print Assumptions C46_take_overrun_refuted.
Print Assumptions C46_take_flat_refuted.
Print Assumptions C46_mask.
Print Assumptions C46_compress_flat.
Print Assumptions C46_compress_axis.
Print Assumptions C46_rows_partial.
Print Assumptions C46_rows_empty_refuted.
Print Assumptions C46_rows_shape_refuted.
Print Assumptions C47_flatnonzero.
Print Assumptions C47_positions.
Print Assumptions C47_argwhere_partial.
Print Assumptions C47_nonzero_partial.
Print Assumptions C47_agree.
Print Assumptions C47_argwhere_0d_refuted.
Print Assumptions C47_nonzero_complex_refuted.
Print Assumptions C48_put_partial.
Print Assumptions C48_last_wins.
Print Assumptions C48_put_int64_refuted.
Print Assumptions C48_put_empty_refuted.
Print Assumptions C48_put_broadcast_refuted.
Print Assumptions C69_take_along_axis.
Print Assumptions C69_take_along_axis_mismatch.
Print Assumptions C69_choose_partial.
Print Assumptions C69_choose_broadcast_refuted.
Print Assumptions C69_put_along_axis_partial.
Print Assumptions C69_put_along_axis_partial_write_refuted.
