(* C49: unravel_index and ravel_multi_index. *)
From Verif Require Import Base Lists Arr_Spec Arr_Model Arr_Wf Arr_Proofs Wf_Check Idx_Model Int_Model Copy_Model Copy_Proofs Red_Model Red_Proofs
  Ravel_Spec Ravel_Model Ravel_Proofs.
Local Open Scope Z_scope.

(* The number of elements has to be below 2^63; missing: larger shapes, and shapes
   without dimensions. *)

(* unravel_index: column d holds coordinate d; every tuple lies inside the shape and
   its flat position is the given index *)
Theorem C49_unravel_partial : forall sh ks fortran,
  Forall (fun d => 0 <= d < 2 ^ 63) sh -> zsize sh < 2 ^ 63 -> (fortran = false -> sh <> []) ->
  Forall (fun k => 0 <= k < zsize sh) ks ->
  exists cols, unravel_index ks sh fortran = Ok cols /\ length cols = length sh /\ Forall (fun c => length c = length ks) cols /\
    forall i k, nth_error ks i = Some k -> inside (tuple cols i) sh /\ pos fortran sh (tuple cols i) = k.
Proof. intros sh ks f H1 H2 H3 H4. apply unravel_index_ok; [split; assumption|assumption|assumption]. Qed.

(* an index outside the array is rejected, negative ones included *)
Theorem C49_unravel_reject_partial : forall sh ks fortran,
  Forall (fun d => 0 <= d < 2 ^ 63) sh -> zsize sh < 2 ^ 63 -> Forall (fun k => - 2 ^ 63 <= k < 2 ^ 63) ks ->
  (exists k, In k ks /\ ~ (0 <= k < zsize sh)) -> unravel_index ks sh fortran = Err.
Proof. intros sh ks f H1 H2 H3 H4. apply unravel_index_err; [split; assumption|assumption|assumption]. Qed.

(* flat positions number the tuples inside the shape: distinct, and below the size *)
Theorem C49_positions : forall sh fortran,
  (forall x, inside x sh -> 0 <= pos fortran sh x < zsize sh) /\
  (forall x y, inside x sh -> inside y sh -> pos fortran sh x = pos fortran sh y -> x = y) /\
  (forall k, Forall (fun d => 0 <= d) sh -> 0 <= k < zsize sh -> exists x, inside x sh /\ pos fortran sh x = k).
Proof.
  intros sh f. split; [intros x; apply pos_range|]. split; [intros x y; apply pos_inj|]. intros k HF Hk.
  assert (HP : Forall (fun d => 0 < d) sh) by (apply pos_dims; [exact HF|lia]).
  destruct f; [destruct (unravel_f_spec sh k HP Hk) as (x & _ & H)|destruct (unravel_c_spec sh k HP Hk) as (x & _ & H)]; exists x; exact H.
Qed.

(* ravel_multi_index, mode raise *)
Theorem C49_ravel_partial : forall cols sh fortran n,
  Forall (fun d => 0 <= d < 2 ^ 63) sh -> zsize sh < 2 ^ 63 -> sh <> [] ->
  length cols = length sh -> Forall (fun c => length c = n) cols ->
  ((forall i, (i < n)%nat -> inside (tuple cols i) sh) ->
     ravel_multi_index cols sh Raise fortran = Ok (map (fun i => pos fortran sh (tuple cols i)) (seq 0 n))) /\
  ((exists i, (i < n)%nat /\ ~ inside (tuple cols i) sh) -> ravel_multi_index cols sh Raise fortran = Err).
Proof.
  intros cols sh f n HF HZ HN HL HC. rewrite (ravel_shape cols sh Raise f n HL HN HC).
  assert (LT : forall i, length (tuple cols i) = length sh) by (intros; unfold tuple; rewrite map_length; exact HL).
  assert (OKI : forall i, inside (tuple cols i) sh -> ravel_one Raise 0 (tuple cols i) sh (if f then f_str 1 sh else c_str sh) = Ok (pos f sh (tuple cols i))).
  { intros i HI. apply ravel_one_ok; [split; assumption|exact HI|apply LT|].
    clear -HI HF. induction HI as [|i' d idx sh Hi HI IH]; [constructor|]. inversion HF; subst. cbn [combine].
    constructor; [|apply IH; assumption]. cbn [fst snd]. rewrite adjust_raise by assumption.
    destruct (Z.leb_spec 0 i'), (Z.ltb_spec i' d); try lia; reflexivity. }
  split.
  - intros HI. apply mapM_ok. intros i Hi. apply in_seq in Hi. apply OKI, HI. lia.
  - intros (i & Hi & HN').
    assert (ERR : forall i, ~ inside (tuple cols i) sh -> ravel_one Raise 0 (tuple cols i) sh (if f then f_str 1 sh else c_str sh) = Err).
    { intros j Hj. apply ravel_one_err; [exact HF|apply LT|destruct f; [apply f_str_length|apply c_str_length]|exact Hj]. }
    assert (DEC : forall j, inside (tuple cols j) sh \/ ~ inside (tuple cols j) sh).
    { intros j. clear. generalize (tuple cols j) as x. induction sh as [|d sh IH]; intros [|i x].
      - left; constructor. - right; intros H; inversion H. - right; intros H; inversion H.
      - destruct (IH x) as [H|H]; [|right; intros H'; inversion H'; subst; contradiction].
        destruct (Z_lt_le_dec i 0); [right; intros H'; inversion H'; subst; lia|].
        destruct (Z_lt_le_dec i d); [left; constructor; [lia|exact H]|right; intros H'; inversion H'; subst; lia]. }
    assert (G : In i (seq 0 n)) by (apply in_seq; lia). revert G. generalize (seq 0 n) as l. clear Hi.
    induction l as [|j l IH]; intros [].
    + subst j. cbn [mapM]. rewrite ERR by exact HN'. reflexivity.
    + cbn [mapM]. destruct (DEC j) as [Hj|Hj]; [rewrite (OKI j Hj)|rewrite (ERR j Hj); reflexivity]. cbn [bind]. rewrite IH by assumption. reflexivity.
Qed.

(* modes clip and wrap: the coordinates are clamped / reduced modulo the length *)
Theorem C49_ravel_modes_partial : forall cols sh fortran n,
  Forall (fun d => 0 < d < 2 ^ 63) sh -> zsize sh < 2 ^ 63 -> sh <> [] ->
  length cols = length sh -> Forall (fun c => length c = n) cols ->
  let adjusted g i := map (fun p => g (fst p) (snd p)) (combine (tuple cols i) sh) in
  ravel_multi_index cols sh Clip fortran = Ok (map (fun i => pos fortran sh (adjusted clip_to i)) (seq 0 n)) /\
  ravel_multi_index cols sh Wrap fortran = Ok (map (fun i => pos fortran sh (adjusted Z.modulo i)) (seq 0 n)).
Proof.
  intros cols sh f n HF HZ HN HL HC adjusted.
  assert (LT : forall i, length (tuple cols i) = length sh) by (intros; unfold tuple; rewrite map_length; exact HL).
  assert (G : forall m g, (forall i d, 0 < d < 2 ^ 63 -> adjust m i d = Ok (g i d) /\ 0 <= g i d < d) ->
    ravel_multi_index cols sh m f = Ok (map (fun i => pos f sh (adjusted g i)) (seq 0 n))).
  { intros m g HG. rewrite (ravel_shape cols sh m f n HL HN HC). apply mapM_ok. intros i _. unfold adjusted.
    specialize (LT i). revert LT. generalize (tuple cols i) as x. intros x LX. apply ravel_one_ok.
    - split; [eapply Forall_impl; [|exact HF]; cbn; lia|exact HZ].
    - clear -HF HG LX. revert x LX. induction HF as [|d sh Hd HF IH]; intros [|i x] LX; try discriminate; [constructor|].
      cbn [combine map fst snd]. constructor; [apply HG; exact Hd|apply IH; cbn in LX; lia].
    - exact LX.
    - clear -HF HG LX. revert x LX. induction HF as [|d sh Hd HF IH]; intros [|i x] LX; try discriminate; [constructor|].
      cbn [combine map fst snd]. constructor; [cbn [fst snd]; apply HG; exact Hd|apply IH; cbn in LX; lia]. }
  split; apply G; intros i d Hd.
  - split; [apply adjust_clip; exact Hd|unfold clip_to; lia].
  - split; [apply adjust_wrap; exact Hd|apply Z.mod_pos_bound; lia].
Qed.

(* the two functions undo each other, in both orders *)
Theorem C49_roundtrip_partial : forall sh fortran,
  Forall (fun d => 0 <= d < 2 ^ 63) sh -> zsize sh < 2 ^ 63 -> sh <> [] ->
  (forall ks, Forall (fun k => 0 <= k < zsize sh) ks ->
     exists cols, unravel_index ks sh fortran = Ok cols /\ ravel_multi_index cols sh Raise fortran = Ok ks) /\
  (forall cols n, length cols = length sh -> Forall (fun c => length c = n) cols -> (forall i, (i < n)%nat -> inside (tuple cols i) sh) ->
     exists ks, ravel_multi_index cols sh Raise fortran = Ok ks /\ unravel_index ks sh fortran = Ok cols).
Proof.
  intros sh f HF HZ HN. split.
  - intros ks HK. destruct (C49_unravel_partial sh ks f HF HZ (fun _ => HN) HK) as (cols & E & HL & HC & HI). exists cols. split; [exact E|].
    assert (IN : forall i, (i < length ks)%nat -> exists k, nth_error ks i = Some k).
    { intros i Hi. destruct (nth_error ks i) eqn:Ek; [eexists; reflexivity|apply nth_error_None in Ek; lia]. }
    rewrite (proj1 (C49_ravel_partial cols sh f (length ks) HF HZ HN HL HC)).
    + f_equal. apply nth_error_ext. intros i. rewrite nth_error_map', nth_error_seq.
      destruct (Nat.ltb_spec i (length ks)) as [Hi|Hi]; cbn [option_map Nat.add].
      * destruct (IN i Hi) as [k Hk]. rewrite Hk. f_equal. apply HI. exact Hk.
      * symmetry. apply nth_error_None. exact Hi.
    + intros i Hi. destruct (IN i Hi) as [k Hk]. apply (HI i k Hk).
  - intros cols n HL HC HI. exists (map (fun i => pos f sh (tuple cols i)) (seq 0 n)).
    split; [apply (proj1 (C49_ravel_partial cols sh f n HF HZ HN HL HC)); exact HI|].
    set (ks := map _ _).
    assert (LK : length ks = n) by (unfold ks; rewrite map_length, seq_length; reflexivity).
    assert (HK : Forall (fun k => 0 <= k < zsize sh) ks).
    { apply Forall_forall. intros k Hk. apply in_map_iff in Hk as (i & <- & Hi). apply in_seq in Hi. apply pos_range, HI. lia. }
    destruct (C49_unravel_partial sh ks f HF HZ (fun _ => HN) HK) as (cols' & E & HL' & HC' & HI'). rewrite E. f_equal.
    assert (T : forall i, (i < n)%nat -> tuple cols' i = tuple cols i).
    { intros i Hi. assert (Hk : nth_error ks i = Some (pos f sh (tuple cols i))).
      { unfold ks. rewrite nth_error_map', nth_error_seq. destruct (Nat.ltb_spec i n); [reflexivity|lia]. }
      destruct (HI' i _ Hk) as [H1 H2]. apply (pos_inj f sh); [exact H1|apply HI; exact Hi|exact H2]. }
    rewrite LK in HC'. clear -HL HL' HC HC' T. assert (LL : length cols' = length cols) by congruence. clear HL HL'.
    revert cols HC T LL. induction cols' as [|c' cols' IH]; intros [|c cols] HC T LL; try discriminate; [reflexivity|].
    inversion HC; inversion HC'; subst. f_equal.
    + apply (nth_ext c' c 0 0); [congruence|]. intros i Hi. specialize (T i ltac:(congruence)). unfold tuple in T. cbn [map] in T. congruence.
    + apply IH; [assumption|assumption| |cbn in LL; lia]. intros i Hi. specialize (T i Hi). unfold tuple in *. cbn [map] in T. congruence.
Qed.
Example C49_nonvacuous :
  unravel_index [5; 0; 23] [2; 3; 4] false = Ok [[0; 0; 1]; [1; 0; 2]; [1; 0; 3]] /\
  unravel_index [5; 0; 23] [2; 3; 4] true = Ok [[1; 0; 1]; [2; 0; 2]; [0; 0; 3]] /\
  ravel_multi_index [[0; 0; 1]; [1; 0; 2]; [1; 0; 3]] [2; 3; 4] Raise false = Ok [5; 0; 23] /\
  ravel_multi_index [[1; 0; 1]; [2; 0; 2]; [0; 0; 3]] [2; 3; 4] Raise true = Ok [5; 0; 23] /\
  ravel_multi_index [[-1]; [7]] [2; 3] Clip false = Ok [2] /\ ravel_multi_index [[-1]; [7]] [2; 3] Wrap false = Ok [4] /\
  ravel_multi_index [[0]; [3]] [2; 3] Raise false = Err /\ unravel_index [24] [2; 3; 4] false = Err.
Proof. repeat split; vm_compute; reflexivity. Qed.

(* shapes of 2^64 elements and more: the wrapped size rejects a valid index, and a
   valid tuple gets another tuple's number *)
Theorem C49_overflow_refuted :
  (exists sh k, Forall (fun d => 0 <= d < 2 ^ 63) sh /\ 0 <= k < zsize sh /\ unravel_index [k] sh false = Err) /\
  (exists sh x y, inside x sh /\ inside y sh /\ x <> y /\ exists k,
     ravel_multi_index (map (fun i => [i]) x) sh Raise false = Ok [k] /\ ravel_multi_index (map (fun i => [i]) y) sh Raise false = Ok [k]).
Proof.
  split.
  - exists [2 ^ 32; 2 ^ 32], 5. split; [repeat constructor; lia|]. split; [vm_compute; split; congruence|]. vm_compute. reflexivity.
  - exists [2 ^ 33; 2 ^ 33], [2 ^ 31; 0], [0; 0]. split; [repeat constructor; lia|]. split; [repeat constructor; lia|]. split; [discriminate|].
    exists 0. split; vm_compute; reflexivity.
Qed.
(* no dimensions, and modes clip/wrap with an empty dimension, abort *)
Theorem C49_degenerate_refuted :
  unravel_index [0] [] false = Panic /\ ravel_multi_index [] [] Raise false = Panic /\
  ravel_multi_index [[0]] [0] Clip false = Panic /\ ravel_multi_index [[0]] [0] Wrap false = Panic.
Proof. repeat split; vm_compute; reflexivity. Qed.

(* the index array handed to unravel_index is read as if it were contiguous *)
Theorem C49_index_array_partial : forall ibuf ia vals, wf ibuf ia -> elems ibuf ia = map Some vals ->
  (a_c ia = true -> index_array ibuf ia = Ok vals).
Proof.
  intros ibuf ia vals W E HC. pose proof (read_contig ibuf ia vals W HC E) as R. unfold read_run in R. unfold index_array.
  rewrite <- R. apply mapM_ext. intros i _. f_equal.
Qed.
Theorem C49_index_array_strided_refuted : exists ibuf ia, wf ibuf ia /\ elems ibuf ia = [Some 1; Some 3] /\ index_array ibuf ia = Ok [1; 2].
Proof. exists [1; 2; 3], (mkArr 0 [2%nat] [16] 8 false false). split; [apply wf_check_sound; vm_compute; reflexivity|]. split; vm_compute; reflexivity. Qed.

Print Assumptions C49_unravel_partial.
Print Assumptions C49_unravel_reject_partial.
Print Assumptions C49_positions.
Print Assumptions C49_ravel_partial.
Print Assumptions C49_ravel_modes_partial.
Print Assumptions C49_roundtrip_partial.
Print Assumptions C49_overflow_refuted.
Print Assumptions C49_degenerate_refuted.
Print Assumptions C49_index_array_partial.
Print Assumptions C49_index_array_strided_refuted.
