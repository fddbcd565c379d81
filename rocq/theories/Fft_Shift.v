(* fftshift, ifftshift, fftfreq. *)
From Verif Require Import Base Lists Arr_Spec Arr_Model Arr_Wf Arr_Proofs Copy_Model Copy_Proofs Elem_Model Red_Model Gu_Model Gu_Proofs Msk_Proofs
  Fft_Spec Fft_Model Fft_Lanes Fft_Trans.
Local Open Scope nat_scope.

Lemma rotate_inb by_ sh idx : inb idx sh -> inb (rotate by_ sh idx) sh.
Proof. induction 1 as [|i n idx sh Hi H IH]; cbn [rotate]; constructor; [apply Nat.mod_upper_bound; lia|exact IH]. Qed.
Lemma shift_rotate f sh idx : inb idx sh -> (forall n, In n sh -> f n <= n) ->
  shift_indices idx (map f sh) sh = rotate (fun n => n - f n) sh idx.
Proof.
  induction 1 as [|i n idx sh Hi H IH]; intros HF; cbn [map shift_indices rotate]; [reflexivity|].
  rewrite IH by (intros; apply HF; right; assumption). pose proof (HF n (or_introl eq_refl)). f_equal. f_equal. lia.
Qed.
Lemma rotate_rotate f g sh idx : inb idx sh -> (forall n, f n + g n = n) -> rotate f sh (rotate g sh idx) = idx.
Proof.
  intros H HF. induction H as [|i n idx sh Hi H IH]; cbn [rotate]; [reflexivity|]. rewrite IH. f_equal.
  rewrite Nat.add_mod_idemp_l by lia. replace (i + g n + f n) with (i + 1 * n) by (specialize (HF n); lia).
  rewrite Nat.mod_add by lia. apply Nat.mod_small. exact Hi.
Qed.
Lemma rotate_ext f g sh idx : (forall n, f n = g n) -> rotate f sh idx = rotate g sh idx.
Proof. intros H. revert idx. induction sh as [|n sh IH]; intros [|i idx]; cbn [rotate]; try reflexivity. rewrite H, IH. reflexivity. Qed.

Lemma shift_array_ok {V} (buf : list V) a f : wf buf a -> (forall n, f n <= n) ->
  exists out, shift_array buf a (map f (a_shape a)) = Ok (a_shape a, out) /\ length out = size a /\
    forall idx, inb idx (a_shape a) -> nth_error out (rank (a_shape a) idx) = get buf a (rotate (fun n => n - f n) (a_shape a) idx).
Proof.
  intros W HF. unfold shift_array, ndim, size. rewrite odometer_all.
  assert (HM : exists out, mapM (fun idx => read buf a (byte_offset_for a (shift_indices idx (map f (a_shape a)) (a_shape a)))) (all_idx (a_shape a)) = Ok out /\
     map (fun idx => get buf a (rotate (fun n => n - f n) (a_shape a) idx)) (all_idx (a_shape a)) = map Some out).
  { assert (G : forall l, (forall idx, In idx l -> inb idx (a_shape a)) -> exists out,
       mapM (fun idx => read buf a (byte_offset_for a (shift_indices idx (map f (a_shape a)) (a_shape a)))) l = Ok out /\
       map (fun idx => get buf a (rotate (fun n => n - f n) (a_shape a) idx)) l = map Some out).
    { induction l as [|idx l IH]; intros HL; [exists []; split; reflexivity|].
      destruct IH as (out & E1 & E2); [intros; apply HL; right; assumption|].
      pose proof (HL idx (or_introl eq_refl)) as Hi. destruct W as (_ & _ & _ & _ & HG & _).
      destruct (HG _ (rotate_inb (fun n => n - f n) _ _ Hi)) as [v Hv]. exists (v :: out). cbn [mapM map]. rewrite E1, E2, Hv.
      rewrite (shift_rotate f _ _ Hi) by auto. unfold read, get in *. unfold get in Hv. rewrite Hv. split; reflexivity. }
    apply G. intros idx Hi. apply in_all_idx, Hi. }
  destruct HM as (out & E1 & E2). rewrite E1. cbn [bind]. exists out. split; [reflexivity|]. split.
  - apply mapM_length in E1. rewrite E1. apply all_idx_length.
  - intros idx Hi. apply (f_equal (fun l => nth_error l (rank (a_shape a) idx))) in E2.
    rewrite !nth_error_map', nth_error_all_idx_rank in E2 by exact Hi. cbn [option_map] in E2.
    destruct (nth_error out (rank (a_shape a) idx)) as [v|]; cbn in E2; congruence.
Qed.

Lemma half_le n : n / 2 <= n.
Proof. apply Nat.div_le_upper_bound; lia. Qed.
Lemma half_up n : n - (n + 1) / 2 = n / 2.
Proof. pose proof (Nat.div_mod n 2 ltac:(lia)). pose proof (Nat.div_mod (n + 1) 2 ltac:(lia)). pose proof (Nat.mod_upper_bound n 2 ltac:(lia)). pose proof (Nat.mod_upper_bound (n + 1) 2 ltac:(lia)). lia. Qed.
Lemma half_up_le n : (n + 1) / 2 <= n.
Proof. pose proof (Nat.div_mod n 2 ltac:(lia)). pose proof (Nat.div_mod (n + 1) 2 ltac:(lia)). pose proof (Nat.mod_upper_bound n 2 ltac:(lia)). pose proof (Nat.mod_upper_bound (n + 1) 2 ltac:(lia)). lia. Qed.

Lemma fftshift_ok {V} (buf : list V) a : wf buf a -> 1 <= ndim a <= 2 ->
  exists out, fftshift buf a = Ok (a_shape a, out) /\ length out = size a /\
    forall idx, inb idx (a_shape a) -> nth_error out (rank (a_shape a) (rotate (fun n => n / 2) (a_shape a) idx)) = get buf a idx.
Proof.
  intros W Hd. unfold fftshift. destruct (Nat.eqb_spec (ndim a) 0), (Nat.ltb_spec 2 (ndim a)); try lia. cbn [orb].
  destruct (shift_array_ok buf a (fun n => n / 2) W half_le) as (out & E & HL & HO). exists out. split; [exact E|]. split; [exact HL|].
  intros idx Hi. rewrite HO by (apply rotate_inb, Hi). f_equal. apply rotate_rotate; [exact Hi|]. intros m. pose proof (half_le m). lia.
Qed.
Lemma ifftshift_ok {V} (buf : list V) a : wf buf a -> 1 <= ndim a <= 2 ->
  exists out, ifftshift buf a = Ok (a_shape a, out) /\ length out = size a /\
    forall idx, inb idx (a_shape a) -> nth_error out (rank (a_shape a) idx) = get buf a (rotate (fun n => n / 2) (a_shape a) idx).
Proof.
  intros W Hd. unfold ifftshift. destruct (Nat.eqb_spec (ndim a) 0), (Nat.ltb_spec 2 (ndim a)); try lia. cbn [orb].
  destruct (shift_array_ok buf a (fun n => (n + 1) / 2) W half_up_le) as (out & E & HL & HO). exists out. split; [exact E|]. split; [exact HL|].
  intros idx Hi. rewrite HO by exact Hi. f_equal. apply rotate_ext, half_up.
Qed.

Lemma list_by_rank {V} sh (l m : list V) : length l = prod sh -> length m = prod sh ->
  (forall idx, inb idx sh -> nth_error l (rank sh idx) = nth_error m (rank sh idx)) -> l = m.
Proof.
  intros H1 H2 H. apply nth_error_ext. intros k. destruct (Nat.lt_ge_cases k (prod sh)) as [Hk|Hk].
  - rewrite <- (rank_unrank sh k Hk). apply H, unrank_inb, Hk.
  - rewrite (proj2 (nth_error_None l k)), (proj2 (nth_error_None m k)) by lia. reflexivity.
Qed.

Lemma nth_error_fftfreq {F} (ofZ : Z -> F) fmul val n k : k < n ->
  nth_error (fftfreq ofZ fmul val n) k = Some (fmul (ofZ (if 2 * k <? n then Z.of_nat k else (Z.of_nat k - Z.of_nat n)%Z)) val).
Proof.
  intros H. unfold fftfreq. set (mid := (n + 1) / 2). assert (HM : 2 * mid = n \/ 2 * mid = n + 1).
  { unfold mid. pose proof (Nat.div_mod (n + 1) 2 ltac:(lia)). pose proof (Nat.mod_upper_bound (n + 1) 2 ltac:(lia)). lia. }
  destruct (Nat.ltb_spec (2 * k) n) as [Hk|Hk].
  - rewrite nth_error_app1 by (rewrite map_length, seq_length; lia). rewrite nth_error_map', nth_error_seq.
    destruct (Nat.ltb_spec k mid); [reflexivity|lia].
  - rewrite nth_error_app2 by (rewrite map_length, seq_length; lia). rewrite map_length, seq_length, nth_error_map', nth_error_seq.
    destruct (Nat.ltb_spec (k - mid) (n - mid)); [|lia]. cbn [option_map]. do 3 f_equal. lia.
Qed.
Lemma fftfreq_length {F} (ofZ : Z -> F) fmul val n : length (fftfreq ofZ fmul val n) = n.
Proof. unfold fftfreq. rewrite app_length, !map_length, !seq_length. pose proof (half_up_le n). lia. Qed.
