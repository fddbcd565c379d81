(* Lemmas about Shp_Model: orders of axes, flips, broadcasting of several arrays. *)
From Verif Require Import Base Lists Arr_Spec Arr_Model Arr_Wf Arr_Proofs Arr_Hist Arr_Props Bcast_Model Bcast_Proofs
  Copy_Model Copy_Proofs Man_Model Shp_Spec Shp_Model.
From Coq Require Import Permutation Sorted.
Local Open Scope nat_scope.

Lemma to_axis_is n x k : axis_is n x k -> (Z.of_nat n < 2 ^ 63)%Z -> to_axis n x = Z.of_nat k.
Proof.
  intros [HK HX] HN. unfold to_axis, wrap_usize, two64.
  destruct (Z.ltb_spec x 0); rewrite Z.mod_small; lia.
Qed.

Lemma to_axis_map n xs ks : Forall2 (axis_is n) xs ks -> (Z.of_nat n < 2 ^ 63)%Z ->
  map (to_axis n) xs = map Z.of_nat ks.
Proof.
  intros H HN. induction H as [|x k xs ks H1 H2 IH]; [reflexivity|]. cbn [map].
  rewrite IH, (to_axis_is n x k H1 HN). reflexivity.
Qed.

Lemma transpose_usize_nat a axes : Permutation axes (seq 0 (ndim a)) ->
  transpose_usize a (map Z.of_nat axes) = transpose_axes a axes.
Proof.
  intros HP. pose proof (Permutation_length HP) as HL. rewrite seq_length in HL.
  unfold transpose_usize. rewrite map_length, HL, Nat.eqb_refl. cbn [negb].
  rewrite mapM_map. rewrite (mapM_ok _ (fun i => i)); [cbn [bind]; rewrite map_id; reflexivity|].
  intros i Hi. eapply Permutation_in in Hi; [|exact HP]. apply in_seq in Hi.
  destruct (Z.ltb_spec (Z.of_nat i) (Z.of_nat (ndim a))); [|lia]. rewrite Nat2Z.id. reflexivity.
Qed.

Lemma listed_length axes l : length (listed axes l) = length axes.
Proof. apply map_length. Qed.

Lemma permuted {V} (buf : list V) a axes : wf buf a -> Permutation axes (seq 0 (ndim a)) ->
  exists r, transpose_axes a axes = Ok r /\ wf buf r /\ a_shape r = listed axes (a_shape a) /\
    forall idx, inb idx (a_shape a) -> get buf r (listed axes idx) = get buf a idx.
Proof.
  intros W HP. destruct (C04_permute V buf a axes W HP) as (r & E & W' & S & G).
  exists r. split; [exact E|]. split; [exact W'|]. split; [exact S|].
  intros idx Hi. apply G; [apply listed_length|exact Hi|].
  intros d Hd. unfold listed. symmetry. apply nth_error_nth. rewrite nth_error_map', (nth_error_nth' axes 0) by exact Hd. reflexivity.
Qed.

(* ---------- taking an item out and putting it back elsewhere ---------- *)
Lemma map_insert_at {A B} (f : A -> B) n v l : map f (insert_at n v l) = insert_at n (f v) (map f l).
Proof. revert l; induction n as [|n IH]; intros [|x l]; cbn; try reflexivity. rewrite IH. reflexivity. Qed.
Lemma map_remove_at {A B} (f : A -> B) n l : map f (remove_at n l) = remove_at n (map f l).
Proof. revert l; induction n as [|n IH]; intros [|x l]; cbn; try reflexivity. rewrite IH. reflexivity. Qed.
Lemma listed_seq l : listed (seq 0 (length l)) l = l.
Proof.
  unfold listed. apply nth_error_ext. intros k. rewrite nth_error_map', nth_error_seq.
  destruct (Nat.ltb_spec k (length l)); cbn [option_map Nat.add].
  - symmetry. apply nth_error_nth'. assumption.
  - symmetry. apply nth_error_None. assumption.
Qed.
Lemma nth_seq0 n k : k < n -> nth k (seq 0 n) 0 = k.
Proof. intros H. rewrite seq_nth by exact H. reflexivity. Qed.

Lemma listed_moved s d l : s < length l -> listed (moved s d (seq 0 (length l))) l = moved s d l.
Proof.
  intros H. unfold moved. rewrite nth_seq0 by exact H. unfold listed. rewrite map_insert_at, map_remove_at.
  fold (listed (seq 0 (length l)) l). rewrite listed_seq. reflexivity.
Qed.

Lemma moved_length s d l : s < length l -> length (moved s d l) = length l.
Proof. intros H. unfold moved. rewrite insert_at_length, remove_at_length by exact H. lia. Qed.

Lemma insert_perm {A} n (v : A) l : Permutation (insert_at n v l) (v :: l).
Proof.
  revert n; induction l as [|x l IH]; intros [|n]; cbn [insert_at]; try reflexivity.
  rewrite IH. apply perm_swap.
Qed.

Lemma nth_insert_eq d v (l : list nat) : d <= length l -> nth d (insert_at d v l) 0 = v.
Proof.
  intros H. apply nth_error_nth. rewrite nth_error_insert_at by exact H.
  rewrite Nat.ltb_irrefl, Nat.eqb_refl. reflexivity.
Qed.

Lemma moved_back s d l : s < length l -> d < length l -> moved d s (moved s d l) = l.
Proof.
  intros Hs Hd. unfold moved.
  assert (HL : length (remove_at s l) = length l - 1).
  { apply remove_at_length. exact Hs. }
  rewrite nth_insert_eq by lia. rewrite remove_insert_at by lia.
  apply insert_remove_at. apply nth_error_nth'. exact Hs.
Qed.

Lemma moved_perm s d l : s < length l -> Permutation (moved s d l) l.
Proof.
  intros Hs. unfold moved. rewrite insert_perm.
  rewrite <- (insert_remove_at s (nth s l 0) l) at 3 by (apply nth_error_nth'; exact Hs). symmetry. apply insert_perm.
Qed.

Lemma filter_all {A} (p : A -> bool) l : (forall x, In x l -> p x = true) -> filter p l = l.
Proof.
  induction l as [|x l IH]; intros H; [reflexivity|]. cbn [filter]. rewrite (H x (or_introl eq_refl)), IH; [reflexivity|].
  intros y Hy. apply H. right. exact Hy.
Qed.

Lemma filter_seq_one n s : s < n -> filter (fun x => negb (existsb (Nat.eqb x) [s])) (seq 0 n) = remove_at s (seq 0 n).
Proof.
  intros H. rewrite remove_at_app by (rewrite seq_length; exact H).
  replace n with (s + S (n - S s)) by lia. rewrite seq_app. cbn [seq Nat.add].
  rewrite filter_app. cbn [filter existsb]. rewrite Nat.eqb_refl. cbn [orb negb].
  rewrite firstn_app, seq_length, Nat.sub_diag, firstn_O, app_nil_r.
  rewrite firstn_all2 by (rewrite seq_length; lia).
  replace (S s) with (length (seq 0 s) + 1) at 3 by (rewrite seq_length; lia).
  rewrite skipn_app, skipn_all2 by lia.
  replace (length (seq 0 s) + 1 - length (seq 0 s)) with 1 by lia. cbn [app skipn]. f_equal; apply filter_all; intros x Hx; apply in_seq in Hx.
  - destruct (Nat.eqb_spec x s); [lia|reflexivity].
  - destruct (Nat.eqb_spec x s); [lia|reflexivity].
Qed.

Definition ins (o : list nat) (p : nat * nat) : list nat := insert_at (Nat.min (snd p) (length o)) (fst p) o.

Lemma move_insert_nat : forall s d o,
  fold_left move_insert (combine (map Z.of_nat s) (map Z.of_nat d)) (map Z.of_nat o) =
  map Z.of_nat (fold_left ins (combine s d) o).
Proof.
  induction s as [|x s IH]; intros [|y d] o; try reflexivity. cbn [map combine fold_left].
  rewrite <- IH. f_equal. unfold move_insert, ins. cbn [fst snd]. rewrite map_insert_at, map_length. f_equal. lia.
Qed.

Lemma filter_in_Z src n :
  filter (fun x => negb (existsb (Z.eqb x) (map Z.of_nat src))) (map Z.of_nat (seq 0 n)) =
  map Z.of_nat (filter (fun x => negb (existsb (Nat.eqb x) src)) (seq 0 n)).
Proof.
  assert (H : forall x, existsb (Z.eqb (Z.of_nat x)) (map Z.of_nat src) = existsb (Nat.eqb x) src).
  { intros x. induction src as [|y src IH]; [reflexivity|]. cbn [map existsb]. rewrite IH. f_equal.
    destruct (Z.eqb_spec (Z.of_nat x) (Z.of_nat y)), (Nat.eqb_spec x y); lia || reflexivity. }
  induction (seq 0 n) as [|x l IH]; [reflexivity|]. cbn [map filter]. rewrite H.
  destruct (existsb (Nat.eqb x) src); cbn [negb map]; rewrite IH; reflexivity.
Qed.

Lemma filter_insert_at {A} (p : A -> bool) n v l : p v = false -> filter p (insert_at n v l) = filter p l.
Proof.
  intros H. revert n; induction l as [|x l IH]; intros [|n]; cbn [insert_at filter]; rewrite ?H; try reflexivity.
  rewrite IH. reflexivity.
Qed.

(* destinations in ascending order: every insertion leaves the earlier ones in place *)
Lemma ins_ascending (p : nat -> bool) : forall s d o, length s = length d -> StronglySorted lt d ->
  (forall i x, nth_error d i = Some x -> x <= length o + i) -> (forall x, In x s -> p x = false) ->
  let r := fold_left ins (combine s d) o in
  Permutation r (s ++ o) /\ filter p r = filter p o /\
  (forall j, Forall (lt j) d -> j < length o -> nth_error r j = nth_error o j) /\
  (forall k x y, nth_error s k = Some x -> nth_error d k = Some y -> nth_error r y = Some x).
Proof.
  induction s as [|x s IH]; intros [|y d] o HL HS HB HP; cbn in HL; try lia; cbn [combine fold_left].
  - split; [reflexivity|]. split; [reflexivity|]. split; [reflexivity|]. intros k x y H. destruct k; discriminate.
  - inversion HS as [|? ? HS' HF]; subst. pose proof (HB 0 y eq_refl) as HY. rewrite Nat.add_0_r in HY.
    assert (EI : ins o (x, y) = insert_at y x o) by (unfold ins; cbn [fst snd]; f_equal; lia). rewrite EI.
    destruct (IH d (insert_at y x o) ltac:(lia) HS') as (P1 & P2 & P3 & P4).
    { intros i z Hz. rewrite insert_at_length. pose proof (HB (S i) z Hz). lia. }
    { intros z Hz. apply HP. right. exact Hz. }
    set (r := fold_left ins (combine s d) (insert_at y x o)) in *.
    split; [|split; [|split]].
    + rewrite P1. rewrite insert_perm. cbn [app]. symmetry. apply Permutation_middle.
    + rewrite P2. apply filter_insert_at. apply HP. left. reflexivity.
    + intros j HJ Hj. inversion HJ as [|? ? J1 J2]; subst. rewrite P3; [|exact J2|rewrite insert_at_length; lia].
      rewrite nth_error_insert_at by exact HY. destruct (Nat.ltb_spec j y); [reflexivity|lia].
    + intros k u v Hu Hv. destruct k as [|k]; cbn in Hu, Hv.
      * injection Hu as <-. injection Hv as <-. rewrite P3; [|exact HF|rewrite insert_at_length; lia].
        rewrite nth_error_insert_at by exact HY. rewrite Nat.ltb_irrefl, Nat.eqb_refl. reflexivity.
      * apply (P4 k); assumption.
Qed.

Lemma ascending_bound n : forall d, StronglySorted lt d -> Forall (fun x => x < n) d ->
  forall i x, nth_error d i = Some x -> x + (length d - i) <= n.
Proof.
  induction d as [|y d IH]; intros HS HF i x Hi; [destruct i; discriminate|].
  inversion HS as [|? ? HS' HY]; subst. inversion HF as [|? ? F1 F2]; subst. destruct i as [|i]; cbn in Hi.
  - injection Hi as ->. destruct d as [|z d]; [cbn; lia|]. inversion HY; subst.
    pose proof (IH HS' F2 0 z eq_refl). cbn [length] in *. lia.
  - pose proof (IH HS' F2 i x Hi). cbn [length]. lia.
Qed.

Lemma in_existsb x l : existsb (Nat.eqb x) l = true <-> In x l.
Proof.
  rewrite existsb_exists. split; [intros (y & Hy & E); apply Nat.eqb_eq in E; subst; exact Hy|].
  intros H. exists x. split; [exact H|apply Nat.eqb_refl].
Qed.

Lemma filter_rest_perm n src : NoDup src -> Forall (fun x => x < n) src ->
  Permutation (src ++ filter (fun x => negb (existsb (Nat.eqb x) src)) (seq 0 n)) (seq 0 n).
Proof.
  intros ND HF. apply NoDup_Permutation; [|apply seq_NoDup|].
  - assert (N2 : NoDup (filter (fun x => negb (existsb (Nat.eqb x) src)) (seq 0 n))) by (apply NoDup_filter, seq_NoDup).
    assert (DJ : forall x, In x src -> ~ In x (filter (fun x => negb (existsb (Nat.eqb x) src)) (seq 0 n))).
    { intros x Hx Hf. apply filter_In in Hf as [_ Hf]. apply negb_true_iff in Hf. apply in_existsb in Hx. congruence. }
    revert DJ. generalize (filter (fun x => negb (existsb (Nat.eqb x) src)) (seq 0 n)) N2. clear HF N2.
    induction ND as [|x l H1 H2 IH]; intros m N2 DJ; [exact N2|]. cbn [app]. constructor.
    + rewrite in_app_iff. intros [H|H]; [contradiction|]. exact (DJ x (or_introl eq_refl) H).
    + apply IH; [exact N2|]. intros y Hy. apply DJ. right. exact Hy.
  - intros x. rewrite in_app_iff, filter_In, in_seq. rewrite Forall_forall in HF. split.
    + intros [H|[H _]]; [apply HF in H; lia|lia].
    + intros H. destruct (existsb (Nat.eqb x) src) eqn:E; [left; apply in_existsb; exact E|right; split; [lia|reflexivity]].
Qed.

Lemma seq_sorted s n : StronglySorted lt (seq s n).
Proof.
  revert s; induction n as [|n IH]; intros s; cbn [seq]; constructor; [apply IH|].
  apply Forall_forall. intros x Hx. apply in_seq in Hx. lia.
Qed.
Lemma filter_sorted p l : StronglySorted lt l -> StronglySorted lt (filter p l).
Proof.
  induction 1 as [|x l H IH HF]; cbn [filter]; [constructor|]. destruct (p x); [|exact IH].
  constructor; [exact IH|]. apply Forall_forall. intros y Hy. apply filter_In in Hy as [Hy _].
  rewrite Forall_forall in HF. apply HF. exact Hy.
Qed.
Lemma filter_twice {A} (p : A -> bool) l : filter p (filter p l) = filter p l.
Proof. apply filter_all. intros x Hx. apply filter_In in Hx. apply Hx. Qed.

Lemma moves_ins n src dst : length src = length dst -> NoDup src -> Forall (fun x => x < n) src ->
  StronglySorted lt dst -> Forall (fun x => x < n) dst ->
  moves n src dst (fold_left ins (combine src dst) (filter (fun x => negb (existsb (Nat.eqb x) src)) (seq 0 n))).
Proof.
  intros HL ND FS HS FD. set (p := fun x => negb (existsb (Nat.eqb x) src)).
  pose proof (filter_rest_perm n src ND FS) as HP. fold p in HP.
  pose proof (Permutation_length HP) as HN. rewrite app_length, seq_length in HN.
  destruct (ins_ascending p src dst (filter p (seq 0 n)) HL HS) as (P1 & P2 & _ & P4).
  - intros i x Hx. pose proof (ascending_bound n dst HS FD i x Hx).
    assert (i < length dst) by (apply nth_error_Some; congruence). lia.
  - intros x Hx. unfold p. apply negb_false_iff, in_existsb. exact Hx.
  - split; [rewrite P1; exact HP|]. split; [exact P4|]. fold p. change (StronglySorted lt (filter p (fold_left ins (combine src dst) (filter p (seq 0 n))))).
    rewrite P2, filter_twice. apply filter_sorted, seq_sorted.
Qed.

(* ---------- flips ---------- *)
Definition flipped_to (k : nat) (sh idx : list nat) : list nat :=
  map (fun j => if j <? k then nth j sh 0 - 1 - nth j idx 0 else nth j idx 0) (seq 0 (length sh)).

Lemma flipped_to_nth k sh idx j : j < length sh ->
  nth j (flipped_to k sh idx) 0 = if j <? k then nth j sh 0 - 1 - nth j idx 0 else nth j idx 0.
Proof.
  intros H. unfold flipped_to. apply nth_error_nth. rewrite nth_error_map', nth_error_seq.
  destruct (Nat.ltb_spec j (length sh)); [reflexivity|lia].
Qed.
Lemma flipped_to_length k sh idx : length (flipped_to k sh idx) = length sh.
Proof. unfold flipped_to. rewrite map_length, seq_length. reflexivity. Qed.

Lemma nth_ext' (l m : list nat) : length l = length m -> (forall j, j < length l -> nth j l 0 = nth j m 0) -> l = m.
Proof. intros HL H. apply (nth_ext _ _ 0 0 HL H). Qed.

Lemma flipped_to_0 sh idx : length idx = length sh -> flipped_to 0 sh idx = idx.
Proof.
  intros H. apply nth_ext'; [rewrite flipped_to_length; lia|]. intros j Hj. rewrite flipped_to_length in Hj.
  rewrite flipped_to_nth by exact Hj. reflexivity.
Qed.

Lemma nth_upd (l : list nat) n v j : nth j (upd l n v) 0 = if (j =? n) && (j <? length l) then v else nth j l 0.
Proof.
  revert n j; induction l as [|x l IH]; intros [|n] [|j]; cbn; try reflexivity.
  all: rewrite ?andb_false_r; try reflexivity.
  rewrite IH. reflexivity.
Qed.

Lemma flipped_to_S k sh idx : k < length sh -> length idx = length sh ->
  flipped_to k sh (flip_idx k (nth k sh 0) idx) = flipped_to (S k) sh idx.
Proof.
  intros HK HL. apply nth_ext'; [rewrite !flipped_to_length; reflexivity|]. intros j Hj.
  rewrite flipped_to_length in Hj. rewrite !flipped_to_nth by exact Hj. unfold flip_idx. rewrite nth_upd.
  destruct (Nat.ltb_spec j k), (Nat.ltb_spec j (S k)), (Nat.eqb_spec j k), (Nat.ltb_spec j (length idx)); cbn [andb]; subst; lia || reflexivity.
Qed.

Lemma flipped_all sh idx : length idx = length sh -> flipped_to (length sh) sh idx = mirrored sh idx.
Proof.
  intros H. assert (HL : length (mirrored sh idx) = length sh).
  { revert idx H. induction sh as [|s sh IH]; intros [|i idx] H; cbn in *; try lia. unfold mirrored in IH. rewrite (IH idx) by lia. reflexivity. }
  apply nth_ext'; [rewrite flipped_to_length; lia|]. intros j Hj. rewrite flipped_to_length in Hj.
  rewrite flipped_to_nth by exact Hj. destruct (Nat.ltb_spec j (length sh)); [|lia].
  clear HL. revert idx j H Hj H0. induction sh as [|s sh IH]; intros [|i idx] [|j] H Hj H0; cbn in *; try lia.
  apply (IH idx j); lia.
Qed.

Lemma flip_strides a axis r j : flip a axis = Ok r -> j <> axis -> nth j (a_strides r) 0%Z = nth j (a_strides a) 0%Z.
Proof.
  unfold flip. destruct (nth_error (a_shape a) axis) as [[|n]|] eqn:E; intros H HJ; [injection H as <-; reflexivity| |discriminate].
  unfold slice_axis in H. destruct (nth_error (a_strides a) axis) as [st|]; [|discriminate]. rewrite E in H.
  destruct (slice_len _ _ _) as [m| | |]; cbn [bind] in H; try discriminate. injection H as <-.
  unfold view_with. cbn [a_strides].
  destruct (Nat.lt_ge_cases j (length (a_strides a))) as [HL|HL].
  - rewrite (nth_error_nth' (a_strides a) 0%Z HL) || idtac.
    apply nth_error_nth. rewrite nth_error_upd_neq by (intros X; apply HJ; congruence). apply nth_error_nth'. exact HL.
  - rewrite !nth_overflow by (rewrite ?upd_length; exact HL). reflexivity.
Qed.

Lemma flip_all_to {V} (buf : list V) a : wf buf a ->
  (forall axis, axis < ndim a -> (0 <= nth axis (a_strides a) 0)%Z \/ nth axis (a_shape a) 0 <= 1) ->
  forall k, k <= ndim a ->
  exists r, fold_left (fun r ax => bind r (fun x => unwrap (flip x ax))) (seq 0 k) (Ok a) = Ok r /\
    is_view buf a r (a_shape a) (flipped_to k (a_shape a)) /\
    forall j, k <= j -> nth j (a_strides r) 0%Z = nth j (a_strides a) 0%Z.
Proof.
  intros W HN. induction k as [|k IH]; intros HK.
  - exists a. split; [reflexivity|]. split; [|auto]. split; [reflexivity|]. split; [exact W|]. intros idx Hi.
    rewrite flipped_to_0 by (apply inb_length; exact Hi). auto.
  - destruct (IH ltac:(lia)) as (r & E & (S1 & W1 & G1) & ST). rewrite seq_S, fold_left_app, E. cbn [fold_left bind Nat.add].
    unfold ndim in HK. destruct (C06_flip_partial V buf r k (nth k (a_shape a) 0) W1) as (r' & E' & S' & W' & G').
    { rewrite S1. apply nth_error_nth'. lia. }
    { rewrite (ST k (Nat.le_refl k)). apply HN. exact HK. }
    rewrite E'. exists r'. split; [reflexivity|]. split.
    + split; [congruence|]. split; [exact W'|]. intros idx Hi. rewrite S1 in G'. destruct (G' idx Hi) as [B1 ->].
      destruct (G1 _ B1) as [B2 ->]. rewrite flipped_to_S in * by (try lia; apply inb_length; exact Hi). auto.
    + intros j HJ. rewrite (flip_strides r k r' j E') by lia. apply ST. lia.
Qed.

(* ---------- several shapes ---------- *)
Lemma broadcastable_trans a b c : broadcastable a b -> broadcastable b c -> broadcastable a c.
Proof.
  rewrite !broadcastable_rdim. intros [L1 H1] [L2 H2]. split; [lia|]. intros i Hi.
  destruct (H1 i Hi) as [E|E]; [|right; exact E]. destruct (H2 i ltac:(lia)) as [E2|E2]; [left|right]; congruence.
Qed.
Lemma broadcastable_refl a : broadcastable a a.
Proof. rewrite broadcastable_rdim. split; [lia|]. intros i _. left. reflexivity. Qed.
Lemma broadcastable_nil c : broadcastable [] c.
Proof. rewrite broadcastable_rdim. split; [cbn; lia|]. intros i Hi. cbn in Hi. lia. Qed.

Lemma multi_upper : forall shs r, broadcast_multi_shapes shs = Some r -> forall s, In s shs -> broadcastable s r.
Proof.
  induction shs as [|s shs IH]; intros r E t Ht; [destruct Ht|]. rewrite broadcast_multi_cons in E.
  destruct (broadcast_multi_shapes shs) as [q|] eqn:EQ; [|discriminate]. cbn [obind] in E.
  destruct (bshape_upper _ _ _ E) as [U1 U2]. destruct Ht as [<-|Ht]; [exact U1|].
  eapply broadcastable_trans; [apply (IH q eq_refl t Ht)|exact U2].
Qed.

Lemma multi_least c : forall shs, (forall s, In s shs -> broadcastable s c) ->
  exists r, broadcast_multi_shapes shs = Some r /\ broadcastable r c.
Proof.
  induction shs as [|s shs IH]; intros H.
  - exists []. split; [reflexivity|apply broadcastable_nil].
  - destruct IH as (q & EQ & HQ); [intros t Ht; apply H; right; exact Ht|].
    destruct (bshape_least s q c (H s (or_introl eq_refl)) HQ) as (r & E & HR). exists r. split; [|exact HR].
    rewrite broadcast_multi_cons, EQ. exact E.
Qed.

Lemma multi_common shs r : broadcast_multi_shapes shs = Some r -> common_shape shs r.
Proof.
  intros E. split; [apply multi_upper; exact E|]. intros c HC. destruct (multi_least c shs HC) as (q & EQ & HQ). congruence.
Qed.

Lemma py_broadcast_is shs : py_broadcast_shapes shs = broadcast_multi_shapes shs.
Proof.
  unfold py_broadcast_shapes.
  assert (H : forall shs acc, fold_left (fun acc sh => match acc with None => None | Some [] => Some sh | Some r => broadcast_shapes r sh end) shs (Some acc)
                              = broadcast_fold acc shs).
  { clear. assert (HN : forall l, fold_left (fun acc sh => match acc with None => None | Some [] => Some sh | Some r => broadcast_shapes r sh end) l None = None)
      by (induction l as [|x l IH]; [reflexivity|exact IH]).
    induction shs as [|s shs IH]; intros acc; [reflexivity|]. cbn [fold_left broadcast_fold].
    destruct acc as [|x acc].
    - rewrite bshape_unit. apply IH.
    - destruct (broadcast_shapes (x :: acc) s) as [r|]; [apply IH|apply HN]. }
  rewrite H. destruct shs as [|s shs]; [reflexivity|]. cbn [broadcast_fold broadcast_multi_shapes]. rewrite bshape_unit. reflexivity.
Qed.
