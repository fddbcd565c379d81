(* The loops of src/ops/fft.rs over the lanes of a row-major buffer. *)
From Verif Require Import Base Lists Arr_Spec Arr_Model Arr_Wf Arr_Proofs Copy_Model Copy_Proofs Elem_Model Elem_Proofs Red_Spec Red_Model Red_Proofs Red_Scan
  Man_Proofs Gu_Model Gu_Proofs Lay_Copy Fft_Spec Fft_Model Fft_Proofs.
Local Open Scope nat_scope.

(* ---------- addresses ---------- *)
Fixpoint ndot (idx st : list nat) : nat :=
  match idx, st with i :: idx', s :: st' => i * s + ndot idx' st' | _, _ => 0 end.

Lemma compute_strides_length sh : length (compute_strides sh) = length sh.
Proof. induction sh as [|d sh IH]; [reflexivity|]. cbn [compute_strides length]. rewrite IH. reflexivity. Qed.
Lemma compute_strides_cons d sh : compute_strides (d :: sh) = prod sh :: compute_strides sh.
Proof.
  revert d. induction sh as [|e sh IH]; intros d; [reflexivity|].
  change (compute_strides (d :: e :: sh)) with
    ((match compute_strides (e :: sh) with s :: _ => s * e | _ => 1 end) :: compute_strides (e :: sh)).
  rewrite IH. f_equal. cbn [prod]. lia.
Qed.
Lemma ndot_strides sh : forall idx, ndot idx (compute_strides sh) = rank sh idx.
Proof.
  induction sh as [|d sh IH]; intros [|i idx]; try reflexivity.
  rewrite compute_strides_cons. cbn [ndot rank]. rewrite IH. reflexivity.
Qed.
Lemma ndot_insert : forall axis i oi st s, axis <= length oi -> nth_error st axis = Some s ->
  ndot (insert_at axis i oi) st = ndot oi (remove_at axis st) + i * s.
Proof.
  induction axis as [|axis IH]; intros i oi st s H Hs; destruct st as [|x st]; try discriminate.
  - cbn in Hs. injection Hs as ->. destruct oi; cbn [insert_at ndot remove_at]; [|lia]. cbn. lia.
  - destruct oi as [|o oi]; [cbn in H; lia|]. cbn [insert_at ndot remove_at nth_error length] in *.
    rewrite (IH i oi st s) by (assumption || lia). lia.
Qed.

Lemma transform_index_spec sh : forall st k, length st = length sh -> 0 < prod sh ->
  transform_index sh st k = (ndot (unrank sh (k mod prod sh)) st, k / prod sh).
Proof.
  induction sh as [|d sh IH]; intros [|s st] k HL HP; try discriminate; cbn [transform_index].
  - cbn [unrank prod ndot]. rewrite Nat.div_1_r. reflexivity.
  - cbn [length prod] in *. rewrite (IH st k) by nia. destruct (Nat.ltb_spec 0 d) as [Hd|Hd]; [|nia].
    cbn [unrank ndot]. assert (HQ : 0 < prod sh) by nia. f_equal.
    + rewrite (Nat.mul_comm d (prod sh)). rewrite Nat.mod_mul_r by lia.
      rewrite (Nat.mul_comm (prod sh) ((k / prod sh) mod d)), Nat.div_add, (Nat.div_small (k mod prod sh)) by (try lia; apply Nat.mod_upper_bound; lia).
      rewrite Nat.add_comm with (m := ndot (unrank sh _) st). f_equal.
      rewrite Nat.mod_add, Nat.mod_mod by lia. reflexivity.
    + rewrite (Nat.mul_comm d), Nat.div_div by lia. reflexivity.
Qed.

Lemma insert_remove_shape (sh : list nat) axis n : nth_error sh axis = Some n -> insert_at axis n (remove_at axis sh) = sh.
Proof. apply insert_remove_at. Qed.
Lemma inb_lane sh axis n oi i : nth_error sh axis = Some n -> inb oi (remove_at axis sh) -> i < n -> inb (insert_at axis i oi) sh.
Proof. intros Hn Ho Hi. rewrite <- (insert_remove_shape sh axis n Hn). apply inb_insert_at; assumption. Qed.
Lemma remove_at_len {A} axis (l : list A) : axis < length l -> length (remove_at axis l) = length l - 1.
Proof.
  revert axis; induction l as [|x l IH]; intros [|axis] H; cbn [length remove_at] in *; try lia.
  rewrite IH by lia. lia.
Qed.

(* the address of entry i of the lane at outer position t *)
Definition lane_addr (sh : list nat) (axis t i : nat) : nat := rank sh (insert_at axis i (unrank (remove_at axis sh) t)).

Lemma lane_addr_base sh axis n st t i : nth_error sh axis = Some n -> nth_error (compute_strides sh) axis = Some st ->
  t < prod (remove_at axis sh) ->
  fst (transform_index (remove_at axis sh) (remove_at axis (compute_strides sh)) t) + i * st = lane_addr sh axis t i.
Proof.
  intros Hn Hs Ht. assert (HA : axis < length sh) by (apply nth_error_Some; congruence).
  rewrite transform_index_spec; [|rewrite !remove_at_len, compute_strides_length by (try rewrite compute_strides_length; exact HA); reflexivity|lia].
  cbn [fst]. rewrite Nat.mod_small by exact Ht. unfold lane_addr. rewrite <- ndot_strides.
  assert (HL : length (unrank (remove_at axis sh) t) = length sh - 1).
  { rewrite (inb_length _ _ (unrank_inb _ _ Ht)). apply remove_at_len, HA. }
  symmetry. apply ndot_insert; [lia|exact Hs].
Qed.
Lemma lane_addr_lt sh axis n t i : nth_error sh axis = Some n -> t < prod (remove_at axis sh) -> i < n -> lane_addr sh axis t i < prod sh.
Proof. intros Hn Ht Hi. apply rank_lt, (inb_lane sh axis n); [exact Hn|apply unrank_inb, Ht|exact Hi]. Qed.
Lemma lane_addr_inj sh axis n t t' i i' : nth_error sh axis = Some n -> t < prod (remove_at axis sh) -> t' < prod (remove_at axis sh) ->
  i < n -> i' < n -> lane_addr sh axis t i = lane_addr sh axis t' i' -> t = t' /\ i = i'.
Proof.
  intros Hn Ht Ht' Hi Hi' E. apply rank_inj in E; [|apply (inb_lane sh axis n); [exact Hn|apply unrank_inb; assumption|assumption]..].
  assert (HA : axis < length sh) by (apply nth_error_Some; congruence).
  assert (HL : forall u, u < prod (remove_at axis sh) -> axis <= length (unrank (remove_at axis sh) u)).
  { intros u Hu. rewrite (inb_length _ _ (unrank_inb _ _ Hu)), remove_at_len by exact HA. lia. }
  assert (E1 : unrank (remove_at axis sh) t = unrank (remove_at axis sh) t').
  { rewrite <- (remove_insert_at axis i (unrank (remove_at axis sh) t)) by (apply HL; exact Ht). rewrite E. apply remove_insert_at, HL, Ht'. }
  split; [rewrite <- (rank_unrank _ _ Ht), E1; apply rank_unrank, Ht'|].
  rewrite E1 in E. specialize (HL t' Ht'). revert E. generalize (unrank (remove_at axis sh) t') HL. clear.
  induction axis as [|axis IH]; intros [|x l] HL E; cbn in *; try lia; try (injection E as E; exact E).
  injection E as E. apply (IH l); [lia|exact E].
Qed.
(* every position is in one lane *)
Lemma lane_addr_onto sh axis n idx : nth_error sh axis = Some n -> inb idx sh ->
  exists t, t < prod (remove_at axis sh) /\ unrank (remove_at axis sh) t = remove_at axis idx /\ nth axis idx 0 < n /\
            rank sh idx = lane_addr sh axis t (nth axis idx 0) /\
            (forall i, i < n -> insert_at axis i (remove_at axis idx) = upd idx axis i).
Proof.
  intros Hn Hi. pose proof (inb_remove_at axis idx sh Hi) as Ho. exists (rank (remove_at axis sh) (remove_at axis idx)).
  assert (HA : nth_error idx axis = Some (nth axis idx 0)).
  { apply nth_error_nth'. rewrite (inb_length _ _ Hi). apply nth_error_Some. congruence. }
  split; [apply rank_lt, Ho|]. split; [apply unrank_rank, Ho|]. split; [apply (inb_nth idx sh axis n Hi Hn)|]. split.
  - unfold lane_addr. rewrite unrank_rank by exact Ho. rewrite insert_remove_at by exact HA. reflexivity.
  - intros i _. rewrite <- (insert_remove_at axis _ idx HA) at 2. symmetry. apply upd_insert_at.
    rewrite remove_at_len by (apply nth_error_Some; congruence).
    assert (axis < length idx) by (apply nth_error_Some; congruence). lia.
Qed.

(* ---------- writing and reading lanes ---------- *)
Section Lanes.
Context {C : Type}.

Definition puts (A : nat -> nat) (b : list C) (s : nat) (vs : list C) : res (list C) :=
  foldM (fun b '(i, v) => put_at b (A i) v) (combine (seq s (length vs)) vs) b.

Lemma nth_error_upd (l : list C) k v j : k < length l -> nth_error (upd l k v) j = if j =? k then Some v else nth_error l j.
Proof.
  intros H. destruct (Nat.eqb_spec j k) as [->|E]; [apply nth_error_upd_eq; exact H|apply nth_error_upd_neq; congruence].
Qed.

Lemma puts_spec A vs : forall s b, (forall i, i < length vs -> A (s + i) < length b) ->
  (forall i j, i < length vs -> j < length vs -> A (s + i) = A (s + j) -> i = j) ->
  exists b', puts A b s vs = Ok b' /\ length b' = length b /\
    (forall i, i < length vs -> nth_error b' (A (s + i)) = nth_error vs i) /\
    (forall k, (forall i, i < length vs -> A (s + i) <> k) -> nth_error b' k = nth_error b k).
Proof.
  induction vs as [|v vs IH]; intros s b HR HJ.
  - exists b. split; [reflexivity|]. split; [reflexivity|]. split; [intros i Hi; cbn in Hi; lia|reflexivity].
  - unfold puts. cbn [length seq combine foldM]. unfold put_at at 1.
    pose proof (HR 0 ltac:(cbn; lia)) as H0. rewrite Nat.add_0_r in H0. rewrite (proj2 (Nat.ltb_lt _ _) H0). cbn [bind].
    destruct (IH (S s) (upd b (A s) v)) as (b' & E & HL & HN & HO).
    + intros i Hi. rewrite upd_length. replace (S s + i) with (s + S i) by lia. apply HR. cbn. lia.
    + intros i j Hi Hj E. replace (S s + i) with (s + S i) in E by lia. replace (S s + j) with (s + S j) in E by lia.
      apply HJ in E; [lia|cbn; lia|cbn; lia].
    + exists b'. split; [exact E|]. rewrite upd_length in HL. split; [exact HL|]. split.
      * intros [|i] Hi.
        -- rewrite Nat.add_0_r, HO; [apply nth_error_upd_eq; exact H0|]. intros i Hi' EE.
           replace (S s + i) with (s + S i) in EE by lia. rewrite <- (Nat.add_0_r s) in EE at 2. apply HJ in EE; [lia|cbn; lia|cbn; lia].
        -- replace (s + S i) with (S s + i) by lia. cbn [nth_error]. apply HN. cbn in Hi. lia.
      * intros k Hk. rewrite HO.
        -- apply nth_error_upd_neq. pose proof (Hk 0 ltac:(cbn; lia)) as Hk0. rewrite Nat.add_0_r in Hk0. congruence.
        -- intros i Hi. replace (S s + i) with (s + S i) by lia. apply Hk. cbn. lia.
Qed.

(* a loop that writes lane t at step t, from what it finds in that lane *)
Lemma lanes_loop (step : list C -> nat -> res (list C)) (A : nat -> nat -> nat) (vals : nat -> list C) (T n size : nat) (b0 : list C) :
  (forall t t' i i', t < T -> t' < T -> i < n -> i' < n -> A t i = A t' i' -> t = t' /\ i = i') ->
  (forall t i, t < T -> i < n -> A t i < size) -> (forall t, t < T -> length (vals t) = n) -> length b0 = size ->
  (forall t b, t < T -> length b = size -> (forall i, i < n -> nth_error b (A t i) = nth_error b0 (A t i)) ->
     step b t = puts (A t) b 0 (vals t)) ->
  exists out, foldM step (seq 0 T) b0 = Ok out /\ length out = size /\
    forall t i, t < T -> i < n -> nth_error out (A t i) = nth_error (vals t) i.
Proof.
  intros HJ HR HV HB HS.
  assert (G : forall m s b, s + m = T -> length b = size ->
            (forall t i, t < T -> i < n -> nth_error b (A t i) = if t <? s then nth_error (vals t) i else nth_error b0 (A t i)) ->
            exists out, foldM step (seq s m) b = Ok out /\ length out = size /\
              forall t i, t < T -> i < n -> nth_error out (A t i) = nth_error (vals t) i).
  { induction m as [|m IH]; intros s b Hs HL HI.
    - exists b. split; [reflexivity|]. split; [exact HL|]. intros t i Ht Hi. rewrite HI by assumption.
      destruct (Nat.ltb_spec t s); [reflexivity|lia].
    - cbn [seq foldM]. rewrite HS; [|lia|exact HL|].
      2:{ intros i Hi. rewrite HI by lia. rewrite Nat.ltb_irrefl. reflexivity. }
      destruct (puts_spec (A s) (vals s) 0 b) as (b' & E & HL' & HN & HO).
      + intros i Hi. rewrite HV in Hi by lia. rewrite HL. apply HR; lia.
      + intros i j Hi Hj E. rewrite HV in Hi, Hj by lia. apply HJ in E; lia.
      + rewrite E. cbn [bind]. apply IH; [lia|congruence|]. intros t i Ht Hi. destruct (Nat.eq_dec t s) as [->|Et].
        * destruct (Nat.ltb_spec s (S s)); [|lia]. apply (HN i). rewrite HV by lia. exact Hi.
        * rewrite HO.
          -- rewrite HI by assumption. destruct (Nat.ltb_spec t s), (Nat.ltb_spec t (S s)); try lia; reflexivity.
          -- intros j Hj EE. rewrite HV in Hj by lia. cbn [Nat.add] in EE. apply HJ in EE; lia. }
  apply (G T 0 b0); [reflexivity|exact HB|]. intros t i Ht Hi. reflexivity.
Qed.

Lemma lane_get_spec zero (b : list C) base stride n (A : nat -> nat) : (forall i, base + i * stride = A i) ->
  (forall i, i < n -> A i < length b) -> lane_get b base stride n = Ok (map (fun i => nth (A i) b zero) (seq 0 n)).
Proof.
  intros HA HR. apply mapM_ok. intros i Hi. apply in_seq in Hi. unfold at_. rewrite HA.
  rewrite (nth_error_nth' b zero) by (apply HR; lia). reflexivity.
Qed.
Lemma foldM_ext_f {X S} (f g : S -> X -> res S) l : (forall s x, f s x = g s x) -> forall s, foldM f l s = foldM g l s.
Proof. intros H. induction l as [|x l IH]; intros s; cbn [foldM]; [reflexivity|]. rewrite H. destruct (g s x); cbn [bind]; auto. Qed.
Lemma lane_put_puts (b : list C) base stride vs (A : nat -> nat) : (forall i, base + i * stride = A i) ->
  lane_put b base stride vs = puts A b 0 vs.
Proof. intros HA. unfold lane_put, puts. apply foldM_ext_f. intros s [i v]. rewrite HA. reflexivity. Qed.

(* the buffer b holds the array f of shape sh *)
Definition holds (sh : list nat) (b : list C) (f : list nat -> C) : Prop :=
  length b = prod sh /\ forall idx, inb idx sh -> nth_error b (rank sh idx) = Some (f idx).

Lemma holds_feq sh b f g : holds sh b f -> feq sh f g -> holds sh b g.
Proof. intros (HL & H) E. split; [exact HL|]. intros idx Hi. rewrite H by exact Hi. f_equal. apply E, Hi. Qed.
Lemma holds_map sh b f (h : C -> C) : holds sh b f -> holds sh (map h b) (fun idx => h (f idx)).
Proof. intros (HL & H). split; [rewrite map_length; exact HL|]. intros idx Hi. rewrite nth_error_map', H by exact Hi. reflexivity. Qed.
Lemma holds_nth sh b f d idx : holds sh b f -> inb idx sh -> nth (rank sh idx) b d = f idx.
Proof. intros (HL & H) Hi. apply nth_error_nth. apply H, Hi. Qed.
Lemma holds_unique sh b b' f : holds sh b f -> holds sh b' f -> b = b'.
Proof.
  intros (HL & H) (HL' & H'). apply nth_error_ext. intros k. destruct (Nat.lt_ge_cases k (prod sh)) as [Hk|Hk].
  - rewrite <- (rank_unrank sh k Hk). rewrite H, H' by (apply unrank_inb; exact Hk). reflexivity.
  - rewrite (proj2 (nth_error_None b k)), (proj2 (nth_error_None b' k)) by lia. reflexivity.
Qed.
Lemma holds_list sh f : holds sh (map f (all_idx sh)) f.
Proof.
  split; [rewrite map_length; apply all_idx_length|]. intros idx Hi. rewrite nth_error_map', nth_error_all_idx_rank by exact Hi. reflexivity.
Qed.

(* fft.rs:337-382: every lane replaced by its image *)
Lemma along_axis_lanes (zero : C) p sh axis n b f : nth_error sh axis = Some n ->
  (forall xs, length (p xs) = length xs) -> holds sh b f ->
  exists out, fft_along_axis p b sh axis = Ok out /\
    holds sh out (fun idx => nth (nth axis idx 0) (p (map (fun i => f (upd idx axis i)) (seq 0 n))) zero).
Proof.
  intros Hn Hp Hb. pose proof Hb as (HL & HE). unfold fft_along_axis. unfold at_ at 1. rewrite Hn. cbn [bind].
  destruct ((prod (remove_at axis sh) =? 0) || (n =? 0)) eqn:E0.
  { exists b. split; [reflexivity|]. split; [exact HL|]. intros idx Hi. exfalso.
    destruct (lane_addr_onto sh axis n idx Hn Hi) as (t & Ht & _ & Hlt & _).
    apply orb_prop in E0 as [E0|E0]; apply Nat.eqb_eq in E0; lia. }
  assert (HS : exists st, nth_error (compute_strides sh) axis = Some st).
  { destruct (nth_error (compute_strides sh) axis) eqn:E; [eexists; reflexivity|]. exfalso.
    apply nth_error_None in E. rewrite compute_strides_length in E. apply nth_error_None in E. congruence. }
  destruct HS as [st Hst]. unfold at_ at 1. rewrite Hst. cbn [bind].
  set (vals := fun t => p (map (fun i => f (insert_at axis i (unrank (remove_at axis sh) t))) (seq 0 n))).
  destruct (lanes_loop (fun b t => bind (lane_get b (fst (transform_index (remove_at axis sh) (remove_at axis (compute_strides sh)) t)) st n)
              (fun work => lane_put b (fst (transform_index (remove_at axis sh) (remove_at axis (compute_strides sh)) t)) st (p work)))
              (lane_addr sh axis) vals (prod (remove_at axis sh)) n (prod sh) b) as (out & E & HLo & HNo).
  - intros t t' i i' Ht Ht' Hi Hi'. apply (lane_addr_inj sh axis n); assumption.
  - intros t i Ht Hi. apply (lane_addr_lt sh axis n); assumption.
  - intros t Ht. unfold vals. rewrite Hp, map_length, seq_length. reflexivity.
  - exact HL.
  - intros t b' Ht HL' Hsame. cbv beta.
    rewrite (lane_get_spec zero b' _ st n (lane_addr sh axis t)).
    + cbn [bind]. rewrite (lane_put_puts b' _ st _ (lane_addr sh axis t)) by (intros i; apply (lane_addr_base sh axis n); assumption).
      f_equal. unfold vals. f_equal. apply map_ext_in. intros i Hi. apply in_seq in Hi. apply nth_error_nth.
      rewrite Hsame by lia. apply HE. apply (inb_lane sh axis n); [exact Hn|apply unrank_inb, Ht|lia].
    + intros i. apply (lane_addr_base sh axis n); assumption.
    + intros i Hi. rewrite HL'. apply (lane_addr_lt sh axis n); assumption.
  - exists out. split; [exact E|]. split; [exact HLo|]. intros idx Hi.
    destruct (lane_addr_onto sh axis n idx Hn Hi) as (t & Ht & Hu & Hlt & Hr & Hup). rewrite Hr, HNo by assumption.
    rewrite (nth_error_nth' (vals t) zero) by (unfold vals; rewrite Hp, map_length, seq_length; exact Hlt).
    f_equal. unfold vals. rewrite Hu. f_equal. f_equal. apply map_ext_in. intros i Hi'. apply in_seq in Hi'. f_equal. apply Hup. lia.
Qed.

(* fft.rs:451-505, 563-605: lanes of length n_in mapped to lanes of length n_out *)
Lemma map_lanes_spec (zero : C) (F : list C -> res (list C)) (g : list C -> list C) sh axis n_in n_out b f : nth_error sh axis = Some n_in ->
  0 < prod (remove_at axis sh) ->
  (forall xs, length xs = n_in -> F xs = Ok (g xs) /\ n_out <= length (g xs)) -> holds sh b f ->
  exists out, map_lanes zero F b sh (upd sh axis n_out) axis = Ok out /\
    holds (upd sh axis n_out) out (fun idx => nth (nth axis idx 0) (g (map (fun i => f (upd idx axis i)) (seq 0 n_in))) zero).
Proof.
  intros Hn HP HF Hb. pose proof Hb as (HL & HE). assert (HA : axis < length sh) by (apply nth_error_Some; congruence).
  set (osh := upd sh axis n_out) in *. assert (Ho : nth_error osh axis = Some n_out) by (apply nth_error_upd_eq; exact HA).
  assert (HR : remove_at axis osh = remove_at axis sh).
  { unfold osh. clear. revert axis. induction sh as [|x l IH]; intros [|axis]; cbn [upd remove_at]; try reflexivity. rewrite IH. reflexivity. }
  assert (HLo : length osh = length sh) by apply upd_length.
  assert (HS : forall s, axis < length s -> exists st, nth_error (compute_strides s) axis = Some st).
  { intros s Hs. destruct (nth_error (compute_strides s) axis) eqn:E; [eexists; reflexivity|]. exfalso.
    apply nth_error_None in E. rewrite compute_strides_length in E. lia. }
  destruct (HS sh HA) as [si Hsi], (HS osh ltac:(lia)) as [so Hso].
  unfold map_lanes. unfold at_ at 1. rewrite Hn. cbn [bind]. unfold at_ at 1. rewrite Ho. cbn [bind].
  unfold at_ at 1. rewrite Hsi. cbn [bind]. unfold at_ at 1. rewrite Hso. cbn [bind].
  rewrite Nat.max_l by lia. set (T := prod (remove_at axis sh)) in *.
  set (lanev := fun t => map (fun i => f (insert_at axis i (unrank (remove_at axis sh) t))) (seq 0 n_in)).
  set (vals := fun t => firstn n_out (g (lanev t))).
  assert (HLV : forall t, length (vals t) = n_out).
  { intros t. unfold vals. apply firstn_length_le. apply HF. unfold lanev. rewrite map_length. apply seq_length. }
  match goal with |- exists out, foldM ?st _ _ = _ /\ _ =>
    destruct (lanes_loop st (lane_addr osh axis) vals T n_out (prod osh) (repeat zero (prod osh))) as (out & E & HLout & HNo) end.
  - intros t t' i i' Ht Ht' Hi Hi'. apply (lane_addr_inj osh axis n_out); rewrite ?HR; assumption.
  - intros t i Ht Hi. apply (lane_addr_lt osh axis n_out); rewrite ?HR; assumption.
  - intros t _. apply HLV.
  - apply repeat_length.
  - intros t b' Ht HL' _. cbv beta.
    rewrite (lane_get_spec zero b _ si n_in (lane_addr sh axis t)).
    2:{ intros i. apply (lane_addr_base sh axis n_in); assumption. }
    2:{ intros i Hi. rewrite HL. apply (lane_addr_lt sh axis n_in); assumption. }
    cbn [bind].
    replace (map (fun i => nth (lane_addr sh axis t i) b zero) (seq 0 n_in)) with (lanev t).
    2:{ apply map_ext_in. intros i Hi. apply in_seq in Hi. symmetry. apply nth_error_nth, HE.
        apply (inb_lane sh axis n_in); [exact Hn|apply unrank_inb, Ht|lia]. }
    destruct (HF (lanev t) ltac:(unfold lanev; rewrite map_length; apply seq_length)) as [-> HG]. cbn [bind].
    rewrite (mapM_ok _ (fun i => nth i (g (lanev t)) zero)).
    2:{ intros i Hi. apply in_seq in Hi. unfold at_. rewrite (nth_error_nth' _ zero) by lia. reflexivity. }
    cbn [bind]. replace (map (fun i => nth i (g (lanev t)) zero) (seq 0 n_out)) with (vals t).
    2:{ unfold vals. clear -HG. revert HG. generalize (g (lanev t)). intros l HG. apply nth_error_ext. intros k.
        destruct (Nat.lt_ge_cases k n_out) as [Hk|Hk].
        - rewrite nth_error_map', nth_error_seq. destruct (Nat.ltb_spec k n_out); [|lia]. cbn [option_map Nat.add].
          rewrite <- (nth_error_nth' l zero) by lia. revert k Hk H HG. induction n_out as [|m IH] in l |- *; intros k Hk _ HG; [lia|].
          destruct l as [|x l]; [cbn in HG; lia|]. destruct k; [reflexivity|]. cbn. apply IH; cbn in *; lia.
        - rewrite (proj2 (nth_error_None _ _)) by (rewrite firstn_length; lia).
          rewrite (proj2 (nth_error_None _ _)) by (rewrite map_length, seq_length; lia). reflexivity. }
    rewrite <- HR at 1. apply lane_put_puts. intros i. apply (lane_addr_base osh axis n_out); rewrite ?HR; assumption.
  - exists out. split; [exact E|]. split; [exact HLout|]. intros idx Hi.
    destruct (lane_addr_onto osh axis n_out idx Ho Hi) as (t & Ht & Hu & Hlt & Hr & Hup). rewrite HR in Ht, Hu. rewrite Hr, HNo by assumption.
    rewrite (nth_error_nth' (vals t) zero) by (rewrite HLV; exact Hlt). f_equal. unfold vals.
    assert (EF : forall (l : list C) k, k < n_out -> nth k (firstn n_out l) zero = nth k l zero).
    { clear. induction n_out as [|m IH]; intros l k Hk; [lia|]. destruct l as [|x l]; [reflexivity|]. destruct k; [reflexivity|].
      cbn. apply IH. lia. }
    rewrite EF by exact Hlt. f_equal. f_equal. unfold lanev. rewrite Hu. apply map_ext_in. intros i Hi'. f_equal.
    assert (HX : nth_error idx axis = Some (nth axis idx 0)) by (apply nth_error_nth'; rewrite (inb_length _ _ Hi); lia).
    rewrite <- (insert_remove_at axis _ idx HX) at 2. symmetry. apply upd_insert_at.
    rewrite remove_at_len; rewrite (inb_length _ _ Hi); lia.
Qed.
End Lanes.
