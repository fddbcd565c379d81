From Verif Require Import Base Lists Arr_Spec Arr_Model Arr_Wf Arr_Proofs Copy_Model Copy_Proofs
  Idx_Model Idx_Wf Idx_Assign Int_Model F64_Model F64_Proofs Elem_Proofs Red_Model Red_Spec Red_Proofs Red_Scan
  Man_Model Man_Proofs Man_Ops Man_Ops2 Man_Edit Sel_Spec Sel_Model Sel_Proofs.
Local Open Scope nat_scope.

(* ---- keep ---- *)
Lemma keep_combine {A} (mask : list bool) (l : list A) : keep mask l = map snd (filter fst (combine mask l)).
Proof.
  revert l; induction mask as [|b mask IH]; intros [|x l]; try reflexivity. cbn [keep combine filter fst].
  destruct b; cbn [map snd]; rewrite IH; reflexivity.
Qed.
Lemma keep_map {A B} (f : A -> B) mask l : keep mask (map f l) = map f (keep mask l).
Proof.
  revert l; induction mask as [|b mask IH]; intros [|x l]; try reflexivity. cbn [keep map].
  destruct b; cbn [map]; rewrite IH; reflexivity.
Qed.
Lemma keep_firstn {A} mask (l : list A) m : m = Nat.min (length mask) (length l) ->
  keep (firstn m mask) (firstn m l) = keep mask l.
Proof.
  intros ->. rewrite !keep_combine, <- combine_firstn, firstn_all2; [reflexivity|].
  rewrite combine_length. lia.
Qed.
Lemma keep_len {A} mask (l : list A) : length mask <= length l -> length (keep mask l) = length (filter (fun b => b) mask).
Proof.
  revert l; induction mask as [|b mask IH]; intros [|x l] H; cbn in H |- *; try lia. destruct b; cbn [length]; rewrite IH by lia; lia.
Qed.
Lemma mapM_keep {A V} (f : A -> res V) c : forall l vs, mapM f l = Ok vs ->
  mapM (fun p => f (snd p)) (filter fst (combine c l)) = Ok (keep c vs).
Proof.
  induction c as [|b c IH]; intros l vs H; [reflexivity|]. destruct l as [|x l]; cbn [mapM] in H.
  - injection H as <-. reflexivity.
  - destruct (f x) as [v| | |] eqn:E; cbn [bind] in H; try discriminate.
    destruct (mapM f l) as [vs'| | |] eqn:El; cbn [bind] in H; try discriminate. injection H as <-.
    cbn [combine filter fst keep]. destruct b; cbn [mapM snd]; rewrite (IH l vs' El); [rewrite E; reflexivity|reflexivity].
Qed.
Lemma mapM_firstn {A V} (f : A -> res V) m : forall l vs, mapM f l = Ok vs -> mapM f (firstn m l) = Ok (firstn m vs).
Proof.
  induction m as [|m IH]; intros l vs H; [reflexivity|]. destruct l as [|x l]; cbn [mapM] in H.
  - injection H as <-. reflexivity.
  - destruct (f x) as [v| | |] eqn:E; cbn [bind] in H; try discriminate.
    destruct (mapM f l) as [vs'| | |] eqn:El; cbn [bind] in H; try discriminate. injection H as <-.
    cbn [firstn mapM]. rewrite E, (IH l vs' El). reflexivity.
Qed.
Lemma mapM_fst {A B V} (f : A -> res V) (l : list A) (m : list B) : length l = length m ->
  mapM (fun p => f (fst p)) (combine l m) = mapM f l.
Proof.
  revert m; induction l as [|x l IH]; intros [|y m] H; try discriminate; [reflexivity|]. cbn [combine mapM fst].
  rewrite IH by (cbn in H; lia). reflexivity.
Qed.
Lemma mapM_snd {A B V} (f : B -> res V) (l : list A) (m : list B) : length l = length m ->
  mapM (fun p => f (snd p)) (combine l m) = mapM f m.
Proof.
  revert m; induction l as [|x l IH]; intros [|y m] H; try discriminate; [reflexivity|]. cbn [combine mapM snd].
  rewrite IH by (cbn in H; lia). reflexivity.
Qed.
Lemma elems_length {V} (buf : list V) a vals : elems buf a = map Some vals -> length vals = size a.
Proof. intros E. apply (f_equal (@length _)) in E. unfold elems in E. rewrite !map_length, all_idx_length in E. unfold size. lia. Qed.
Lemma iter_offsets_length a : length (a_strides a) = length (a_shape a) -> length (iter_offsets a) = size a.
Proof. intros H. unfold iter_offsets. rewrite strided_offsets_spec by exact H. rewrite map_length, all_idx_length. reflexivity. Qed.

Lemma compress_flat_spec {V} (cond : list bool) (buf : list V) a vals : wf buf a -> elems buf a = map Some vals ->
  compress_flat cond buf a = Ok ([length (keep cond vals)], keep cond vals).
Proof.
  intros W E. unfold compress_flat. pose proof (elems_length _ _ _ E) as HL. pose proof W as (_ & _ & _ & HS & _).
  pose proof (iter_offsets_length a HS) as HO.
  set (m := Nat.min (length cond) (size a)).
  assert (HK : keep (firstn m cond) (firstn m vals) = keep cond vals) by (apply keep_firstn; unfold m; rewrite HL; reflexivity).
  assert (HC : length (filter (fun b => b) (firstn m cond)) = length (keep cond vals)).
  { rewrite <- HK, keep_len; [reflexivity|]. rewrite !firstn_length. lia. }
  rewrite HC. destruct (Nat.eqb_spec (length (keep cond vals)) 0) as [H0|H0].
  { rewrite H0. destruct (keep cond vals); [reflexivity|discriminate]. }
  assert (A : forall f : nat * Z -> res V, mapM f (combine (seq 0 m) (firstn m (iter_offsets a))) = Ok (firstn m vals) ->
    mapM (fun p : bool * (nat * Z) => f (snd p))
      (filter (fun p => fst p) (combine (firstn m cond) (combine (seq 0 m) (firstn m (iter_offsets a))))) = Ok (keep cond vals)).
  { intros f Hf. rewrite <- HK. exact (mapM_keep f (firstn m cond) _ _ Hf). }
  destruct ((ndim a =? 1) && a_c a) eqn:Hp.
  - apply andb_true_iff in Hp as [_ Hc]. rewrite (A (fun x => read buf a (Z.of_nat (fst x) * a_item a)%Z)); [reflexivity|].
    rewrite (mapM_fst (fun k => read buf a (Z.of_nat k * a_item a)%Z)) by (rewrite seq_length, firstn_length; lia).
    pose proof (read_contig buf a vals W Hc E) as RC. unfold read_run in RC. apply (mapM_firstn _ m) in RC.
    rewrite firstn_seq in RC. replace (Nat.min m (size a)) with m in RC by lia. rewrite <- RC. apply mapM_ext.
    intros k _. rewrite Z.add_0_l. reflexivity.
  - rewrite (A (fun x => read buf a (snd x))); [reflexivity|].
    rewrite mapM_snd by (rewrite seq_length, firstn_length; lia). apply mapM_firstn. apply read_offsets; assumption.
Qed.

Lemma true_positions_filter mask : forall k, true_positions k mask = map snd (filter fst (combine mask (seq k (length mask)))).
Proof.
  induction mask as [|b mask IH]; intros k; [reflexivity|]. cbn [true_positions length seq combine filter fst].
  destruct b; cbn [map snd]; rewrite IH; reflexivity.
Qed.
Lemma keep_seq {A} (f : nat -> A) mask : forall k, keep mask (map f (seq k (length mask))) = map f (true_positions k mask).
Proof. intros k. rewrite keep_map, true_positions_filter, keep_combine. reflexivity. Qed.
Lemma true_positions_range mask : forall k, Forall (fun j => k <= j < k + length mask) (true_positions k mask).
Proof.
  induction mask as [|b mask IH]; intros k; cbn; [constructor|].
  assert (H : Forall (fun j => k <= j < k + S (length mask)) (true_positions (S k) mask)).
  { eapply Forall_impl; [|apply IH]. cbn. intros j. lia. }
  destruct b; [constructor; [lia|exact H]|exact H].
Qed.

Lemma lane_of_gather {V} (zero : V) (buf : list V) a axis n js oi item : wf buf a -> nth_error (a_shape a) axis = Some n ->
  Forall (fun j => j < n) js -> (0 < item)%Z -> inb oi (remove_at axis (a_shape a)) ->
  let osh := upd (a_shape a) axis (length js) in
  lane (map (picked zero buf a axis js) (all_idx osh)) (fresh osh item) axis oi
  = map (fun j => get buf a (insert_at axis j oi)) js.
Proof.
  intros W Hn HJ HI Hoi osh. unfold lane.
  assert (Hax : axis < length (a_shape a)) by (apply nth_error_Some; congruence).
  assert (Hol : axis <= length oi).
  { rewrite (inb_length _ _ Hoi), remove_at_length by exact Hax. lia. }
  assert (E : nth axis (a_shape (fresh osh item)) 0 = length js).
  { cbn [fresh a_shape]. apply nth_error_nth with (d := 0). apply nth_error_upd_eq. exact Hax. }
  rewrite E.
  transitivity (map (fun j => get buf a (insert_at axis j oi)) (map (fun i => nth i js 0) (seq 0 (length js))));
    [|rewrite <- list_as_nth; reflexivity].
  rewrite map_map. apply map_ext_in. intros j Hj. apply in_seq in Hj.
  assert (Hi : inb (insert_at axis j oi) osh).
  { apply (lane_inb osh axis oi j (length js)); [apply nth_error_upd_eq; exact Hax| |lia].
    unfold osh. rewrite remove_at_upd by exact Hax. exact Hoi. }
  rewrite gather_get by assumption. unfold picked.
  assert (EJ : nth axis (insert_at axis j oi) 0 = j).
  { apply nth_error_nth with (d := 0). rewrite nth_error_insert_at by exact Hol.
    rewrite Nat.ltb_irrefl, Nat.eqb_refl. reflexivity. }
  rewrite EJ, upd_insert_at by exact Hol. symmetry. apply vget_some; [exact W|].
  apply (lane_inb _ _ _ _ n Hn Hoi). rewrite Forall_forall in HJ. apply HJ, nth_In. lia.
Qed.

Lemma compress_axis_spec {V} (zero : V) (cond : list bool) (buf : list V) a axis n : wf buf a -> nth_error (a_shape a) axis = Some n ->
  let osh := upd (a_shape a) axis (length (true_positions 0 (firstn n cond))) in
  exists out, compress_axis zero cond buf a axis = Ok (osh, out) /\ length out = prod osh /\
    forall item oi, (0 < item)%Z -> inb oi (remove_at axis (a_shape a)) ->
      lane out (fresh osh item) axis oi = keep cond (lane buf a axis oi).
Proof.
  intros W Hn. assert (Hax : axis < ndim a) by (apply nth_error_Some; unfold ndim; congruence).
  assert (Hnth : nth axis (a_shape a) 0 = n) by (apply nth_error_nth with (1 := Hn)).
  unfold compress_axis. destruct (Nat.leb_spec (ndim a) axis); [lia|]. rewrite Hnth.
  set (m := Nat.min (length cond) n).
  assert (EM : firstn m cond = firstn n cond).
  { unfold m. destruct (Nat.min_spec (length cond) n) as [[Hlt ->]|[Hle ->]]; [|reflexivity].
    rewrite firstn_all. symmetry. apply firstn_all2. lia. }
  assert (EL : length (firstn n cond) = m) by (rewrite firstn_length; unfold m; lia).
  rewrite EM.
  assert (TP : map snd (filter (fun p : bool * nat => fst p) (combine (firstn n cond) (seq 0 m))) = true_positions 0 (firstn n cond)).
  { rewrite true_positions_filter, EL. reflexivity. }
  rewrite TP. clear TP.
  set (js := true_positions 0 (firstn n cond)).
  assert (HJ : Forall (fun j => j < n) js).
  { eapply Forall_impl; [|apply (true_positions_range (firstn n cond) 0)]. cbn. intros j. rewrite EL. unfold m. lia. }
  set (osh := upd (a_shape a) axis (length js)).
  assert (KE : forall oi, inb oi (remove_at axis (a_shape a)) ->
     map (fun j => get buf a (insert_at axis j oi)) js = keep cond (lane buf a axis oi)).
  { intros oi Hoi. unfold lane. rewrite Hnth. unfold js. rewrite <- (keep_seq (fun j => get buf a (insert_at axis j oi))). rewrite EL.
    rewrite <- (keep_firstn cond (map _ (seq 0 n)) m) by (rewrite map_length, seq_length; reflexivity).
    rewrite EM. f_equal. rewrite firstn_map, firstn_seq. f_equal. f_equal. lia. }
  destruct (Nat.eqb_spec (length js) 0) as [H0|H0].
  - exists (repeat zero (prod osh)). split; [reflexivity|]. split; [apply repeat_length|].
    intros item oi _ Hoi. rewrite <- KE by exact Hoi. unfold lane.
    replace (nth axis (a_shape (fresh osh item)) 0) with 0; [destruct js; [reflexivity|discriminate]|].
    cbn [fresh a_shape]. unfold osh. rewrite H0. symmetry. apply nth_error_nth with (d := 0). apply nth_error_upd_eq. exact Hax.
  - unfold osh; rewrite (take_general_spec zero buf a axis n js W Hn HJ). cbn [bind]. fold osh.
    exists (map (picked zero buf a axis js) (all_idx osh)). split; [reflexivity|]. split; [apply gather_len|].
    intros item oi HI Hoi. unfold osh. rewrite (lane_of_gather zero buf a axis n js oi item W Hn HJ HI Hoi). apply KE; exact Hoi.
Qed.

(* ---- boolean masks ---- *)
Lemma keep_bool (bs : list bool) : length (filter (fun b => b) bs) = length (keep bs bs).
Proof. symmetry. apply keep_len. lia. Qed.
Lemma read_mapM_idx {V} (buf : list V) a vals : wf buf a -> elems buf a = map Some vals ->
  mapM (fun i => read buf a (byte_offset_for a i)) (all_idx (a_shape a)) = Ok vals.
Proof. intros W E. unfold read. apply mapM_of_load. exact E. Qed.
Lemma mapM_guard {A V} (g : A -> res bool) (f : A -> res V) l : forall bs vs, mapM g l = Ok bs -> mapM f l = Ok vs ->
  exists r, mapM (fun i => bind (g i) (fun b => if b then bind (f i) (fun v => Ok [v]) else Ok [])) l = Ok r /\ concat r = keep bs vs.
Proof.
  induction l as [|x l IH]; intros bs vs Hg Hf; cbn [mapM] in Hg, Hf |- *.
  - injection Hg as <-. exists []. split; reflexivity.
  - destruct (g x) as [b| | |]; cbn [bind] in Hg |- *; try discriminate.
    destruct (mapM g l) as [bs'| | |]; cbn [bind] in Hg; try discriminate. injection Hg as <-.
    destruct (f x) as [v| | |]; cbn [bind] in Hf |- *; try discriminate.
    destruct (mapM f l) as [vs'| | |]; cbn [bind] in Hf; try discriminate. injection Hf as <-.
    destruct (IH bs' vs' eq_refl eq_refl) as (r & Er & Ec). rewrite Er. cbn [bind keep].
    destruct b; cbn [bind]; eexists; (split; [reflexivity|]); cbn [concat app]; rewrite Ec; reflexivity.
Qed.
Lemma select_by_mask_spec {V} (buf : list V) a mbuf m vals bs : wf buf a -> wf mbuf m ->
  elems buf a = map Some vals -> elems mbuf m = map Some bs ->
  (a_shape m = a_shape a -> select_by_mask buf a mbuf m = Ok ([length (keep bs vals)], keep bs vals)) /\
  (a_shape m <> a_shape a -> select_by_mask buf a mbuf m = Err).
Proof.
  intros W WM E EM. unfold select_by_mask. split; intros HS.
  - rewrite HS, list_eqb_refl. cbn [negb]. pose proof (elems_length _ _ _ E) as HL. pose proof (elems_length _ _ _ EM) as HLM.
    assert (HSZ : size m = size a) by (unfold size; rewrite HS; reflexivity).
    destruct (Nat.eqb_spec (size a) 0) as [H0|H0].
    + destruct bs; [reflexivity|cbn in HLM; lia].
    + replace (ndim m) with (ndim a) by (unfold ndim; rewrite HS; reflexivity). unfold size, ndim. rewrite odometer_all.
      pose proof (read_mapM_idx mbuf m bs WM EM) as RM. rewrite HS in RM. rewrite RM. cbn [bind].
      assert (HC : length (filter (fun b => b) bs) = length (keep bs vals)) by (symmetry; apply keep_len; lia).
      rewrite HC. destruct (Nat.eqb_spec (length (keep bs vals)) 0) as [HK|HK].
      * rewrite HK. destruct (keep bs vals); [reflexivity|discriminate].
      * destruct (mapM_guard _ _ _ bs vals RM (read_mapM_idx buf a vals W E)) as (r & Er & Ec). rewrite Er. cbn [bind].
        rewrite Ec. reflexivity.
  - destruct (list_eqb (a_shape a) (a_shape m)) eqn:El; [|reflexivity]. apply list_eqb_eq in El. congruence.
Qed.

(* ---- take_along_axis and choose ---- *)
Lemma match_off_spec axis sh sh' : length sh = length sh' -> axis < length sh ->
  match_off 0 axis sh sh' = true <-> remove_at axis sh = remove_at axis sh'.
Proof.
  intros HL Hax. change match_off with agree_from. rewrite (agree_from_spec axis sh sh' 0 HL).
  rewrite <- (remove_at_agree axis sh sh' HL). cbn [Nat.add]. reflexivity.
Qed.
Lemma same_off_inb axis sh sh' n idx j : length sh = length sh' -> remove_at axis sh = remove_at axis sh' ->
  nth_error sh axis = Some n -> inb idx sh' -> j < n -> inb (upd idx axis j) sh.
Proof.
  intros HL HR Hn Hi Hj. assert (Hax : axis < length sh) by (apply nth_error_Some; congruence).
  rewrite <- (insert_remove_at axis n sh Hn). rewrite HR.
  rewrite <- (insert_remove_at axis j (upd idx axis j)) by (apply nth_error_upd_eq; rewrite (inb_length _ _ Hi); lia).
  apply inb_insert_at; [|exact Hj]. rewrite remove_at_upd by (rewrite (inb_length _ _ Hi); lia). apply inb_remove_at. exact Hi.
Qed.

Section Along.
Context {V : Type} (zero : V).
Definition iget (ibuf : list Z) (ia : arr) (idx : list nat) : Z := vget 0%Z ibuf ia idx.

Lemma take_along_axis_spec (buf : list V) a ibuf ia axis n : wf buf a -> wf ibuf ia ->
  (forall i, In (Some i) (elems ibuf ia) -> i64_range i) -> (Z.of_nat n <= isize_max)%Z ->
  nth_error (a_shape a) axis = Some n ->
  length (a_shape ia) = length (a_shape a) -> remove_at axis (a_shape ia) = remove_at axis (a_shape a) ->
  ((forall idx, inb idx (a_shape ia) -> exists i k, get ibuf ia idx = Some i /\ py_index i n = Some k) ->
   exists out, take_along_axis buf a ibuf ia axis = Ok (a_shape ia, out) /\ length out = size ia /\
     forall item idx i k, (0 < item)%Z -> inb idx (a_shape ia) -> get ibuf ia idx = Some i -> py_index i n = Some k ->
       get out (fresh (a_shape ia) item) idx = get buf a (upd idx axis k)) /\
  ((exists idx i, inb idx (a_shape ia) /\ get ibuf ia idx = Some i /\ py_index i n = None) ->
   take_along_axis buf a ibuf ia axis = Err).
Proof.
  intros W WI HR Hn Hax HL HRM.
  assert (Hnd : axis < ndim a) by (apply nth_error_Some; unfold ndim; congruence).
  assert (Hnth : nth axis (a_shape a) 0 = n) by (apply nth_error_nth with (1 := Hax)).
  unfold take_along_axis. destruct (Nat.leb_spec (ndim a) axis); [lia|].
  replace (ndim ia =? ndim a) with true by (symmetry; apply Nat.eqb_eq; unfold ndim; exact HL). cbn [orb negb].
  rewrite (proj2 (match_off_spec axis (a_shape a) (a_shape ia) (eq_sym HL) Hnd) (eq_sym HRM)). cbn [negb]. rewrite Hnth.
  unfold size, ndim. rewrite <- HL, odometer_all.
  assert (RI : forall idx, inb idx (a_shape ia) -> read ibuf ia (byte_offset_for ia idx) = Ok (iget ibuf ia idx) /\ i64_range (iget ibuf ia idx)).
  { intros idx Hi. split; [apply read_vget; assumption|]. apply HR. unfold elems. apply in_map_iff.
    exists idx. split; [apply vget_some; assumption|apply in_all_idx; exact Hi]. }
  assert (NI : forall idx, inb idx (a_shape ia) -> norm_index (iget ibuf ia idx) n = py_index (iget ibuf ia idx) n).
  { intros idx Hi. apply norm_index_spec; [apply RI; exact Hi|exact Hn]. }
  assert (SR : forall idx k, inb idx (a_shape ia) -> py_index (iget ibuf ia idx) n = Some k -> inb (upd idx axis k) (a_shape a)).
  { intros idx k Hi Hk. eapply same_off_inb; [exact (eq_sym HL)|exact (eq_sym HRM)|exact Hax|exact Hi|eapply py_index_lt; exact Hk]. }
  split.
  - intros HA.
    set (v := fun idx => match py_index (iget ibuf ia idx) n with Some k => vget zero buf a (upd idx axis k) | None => zero end).
    rewrite (mapM_ok _ v).
    + cbn [bind]. exists (map v (all_idx (a_shape ia))). split; [reflexivity|]. split; [apply gather_len|].
      intros item idx i k HI Hi Hg Hk. rewrite gather_get by assumption. unfold v.
      assert (Ei : iget ibuf ia idx = i) by (unfold iget, vget; rewrite Hg; reflexivity). rewrite Ei, Hk. symmetry.
      apply vget_some; [exact W|]. apply SR; [exact Hi|]. rewrite Ei. exact Hk.
    + intros idx Hi. apply in_all_idx in Hi. rewrite (proj1 (RI idx Hi)). cbn [bind]. rewrite (NI idx Hi).
      destruct (HA idx Hi) as (i & k & Hg & Hk). assert (Ei : iget ibuf ia idx = i) by (unfold iget, vget; rewrite Hg; reflexivity).
      unfold v. rewrite Ei, Hk. cbn [of_opt bind]. apply read_vget; [exact W|]. apply SR; [exact Hi|]. rewrite Ei. exact Hk.
  - intros (idx0 & i0 & Hi0 & Hg0 & Hk0). rewrite gather_err; [reflexivity| |].
    + intros idx Hi. apply in_all_idx in Hi. rewrite (proj1 (RI idx Hi)). cbn [bind]. rewrite (NI idx Hi).
      destruct (py_index (iget ibuf ia idx) n) as [k|] eqn:Ek; cbn [of_opt bind]; [left|right; reflexivity].
      exists (vget zero buf a (upd idx axis k)). apply read_vget; [exact W|]. apply SR; assumption.
    + exists idx0. split; [apply in_all_idx; exact Hi0|]. rewrite (proj1 (RI idx0 Hi0)). cbn [bind]. rewrite (NI idx0 Hi0).
      assert (Ei : iget ibuf ia idx0 = i0) by (unfold iget, vget; rewrite Hg0; reflexivity). rewrite Ei, Hk0. reflexivity.
Qed.
Lemma take_along_axis_mismatch (buf : list V) a ibuf ia axis : 
  ~ (axis < ndim a /\ ndim ia = ndim a /\ remove_at axis (a_shape ia) = remove_at axis (a_shape a)) ->
  take_along_axis buf a ibuf ia axis = Err.
Proof.
  intros H. unfold take_along_axis. destruct (Nat.leb_spec (ndim a) axis); [reflexivity|]. cbn [orb].
  destruct (Nat.eqb_spec (ndim ia) (ndim a)); [|reflexivity]. cbn [negb].
  destruct (match_off 0 axis (a_shape a) (a_shape ia)) eqn:E; [|reflexivity].
  apply match_off_spec in E; [|unfold ndim in *; lia|exact H0]. exfalso. apply H. repeat split; auto.
Qed.

Lemma choose_spec ibuf ia (choices : list (list V * arr)) : wf ibuf ia ->
  (forall i, In (Some i) (elems ibuf ia) -> i64_range i) -> (Z.of_nat (length choices) < 2 ^ 63)%Z ->
  Forall (fun c => wf (fst c) (snd c) /\ a_shape (snd c) = a_shape ia) choices -> choices <> [] ->
  ((forall idx i, inb idx (a_shape ia) -> get ibuf ia idx = Some i -> (0 <= i < Z.of_nat (length choices))%Z) ->
   exists out, choose ibuf ia choices = Ok (a_shape ia, out) /\ length out = size ia /\
     forall item idx i c, (0 < item)%Z -> inb idx (a_shape ia) -> get ibuf ia idx = Some i ->
       nth_error choices (Z.to_nat i) = Some c -> get out (fresh (a_shape ia) item) idx = get (fst c) (snd c) idx) /\
  ((exists idx i, inb idx (a_shape ia) /\ get ibuf ia idx = Some i /\ ~ (0 <= i < Z.of_nat (length choices))%Z) ->
   choose ibuf ia choices = Err).
Proof.
  intros WI HR HN HF HE. unfold choose. destruct choices as [|c0 cs] eqn:Ecs; [congruence|]. rewrite <- Ecs in *. clear HE Ecs c0 cs.
  rewrite (proj2 (forallb_forall _ choices)); [cbn [negb]|intros c Hc; rewrite Forall_forall in HF; apply list_eqb_eq, HF, Hc].
  unfold size, ndim. rewrite odometer_all.
  assert (RI : forall idx, inb idx (a_shape ia) -> read ibuf ia (byte_offset_for ia idx) = Ok (iget ibuf ia idx) /\ i64_range (iget ibuf ia idx)).
  { intros idx Hi. split; [apply read_vget; assumption|]. apply HR. unfold elems. apply in_map_iff.
    exists idx. split; [apply vget_some; assumption|apply in_all_idx; exact Hi]. }
  assert (CK : forall i, i64_range i -> (Z.of_nat (length choices) <=? wrap_usize i)%Z = negb ((0 <=? i)%Z && (i <? Z.of_nat (length choices))%Z) /\
     ((0 <= i)%Z -> wrap_usize i = i)).
  { intros i Hi. unfold i64_range, wrap_usize, two64 in *. split; [|intros; apply Z.mod_small; lia].
    destruct (Z.leb_spec 0 i).
    - rewrite Z.mod_small by lia. cbn [andb]. rewrite Z.leb_antisym. reflexivity.
    - cbn [andb negb]. apply Z.leb_le. replace i with (i + 2 ^ 64 + (-1) * 2 ^ 64)%Z by lia. rewrite Z_mod_plus_full, Z.mod_small by lia. lia. }
  assert (OK1 : forall idx, inb idx (a_shape ia) -> (0 <= iget ibuf ia idx < Z.of_nat (length choices))%Z ->
     exists c, nth_error choices (Z.to_nat (iget ibuf ia idx)) = Some c /\
       bind (read ibuf ia (byte_offset_for ia idx)) (fun iv => if (Z.of_nat (length choices) <=? wrap_usize iv)%Z then Err
         else match nth_error choices (Z.to_nat (wrap_usize iv)) with
              | Some x => read (fst x) (snd x) (byte_offset_for (snd x) idx) | None => Panic end) = Ok (vget zero (fst c) (snd c) idx) /\
       get (fst c) (snd c) idx = Some (vget zero (fst c) (snd c) idx)).
  { intros idx Hi Hr. destruct (RI idx Hi) as [R1 R2]. destruct (CK _ R2) as [C1 C2]. rewrite R1. cbn [bind]. rewrite C1, C2 by lia.
    destruct (nth_error choices (Z.to_nat (iget ibuf ia idx))) as [c|] eqn:Ec; [|apply nth_error_None in Ec; lia].
    exists c. split; [reflexivity|]. rewrite Forall_forall in HF. destruct (HF c (nth_error_In _ _ Ec)) as [Wc Sc].
    assert (Hic : inb idx (a_shape (snd c))) by (rewrite Sc; exact Hi).
    replace (negb _) with false by (symmetry; apply negb_false_iff, andb_true_iff; split; [apply Z.leb_le|apply Z.ltb_lt]; lia).
    split; [apply read_vget; assumption|apply vget_some; assumption]. }
  split.
  - intros HA.
    set (v := fun idx => match nth_error choices (Z.to_nat (iget ibuf ia idx)) with Some c => vget zero (fst c) (snd c) idx | None => zero end).
    rewrite (mapM_ok _ v).
    + cbn [bind]. exists (map v (all_idx (a_shape ia))). split; [reflexivity|]. split; [apply gather_len|].
      intros item idx i c HI Hi Hg Hc. rewrite gather_get by assumption. unfold v.
      assert (Ei : iget ibuf ia idx = i) by (unfold iget, vget; rewrite Hg; reflexivity). rewrite Ei, Hc.
      destruct (OK1 idx Hi) as (c' & Ec' & _ & Eg); [rewrite Ei; apply (HA idx i Hi Hg)|]. rewrite Ei, Hc in Ec'. injection Ec' as <-.
      symmetry. exact Eg.
    + intros idx Hi. apply in_all_idx in Hi. assert (Hr : (0 <= iget ibuf ia idx < Z.of_nat (length choices))%Z).
      { apply (HA idx _ Hi). apply vget_some; assumption. }
      destruct (OK1 idx Hi Hr) as (c & Ec & Er & _). unfold v. rewrite Ec. exact Er.
  - intros (idx0 & i0 & Hi0 & Hg0 & Hk0).
    assert (EB : forall idx, inb idx (a_shape ia) -> ~ (0 <= iget ibuf ia idx < Z.of_nat (length choices))%Z ->
       bind (read ibuf ia (byte_offset_for ia idx)) (fun iv => if (Z.of_nat (length choices) <=? wrap_usize iv)%Z then Err
         else match nth_error choices (Z.to_nat (wrap_usize iv)) with
              | Some x => read (fst x) (snd x) (byte_offset_for (snd x) idx) | None => Panic end) = Err).
    { intros idx Hi Hr. destruct (RI idx Hi) as [R1 R2]. destruct (CK _ R2) as [C1 C2]. rewrite R1. cbn [bind]. rewrite C1.
      replace (negb _) with true; [reflexivity|]. symmetry. apply negb_true_iff, andb_false_iff.
      destruct (Z.leb_spec 0 (iget ibuf ia idx)); [right; apply Z.ltb_ge; lia|left; reflexivity]. }
    rewrite gather_err; [reflexivity| |].
    + intros idx Hi. apply in_all_idx in Hi.
      destruct (Z_le_dec 0 (iget ibuf ia idx)) as [P1|P1]; [destruct (Z_lt_dec (iget ibuf ia idx) (Z.of_nat (length choices))) as [P2|P2]|].
      * left. destruct (OK1 idx Hi (conj P1 P2)) as (c & _ & Er & _). eexists. exact Er.
      * right. apply EB; [exact Hi|lia].
      * right. apply EB; [exact Hi|lia].
    + exists idx0. split; [apply in_all_idx; exact Hi0|]. apply EB; [exact Hi0|].
      replace (iget ibuf ia idx0) with i0 by (unfold iget, vget; rewrite Hg0; reflexivity). exact Hk0.
Qed.
End Along.
