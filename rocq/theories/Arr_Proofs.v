From Verif Require Import Base Lists Arr_Model Arr_Spec Arr_Wf.
Local Open Scope nat_scope.
Ltac Zify.zify_post_hook ::= Z.div_mod_to_equations.

Lemma rm_rank_eq sh idx : rm_rank sh idx = rank sh idx.
Proof. revert idx; induction sh as [|s sh IH]; intros [|i idx]; simpl; auto. Qed.
Lemma rm_unrank_eq sh k : rm_unrank sh k = unrank sh k.
Proof. revert k; induction sh as [|s sh IH]; intros k; simpl; auto. Qed.

(* ---------- odometer ---------- *)
Lemma increment_aux_unrank sh k :
  k < prod sh ->
  increment_aux (unrank sh k) sh =
  if S k <? prod sh then (unrank sh (S k), false) else (repeat 0 (length sh), true).
Proof.
  revert k; induction sh as [|s sh IH]; intros k Hk.
  - cbn [prod] in *. assert (k = 0) by lia. subst. reflexivity.
  - cbn [prod] in Hk. cbn [unrank increment_aux prod length repeat].
    set (p := prod sh) in *.
    assert (Hp : 0 < p) by nia.
    pose proof (Nat.mod_upper_bound k p ltac:(lia)) as Hr.
    rewrite IH by exact Hr.
    pose proof (Nat.div_mod k p ltac:(lia)) as Hdm.
    assert (Hq : k / p < s) by (apply Nat.div_lt_upper_bound; nia).
    destruct (Nat.ltb_spec (S (k mod p)) p) as [Hin|Hout].
    + assert (E1 : S k / p = k / p).
      { symmetry. apply (Nat.div_unique _ _ _ (S (k mod p))); lia. }
      assert (E2 : S k mod p = S (k mod p)).
      { symmetry. apply (Nat.mod_unique _ _ (k / p)); lia. }
      rewrite E1, E2.
      destruct (Nat.ltb_spec (S k) (s * p)); [reflexivity|nia].
    + assert (Er : S (k mod p) = p) by lia.
      assert (E1 : S k = S (k / p) * p) by nia.
      assert (E2 : S k / p = S (k / p)) by (rewrite E1, Nat.div_mul; lia).
      assert (E3 : S k mod p = 0) by (rewrite E1, Nat.mod_mul; lia).
      rewrite E2, E3, unrank_0.
      destruct (Nat.ltb_spec (S (k / p)) s), (Nat.ltb_spec (S k) (s * p)); try reflexivity; nia.
Qed.

Lemma odometer_unrank sh n k :
  k + n <= prod sh -> odometer n (unrank sh k) sh = map (unrank sh) (seq k n).
Proof.
  revert k; induction n as [|n IH]; intros k H; [reflexivity|].
  cbn [odometer seq map]. f_equal.
  destruct n as [|n]; [reflexivity|].
  unfold increment_indices. rewrite increment_aux_unrank by lia.
  destruct (Nat.ltb_spec (S k) (prod sh)); [|lia].
  cbn [fst]. apply IH. lia.
Qed.

Lemma odometer_all sh : odometer (prod sh) (repeat 0 (length sh)) sh = all_idx sh.
Proof. rewrite <- unrank_0, odometer_unrank by lia. symmetry. apply all_idx_unrank. Qed.

(* ---------- StridedIter ---------- *)
Lemma advance_aux_unrank sh st off k :
  length st = length sh -> k < prod sh ->
  advance_aux sh st (backstrides sh st) (unrank sh k) off =
  if S k <? prod sh
  then (unrank sh (S k), (off + (dot (unrank sh (S k)) st - dot (unrank sh k) st))%Z, false)
  else (repeat 0 (length sh), (off - dot (unrank sh k) st)%Z, true).
Proof.
  revert st k; induction sh as [|s sh IH]; intros [|x st] k HL Hk; try discriminate.
  - cbn [prod] in *. assert (k = 0) by lia. subst. cbn. f_equal; f_equal; lia.
  - cbn [prod] in Hk. cbn [unrank advance_aux backstrides prod length repeat].
    set (p := prod sh) in *.
    assert (Hp : 0 < p) by nia.
    pose proof (Nat.mod_upper_bound k p ltac:(lia)) as Hr.
    rewrite IH by (simpl in HL; first [lia|exact Hr]).
    pose proof (Nat.div_mod k p ltac:(lia)) as Hdm.
    assert (Hq : k / p < s) by (apply Nat.div_lt_upper_bound; nia).
    destruct (Nat.ltb_spec (S (k mod p)) p) as [Hin|Hout].
    + assert (E1 : S k / p = k / p).
      { symmetry. apply (Nat.div_unique _ _ _ (S (k mod p))); lia. }
      assert (E2 : S k mod p = S (k mod p)).
      { symmetry. apply (Nat.mod_unique _ _ (k / p)); lia. }
      rewrite E1, E2.
      destruct (Nat.ltb_spec (S k) (s * p)); [|nia].
      cbn [dot]. f_equal; f_equal; lia.
    + assert (Er : S (k mod p) = p) by lia.
      assert (E1 : S k = S (k / p) * p) by nia.
      assert (E2 : S k / p = S (k / p)) by (rewrite E1, Nat.div_mul; lia).
      assert (E3 : S k mod p = 0) by (rewrite E1, Nat.mod_mul; lia).
      rewrite E2, E3, unrank_0. cbn [dot]. rewrite dot_zeros.
      destruct (Nat.ltb_spec (S (k / p)) s), (Nat.ltb_spec (S k) (s * p)); try nia.
      * f_equal; f_equal; lia.
      * destruct (Nat.ltb_spec 0 s); [|lia].
        assert (Es : k / p = s - 1) by lia. rewrite Es.
        f_equal; f_equal. replace (Z.of_nat (s - 1)) with (Z.of_nat s - 1)%Z by lia. lia.
Qed.

Lemma drain_spec sh st base : length st = length sh ->
  forall n k fuel, k + n = prod sh -> n <= fuel ->
  drain fuel (mkIter sh st (backstrides sh st) (unrank sh k)
                     (base + dot (unrank sh k) st) n)
  = map (fun j => (base + dot (unrank sh j) st)%Z) (seq k n).
Proof.
  intros HL. induction n as [|n IH]; intros k fuel Hk Hf.
  - destruct fuel; reflexivity.
  - destruct fuel as [|fuel]; [lia|].
    cbn [drain iter_next it_remaining it_offset it_shape it_strides it_back it_counters seq map].
    f_equal. destruct n as [|n].
    + destruct fuel; reflexivity.
    + change (0 <? S n) with true. cbv iota. unfold advance.
      cbn [it_remaining it_offset it_shape it_strides it_back it_counters].
      rewrite advance_aux_unrank by lia.
      destruct (Nat.ltb_spec (S k) (prod sh)); [|lia].
      replace (base + dot (unrank sh k) st + (dot (unrank sh (S k)) st - dot (unrank sh k) st))%Z
        with (base + dot (unrank sh (S k)) st)%Z by lia.
      apply IH; lia.
Qed.

Lemma strided_offsets_spec sh st base :
  length st = length sh ->
  strided_offsets sh st base = map (fun idx => (base + dot idx st)%Z) (all_idx sh).
Proof.
  intros HL. unfold strided_offsets, iter_new.
  pose proof (drain_spec sh st base HL (prod sh) 0 (S (prod sh)) eq_refl ltac:(lia)) as H.
  rewrite unrank_0, dot_zeros, Z.add_0_r in H. rewrite H, all_idx_unrank, map_map. reflexivity.
Qed.

(* ---------- strides and contiguity ---------- *)
Lemma c_strides_aux_spec sh item :
  snd (c_strides_aux sh item) = (item * Z.of_nat (prod sh))%Z /\
  length (fst (c_strides_aux sh item)) = length sh.
Proof.
  induction sh as [|s sh [IH1 IH2]]; cbn [c_strides_aux prod].
  - simpl; split; [lia|reflexivity].
  - destruct (c_strides_aux sh item) as [st x]. cbn [fst snd length] in *. split; lia.
Qed.
Lemma c_strides_length sh item : length (c_strides sh item) = length sh.
Proof. apply c_strides_aux_spec. Qed.
Lemma c_strides_cons s sh item :
  c_strides (s :: sh) item = (item * Z.of_nat (prod sh))%Z :: c_strides sh item.
Proof.
  unfold c_strides. cbn [c_strides_aux]. pose proof (c_strides_aux_spec sh item) as [H _].
  destruct (c_strides_aux sh item); cbn [fst snd] in *. rewrite H; reflexivity.
Qed.
Lemma dot_c_strides sh item idx :
  dot idx (c_strides sh item) = (item * Z.of_nat (rank sh idx))%Z.
Proof.
  revert idx; induction sh as [|s sh IH]; intros idx.
  - destruct idx; cbn; lia.
  - rewrite c_strides_cons. destruct idx as [|i idx]; cbn [dot rank]; [lia|].
    rewrite IH. nia.
Qed.

(* column-major rank *)
Fixpoint frank (sh idx : list nat) : nat :=
  match sh, idx with
  | s :: sh', i :: idx' => i + s * frank sh' idx'
  | _, _ => 0
  end.
Lemma rank_app_single sh s idx i :
  length idx = length sh -> rank (sh ++ [s]) (idx ++ [i]) = rank sh idx * s + i.
Proof.
  revert idx; induction sh as [|x sh IH]; intros [|y idx] H; try discriminate; cbn [app rank prod].
  - lia.
  - rewrite IH by (simpl in H; lia). rewrite prod_app. cbn [prod]. nia.
Qed.
Lemma frank_rev sh idx : length idx = length sh -> frank sh idx = rank (rev sh) (rev idx).
Proof.
  revert idx; induction sh as [|s sh IH]; intros [|i idx] H; try discriminate; [reflexivity|].
  cbn [rev frank]. rewrite rank_app_single by (rewrite !rev_length; simpl in H; lia).
  rewrite IH by (simpl in H; lia). lia.
Qed.
Lemma f_strides_from_length sh x : length (f_strides_from sh x) = length sh.
Proof. revert x; induction sh as [|s sh IH]; intros x; simpl; auto. Qed.
Lemma dot_f_strides_from sh x idx :
  dot idx (f_strides_from sh x) = (x * Z.of_nat (frank sh idx))%Z.
Proof.
  revert x idx; induction sh as [|s sh IH]; intros x [|i idx]; cbn [f_strides_from dot frank]; try lia.
  rewrite IH. nia.
Qed.

Lemma c_contig_dot sh st item idx :
  length st = length sh -> inb idx sh ->
  is_c_contiguous sh st item = true ->
  dot idx st = (item * Z.of_nat (rank sh idx))%Z.
Proof.
  unfold is_c_contiguous. intros HL HI HC.
  assert (G : c_contig_run sh st item = Going (item * Z.of_nat (prod sh)) /\
              dot idx st = (item * Z.of_nat (rank sh idx))%Z); [|apply G].
  revert st HL HC; induction HI as [|i s idx sh Hi HI IH]; intros [|x st] HL HC; try discriminate.
  - cbn. split; [f_equal; lia|lia].
  - cbn [c_contig_run] in *.
    destruct (c_contig_run sh st item) as [e|b] eqn:E.
    + destruct (IH st ltac:(simpl in HL; lia)) as [IH1 IH2]; [rewrite E; reflexivity|].
      rewrite E in IH1. injection IH1 as ->. cbn [contig_step] in *.
      destruct (Nat.eqb_spec s 0); [lia|].
      destruct (Nat.eqb_spec s 1) as [->|Hs1]; cbn [negb andb] in *.
      * split; [cbn [prod]; f_equal; lia|].
        assert (i = 0) by lia. subst. cbn [dot rank]. rewrite IH2. lia.
      * destruct (Z.eqb_spec x (item * Z.of_nat (prod sh))) as [->|Hx]; cbn [negb] in *; [|discriminate].
        split; [cbn [prod]; f_equal; lia|]. cbn [dot rank]. rewrite IH2. lia.
    + exfalso. destruct b; [|cbn in HC; discriminate].
      destruct (IH st ltac:(simpl in HL; lia)) as [IH1 _]; [rewrite E; reflexivity|].
      rewrite E in IH1. discriminate.
Qed.

Lemma f_contig_done sh st b : contig_answer (f_contig_run sh st (Done b)) = b.
Proof. revert st; induction sh as [|s sh IH]; intros [|x st]; simpl; auto. Qed.

Lemma f_contig_dot sh st e idx :
  length st = length sh -> inb idx sh ->
  contig_answer (f_contig_run sh st (Going e)) = true ->
  dot idx st = (e * Z.of_nat (frank sh idx))%Z.
Proof.
  intros HL HI; revert st e HL; induction HI as [|i s idx sh Hi HI IH]; intros [|x st] e HL HC;
    try discriminate.
  - cbn; lia.
  - cbn [f_contig_run contig_step] in HC.
    destruct (Nat.eqb_spec s 0); [lia|].
    cbn [dot frank].
    destruct (Nat.eqb_spec s 1) as [->|Hs1]; cbn [negb andb] in HC.
    + assert (i = 0) by lia; subst. rewrite (IH st (e * 1)%Z) by (simpl in HL; first [lia|exact HC]). lia.
    + destruct (Z.eqb_spec x e) as [->|Hx]; cbn [negb] in HC.
      * rewrite (IH st (e * Z.of_nat s)%Z) by (simpl in HL; first [lia|exact HC]). nia.
      * rewrite f_contig_done in HC; discriminate.
Qed.

Lemma c_contig_run_c_strides sh item :
  (forall s, In s sh -> s <> 0) ->
  c_contig_run sh (c_strides sh item) item = Going (item * Z.of_nat (prod sh)).
Proof.
  induction sh as [|s sh IH]; intros H.
  - cbn. f_equal; lia.
  - rewrite c_strides_cons. cbn [c_contig_run]. rewrite IH by (intros; apply H; right; assumption).
    cbn [contig_step]. destruct (Nat.eqb_spec s 0) as [->|]; [exfalso; apply (H 0); [left|]; reflexivity|].
    rewrite Z.eqb_refl, andb_false_r. cbn [prod]. f_equal; lia.
Qed.
Lemma c_contig_c_strides sh item : is_c_contiguous sh (c_strides sh item) item = true.
Proof.
  unfold is_c_contiguous.
  assert (G : (exists e, c_contig_run sh (c_strides sh item) item = Going e /\ e = item * Z.of_nat (prod sh))%Z
              \/ c_contig_run sh (c_strides sh item) item = Done true).
  { induction sh as [|s sh IH].
    - left; exists item; cbn; split; [reflexivity|lia].
    - rewrite c_strides_cons. cbn [c_contig_run].
      destruct IH as [(e & E & ->)|E]; rewrite E; cbn [contig_step]; [|right; reflexivity].
      destruct (Nat.eqb_spec s 0); [right; reflexivity|].
      rewrite Z.eqb_refl, andb_false_r. left. eexists; split; [reflexivity|]. cbn [prod]; lia. }
  destruct G as [(e & -> & _)| ->]; reflexivity.
Qed.

(* the test is also complete: a rejected non-empty view really is not laid out
   consecutively *)
Lemma c_contig_complete sh st item :
  length st = length sh -> 0 < prod sh ->
  (forall idx, inb idx sh -> dot idx st = (item * Z.of_nat (rank sh idx))%Z) ->
  is_c_contiguous sh st item = true.
Proof.
  intros HL Hp H. unfold is_c_contiguous.
  assert (G : c_contig_run sh st item = Going (item * Z.of_nat (prod sh))); [|rewrite G; reflexivity].
  revert st HL H; induction sh as [|s sh IH]; intros [|x st] HL H; try discriminate.
  - cbn; f_equal; lia.
  - cbn [prod] in Hp. assert (0 < s /\ 0 < prod sh) as [Hs Hsh] by nia.
    cbn [c_contig_run]. rewrite (IH Hsh st); [|simpl in HL; lia|].
    + cbn [contig_step]. destruct (Nat.eqb_spec s 0); [lia|].
      destruct (Nat.eqb_spec s 1) as [->|Hs1]; cbn [negb andb prod]; [f_equal; lia|].
      specialize (H (1 :: repeat 0 (length sh))).
      assert (Hi : inb (1 :: repeat 0 (length sh)) (s :: sh)).
      { rewrite <- unrank_0. constructor; [lia|apply unrank_inb; exact Hsh]. }
      specialize (H Hi). cbn [dot rank] in H. rewrite dot_zeros in H.
      assert (R0 : rank sh (repeat 0 (length sh)) = 0) by (rewrite <- unrank_0; apply rank_unrank; exact Hsh).
      rewrite R0 in H.
      destruct (Z.eqb_spec x (item * Z.of_nat (prod sh))); cbn [negb]; [f_equal; lia|lia].
    + intros idx Hi. specialize (H (0 :: idx)). cbn [dot rank] in H.
      assert (Hi' : inb (0 :: idx) (s :: sh)) by (constructor; [lia|exact Hi]).
      specialize (H Hi'). rewrite Nat.mul_0_l in H. lia.
Qed.

(* ---------- well-formed views ---------- *)
Lemma load_some {V} (buf : list V) item addr v :
  (0 < item)%Z -> load buf item addr = Some v ->
  (0 <= addr)%Z /\ (addr mod item = 0)%Z /\ (addr / item < Z.of_nat (length buf))%Z.
Proof.
  unfold load. intros Hi H.
  destruct (Z.ltb_spec addr 0); [discriminate|].
  destruct (Z.eqb_spec (addr mod item) 0); [|discriminate].
  assert (Hn : Z.to_nat (addr / item) < length buf) by (apply nth_error_Some; rewrite H; discriminate).
  split; [lia|]. split; [assumption|].
  assert (0 <= addr / item)%Z by (apply Z.div_pos; lia). lia.
Qed.

Lemma load_at {V} (buf : list V) item k :
  (0 < item)%Z -> load buf item (item * Z.of_nat k) = nth_error buf k.
Proof.
  intros Hi. unfold load. destruct (Z.ltb_spec (item * Z.of_nat k) 0); [nia|].
  rewrite Z.mul_comm, Z.mod_mul by lia. rewrite Z.eqb_refl.
  rewrite Z.div_mul by lia. rewrite Nat2Z.id. reflexivity.
Qed.

Lemma wf_addr {V} (buf : list V) a idx :
  wf buf a -> inb idx (a_shape a) -> (0 <= a_off a + dot idx (a_strides a) < 2 ^ 63)%Z.
Proof.
  intros (Hi & Hb & Ho & HL & HG & _) H.
  destruct (HG idx H) as [v Hv]. unfold get in Hv. apply load_some in Hv; [|exact Hi].
  unfold byte_offset_for in Hv. destruct Hv as (H0 & H1 & H2).
  split; [exact H0|].
  pose proof (Z.div_mod (a_off a + dot idx (a_strides a)) (a_item a) ltac:(lia)). nia.
Qed.

Lemma view0_is_view {V} (buf : list V) a sh st f :
  wf buf a -> length st = length sh ->
  (forall idx, inb idx sh -> inb (f idx) (a_shape a) /\ dot idx st = dot (f idx) (a_strides a)) ->
  is_view buf a (view_with a 0 sh st) sh f.
Proof.
  intros W HL H.
  assert (HO : wrap_usize (a_off a + 0) = a_off a).
  { destruct W as (_ & _ & Ho & _). unfold wrap_usize. rewrite Z.add_0_r. apply Z.mod_small; exact Ho. }
  assert (HG : forall idx, inb idx sh ->
     get buf (view_with a 0 sh st) idx = get buf a (f idx)).
  { intros idx Hi. destruct (H idx Hi) as [_ Hd].
    unfold get, byte_offset_for, view_with; cbn [a_off a_strides a_item]. rewrite HO, Hd. reflexivity. }
  split; [reflexivity|]. split.
  - pose proof W as (W1 & W2 & W3 & W4 & W5 & _ & _).
    unfold wf. split; [exact W1|]. split; [exact W2|].
    split; [change (0 <= wrap_usize (a_off a + 0) < two64)%Z; rewrite HO; exact W3|].
    split; [exact HL|]. split; [|split; intros E; exact E].
    intros idx Hi. change (inb idx sh) in Hi.
    destruct (H idx Hi) as [Hf _]. rewrite HG by exact Hi. apply W5; exact Hf.
  - intros idx Hi; split; [apply H; exact Hi|apply HG; exact Hi].
Qed.

Lemma fresh_wf {V} (buf : list V) sh item :
  (0 < item)%Z -> (Z.of_nat (length buf) * item < 2 ^ 63)%Z -> length buf = prod sh ->
  wf buf (fresh sh item).
Proof.
  intros Hi Hb HL. unfold wf, fresh; cbn [a_item a_off a_shape a_strides a_c a_f].
  split; [exact Hi|]. split; [exact Hb|]. split; [unfold two64; lia|].
  split; [apply c_strides_length|]. split; [|split; [intros; apply c_contig_c_strides|discriminate]].
  intros idx H. unfold get, byte_offset_for; cbn [a_item a_off a_strides].
  rewrite dot_c_strides, Z.add_0_l, load_at by exact Hi.
  pose proof (rank_lt sh idx H).
  destruct (nth_error buf (rank sh idx)) as [v|] eqn:E; [exists v; reflexivity|].
  apply nth_error_None in E. lia.
Qed.

Lemma fresh_get {V} (buf : list V) sh item idx :
  (0 < item)%Z -> get buf (fresh sh item) idx = nth_error buf (rank sh idx).
Proof.
  intros Hi. unfold get, byte_offset_for, fresh; cbn [a_item a_off a_strides].
  rewrite dot_c_strides, Z.add_0_l. apply load_at; exact Hi.
Qed.

(* ---------- transpose ---------- *)
Lemma transpose_is_view {V} (buf : list V) a :
  wf buf a -> is_view buf a (transpose a) (rev (a_shape a)) (@rev nat).
Proof.
  intros W. pose proof W as (_ & _ & _ & HL & _).
  apply view0_is_view; [exact W|rewrite !rev_length; exact HL|].
  intros idx Hi. apply inb_rev in Hi. rewrite rev_involutive in Hi. split; [exact Hi|].
  rewrite <- (rev_involutive idx) at 1. apply dot_rev.
  apply inb_length in Hi. lia.
Qed.

(* ---------- slice ---------- *)
Lemma slice_len_spec start stop step n :
  step <> 0%Z -> slice_len start stop step = Ok n ->
  (0 <= n)%Z /\ forall j, (Z.of_nat j < n)%Z <-> in_slice start stop step j.
Proof.
  intros Hs H. unfold slice_len in H. unfold in_slice.
  destruct (Z.gtb_spec step 0) as [Hp|Hn].
  - injection H as <-. destruct (Z.gtb_spec stop start) as [Hss|Hss].
    + rewrite Z.quot_div_nonneg by lia.
      split; [apply Z.div_pos; lia|]. intros j. split.
      * intros Hj. left; split; [lia|].
        assert (Z.of_nat j + 1 <= (stop - start + step - 1) / step)%Z by lia.
        assert ((Z.of_nat j + 1) * step <= stop - start + step - 1)%Z.
        { pose proof (Z.mul_div_le (stop - start + step - 1) step ltac:(lia)). nia. }
        lia.
      * intros [[_ Hj]|[? _]]; [|lia].
        assert (Z.of_nat j + 1 <= (stop - start + step - 1) / step)%Z; [|lia].
        apply Z.div_le_lower_bound; lia.
    + split; [lia|]. intros j. split; [lia|]. intros [[_ Hj]|[? _]]; [nia|lia].
  - destruct (Z.gtb_spec start stop) as [Hss|Hss].
    + destruct (Z.eqb_spec step 0); [contradiction|]. injection H as <-.
      rewrite Z.quot_div_nonneg by lia.
      split; [apply Z.div_pos; lia|]. intros j. split.
      * intros Hj. right; split; [lia|].
        assert (Z.of_nat j + 1 <= (start - stop - step - 1) / - step)%Z by lia.
        assert ((Z.of_nat j + 1) * - step <= start - stop - step - 1)%Z.
        { pose proof (Z.mul_div_le (start - stop - step - 1) (- step) ltac:(lia)). nia. }
        lia.
      * intros [[? _]|[_ Hj]]; [lia|].
        assert (Z.of_nat j + 1 <= (start - stop - step - 1) / - step)%Z; [|lia].
        apply Z.div_le_lower_bound; lia.
    + injection H as <-. split; [lia|]. intros j. split; [lia|]. intros [[? _]|[_ Hj]]; [lia|nia].
Qed.

Lemma slice_len_ok start stop step : step <> 0%Z -> exists n, slice_len start stop step = Ok n.
Proof.
  intros H. unfold slice_len. destruct (step >? 0)%Z; [eexists; reflexivity|].
  destruct (start >? stop)%Z; [|eexists; reflexivity].
  destruct (Z.eqb_spec step 0); [contradiction|eexists; reflexivity].
Qed.

Lemma slice_axis_is_view {V} (buf : list V) a axis start stop step len stride :
  wf buf a ->
  nth_error (a_shape a) axis = Some len -> nth_error (a_strides a) axis = Some stride ->
  py_slice len start stop step ->
  (0 <= stride \/ start = 0)%Z ->
  exists a' n, slice_axis a axis start stop step = Ok a' /\
    (forall j, j < n <-> in_slice start stop step j) /\
    is_view buf a a' (upd (a_shape a) axis n) (slice_idx axis start step).
Proof.
  intros W Hlen Hstride Hpy Hneg.
  assert (Hstep : step <> 0%Z) by (destruct Hpy; lia).
  destruct (slice_len_ok start stop step Hstep) as [n0 Hn0].
  destruct (slice_len_spec start stop step n0 Hstep Hn0) as [Hn0p Hn0s].
  unfold slice_axis. rewrite Hlen, Hstride, Hn0. cbn [bind].
  eexists; exists (Z.to_nat (Z.max n0 0)); split; [reflexivity|].
  assert (Hns : forall j, j < Z.to_nat (Z.max n0 0) <-> in_slice start stop step j).
  { intros j. rewrite <- Hn0s. lia. }
  split; [exact Hns|].
  set (n := Z.to_nat (Z.max n0 0)) in *.
  pose proof W as (W1 & W2 & W3 & W4 & W5 & _ & _).
  assert (Hax : axis < length (a_shape a)) by (apply nth_error_Some; rewrite Hlen; discriminate).
  set (delta := wrap_usize (wrap_usize start * Z.abs stride)).
  (* facts about a valid new index *)
  assert (F : forall idx, inb idx (upd (a_shape a) axis n) ->
     inb (slice_idx axis start step idx) (a_shape a) /\
     wrap_usize (a_off a + delta) = (a_off a + start * stride)%Z /\
     (dot (slice_idx axis start step idx) (a_strides a) =
      start * stride + dot idx (upd (a_strides a) axis (stride * step)))%Z).
  { intros idx Hi.
    pose proof (inb_length _ _ Hi) as HLi. rewrite upd_length in HLi.
    destruct (nth_error idx axis) as [j|] eqn:Ej; [|apply nth_error_None in Ej; lia].
    assert (Hj : j < n).
    { apply (inb_nth idx (upd (a_shape a) axis n) axis j n Hi Ej). apply nth_error_upd_eq; exact Hax. }
    assert (Enth : nth axis idx 0 = j) by (apply nth_error_nth; exact Ej).
    apply Hns in Hj. unfold in_slice in Hj.
    assert (Hs0 : (0 <= start < Z.of_nat len)%Z) by (destruct Hpy as [?|?]; destruct Hj as [?|?]; nia).
    assert (Hpos : (0 <= start + Z.of_nat j * step < Z.of_nat len)%Z)
      by (destruct Hpy as [?|?]; destruct Hj as [?|?]; nia).
    assert (Hin : forall p, p < len -> inb (upd idx axis p) (a_shape a)).
    { intros p Hp. rewrite <- (upd_same (a_shape a) axis len Hlen).
      rewrite <- (upd_upd (a_shape a) axis n len). apply inb_upd; assumption. }
    unfold slice_idx. rewrite Enth. split; [apply Hin; lia|]. split.
    - (* offset does not wrap *)
      assert (A0 : inb (upd (repeat 0 (length (a_shape a))) axis (Z.to_nat start)) (a_shape a)).
      { rewrite <- (upd_same (a_shape a) axis len Hlen) at 2. apply inb_upd; [|lia].
        rewrite <- unrank_0. apply unrank_inb.
        specialize (Hin 0 ltac:(lia)). eapply inb_prod_pos; exact Hin. }
      pose proof (wf_addr buf a _ W A0) as HA.
      assert (EA : dot (upd (repeat 0 (length (a_shape a))) axis (Z.to_nat start)) (a_strides a)
                   = (start * stride)%Z).
      { rewrite (dot_upd_idx _ _ axis 0 stride); [rewrite dot_zeros; lia| |exact Hstride].
        rewrite nth_error_repeat by exact Hax. reflexivity. }
      rewrite EA in HA.
      unfold delta, wrap_usize.
      rewrite Z.mul_mod_idemp_l by discriminate.
      assert (E2 : (start * Z.abs stride = start * stride)%Z) by (destruct Hneg; [rewrite Z.abs_eq; lia|subst; lia]).
      rewrite E2.
      assert (0 <= start * stride)%Z by (destruct Hneg; [nia|subst; lia]).
      rewrite (Z.mod_small (start * stride)) by (unfold two64 in *; lia).
      apply Z.mod_small. unfold two64 in *; lia.
    - rewrite (dot_upd_idx idx (a_strides a) axis j stride) by assumption.
      rewrite (dot_upd_strides idx (a_strides a) axis j stride) by assumption.
      rewrite Z2Nat.id by lia. nia. }
  assert (HG : forall idx, inb idx (upd (a_shape a) axis n) ->
    get buf (view_with a delta (upd (a_shape a) axis n) (upd (a_strides a) axis (stride * step)%Z)) idx
    = get buf a (slice_idx axis start step idx)).
  { intros idx Hi. destruct (F idx Hi) as (_ & HO & HD).
    unfold get, byte_offset_for, view_with; cbn [a_off a_strides a_item].
    rewrite HO, HD. f_equal. lia. }
  split; [reflexivity|]. split.
  - unfold wf. split; [exact W1|]. split; [exact W2|].
    split; [unfold view_with; cbn [a_off]; apply Z.mod_pos_bound; reflexivity|].
    split; [unfold view_with; cbn [a_strides a_shape]; rewrite !upd_length; exact W4|].
    split; [|split; intros E; exact E].
    intros idx Hi. change (inb idx (upd (a_shape a) axis n)) in Hi. rewrite HG by exact Hi. apply W5. apply F; exact Hi.
  - intros idx Hi. split; [apply F; exact Hi|apply HG; exact Hi].
Qed.

(* ---------- flip ---------- *)
Lemma flip_is_view {V} (buf : list V) a axis len stride :
  wf buf a ->
  nth_error (a_shape a) axis = Some len -> nth_error (a_strides a) axis = Some stride ->
  (0 <= stride)%Z \/ len <= 1 ->
  exists a', flip a axis = Ok a' /\ is_view buf a a' (a_shape a) (flip_idx axis len).
Proof.
  intros W Hlen Hst Hneg. unfold flip. rewrite Hlen.
  destruct len as [|len].
  - exists a; split; [reflexivity|]. split; [reflexivity|]. split; [exact W|].
    intros idx Hi. exfalso. apply inb_prod_pos in Hi.
    rewrite (prod_remove_at axis (a_shape a) 0 Hlen) in Hi. lia.
  - assert (Hpy : py_slice (S len) (Z.of_nat (S len) - 1) (-1) (-1)) by (right; lia).
    destruct (slice_axis_is_view buf a axis (Z.of_nat (S len) - 1) (-1) (-1) (S len) stride
                W Hlen Hst Hpy ltac:(lia)) as (a' & n & E & Hn & Hv).
    assert (n = S len).
    { assert (A : forall j, j < n <-> j < S len).
      { intros j. rewrite Hn. unfold in_slice. lia. }
      pose proof (A n); pose proof (A (S len)). lia. }
    subst n. exists a'. split; [exact E|].
    rewrite (upd_same _ _ _ Hlen) in Hv. destruct Hv as (Hs & Hw & Hg).
    split; [exact Hs|]. split; [exact Hw|].
    intros idx Hi. destruct (Hg idx Hi) as [Hg1 Hg2].
    assert (EI : slice_idx axis (Z.of_nat (S len) - 1) (-1) idx = flip_idx axis (S len) idx).
    { unfold slice_idx, flip_idx. f_equal.
      destruct (nth_error idx axis) as [j|] eqn:Ej.
      - rewrite (nth_error_nth idx axis 0 Ej).
        pose proof (inb_nth _ _ _ _ _ Hi Ej Hlen). lia.
      - apply nth_error_None in Ej. rewrite nth_overflow by exact Ej. lia. }
    rewrite <- EI. split; assumption.
Qed.

(* ---------- reshape ---------- *)
Lemma reshape_c_is_view {V} (buf : list V) a sh :
  wf buf a -> a_c a = true -> prod (a_shape a) = prod sh ->
  exists a', reshape a sh = Ok a' /\
    is_view buf a a' sh (fun idx => rm_unrank (a_shape a) (rm_rank sh idx)).
Proof.
  intros W HC HP. unfold reshape, usize_prod. rewrite HP, Z.eqb_refl, HC. cbn [negb andb].
  eexists; split; [reflexivity|].
  pose proof W as (W1 & W2 & W3 & W4 & W5 & W6 & _).
  apply view0_is_view; [exact W|apply c_strides_length|].
  intros idx Hi. rewrite rm_unrank_eq, rm_rank_eq.
  pose proof (rank_lt sh idx Hi) as HR. rewrite <- HP in HR.
  pose proof (unrank_inb _ _ HR) as HU. split; [exact HU|].
  rewrite dot_c_strides.
  rewrite (c_contig_dot (a_shape a) (a_strides a) (a_item a)); auto.
  rewrite rank_unrank by exact HR. reflexivity.
Qed.

(* ---------- broadcast ---------- *)
Lemma bcast_strides_spec sh st nsh :
  length st = length sh -> length nsh = length sh ->
  (stretchable sh nsh ->
   exists r, bcast_strides sh st nsh = Some r /\ length r = length nsh /\
     forall idx, inb idx nsh ->
       inb (unstretch sh idx) sh /\ dot idx r = dot (unstretch sh idx) st) /\
  (~ stretchable sh nsh -> bcast_strides sh st nsh = None).
Proof.
  revert st nsh; induction sh as [|s sh IH]; intros [|x st] [|n nsh] H1 H2; try discriminate.
  - split.
    + intros _. exists []. split; [reflexivity|]. split; [reflexivity|].
      intros idx Hi. inversion Hi; subst. split; [constructor|reflexivity].
    + intros H; exfalso; apply H; constructor.
  - cbn [bcast_strides].
    destruct (IH st nsh ltac:(simpl in *; lia) ltac:(simpl in *; lia)) as [IHp IHn].
    split.
    + intros HS; inversion HS as [|? ? ? ? Hsn HS']; subst.
      destruct (IHp HS') as (r & Er & Hlr & Hr). rewrite Er. cbn [option_map].
      destruct (Nat.eqb_spec s n) as [->|Hne].
      * eexists; split; [reflexivity|]. split; [simpl; lia|].
        intros idx Hi; inversion Hi as [|i ? t ? Hit Ht]; subst. destruct (Hr t Ht) as [Ha Hb].
        cbn [unstretch dot]. destruct (Nat.eqb_spec n 1) as [->|].
        -- split; [constructor; [lia|exact Ha]|]. assert (i = 0) by lia; subst. rewrite Hb; reflexivity.
        -- split; [constructor; [lia|exact Ha]|]. rewrite Hb; reflexivity.
      * destruct Hsn as [|Hs1]; [contradiction|subst s]. rewrite Nat.eqb_refl.
        eexists; split; [reflexivity|]. split; [simpl; lia|].
        intros idx Hi; inversion Hi as [|i ? t ? Hit Ht]; subst. destruct (Hr t Ht) as [Ha Hb].
        cbn [unstretch dot]. rewrite Nat.eqb_refl.
        split; [constructor; [lia|exact Ha]|]. rewrite Hb; lia.
    + intros HS.
      destruct (Nat.eqb_spec s n) as [->|Hne].
      * rewrite IHn; [reflexivity|]. intros HS'; apply HS; constructor; [left; reflexivity|exact HS'].
      * destruct (Nat.eqb_spec s 1) as [->|Hs1]; [|reflexivity].
        rewrite IHn; [reflexivity|]. intros HS'; apply HS; constructor; [right; reflexivity|exact HS'].
Qed.

Lemma stretchable_dec sh nsh : stretchable sh nsh \/ ~ stretchable sh nsh.
Proof.
  revert nsh; induction sh as [|s sh IH]; intros [|n nsh].
  - left; constructor.
  - right; inversion 1.
  - right; inversion 1.
  - destruct (IH nsh) as [H|H].
    + destruct (Nat.eq_dec s n); [left; constructor; auto|].
      destruct (Nat.eq_dec s 1); [left; constructor; auto|].
      right; inversion 1; subst; tauto.
    + right; inversion 1; subst; tauto.
Qed.

Lemma inb_skipn n idx sh : inb idx sh -> inb (skipn n idx) (skipn n sh).
Proof.
  unfold inb; intros H; revert n; induction H as [|i s idx sh Hi H IH]; intros [|n]; simpl; auto.
Qed.

Lemma dot_skip_zeros off idx st :
  off <= length idx -> dot idx (repeat 0%Z off ++ st) = dot (skipn off idx) st.
Proof.
  revert idx; induction off as [|off IH]; intros idx H; [reflexivity|].
  destruct idx as [|i idx]; simpl in *; [lia|]. rewrite IH by lia. lia.
Qed.

Lemma broadcast_to_is_view {V} (buf : list V) a nsh :
  wf buf a ->
  (broadcastable (a_shape a) nsh ->
   exists a', broadcast_to a nsh = Ok a' /\ is_view buf a a' nsh (unbroadcast (a_shape a))) /\
  (~ broadcastable (a_shape a) nsh -> broadcast_to a nsh = Err).
Proof.
  intros W. pose proof W as (W1 & W2 & W3 & W4 & W5 & _).
  unfold broadcast_to, ndim. split.
  - intros [HL HS]. destruct (Nat.ltb_spec (length nsh) (length (a_shape a))); [lia|].
    set (off := length nsh - length (a_shape a)) in *.
    destruct (bcast_strides_spec (a_shape a) (a_strides a) (skipn off nsh)) as [Hp _];
      [exact W4|rewrite skipn_length; lia|].
    destruct (Hp HS) as (r & Er & Hlr & Hr). rewrite Er.
    eexists; split; [reflexivity|].
    rewrite skipn_length in Hlr.
    apply view0_is_view; [exact W|rewrite app_length, repeat_length; lia|].
    intros idx Hi. pose proof (inb_length _ _ Hi) as HLi.
    unfold unbroadcast. rewrite HLi. fold off.
    rewrite dot_skip_zeros by lia.
    apply Hr. apply inb_skipn; exact Hi.
  - intros HN. destruct (Nat.ltb_spec (length nsh) (length (a_shape a))); [reflexivity|].
    destruct (bcast_strides_spec (a_shape a) (a_strides a)
                (skipn (length nsh - length (a_shape a)) nsh)) as [_ Hn];
      [exact W4|rewrite skipn_length; lia|].
    rewrite Hn; [reflexivity|]. intros HS; apply HN; split; [lia|exact HS].
Qed.

(* ---------- expand_dims / squeeze ---------- *)
Lemma expand_dims_is_view {V} (buf : list V) a axis :
  wf buf a ->
  (axis <= ndim a ->
   exists a', expand_dims a axis = Ok a' /\
     is_view buf a a' (insert_at axis 1 (a_shape a)) (remove_at axis)) /\
  (ndim a < axis -> expand_dims a axis = Err).
Proof.
  intros W. pose proof W as (W1 & W2 & W3 & W4 & W5 & _). unfold expand_dims. split.
  - intros Hax. destruct (Nat.ltb_spec (ndim a) axis); [lia|].
    eexists; split; [reflexivity|].
    apply view0_is_view; [exact W|rewrite !insert_at_length; lia|].
    intros idx Hi. unfold ndim in *.
    pose proof (inb_length _ _ Hi) as HLi. rewrite insert_at_length in HLi.
    pose proof (inb_remove_at axis _ _ Hi) as Hr.
    rewrite remove_insert_at in Hr by exact Hax. split; [exact Hr|].
    destruct (nth_error idx axis) as [j|] eqn:Ej; [|apply nth_error_None in Ej; lia].
    assert (j < 1).
    { apply (inb_nth idx _ axis j 1 Hi Ej). rewrite nth_error_insert_at by exact Hax.
      rewrite Nat.ltb_irrefl, Nat.eqb_refl. reflexivity. }
    assert (j = 0) by lia; subst j.
    rewrite <- (insert_remove_at axis 0 idx Ej) at 1.
    pose proof (inb_length _ _ Hr).
    rewrite dot_insert_at by lia. lia.
  - intros Hax. destruct (Nat.ltb_spec (ndim a) axis); [reflexivity|lia].
Qed.

Lemma squeeze_axis_is_view {V} (buf : list V) a axis :
  wf buf a ->
  (nth_error (a_shape a) axis = Some 1 ->
   is_view buf a (squeeze_axis a axis) (remove_at axis (a_shape a)) (insert_at axis 0)) /\
  (nth_error (a_shape a) axis <> Some 1 -> squeeze_axis a axis = a).
Proof.
  intros W. pose proof W as (W1 & W2 & W3 & W4 & W5 & _). unfold squeeze_axis. split.
  - intros Hax. rewrite Hax.
    assert (Hlt : axis < length (a_shape a)) by (apply nth_error_Some; rewrite Hax; discriminate).
    apply view0_is_view; [exact W|rewrite !remove_at_length by lia; lia|].
    intros idx Hi. pose proof (inb_length _ _ Hi) as HLi. rewrite remove_at_length in HLi by lia.
    split.
    + rewrite <- (insert_remove_at axis 1 (a_shape a) Hax). apply inb_insert_at; [exact Hi|lia].
    + destruct (nth_error (a_strides a) axis) as [x|] eqn:Ex; [|apply nth_error_None in Ex; lia].
      rewrite (dot_remove_at axis (insert_at axis 0 idx) (a_strides a) 0 x).
      * rewrite remove_insert_at by lia. lia.
      * rewrite insert_at_length; lia.
      * rewrite nth_error_insert_at by lia. rewrite Nat.ltb_irrefl, Nat.eqb_refl; reflexivity.
      * exact Ex.
  - intros Hax. destruct (nth_error (a_shape a) axis) as [[|[|s]]|]; try reflexivity. congruence.
Qed.

Lemma squeeze_lists_spec sh st :
  length st = length sh ->
  fst (squeeze_lists sh st) = filter (fun d => negb (Nat.eqb d 1)) sh /\
  length (snd (squeeze_lists sh st)) = length (fst (squeeze_lists sh st)) /\
  forall idx, inb idx (fst (squeeze_lists sh st)) ->
    inb (unsqueeze sh idx) sh /\ dot idx (snd (squeeze_lists sh st)) = dot (unsqueeze sh idx) st.
Proof.
  revert st; induction sh as [|s sh IH]; intros [|x st] HL; try discriminate.
  - split; [reflexivity|]. split; [reflexivity|]. intros idx Hi; inversion Hi; subst.
    split; [constructor|reflexivity].
  - cbn [squeeze_lists filter]. destruct (IH st ltac:(simpl in HL; lia)) as (IH1 & IH2 & IH3).
    destruct (squeeze_lists sh st) as [r t]. cbn [fst snd] in *.
    destruct (Nat.eqb_spec s 1) as [->|Hs]; cbn [negb fst snd].
    + split; [exact IH1|]. split; [exact IH2|]. intros idx Hi. destruct (IH3 idx Hi) as [Ha Hb].
      cbn [unsqueeze]. rewrite Nat.eqb_refl. split; [constructor; [lia|exact Ha]|].
      cbn [dot]. rewrite Hb. lia.
    + split; [f_equal; exact IH1|]. split; [simpl; lia|]. intros idx Hi.
      inversion Hi as [|i ? tl ? Hit Ht]; subst. destruct (IH3 tl Ht) as [Ha Hb].
      cbn [unsqueeze]. destruct (Nat.eqb_spec s 1); [contradiction|].
      split; [constructor; [exact Hit|exact Ha]|]. cbn [dot]. rewrite Hb. reflexivity.
Qed.

Lemma prod_filter_one sh : prod (filter (fun d => negb (Nat.eqb d 1)) sh) = prod sh.
Proof.
  induction sh as [|s sh IH]; simpl; [reflexivity|].
  destruct (Nat.eqb_spec s 1) as [->|]; simpl; rewrite IH; lia.
Qed.

Lemma unsqueeze_all_ones sh idx :
  filter (fun d => negb (Nat.eqb d 1)) sh = [] -> unsqueeze sh idx = repeat 0 (length sh).
Proof.
  revert idx; induction sh as [|s sh IH]; intros idx H; [reflexivity|].
  cbn [filter] in H. destruct (Nat.eqb_spec s 1) as [->|]; cbn [negb] in H; [|discriminate].
  cbn [unsqueeze length repeat]. rewrite Nat.eqb_refl, IH by exact H. reflexivity.
Qed.

Lemma squeeze_is_view {V} (buf : list V) a :
  wf buf a -> is_view buf a (squeeze a) (squeeze_shape (a_shape a)) (unsqueeze (a_shape a)).
Proof.
  intros W. pose proof W as (W1 & W2 & W3 & W4 & W5 & _).
  destruct (squeeze_lists_spec (a_shape a) (a_strides a) W4) as (S1 & S2 & S3).
  unfold squeeze, squeeze_shape. destruct (squeeze_lists (a_shape a) (a_strides a)) as [r t].
  cbn [fst snd] in *. rewrite <- S1. destruct r as [|d r].
  - assert (HP : size a = 1) by (unfold size; rewrite <- prod_filter_one, <- S1; reflexivity).
    rewrite HP. cbn [length Nat.eqb andb].
    apply view0_is_view; [exact W|reflexivity|].
    intros idx Hi. inversion Hi as [|i ? tl ? Hi0 Ht]; subst. inversion Ht; subst.
    rewrite unsqueeze_all_ones by (symmetry; exact S1).
    split.
    + rewrite <- unrank_0. apply unrank_inb. unfold size in HP. lia.
    + rewrite dot_zeros. cbn [dot]. assert (i = 0) by lia; subst; lia.
  - cbn [length Nat.eqb andb]. apply view0_is_view; [exact W|simpl in *; lia|exact S3].
Qed.

(* ---------- transpose_axes ---------- *)
Lemma index_of_in k l : In k l -> nth_error l (index_of k l) = Some k.
Proof.
  induction l as [|x l IH]; simpl; intros H; [contradiction|].
  destruct (Nat.eqb_spec x k) as [->|Hne]; [reflexivity|].
  destruct H as [|H]; [contradiction|]. apply IH; exact H.
Qed.
Lemma index_of_nth l d : NoDup l -> d < length l -> index_of (nth d l 0) l = d.
Proof.
  revert d; induction l as [|x l IH]; simpl; intros d ND H; [lia|].
  inversion ND; subst. destruct d as [|d]; simpl.
  - rewrite Nat.eqb_refl; reflexivity.
  - destruct (Nat.eqb_spec x (nth d l 0)) as [->|]; [exfalso; apply H2, nth_In; lia|].
    rewrite IH by (auto; lia). reflexivity.
Qed.

Lemma gather_ok {A} (l : list A) axes d :
  (forall i, In i axes -> i < length l) -> gather l axes = Ok (map (fun i => nth i l d) axes).
Proof.
  intros H. unfold gather. apply mapM_ok. intros i Hi.
  rewrite (nth_error_nth' l d) by (apply H; exact Hi). reflexivity.
Qed.

(* sum of a function over a permutation of 0..n-1 *)
Fixpoint zsum (l : list Z) : Z := match l with [] => 0%Z | x :: l' => (x + zsum l')%Z end.
From Coq Require Import Permutation.
Lemma zsum_perm l l' : Permutation l l' -> zsum l = zsum l'.
Proof. induction 1; simpl; lia. Qed.
Lemma dot_zsum idx st :
  length idx = length st ->
  dot idx st = zsum (map (fun k => (Z.of_nat (nth k idx 0%nat) * nth k st 0)%Z) (seq 0 (length idx))).
Proof.
  revert st; induction idx as [|i idx IH]; intros [|s st] H; try discriminate; [reflexivity|].
  cbn [dot length seq map zsum nth]. rewrite <- seq_shift, map_map.
  rewrite IH by (simpl in H; lia). reflexivity.
Qed.

Lemma perm_in axes n k : Permutation axes (seq 0 n) -> k < n -> In k axes.
Proof. intros HP Hk. eapply Permutation_in; [symmetry; exact HP|]. apply in_seq; lia. Qed.

Lemma transpose_axes_is_view {V} (buf : list V) a axes :
  wf buf a -> Permutation axes (seq 0 (ndim a)) ->
  exists a', transpose_axes a axes = Ok a' /\
    is_view buf a a' (map (fun i => nth i (a_shape a) 0) axes) (unpermute axes).
Proof.
  intros W HP. pose proof W as (W1 & W2 & W3 & W4 & W5 & _).
  pose proof (Permutation_length HP) as HLen. rewrite seq_length in HLen. unfold ndim in *.
  assert (HB : forall i, In i axes -> i < length (a_shape a)).
  { intros i Hi. eapply Permutation_in in Hi; [|exact HP]. apply in_seq in Hi. lia. }
  assert (ND : NoDup axes) by (eapply Permutation_NoDup; [symmetry; exact HP|apply seq_NoDup]).
  unfold transpose_axes, ndim. rewrite HLen, Nat.eqb_refl. cbn [negb].
  rewrite (gather_ok _ axes 0 HB). cbn [bind].
  rewrite (gather_ok (a_strides a) axes 0%Z) by (rewrite W4; exact HB). cbn [bind].
  eexists; split; [reflexivity|].
  apply view0_is_view; [exact W|rewrite !map_length; reflexivity|].
  intros idx Hi. pose proof (inb_length _ _ Hi) as HLi. rewrite map_length in HLi.
  assert (HU : forall k, k < length (a_shape a) ->
     nth_error (unpermute axes idx) k = Some (nth (index_of k axes) idx 0)).
  { intros k Hk. unfold unpermute. rewrite nth_error_map', nth_error_seq, HLen.
    destruct (Nat.ltb_spec k (length (a_shape a))); [reflexivity|lia]. }
  assert (HUL : length (unpermute axes idx) = length (a_shape a))
    by (unfold unpermute; rewrite map_length, seq_length; exact HLen).
  split.
  - apply inb_iff_nth. split; [exact HUL|].
    intros k i s Hk Hs.
    assert (Hlt : k < length (a_shape a)) by (apply nth_error_Some; rewrite Hs; discriminate).
    rewrite HU in Hk by exact Hlt. injection Hk as <-.
    pose proof (index_of_in k axes (perm_in _ _ _ HP Hlt)) as Hix.
    assert (Hixl : index_of k axes < length axes) by (apply nth_error_Some; rewrite Hix; discriminate).
    apply (inb_nth idx _ (index_of k axes) _ s Hi).
    + apply nth_error_nth'. lia.
    + rewrite nth_error_map', Hix. cbn [option_map]. f_equal. apply nth_error_nth; exact Hs.
  - rewrite dot_zsum by (rewrite map_length; lia).
    rewrite dot_zsum by (rewrite HUL; lia). rewrite HUL, HLi, HLen.
    transitivity (zsum (map (fun k => (Z.of_nat (nth k (unpermute axes idx) 0%nat)
                                        * nth k (a_strides a) 0)%Z) axes));
      [|apply zsum_perm, Permutation_map; exact HP].
    f_equal. rewrite <- HLen.
    apply nth_error_ext. intros d. rewrite !nth_error_map', nth_error_seq.
    destruct (Nat.ltb_spec d (length axes)) as [Hd|Hd].
    + rewrite (nth_error_nth' axes 0) by exact Hd. cbn [option_map plus]. f_equal.
      assert (Hn : nth d axes 0 < length (a_shape a)) by (apply HB, nth_In; exact Hd).
      rewrite (nth_error_nth _ _ 0 (HU _ Hn)).
      rewrite index_of_nth by assumption. f_equal.
      rewrite (nth_indep _ 0%Z (nth 0 (a_strides a) 0%Z)) by (rewrite map_length; exact Hd).
      exact (map_nth (fun i => nth i (a_strides a) 0%Z) axes 0 d).
    + apply nth_error_None in Hd. rewrite Hd. reflexivity.
Qed.
