From Verif Require Import Base Lists Arr_Spec Arr_Model Arr_Wf Arr_Proofs Idx_Model Int_Model Copy_Model Copy_Proofs Red_Model
  Ravel_Spec Ravel_Model.
Local Open Scope Z_scope.

Definition fits (sh : list Z) : Prop := Forall (fun d => 0 <= d < 2 ^ 63) sh /\ zsize sh < 2 ^ 63.

Lemma zsize_nonneg sh : Forall (fun d => 0 <= d) sh -> 0 <= zsize sh.
Proof. induction 1; cbn [zsize]; nia. Qed.
Lemma zsize_pos sh : Forall (fun d => 0 < d) sh -> 0 < zsize sh.
Proof. induction 1; cbn [zsize]; nia. Qed.
Lemma inside_pos (idx sh : list Z) : inside idx sh -> Forall (fun d => 0 < d) sh.
Proof. induction 1; constructor; [lia|assumption]. Qed.
Lemma pos_dims sh : Forall (fun d => 0 <= d) sh -> 0 < zsize sh -> Forall (fun d => 0 < d) sh.
Proof.
  induction 1 as [|d sh Hd H IH]; intros HZ; [constructor|]. cbn [zsize] in HZ. pose proof (zsize_nonneg sh H).
  constructor; [nia|apply IH; nia].
Qed.
Lemma fits_tail d sh : 0 < d -> fits (d :: sh) -> fits sh.
Proof.
  intros Hd [HF HZ]. inversion HF; subst. split; [assumption|]. cbn [zsize] in HZ.
  assert (0 <= zsize sh) by (apply zsize_nonneg; eapply Forall_impl; [|eassumption]; cbn; lia). nia.
Qed.

Lemma wrap_small z : 0 <= z < 2 ^ 64 -> wrap_usize z = z.
Proof. intros H. unfold wrap_usize, two64. apply Z.mod_small. exact H. Qed.
Lemma wrap_isize_small z : - 2 ^ 63 <= z < 2 ^ 63 -> wrap_isize z = z.
Proof.
  intros H. unfold wrap_isize, to_isize, two64. destruct (Z_lt_le_dec z 0).
  - assert (E : z mod 2 ^ 64 = z + 2 ^ 64) by (symmetry; apply Z.mod_unique_pos with (q := -1); lia).
    rewrite E. destruct (Z.ltb_spec (z + 2 ^ 64) (2 ^ 63)); lia.
  - rewrite Z.mod_small by lia. destruct (Z.ltb_spec z (2 ^ 63)); lia.
Qed.

Lemma usize_product_spec sh : Forall (fun d => 0 <= d) sh -> usize_product sh = wrap_usize (zsize sh).
Proof.
  intros _. unfold usize_product. assert (G : forall p, 0 <= p < 2 ^ 64 -> fold_left (fun p d => wrap_usize (p * d)) sh p = wrap_usize (p * zsize sh)).
  { induction sh as [|d sh IH]; intros p Hp; cbn [fold_left zsize].
    - rewrite Z.mul_1_r. symmetry. apply wrap_small. exact Hp.
    - rewrite IH by (unfold wrap_usize, two64; apply Z.mod_pos_bound; lia). unfold wrap_usize, two64.
      rewrite Z.mul_mod_idemp_l by lia. f_equal. ring. }
  rewrite G by lia. f_equal. ring.
Qed.

(* the strides are the products of the later (C) or earlier (F) lengths *)
Fixpoint sfx (sh : list Z) : list Z := match sh with [] => [] | _ :: sh' => zsize sh' :: sfx sh' end.
Lemma c_str_spec sh : Forall (fun d => 0 < d) sh -> zsize sh < 2 ^ 63 -> c_str sh = sfx sh.
Proof.
  induction 1 as [|d sh Hd H IH]; intros HZ; [reflexivity|]. cbn [c_str sfx]. cbn [zsize] in HZ.
  pose proof (zsize_pos sh H) as HP. rewrite IH by nia. f_equal. destruct sh as [|e sh]; [reflexivity|]. cbn [sfx zsize hd] in *.
  rewrite Z.mul_comm. apply wrap_small. nia.
Qed.

Lemma unravel_c_spec sh k : Forall (fun d => 0 < d) sh -> 0 <= k < zsize sh ->
  exists idx, unravel_c k (sfx sh) = Ok idx /\ inside idx sh /\ c_pos sh idx = k.
Proof.
  intros H; revert k. induction H as [|d sh Hd H IH]; intros k Hk; cbn [zsize] in Hk.
  - exists []. cbn. split; [reflexivity|]. split; [constructor|lia].
  - pose proof (zsize_pos sh H) as HP. cbn [sfx unravel_c]. destruct (Z.eqb_spec (zsize sh) 0); [lia|].
    destruct (IH (k mod zsize sh)) as (idx & E & HI & HC); [apply Z.mod_pos_bound; lia|].
    exists (k / zsize sh :: idx). rewrite E. cbn [bind]. split; [reflexivity|]. split.
    + constructor; [|exact HI]. split; [apply Z.div_pos; lia|]. apply Z.div_lt_upper_bound; nia.
    + cbn [c_pos]. rewrite HC. pose proof (Z.div_mod k (zsize sh)). lia.
Qed.
Lemma unravel_f_spec sh k : Forall (fun d => 0 < d) sh -> 0 <= k < zsize sh ->
  exists idx, unravel_f k sh = Ok idx /\ inside idx sh /\ f_pos sh idx = k.
Proof.
  intros H; revert k. induction H as [|d sh Hd H IH]; intros k Hk; cbn [zsize] in Hk.
  - exists []. cbn. split; [reflexivity|]. split; [constructor|lia].
  - cbn [unravel_f]. destruct (Z.eqb_spec d 0); [lia|].
    destruct (IH (k / d)) as (idx & E & HI & HC).
    { split; [apply Z.div_pos; lia|]. apply Z.div_lt_upper_bound; nia. }
    exists (k mod d :: idx). rewrite E. cbn [bind]. split; [reflexivity|]. split.
    + constructor; [apply Z.mod_pos_bound; lia|exact HI].
    + cbn [f_pos]. rewrite HC. pose proof (Z.div_mod k d). lia.
Qed.

Lemma c_pos_range sh idx : inside idx sh -> 0 <= c_pos sh idx < zsize sh.
Proof.
  induction 1 as [|i d idx sh Hi H IH]; cbn [c_pos zsize]; [lia|]. nia.
Qed.
Lemma f_pos_range sh idx : inside idx sh -> 0 <= f_pos sh idx < zsize sh.
Proof. induction 1 as [|i d idx sh Hi H IH]; cbn [f_pos zsize]; [lia|]. nia. Qed.
Lemma c_pos_inj sh : forall x y, inside x sh -> inside y sh -> c_pos sh x = c_pos sh y -> x = y.
Proof.
  induction sh as [|d sh IH]; intros x y Hx Hy E; inversion Hx as [|i ? x' ? Hi Hx']; inversion Hy as [|j ? y' ? Hj Hy']; subst; [reflexivity|].
  cbn [c_pos] in E. pose proof (c_pos_range _ _ Hx'). pose proof (c_pos_range _ _ Hy').
  assert (i = j) by nia. subst j. f_equal. apply IH; [assumption|assumption|lia].
Qed.
Lemma f_pos_inj sh : forall x y, inside x sh -> inside y sh -> f_pos sh x = f_pos sh y -> x = y.
Proof.
  induction sh as [|d sh IH]; intros x y Hx Hy E; inversion Hx as [|i ? x' ? Hi Hx']; inversion Hy as [|j ? y' ? Hj Hy']; subst; [reflexivity|].
  cbn [f_pos] in E. assert (f_pos sh x' = f_pos sh y') by nia. assert (i = j) by nia. subst j. f_equal. apply IH; assumption.
Qed.
Lemma pos_range f sh idx : inside idx sh -> 0 <= pos f sh idx < zsize sh.
Proof. destruct f; [apply f_pos_range|apply c_pos_range]. Qed.
Lemma pos_inj f sh x y : inside x sh -> inside y sh -> pos f sh x = pos f sh y -> x = y.
Proof. destruct f; [apply f_pos_inj|apply c_pos_inj]. Qed.

Lemma inside_length idx sh : inside idx sh -> length idx = length sh.
Proof. apply Forall2_len. Qed.
Lemma inside_nth idx sh d : inside idx sh -> Forall (fun x => x < 2 ^ 63) sh -> 0 <= nth d idx 0 < 2 ^ 63.
Proof.
  intros H; revert d. induction H as [|i n idx sh Hi H IH]; intros d HF; [destruct d; cbn; lia|]. inversion HF; subst.
  destruct d; cbn [nth]; [lia|apply IH; assumption].
Qed.

Lemma mapM_rows {A B} (f : A -> res B) (P : A -> B -> Prop) l : (forall x, In x l -> exists y, f x = Ok y /\ P x y) ->
  exists r, mapM f l = Ok r /\ Forall2 P l r.
Proof.
  induction l as [|x l IH]; intros H; [exists []; split; [reflexivity|constructor]|].
  destruct (H x (or_introl eq_refl)) as (y & Ey & Hy). destruct IH as (r & Er & Hr); [intros; apply H; right; assumption|].
  exists (y :: r). cbn [mapM]. rewrite Ey. cbn [bind]. rewrite Er. split; [reflexivity|constructor; assumption].
Qed.

Lemma columns_tuple (rows : list (list Z)) n i r : nth_error rows i = Some r -> length r = n ->
  tuple (map (fun d => map (fun r => nth d r 0) rows) (seq 0 n)) i = r.
Proof.
  intros Hr HL. unfold tuple. rewrite map_map.
  transitivity (map (fun d => nth d r 0) (seq 0 n)).
  - apply map_ext. intros d. apply nth_error_nth. rewrite nth_error_map', Hr. reflexivity.
  - subst n. clear. induction r as [|x r IH]; [reflexivity|]. cbn [length seq map nth]. f_equal.
    rewrite <- seq_shift, map_map. exact IH.
Qed.

Lemma unravel_index_ok sh ks f : fits sh -> (f = false -> sh <> []) -> Forall (fun k => 0 <= k < zsize sh) ks ->
  exists cols, unravel_index ks sh f = Ok cols /\ length cols = length sh /\ Forall (fun c => length c = length ks) cols /\
    forall i k, nth_error ks i = Some k -> inside (tuple cols i) sh /\ pos f sh (tuple cols i) = k.
Proof.
  intros [HF HZ] HN HK. unfold unravel_index.
  assert (HF0 : Forall (fun d => 0 <= d) sh) by (eapply Forall_impl; [|exact HF]; cbn; lia).
  pose proof (zsize_nonneg sh HF0) as HZ0.
  rewrite usize_product_spec by exact HF0. rewrite (wrap_small (zsize sh)) by lia.
  replace (existsb _ ks) with false.
  2:{ symmetry. apply not_true_is_false. intros H. apply existsb_exists in H as (k & Hk & Hb). rewrite Forall_forall in HK.
      specialize (HK k Hk). rewrite wrap_small in Hb by lia. apply Z.leb_le in Hb. lia. }
  destruct (negb f && (length sh =? 0)%nat) eqn:EN.
  { apply andb_true_iff in EN as [E1 E2]. destruct f; [discriminate|]. apply Nat.eqb_eq in E2. destruct sh; [|discriminate]. exfalso. apply HN; reflexivity. }
  clear EN.
  assert (R : exists rows, mapM (fun k => if f then unravel_f (wrap_usize k) sh else unravel_c (wrap_usize k) (c_str sh)) ks = Ok rows /\
     Forall2 (fun k r => inside r sh /\ pos f sh r = k) ks rows).
  { apply mapM_rows. intros k Hk. rewrite Forall_forall in HK. specialize (HK k Hk). rewrite wrap_small by lia.
    assert (HP : Forall (fun d => 0 < d) sh) by (apply pos_dims; [exact HF0|lia]).
    destruct f; [destruct (unravel_f_spec sh k HP HK) as (r & E & H1 & H2)|
                 rewrite (c_str_spec sh HP HZ); destruct (unravel_c_spec sh k HP HK) as (r & E & H1 & H2)];
      exists r; split; try exact E; split; assumption. }
  destruct R as (rows & ER & HR). rewrite ER. cbn [bind].
  assert (EW : map (fun d => map (fun r => wrap_isize (nth d r 0)) rows) (seq 0 (length sh)) = map (fun d => map (fun r => nth d r 0) rows) (seq 0 (length sh))).
  { apply map_ext. intros d. apply map_ext_in. intros r Hr. apply wrap_isize_small.
    assert (HI : inside r sh). { clear -HR Hr. induction HR as [|? ? ? ? [H _] _ IH]; [destruct Hr|destruct Hr as [<-|Hr]; auto]. }
    pose proof (inside_nth r sh d HI) as HB. assert (Forall (fun x => x < 2 ^ 63) sh) by (eapply Forall_impl; [|exact HF]; cbn; lia). specialize (HB H). lia. }
  rewrite EW. eexists. split; [reflexivity|]. split; [rewrite map_length, seq_length; reflexivity|]. split.
  - apply Forall_forall. intros c Hc. apply in_map_iff in Hc as (d & <- & _). rewrite map_length. symmetry. eapply Forall2_len. exact HR.
  - intros i k Hk.
    assert (X : exists r, nth_error rows i = Some r /\ inside r sh /\ pos f sh r = k).
    { clear -HR Hk. revert i Hk. induction HR as [|k' r ks rows [H1 H2] HR IH]; intros [|i] Hk; try discriminate.
      - injection Hk as <-. exists r. repeat split; auto.
      - apply IH. exact Hk. }
    destruct X as (r & Hr & H1 & H2). rewrite (columns_tuple rows (length sh) i r Hr) by (apply inside_length; exact H1). split; assumption.
Qed.

Lemma unravel_index_err sh ks f : fits sh -> Forall (fun k => - 2 ^ 63 <= k < 2 ^ 63) ks ->
  (exists k, In k ks /\ ~ (0 <= k < zsize sh)) -> unravel_index ks sh f = Err.
Proof.
  intros [HF HZ] HR (k & Hk & Hb). unfold unravel_index.
  assert (HF0 : Forall (fun d => 0 <= d) sh) by (eapply Forall_impl; [|exact HF]; cbn; lia).
  pose proof (zsize_nonneg sh HF0) as HZ0.
  rewrite usize_product_spec by exact HF0. rewrite (wrap_small (zsize sh)) by lia.
  replace (existsb _ ks) with true; [reflexivity|]. symmetry. apply existsb_exists. exists k. split; [exact Hk|].
  rewrite Forall_forall in HR. specialize (HR k Hk). apply Z.leb_le. destruct (Z_lt_le_dec k 0).
  - unfold wrap_usize, two64. assert (E : k mod 2 ^ 64 = k + 2 ^ 64) by (symmetry; apply Z.mod_unique_pos with (q := -1); lia). lia.
  - rewrite wrap_small by lia. lia.
Qed.

(* one tuple, coordinates already inside after the mode is applied *)
Lemma ravel_one_c m sh : forall idx idx' flat, zsize sh < 2 ^ 63 -> 0 <= flat -> flat + zsize sh <= 2 ^ 63 ->
  inside idx' sh -> Forall2 (fun p i' => adjust m (fst p) (snd p) = Ok i') (combine idx sh) idx' -> length idx = length sh ->
  ravel_one m flat idx sh (sfx sh) = Ok (flat + c_pos sh idx').
Proof.
  induction sh as [|d sh IH]; intros idx idx' flat HZ H0 HB HI HA HL; destruct idx as [|i idx]; try discriminate.
  - cbn. f_equal. lia.
  - cbn [combine] in HA. inversion HA as [|? i' ? idx'' Hi HA']; subst. cbn [fst snd] in Hi. inversion HI as [|? ? ? ? Hr HI']; subst.
    cbn [ravel_one sfx c_pos]. rewrite Hi. cbn [bind]. cbn [zsize] in HZ, HB.
    assert (HP : 0 < zsize sh) by (apply zsize_pos; eapply inside_pos; exact HI').
    pose proof (c_pos_range _ _ HI') as HC.
    rewrite (wrap_isize_small (zsize sh)) by nia. rewrite (wrap_isize_small (i' * zsize sh)) by nia. rewrite wrap_isize_small by nia.
    rewrite (IH idx idx''); [f_equal; ring|nia|nia|nia|exact HI'|exact HA'|cbn in HL; lia].
Qed.
Lemma ravel_one_f m sh : forall idx idx' flat p, 0 < p -> 0 <= flat < p -> p * zsize sh < 2 ^ 63 ->
  inside idx' sh -> Forall2 (fun q i' => adjust m (fst q) (snd q) = Ok i') (combine idx sh) idx' -> length idx = length sh ->
  ravel_one m flat idx sh (f_str p sh) = Ok (flat + p * f_pos sh idx').
Proof.
  induction sh as [|d sh IH]; intros idx idx' flat p Hp H0 HZ HI HA HL; destruct idx as [|i idx]; try discriminate.
  - cbn. f_equal. lia.
  - cbn [combine] in HA. inversion HA as [|? i' ? idx'' Hi HA']; subst. cbn [fst snd] in Hi. inversion HI as [|? ? ? ? Hr HI']; subst.
    cbn [ravel_one f_str f_pos]. rewrite Hi. cbn [bind]. cbn [zsize] in HZ.
    assert (HP : 0 < zsize sh) by (apply zsize_pos; eapply inside_pos; exact HI').
    assert (Hpd : p * d < 2 ^ 63) by nia. assert (p < 2 ^ 63) by nia. assert (i' * p < p * d) by nia. assert (flat + i' * p < p * d) by nia.
    rewrite (wrap_isize_small p) by nia. rewrite (wrap_isize_small (i' * p)) by nia. rewrite wrap_isize_small by nia. rewrite (wrap_small (p * d)) by nia.
    rewrite (IH idx idx''); [f_equal; ring|nia|nia|nia|exact HI'|exact HA'|cbn in HL; lia].
Qed.
Lemma ravel_one_ok m (f : bool) sh idx idx' : fits sh -> inside idx' sh -> length idx = length sh ->
  Forall2 (fun q i' => adjust m (fst q) (snd q) = Ok i') (combine idx sh) idx' ->
  ravel_one m 0 idx sh (if f then f_str 1 sh else c_str sh) = Ok (pos f sh idx').
Proof.
  intros [HF HZ] HI HL HA. destruct f.
  - rewrite (ravel_one_f m sh idx idx' 0 1); try assumption; try lia. cbn [pos]. f_equal. lia.
  - rewrite c_str_spec by (try (eapply inside_pos; exact HI); exact HZ).
    rewrite (ravel_one_c m sh idx idx' 0); try assumption; try lia. reflexivity.
Qed.

Lemma adjust_raise i d : 0 <= d < 2 ^ 63 -> adjust Raise i d = if ((0 <=? i) && (i <? d))%bool then Ok i else Err.
Proof.
  intros Hd. unfold adjust. rewrite wrap_isize_small by lia. destruct (Z.ltb_spec i 0), (Z.leb_spec d i), (Z.leb_spec 0 i), (Z.ltb_spec i d); cbn; try lia; reflexivity.
Qed.
Lemma adjust_clip i d : 0 < d < 2 ^ 63 -> adjust Clip i d = Ok (clip_to i d).
Proof. intros Hd. unfold adjust, clip_to. rewrite wrap_isize_small by lia. destruct (Z.ltb_spec (d - 1) 0); [lia|reflexivity]. Qed.
Lemma adjust_wrap i d : 0 < d < 2 ^ 63 -> adjust Wrap i d = Ok (i mod d).
Proof. intros Hd. unfold adjust. rewrite wrap_isize_small by lia. destruct (Z.eqb_spec d 0); [lia|]. rewrite Z.abs_eq by lia. reflexivity. Qed.

Lemma ravel_one_err sh : Forall (fun d => 0 <= d < 2 ^ 63) sh -> forall idx flat strides, length idx = length sh -> length strides = length sh ->
  ~ inside idx sh -> ravel_one Raise flat idx sh strides = Err.
Proof.
  intros HF. induction HF as [|d sh Hd HF IH]; intros idx flat strides HL HS HN; destruct idx as [|i idx]; try discriminate; destruct strides as [|s st]; try discriminate.
  - exfalso. apply HN. constructor.
  - cbn [ravel_one]. rewrite adjust_raise by exact Hd. destruct (Z.leb_spec 0 i), (Z.ltb_spec i d); cbn [andb bind]; try reflexivity.
    apply IH; [cbn in HL; lia|cbn in HS; lia|]. intros HI. apply HN. constructor; [lia|exact HI].
Qed.
Lemma c_str_length sh : length (c_str sh) = length sh.
Proof. induction sh as [|d sh IH]; [reflexivity|]. cbn [c_str length]. rewrite IH. reflexivity. Qed.
Lemma f_str_length sh : forall s, length (f_str s sh) = length sh.
Proof. induction sh as [|d sh IH]; intros s; [reflexivity|]. cbn [f_str length]. rewrite IH. reflexivity. Qed.

Lemma ravel_shape cols sh m (f : bool) n : length cols = length sh -> sh <> [] -> Forall (fun c => length c = n) cols ->
  ravel_multi_index cols sh m f = mapM (fun i => ravel_one m 0 (tuple cols i) sh (if f then f_str 1 sh else c_str sh)) (seq 0 n).
Proof.
  intros HL HN HC. unfold ravel_multi_index. rewrite HL, Nat.eqb_refl. cbn [negb]. destruct cols as [|c0 cols'].
  { destruct sh; [congruence|discriminate]. }
  assert (En : length c0 = n) by (inversion HC; assumption).
  rewrite En. replace (forallb _ _) with true; [reflexivity|]. symmetry. apply forallb_forall. intros c Hc.
  rewrite Forall_forall in HC. apply Nat.eqb_eq. apply HC. exact Hc.
Qed.
