(* Generic list and index lemmas. *)
From Verif Require Import Base.

Lemma mapM_length {A B} (f : A -> res B) l r : mapM f l = Ok r -> length r = length l.
Proof.
  revert r; induction l as [|x l IH]; simpl; intros r H; [injection H as <-; reflexivity|].
  destruct (f x); simpl in H; try discriminate.
  destruct (mapM f l) eqn:E; simpl in H; try discriminate.
  injection H as <-; simpl; f_equal; apply IH; reflexivity.
Qed.

Lemma mapM_ok {A B} (f : A -> res B) (g : A -> B) l :
  (forall x, In x l -> f x = Ok (g x)) -> mapM f l = Ok (map g l).
Proof.
  induction l as [|x l IH]; simpl; intros H; [reflexivity|].
  rewrite (H x) by (left; reflexivity); simpl.
  rewrite IH; [reflexivity|]. intros y Hy; apply H; right; exact Hy.
Qed.

Lemma mapM_ext {A B} (f g : A -> res B) l :
  (forall x, In x l -> f x = g x) -> mapM f l = mapM g l.
Proof.
  induction l as [|x l IH]; simpl; intros H; [reflexivity|].
  rewrite (H x) by (left; reflexivity).
  rewrite IH; [reflexivity|]. intros y Hy; apply H; right; exact Hy.
Qed.

Lemma mapM_map {A B C} (f : B -> res C) (g : A -> B) l :
  mapM f (map g l) = mapM (fun x => f (g x)) l.
Proof. induction l as [|x l IH]; simpl; [reflexivity|]. rewrite IH; reflexivity. Qed.

Lemma mapM_app {A B} (f : A -> res B) l1 l2 :
  mapM f (l1 ++ l2) = bind (mapM f l1) (fun r1 => bind (mapM f l2) (fun r2 => Ok (r1 ++ r2))).
Proof.
  induction l1 as [|x l1 IH]; simpl.
  - destruct (mapM f l2); reflexivity.
  - destruct (f x); simpl; try reflexivity. rewrite IH.
    destruct (mapM f l1); simpl; try reflexivity.
    destruct (mapM f l2); reflexivity.
Qed.

Lemma mapM_nth {A B} (f : A -> res B) l r i x :
  mapM f l = Ok r -> nth_error l i = Some x -> exists y, nth_error r i = Some y /\ f x = Ok y.
Proof.
  revert r i; induction l as [|z l IH]; simpl; intros r i H Hi; [destruct i; discriminate|].
  destruct (f z) as [y| | |] eqn:Ez; simpl in H; try discriminate.
  destruct (mapM f l) as [ys| | |] eqn:El; simpl in H; try discriminate.
  injection H as <-. destruct i as [|i]; simpl in Hi |- *.
  - injection Hi as <-. exists y; split; [reflexivity|exact Ez].
  - apply IH; [reflexivity|exact Hi].
Qed.

Lemma nth_error_map' {A B} (f : A -> B) l n :
  nth_error (map f l) n = option_map f (nth_error l n).
Proof. revert n; induction l as [|x l IH]; intros [|n]; simpl; auto. Qed.

Lemma nth_error_seq a n k : nth_error (seq a n) k = if Nat.ltb k n then Some (a + k) else None.
Proof.
  revert a k; induction n as [|n IH]; intros a k; simpl.
  - destruct k; reflexivity.
  - destruct k as [|k]; simpl; [f_equal; lia|].
    rewrite IH. change (S k <? S n) with (k <? n).
    destruct (k <? n); [f_equal; lia|reflexivity].
Qed.

Lemma nth_error_ext {A} (l1 l2 : list A) :
  (forall n, nth_error l1 n = nth_error l2 n) -> l1 = l2.
Proof.
  revert l2; induction l1 as [|x l1 IH]; intros [|y l2] H; try reflexivity.
  - specialize (H 0); discriminate.
  - specialize (H 0); discriminate.
  - pose proof (H 0) as H0; simpl in H0; injection H0 as ->.
    f_equal. apply IH. intros n; exact (H (S n)).
Qed.

(* ---- upd / remove_at / insert_at ---- *)
Lemma upd_length {A} (l : list A) n v : length (upd l n v) = length l.
Proof. revert n; induction l as [|x l IH]; intros [|n]; simpl; auto. Qed.

Lemma nth_error_upd {A} (l : list A) n v k :
  nth_error (upd l n v) k =
  if Nat.eqb k n then (if Nat.ltb n (length l) then Some v else None) else nth_error l k.
Proof.
  revert n k; induction l as [|x l IH]; intros n k.
  - assert (E : @nth_error A [] k = None) by (destruct k; reflexivity).
    destruct n; cbn [upd length]; rewrite E; destruct (k =? _); reflexivity.
  - destruct n as [|n], k as [|k]; cbn [upd length nth_error]; try reflexivity.
    rewrite IH. change (S k =? S n) with (k =? n). change (S n <? S (length l)) with (n <? length l).
    reflexivity.
Qed.

Lemma nth_error_upd_eq {A} (l : list A) n v :
  n < length l -> nth_error (upd l n v) n = Some v.
Proof.
  intros H. rewrite nth_error_upd, Nat.eqb_refl.
  destruct (Nat.ltb_spec n (length l)); [reflexivity|lia].
Qed.

Lemma nth_error_upd_neq {A} (l : list A) n v k :
  k <> n -> nth_error (upd l n v) k = nth_error l k.
Proof. intros H. rewrite nth_error_upd. destruct (Nat.eqb_spec k n); [contradiction|reflexivity]. Qed.

Lemma upd_upd {A} (l : list A) n u v : upd (upd l n u) n v = upd l n v.
Proof. revert n; induction l as [|x l IH]; intros [|n]; simpl; auto. f_equal; auto. Qed.

Lemma upd_same {A} (l : list A) n v : nth_error l n = Some v -> upd l n v = l.
Proof.
  revert n; induction l as [|x l IH]; intros [|n]; simpl; intros H; try discriminate; auto.
  - injection H as ->; reflexivity.
  - f_equal; auto.
Qed.

Lemma upd_app_r {A} (l1 l2 : list A) n v :
  length l1 <= n -> upd (l1 ++ l2) n v = l1 ++ upd l2 (n - length l1) v.
Proof.
  revert n; induction l1 as [|x l1 IH]; simpl; intros n H.
  - rewrite Nat.sub_0_r; reflexivity.
  - destruct n as [|n]; [lia|]. simpl. f_equal. apply IH; lia.
Qed.

Lemma upd_app_l {A} (l1 l2 : list A) n v :
  n < length l1 -> upd (l1 ++ l2) n v = upd l1 n v ++ l2.
Proof.
  revert n; induction l1 as [|x l1 IH]; simpl; intros n H; [lia|].
  destruct n as [|n]; simpl; [reflexivity|]. f_equal. apply IH; lia.
Qed.

Lemma remove_at_length {A} n (l : list A) :
  n < length l -> length (remove_at n l) = length l - 1.
Proof.
  revert n; induction l as [|x l IH]; intros [|n]; simpl; intros H; try lia.
  rewrite IH by lia. lia.
Qed.

Lemma insert_at_length {A} n v (l : list A) : length (insert_at n v l) = S (length l).
Proof. revert n; induction l as [|x l IH]; intros [|n]; simpl; auto. Qed.

Lemma insert_at_app {A} n v (l : list A) :
  n <= length l -> insert_at n v l = firstn n l ++ v :: skipn n l.
Proof.
  revert n; induction l as [|x l IH]; intros [|n]; simpl; intros H; try lia; try reflexivity.
  f_equal; apply IH; lia.
Qed.

Lemma remove_at_app {A} n (l : list A) :
  n < length l -> remove_at n l = firstn n l ++ skipn (S n) l.
Proof.
  revert n; induction l as [|x l IH]; intros [|n]; simpl; intros H; try lia; try reflexivity.
  f_equal. apply IH; lia.
Qed.

Lemma remove_insert_at {A} n v (l : list A) :
  n <= length l -> remove_at n (insert_at n v l) = l.
Proof.
  revert n; induction l as [|x l IH]; intros [|n]; simpl; intros H; try lia; try reflexivity.
  f_equal; apply IH; lia.
Qed.

Lemma insert_remove_at {A} n v (l : list A) :
  nth_error l n = Some v -> insert_at n v (remove_at n l) = l.
Proof.
  revert n; induction l as [|x l IH]; intros [|n]; simpl; intros H; try discriminate.
  - injection H as ->. destruct l; reflexivity.
  - f_equal; apply IH; exact H.
Qed.

Lemma nth_error_insert_at {A} n v (l : list A) k :
  n <= length l ->
  nth_error (insert_at n v l) k =
  if Nat.ltb k n then nth_error l k else if Nat.eqb k n then Some v else nth_error l (k - 1).
Proof.
  revert n k; induction l as [|x l IH]; intros [|n] [|k]; simpl; intros H; try lia; try reflexivity.
  - rewrite Nat.sub_0_r; reflexivity.
  - rewrite Nat.sub_0_r; reflexivity.
  - rewrite IH by lia. change (S k <? S n) with (k <? n).
    destruct (Nat.ltb_spec k n); [reflexivity|].
    destruct (Nat.eqb_spec k n); [reflexivity|].
    destruct k as [|k]; [lia|]. simpl. rewrite Nat.sub_0_r. reflexivity.
Qed.

Lemma nth_error_remove_at {A} n (l : list A) k :
  nth_error (remove_at n l) k = nth_error l (if Nat.ltb k n then k else S k).
Proof.
  revert n k; induction l as [|x l IH]; intros [|n] [|k]; simpl; try reflexivity.
  - destruct (S k <? S n); reflexivity.
  - rewrite IH. change (S k <? S n) with (k <? n). destruct (k <? n); reflexivity.
Qed.

(* ---- prod ---- *)
Lemma prod_app a b : prod (a ++ b) = prod a * prod b.
Proof. induction a as [|x a IH]; simpl; [lia|]. rewrite IH; lia. Qed.

Lemma prod_rev a : prod (rev a) = prod a.
Proof. induction a as [|x a IH]; simpl; [reflexivity|]. rewrite prod_app, IH; simpl; lia. Qed.

Lemma prod_pos sh : (forall s, In s sh -> 0 < s) -> 0 < prod sh.
Proof.
  induction sh as [|s sh IH]; simpl; intros H; [lia|].
  assert (0 < s) by (apply H; left; reflexivity).
  assert (0 < prod sh) by (apply IH; intros x Hx; apply H; right; exact Hx).
  nia.
Qed.

Lemma prod_zero_iff sh : prod sh = 0 <-> In 0 sh.
Proof.
  induction sh as [|s sh IH]; simpl; [split; [lia|tauto]|].
  rewrite Nat.eq_mul_0, IH. tauto.
Qed.

Lemma prod_remove_at n sh s :
  nth_error sh n = Some s -> prod sh = s * prod (remove_at n sh).
Proof.
  revert n; induction sh as [|x sh IH]; intros [|n]; simpl; intros H; try discriminate.
  - injection H as ->. reflexivity.
  - rewrite (IH n H). lia.
Qed.

(* ---- inb ---- *)
Lemma Forall2_len {A B} (R : A -> B -> Prop) l l' : Forall2 R l l' -> length l = length l'.
Proof. induction 1; simpl; auto. Qed.
Lemma inb_nil sh : inb [] sh -> sh = [].
Proof. inversion 1; reflexivity. Qed.
Lemma inb_length idx sh : inb idx sh -> length idx = length sh.
Proof. apply Forall2_len. Qed.
Lemma inb_cons i idx s sh : inb (i :: idx) (s :: sh) <-> i < s /\ inb idx sh.
Proof. split; [inversion 1; auto|intros [? ?]; constructor; auto]. Qed.

Lemma inb_app i1 i2 s1 s2 :
  length i1 = length s1 -> (inb (i1 ++ i2) (s1 ++ s2) <-> inb i1 s1 /\ inb i2 s2).
Proof.
  revert s1; induction i1 as [|i i1 IH]; intros [|s s1]; simpl; intros H; try discriminate.
  - split; [intros H2; split; [constructor|exact H2]|intros [_ H2]; exact H2].
  - rewrite !inb_cons, IH by lia. tauto.
Qed.

Lemma inb_rev idx sh : inb idx sh <-> inb (rev idx) (rev sh).
Proof.
  assert (F : forall a b, inb a b -> inb (rev a) (rev b)).
  { intros a b H; induction H; simpl; [constructor|].
    apply inb_app; [rewrite !rev_length; eapply Forall2_len; eauto|].
    split; [exact IHForall2|constructor; auto; constructor]. }
  split; [apply F|]. intros H. apply F in H. rewrite !rev_involutive in H. exact H.
Qed.

Lemma inb_nth idx sh k i s :
  inb idx sh -> nth_error idx k = Some i -> nth_error sh k = Some s -> i < s.
Proof.
  intros H; revert k; induction H as [|x y l l' Hxy H IH]; intros [|k]; simpl;
    intros Hi Hs; try discriminate.
  - injection Hi as ->; injection Hs as ->; exact Hxy.
  - eapply IH; eauto.
Qed.

Lemma inb_iff_nth idx sh :
  inb idx sh <->
  length idx = length sh /\
  forall k i s, nth_error idx k = Some i -> nth_error sh k = Some s -> i < s.
Proof.
  split.
  - intros H; split; [apply inb_length; exact H|]. intros; eapply inb_nth; eauto.
  - revert sh; induction idx as [|i idx IH]; intros [|s sh] [HL H]; try discriminate; constructor.
    + apply (H 0 i s); reflexivity.
    + apply IH; split; [simpl in HL; lia|]. intros k; exact (H (S k)).
Qed.

Lemma inb_upd idx sh n i s :
  inb idx sh -> i < s -> inb (upd idx n i) (upd sh n s).
Proof.
  unfold inb; intros H Hi; revert n; induction H as [|x y l l' Hxy H IH]; intros [|n]; simpl;
    constructor; auto.
Qed.

Lemma inb_prod_pos idx sh : inb idx sh -> 0 < prod sh.
Proof. induction 1; simpl; nia. Qed.

Lemma inb_insert_at n i s idx sh :
  inb idx sh -> i < s -> inb (insert_at n i idx) (insert_at n s sh).
Proof.
  unfold inb; intros H Hi; revert n; induction H as [|x y l l' Hxy H IH]; intros [|n]; simpl;
    constructor; auto; constructor; auto.
Qed.

Lemma inb_remove_at n idx sh : inb idx sh -> inb (remove_at n idx) (remove_at n sh).
Proof.
  unfold inb; intros H; revert n; induction H as [|x y l l' Hxy H IH]; intros [|n]; simpl; auto.
Qed.

(* ---- dot ---- *)
Lemma dot_nil_l st : dot [] st = 0%Z.
Proof. reflexivity. Qed.
Lemma dot_app i1 i2 s1 s2 :
  length i1 = length s1 -> dot (i1 ++ i2) (s1 ++ s2) = (dot i1 s1 + dot i2 s2)%Z.
Proof.
  revert s1; induction i1 as [|i i1 IH]; intros [|s s1]; simpl; intros H; try discriminate; [lia|].
  rewrite IH by lia. lia.
Qed.
Lemma dot_rev idx st : length idx = length st -> dot (rev idx) (rev st) = dot idx st.
Proof.
  revert st; induction idx as [|i idx IH]; intros [|s st] H; try discriminate; simpl; [reflexivity|].
  rewrite dot_app by (rewrite !rev_length; simpl in H; lia).
  rewrite IH by (simpl in H; lia). simpl; lia.
Qed.
Lemma dot_zeros n st : dot (repeat 0 n) st = 0%Z.
Proof. revert st; induction n as [|n IH]; intros [|s st]; simpl; auto. Qed.
Lemma dot_zero_strides idx n : dot idx (repeat 0%Z n) = 0%Z.
Proof. revert n; induction idx as [|i idx IH]; intros [|n]; simpl; auto. rewrite IH; lia. Qed.
Lemma dot_upd_strides idx st n i s s' :
  nth_error idx n = Some i -> nth_error st n = Some s ->
  dot idx (upd st n s') = (dot idx st + Z.of_nat i * (s' - s))%Z.
Proof.
  revert st n; induction idx as [|x idx IH]; intros [|y st] [|n]; simpl; intros Hi Hs; try discriminate.
  - injection Hi as ->; injection Hs as ->. lia.
  - rewrite (IH st n Hi Hs). lia.
Qed.
Lemma dot_upd_idx idx st n i s i' :
  nth_error idx n = Some i -> nth_error st n = Some s ->
  dot (upd idx n i') st = (dot idx st + (Z.of_nat i' - Z.of_nat i) * s)%Z.
Proof.
  revert st n; induction idx as [|x idx IH]; intros [|y st] [|n]; simpl; intros Hi Hs; try discriminate.
  - injection Hi as ->; injection Hs as ->. lia.
  - rewrite (IH st n Hi Hs). lia.
Qed.
Lemma dot_insert_at n i s idx st :
  length idx = length st -> n <= length idx ->
  dot (insert_at n i idx) (insert_at n s st) = (Z.of_nat i * s + dot idx st)%Z.
Proof.
  revert st n; induction idx as [|x idx IH]; intros [|y st] [|n]; simpl; intros H Hn; try lia.
  rewrite IH by lia. lia.
Qed.
Lemma dot_remove_at n idx st i s :
  length idx = length st ->
  nth_error idx n = Some i -> nth_error st n = Some s ->
  dot idx st = (Z.of_nat i * s + dot (remove_at n idx) (remove_at n st))%Z.
Proof.
  revert st n; induction idx as [|x idx IH]; intros [|y st] [|n]; simpl; intros H Hi Hs;
    try discriminate.
  - injection Hi as ->; injection Hs as ->. lia.
  - rewrite (IH st n ltac:(lia) Hi Hs). lia.
Qed.

(* ---- all_idx ---- *)
Lemma in_all_idx idx sh : In idx (all_idx sh) <-> inb idx sh.
Proof.
  revert idx; induction sh as [|s sh IH]; intros idx; simpl.
  - split; [intros [<-|[]]; constructor|intros H; inversion H; left; reflexivity].
  - rewrite in_flat_map. split.
    + intros [i [Hi H]]. apply in_map_iff in H. destruct H as [t [<- Ht]].
      apply in_seq in Hi. constructor; [lia|apply IH; exact Ht].
    + intros H; inversion H as [|i s' idx' sh' Hi Ht]; subst.
      exists i; split; [apply in_seq; lia|]. apply in_map, IH; exact Ht.
Qed.

Lemma flat_map_const_length {A B} (f : A -> list B) l n :
  (forall x, In x l -> length (f x) = n) -> length (flat_map f l) = length l * n.
Proof.
  induction l as [|x l IH]; simpl; intros H; [reflexivity|].
  rewrite app_length, H by (left; reflexivity). rewrite IH; [lia|].
  intros y Hy; apply H; right; exact Hy.
Qed.

Lemma all_idx_length sh : length (all_idx sh) = prod sh.
Proof.
  induction sh as [|s sh IH]; simpl; [reflexivity|].
  rewrite (flat_map_const_length _ _ (prod sh)); [rewrite seq_length; reflexivity|].
  intros; rewrite map_length; exact IH.
Qed.

(* mixed-radix digits of k *)
Fixpoint unrank (sh : list nat) (k : nat) : list nat :=
  match sh with
  | [] => []
  | _ :: sh' => k / prod sh' :: unrank sh' (k mod prod sh')
  end.
Fixpoint rank (sh idx : list nat) : nat :=
  match sh, idx with
  | _ :: sh', i :: idx' => i * prod sh' + rank sh' idx'
  | _, _ => 0
  end.

Lemma unrank_length sh k : length (unrank sh k) = length sh.
Proof. revert k; induction sh as [|s sh IH]; simpl; auto. Qed.

Lemma unrank_0 sh : unrank sh 0 = repeat 0 (length sh).
Proof.
  induction sh as [|s sh IH]; simpl; [reflexivity|].
  destruct (prod sh) as [|p] eqn:E; [simpl; rewrite IH; reflexivity|].
  rewrite Nat.div_0_l by lia. rewrite Nat.mod_0_l by lia. rewrite IH; reflexivity.
Qed.

Lemma rank_lt sh idx : inb idx sh -> rank sh idx < prod sh.
Proof.
  revert idx; induction sh as [|s sh IH]; intros idx H; inversion H; subst; simpl; [lia|].
  match goal with H' : Forall2 lt ?l sh |- _ => specialize (IH l H') end. nia.
Qed.

Lemma unrank_inb sh k : k < prod sh -> inb (unrank sh k) sh.
Proof.
  revert k; induction sh as [|s sh IH]; simpl; intros k H; constructor.
  - apply Nat.div_lt_upper_bound; nia.
  - apply IH. apply Nat.mod_upper_bound. nia.
Qed.

Lemma unrank_rank sh idx : inb idx sh -> unrank sh (rank sh idx) = idx.
Proof.
  revert idx; induction sh as [|s sh IH]; intros idx H; inversion H as [|i s' t sh' Hi Ht]; subst;
    simpl; [reflexivity|].
  pose proof (rank_lt sh t Ht).
  rewrite Nat.div_add_l by lia. rewrite (Nat.div_small (rank sh t)) by lia.
  rewrite (Nat.add_comm (i * _)), Nat.mod_add by lia. rewrite Nat.mod_small by lia.
  f_equal; [lia|]. apply IH; exact Ht.
Qed.

Lemma rank_unrank sh k : k < prod sh -> rank sh (unrank sh k) = k.
Proof.
  revert k; induction sh as [|s sh IH]; simpl; intros k H; [lia|].
  rewrite IH by (apply Nat.mod_upper_bound; nia).
  rewrite (Nat.div_mod k (prod sh)) at 3 by nia. lia.
Qed.

Lemma map_seq_shift {A} (f : nat -> A) a n : map f (seq a n) = map (fun j => f (a + j)) (seq 0 n).
Proof.
  revert a; induction n as [|n IH]; intros a; simpl; [reflexivity|].
  f_equal; [f_equal; lia|]. rewrite (IH (S a)), <- seq_shift, map_map.
  apply map_ext; intros; f_equal; lia.
Qed.

Lemma map_seq_blocks {A} (f : nat -> A) s p :
  map f (seq 0 (s * p)) = flat_map (fun i => map (fun j => f (i * p + j)) (seq 0 p)) (seq 0 s).
Proof.
  induction s as [|s IH]; [reflexivity|].
  replace (S s * p) with (s * p + p) by lia.
  rewrite seq_app, map_app, IH, seq_S, flat_map_app. cbn [flat_map plus]. rewrite app_nil_r.
  f_equal. apply map_seq_shift.
Qed.

Lemma flat_map_ext_in {A B} (f g : A -> list B) l :
  (forall x, In x l -> f x = g x) -> flat_map f l = flat_map g l.
Proof.
  induction l as [|x l IH]; simpl; intros H; [reflexivity|].
  rewrite H by (left; reflexivity). f_equal. apply IH; intros; apply H; right; assumption.
Qed.

Lemma all_idx_unrank sh : all_idx sh = map (unrank sh) (seq 0 (prod sh)).
Proof.
  induction sh as [|s sh IH]; simpl; [reflexivity|].
  rewrite (map_seq_blocks _ s (prod sh)).
  apply flat_map_ext_in. intros i Hi. rewrite IH, map_map.
  apply map_ext_in. intros j Hj. apply in_seq in Hj.
  assert (prod sh <> 0) by lia.
  rewrite Nat.div_add_l by lia. rewrite (Nat.div_small j) by lia.
  rewrite (Nat.add_comm (i * _)), Nat.mod_add by lia. rewrite Nat.mod_small by lia.
  rewrite Nat.add_0_r. reflexivity.
Qed.

Lemma nth_error_all_idx sh k :
  k < prod sh -> nth_error (all_idx sh) k = Some (unrank sh k).
Proof.
  intros H. rewrite all_idx_unrank, nth_error_map', nth_error_seq.
  destruct (Nat.ltb_spec k (prod sh)); [reflexivity|lia].
Qed.

Lemma nth_error_all_idx_rank sh idx :
  inb idx sh -> nth_error (all_idx sh) (rank sh idx) = Some idx.
Proof.
  intros H. rewrite nth_error_all_idx by (apply rank_lt; exact H).
  rewrite unrank_rank by exact H. reflexivity.
Qed.

Lemma all_idx_nodup sh : NoDup (all_idx sh).
Proof.
  rewrite all_idx_unrank.
  assert (G : forall l, NoDup l -> (forall k, In k l -> k < prod sh) -> NoDup (map (unrank sh) l)).
  { induction l as [|k l IH]; intros ND HB; simpl; [constructor|].
    inversion ND; subst. constructor.
    - intros Hin. apply in_map_iff in Hin. destruct Hin as [k' [E Hk']].
      assert (k' = k).
      { rewrite <- (rank_unrank sh k'), <- (rank_unrank sh k), E; auto;
          apply HB; [left; reflexivity|right; exact Hk']. }
      subst; contradiction.
    - apply IH; auto. intros; apply HB; right; assumption. }
  apply G; [apply seq_NoDup|]. intros k Hk; apply in_seq in Hk; lia.
Qed.
