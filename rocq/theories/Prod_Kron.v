(* Lemmas about kron, cross and tensordot. *)
From Coq Require Import Ring.
From Verif Require Import Base Lists Arr_Spec Arr_Model Arr_Wf Arr_Proofs Idx_Model Copy_Model Elem_Model Int_Model Red_Model Red_Scan Conv_Spec Conv_Proofs Promo_Spec Promo_Model Gu_Spec Gu_Model Gu_Proofs Mat_Spec Mat_Model Mat_Proofs Mat_Batch Mat_Laws Prod_Spec Prod_Model Prod_Proofs.
Local Open Scope nat_scope.

Section K.
Context {V R : Type}.
Variables (rzero : R) (rmul : R -> R -> R).
Variable rd : kind -> V -> R.
Variable wr : kind -> R -> V.
Notation w64 := (wr Float64).

Lemma put64_write (buf : list V) i s : put64 wr buf i s = write_all [(i, w64 s)] buf.
Proof. reflexivity. Qed.

Lemma kron_1d_ok (rda rdb : nat -> res R) m p f g : (Z.of_nat (m * p) * 8 < 2 ^ 63)%Z ->
  (forall i, i < m -> rda i = Ok (f i)) -> (forall k, k < p -> rdb k = Ok (g k)) ->
  exists out, kron_1d rzero rmul wr rda rdb m p = Ok out /\
    vector_of out Float64 (m * p) (fun r => w64 (kronecker1 rmul p f g r)).
Proof.
  intros HB HF HG. unfold kron_1d.
  rewrite (foldM_writes _ (fun i => flat_map (fun k => [(i * p + k, w64 (rmul (f i) (g k)))]) (seq 0 p)) (m * p)).
  2:{ intros i Hi buf HL. apply in_seq in Hi. rewrite HF by lia. cbn [bind]. apply (foldM_writes _ _ (m * p)); [|exact HL].
      intros k Hk b _. apply in_seq in Hk. rewrite HG by lia. reflexivity. }
  2:{ apply repeat_length. }
  match goal with |- context [write_all ?l _] => destruct (write_fill l (fun r => w64 (kronecker1 rmul p f g r)) (repeat (w64 rzero) (m * p))) as (out & E & HL & HN) end.
  - intros q v Hin. rewrite repeat_length. apply in_flat_map in Hin as (i & Hi & Hin). apply in_flat_map in Hin as (k & Hk & [[= <- <-]|[]]).
    apply in_seq in Hi, Hk. split; [nia|]. unfold kronecker1.
    rewrite Nat.div_add_l, Nat.div_small, Nat.add_0_r by lia.
    rewrite (Nat.add_comm (i * p)), Nat.mod_add, Nat.mod_small by lia. reflexivity.
  - intros q Hq. rewrite repeat_length in Hq. assert (p <> 0) by lia. pose proof (Nat.div_mod q p H) as HD. pose proof (Nat.mod_upper_bound q p H).
    exists (w64 (rmul (f (q / p)) (g (q mod p)))). apply in_flat_map. exists (q / p).
    split; [apply in_seq; split; [apply Nat.le_0_l|apply Nat.div_lt_upper_bound; lia]|]. apply in_flat_map. exists (q mod p).
    split; [apply in_seq; lia|]. left. f_equal. lia.
  - rewrite E. cbn [bind]. eexists. split; [reflexivity|]. rewrite repeat_length in *.
    apply (fresh_array Float64 [m * p] out); [reflexivity|cbn [prod itemsize]; rewrite Nat.mul_1_r; exact HB|rewrite HL; cbn [prod]; lia|].
    intros idx Hi. inversion Hi as [|r u c1 w Hr Hc1]; subst. inversion Hc1; subst. cbn [rank nth prod].
    replace (r * 1 + 0) with r by lia. apply HN, Hr.
Qed.

Lemma kron_2d_ok (rda rdb : nat -> nat -> res R) m n p q f g : (Z.of_nat (m * p * (n * q)) * 8 < 2 ^ 63)%Z ->
  (forall i j, i < m -> j < n -> rda i j = Ok (f i j)) -> (forall k l, k < p -> l < q -> rdb k l = Ok (g k l)) ->
  exists out, kron_2d rzero rmul wr rda rdb m n p q = Ok out /\
    matrix_of out Float64 (m * p) (n * q) (fun r c => w64 (kronecker rmul p q f g r c)).
Proof.
  intros HB HF HG. unfold kron_2d.
  rewrite (foldM_writes _ (fun i => flat_map (fun j => flat_map (fun k => flat_map (fun l =>
     [((i * p + k) * (n * q) + (j * q + l), w64 (rmul (f i j) (g k l)))]) (seq 0 q)) (seq 0 p)) (seq 0 n)) (m * p * (n * q))).
  2:{ intros i Hi b1 L1. apply in_seq in Hi. apply (foldM_writes _ _ (m * p * (n * q))); [|exact L1]. intros j Hj b2 L2. apply in_seq in Hj.
      rewrite HF by lia. cbn [bind]. apply (foldM_writes _ _ (m * p * (n * q))); [|exact L2]. intros k Hk b3 L3. apply in_seq in Hk.
      apply (foldM_writes _ _ (m * p * (n * q))); [|exact L3]. intros l Hl b4 _. apply in_seq in Hl. rewrite HG by lia. reflexivity. }
  2:{ apply repeat_length. }
  match goal with |- context [write_all ?l _] => destruct (write_fill l (fun z => w64 (kronecker rmul p q f g (z / (n * q)) (z mod (n * q)))) (repeat (w64 rzero) (m * p * (n * q)))) as (out & E & HL & HN) end.
  - intros z v Hin. rewrite repeat_length. apply in_flat_map in Hin as (i & Hi & Hin). apply in_flat_map in Hin as (j & Hj & Hin).
    apply in_flat_map in Hin as (k & Hk & Hin). apply in_flat_map in Hin as (l & Hl & [[= <- <-]|[]]).
    apply in_seq in Hi, Hj, Hk, Hl.
    assert (HR : i * p + k < m * p) by nia. assert (HC : j * q + l < n * q) by nia.
    split; [clear -HR HC; nia|]. unfold kronecker.
    set (r := i * p + k) in *. set (c := j * q + l) in *. set (w := n * q) in *.
    assert (E1 : (r * w + c) / w = r) by (rewrite Nat.div_add_l, Nat.div_small by lia; lia).
    assert (E2 : (r * w + c) mod w = c) by (rewrite (Nat.add_comm (r * w)), Nat.mod_add, Nat.mod_small by lia; reflexivity).
    rewrite E1, E2. unfold r, c.
    rewrite !Nat.div_add_l, !Nat.div_small, !Nat.add_0_r by lia.
    rewrite (Nat.add_comm (i * p)), (Nat.add_comm (j * q)), !Nat.mod_add, !Nat.mod_small by lia. reflexivity.
  - intros z Hz. rewrite repeat_length in Hz. set (w := n * q) in *.
    assert (w <> 0) by nia. assert (p <> 0) by nia. assert (q <> 0) by (unfold w in *; nia).
    pose proof (Nat.div_mod z w ltac:(lia)) as D1. pose proof (Nat.mod_upper_bound z w ltac:(lia)) as M1.
    set (r := z / w) in *. set (c := z mod w) in *.
    assert (HR : r < m * p) by (apply Nat.div_lt_upper_bound; lia).
    pose proof (Nat.div_mod r p ltac:(lia)) as D2. pose proof (Nat.mod_upper_bound r p ltac:(lia)) as M2.
    pose proof (Nat.div_mod c q ltac:(lia)) as D3. pose proof (Nat.mod_upper_bound c q ltac:(lia)) as M3.
    exists (w64 (rmul (f (r / p) (c / q)) (g (r mod p) (c mod q)))).
    apply in_flat_map. exists (r / p). split; [apply in_seq; split; [apply Nat.le_0_l|apply Nat.div_lt_upper_bound; lia]|].
    apply in_flat_map. exists (c / q). split; [apply in_seq; split; [apply Nat.le_0_l|apply Nat.div_lt_upper_bound; unfold w in M1; lia]|].
    apply in_flat_map. exists (r mod p). split; [apply in_seq; lia|].
    apply in_flat_map. exists (c mod q). split; [apply in_seq; lia|]. left. f_equal.
    replace (r / p * p + r mod p) with r by lia. replace (c / q * q + c mod q) with c by lia. lia.
  - rewrite E. cbn [bind]. eexists. split; [reflexivity|]. rewrite repeat_length in *.
    apply (fresh_array Float64 [m * p; n * q] out); [reflexivity|cbn [prod itemsize]; rewrite Nat.mul_1_r; exact HB|rewrite HL; cbn [prod]; lia|].
    intros idx Hi. inversion Hi as [|r u c1 w Hr Hc1]; subst. inversion Hc1 as [|c u' c2 w' Hc Hc2]; subst. inversion Hc2; subst. cbn [rank nth prod].
    replace (r * (n * q * 1) + (c * 1 + 0)) with (r * (n * q) + c) by lia.
    rewrite HN by nia. f_equal. f_equal.
    rewrite Nat.div_add_l, Nat.div_small, Nat.add_0_r by lia.
    rewrite (Nat.add_comm (r * _)), Nat.mod_add, Nat.mod_small by lia. reflexivity.
Qed.

Lemma item64_ok (o : @operand V) sh f idx : array_of o Float64 sh f -> contig64 o = true -> inb idx sh ->
  item64 rd o (rank sh idx) = Ok (rd Float64 (f idx)).
Proof.
  intros (K1 & W & S1 & I1 & G1) HC Hi. apply andb_prop in HC as [HC _]. pose proof W as (_ & _ & _ & WL & _ & WC & _).
  unfold item64, read. pose proof (G1 idx Hi) as E. unfold get, byte_offset_for in E.
  rewrite (c_contig_dot sh _ (a_item (o_arr o))) in E; [|rewrite <- S1; exact WL|exact Hi|rewrite <- S1; apply WC, HC].
  rewrite I1 in *. cbn [itemsize] in *. rewrite Z.mul_comm, E. reflexivity.
Qed.
Lemma contig_kind (o : @operand V) k sh f : array_of o k sh f -> contig64 o = true -> k = Float64.
Proof.
  intros (K1 & _) HC. apply andb_prop in HC as [_ HC]. rewrite K1 in HC. destruct k; try discriminate. reflexivity.
Qed.
Notation krn := (kron rzero rmul rd wr).

Theorem kron_matrices ka kb (x y : @operand V) m n p q f g : matrix_of x ka m n f -> matrix_of y kb p q g ->
  (Z.of_nat (m * p * (n * q)) * 8 < 2 ^ 63)%Z ->
  exists out, krn x y = Ok out /\
    matrix_of out Float64 (m * p) (n * q) (fun r c => w64 (kronecker rmul p q (fun i j => rd ka (f i j)) (fun i j => rd kb (g i j)) r c)).
Proof.
  intros HX HY HB. pose proof HX as (KX & WX & SX & IX & GX). pose proof HY as (KY & WY & SY & IY & GY).
  unfold kron, ndim. rewrite SX, SY. cbn [length Nat.ltb Nat.leb orb Nat.max pad_ones Nat.sub repeat app].
  destruct (contig64 x && contig64 y) eqn:EC.
  - apply andb_prop in EC as [EX EY]. pose proof (contig_kind x _ _ _ HX EX) as E1. pose proof (contig_kind y _ _ _ HY EY) as E2. clear KX KY. subst ka kb.
    apply kron_2d_ok; [exact HB| |].
    + intros i j Hi Hj. assert (Hij : inb [i; j] [m; n]) by (repeat constructor; assumption).
      pose proof (item64_ok x _ _ _ HX EX Hij) as E. cbn [rank prod nth] in E. rewrite <- E. f_equal. lia.
    + intros i j Hi Hj. assert (Hij : inb [i; j] [p; q]) by (repeat constructor; assumption).
      pose proof (item64_ok y _ _ _ HY EY Hij) as E. cbn [rank prod nth] in E. rewrite <- E. f_equal. lia.
  - apply kron_2d_ok; [exact HB| |]; intros i j Hi Hj; rewrite ?KX, ?KY.
    + assert (Hij : inb [i; j] [m; n]) by (repeat constructor; assumption).
      apply (elem_ok rd ka (snd x) [i; j]); [fold (o_arr x); rewrite SX; exact Hij|exact (GX _ Hij)].
    + assert (Hij : inb [i; j] [p; q]) by (repeat constructor; assumption).
      apply (elem_ok rd kb (snd y) [i; j]); [fold (o_arr y); rewrite SY; exact Hij|exact (GY _ Hij)].
Qed.
Theorem kron_vectors ka kb (x y : @operand V) m p f g : vector_of x ka m f -> vector_of y kb p g ->
  (Z.of_nat (m * p) * 8 < 2 ^ 63)%Z ->
  exists out, krn x y = Ok out /\
    vector_of out Float64 (m * p) (fun r => w64 (kronecker1 rmul p (fun i => rd ka (f i)) (fun i => rd kb (g i)) r)).
Proof.
  intros HX HY HB. pose proof HX as (KX & WX & SX & IX & GX). pose proof HY as (KY & WY & SY & IY & GY).
  unfold kron, ndim. rewrite SX, SY. cbn [length Nat.ltb Nat.leb orb Nat.max pad_ones Nat.sub repeat app].
  destruct (contig64 x && contig64 y) eqn:EC.
  - apply andb_prop in EC as [EX EY]. pose proof (contig_kind x _ _ _ HX EX) as E1. pose proof (contig_kind y _ _ _ HY EY) as E2. clear KX KY. subst ka kb.
    apply kron_1d_ok; [exact HB| |].
    + intros i Hi. assert (Hij : inb [i] [m]) by (repeat constructor; assumption).
      pose proof (item64_ok x _ _ _ HX EX Hij) as E. cbn [rank prod nth] in E. rewrite <- E. f_equal. lia.
    + intros i Hi. assert (Hij : inb [i] [p]) by (repeat constructor; assumption).
      pose proof (item64_ok y _ _ _ HY EY Hij) as E. cbn [rank prod nth] in E. rewrite <- E. f_equal. lia.
  - apply kron_1d_ok; [exact HB| |]; intros i Hi; rewrite ?KX, ?KY.
    + assert (Hij : inb [i] [m]) by (repeat constructor; assumption).
      apply (elem_ok rd ka (snd x) [i]); [fold (o_arr x); rewrite SX; exact Hij|exact (GX _ Hij)].
    + assert (Hij : inb [i] [p]) by (repeat constructor; assumption).
      apply (elem_ok rd kb (snd y) [i]); [fold (o_arr y); rewrite SY; exact Hij|exact (GY _ Hij)].
Qed.

End K.

Section Cross.
Context {V R : Type}.
Variables (rmul rsub : R -> R -> R) (rd : kind -> V -> R) (wr : kind -> R -> V).
Notation w64 := (wr Float64).
(* ---------- cross ---------- *)
Theorem cross_spec ka kb (x y : @operand V) f g : vector_of x ka 3 f -> vector_of y kb 3 g ->
  exists out, cross rmul rsub rd wr x y = Ok out /\
    vector_of out Float64 3 (fun i => w64 (cross3 rmul rsub (fun i => rd ka (f i)) (fun i => rd kb (g i)) i)).
Proof.
  intros (KX & WX & SX & IX & GX) (KY & WY & SY & IY & GY). unfold cross. rewrite SX, SY, KX, KY.
  assert (EX : forall i, i < 3 -> elem rd ka (snd x) [i] = Ok (rd ka (f i))).
  { intros i Hi. assert (Hij : inb [i] [3]) by (constructor; [exact Hi|constructor]).
    apply (elem_ok rd ka (snd x) [i]); [fold (o_arr x); rewrite SX; exact Hij|exact (GX _ Hij)]. }
  assert (EY : forall i, i < 3 -> elem rd kb (snd y) [i] = Ok (rd kb (g i))).
  { intros i Hi. assert (Hij : inb [i] [3]) by (constructor; [exact Hi|constructor]).
    apply (elem_ok rd kb (snd y) [i]); [fold (o_arr y); rewrite SY; exact Hij|exact (GY _ Hij)]. }
  rewrite (EX 0), (EX 1), (EX 2), (EY 0), (EY 1), (EY 2) by lia. cbn [bind]. eexists. split; [reflexivity|].
  apply fresh_array; [reflexivity|reflexivity|reflexivity|].
  intros idx Hi. inversion Hi as [|i u c1 w Hi1 Hc1]; subst. inversion Hc1; subst. cbn [rank prod nth].
  replace (i * 1 + 0) with i by lia. destruct i as [|[|[|]]]; try reflexivity. lia.
Qed.

End Cross.

Section T.
Context {V R : Type}.
Variables (rzero : R) (radd rmul : R -> R -> R) (rd : kind -> V -> R) (wr : kind -> R -> V).
Notation w64 := (wr Float64).
(* ---------- tensordot over one axis ---------- *)
Variable mm : @operand V -> @operand V -> res (@operand V).
Notation td := (tensordot_n rzero radd rmul rd wr mm).
Notation dotp := (dot_product rzero radd rmul).
Theorem tensordot_matrices (x y : @operand V) m n p : a_shape (o_arr x) = [m; n] -> a_shape (o_arr y) = [n; p] -> td x y 1 = mm x y.
Proof.
  intros SX SY. unfold tensordot_n, tensordot, ndim, dims_match. rewrite SX, SY. cbn. rewrite Nat.eqb_refl. reflexivity.
Qed.
Lemma fill_loop (rv : nat -> res R) (h : nat -> R) m : (Z.of_nat m * 8 < 2 ^ 63)%Z -> (forall i, i < m -> rv i = Ok (h i)) ->
  exists buf, foldM (fun buf i => bind (rv i) (put64 wr buf i)) (seq 0 m) (repeat (w64 rzero) (prod [m])) = Ok buf /\
    vector_of (array Float64 [m] buf) Float64 m (fun i => w64 (h i)).
Proof.
  intros HB H. cbn [prod]. rewrite Nat.mul_1_r.
  rewrite (foldM_writes _ (fun i => [(i, w64 (h i))]) m); [|intros i Hi b Hb; apply in_seq in Hi; rewrite H by lia; reflexivity|apply repeat_length].
  match goal with |- context [write_all ?l _] => destruct (write_fill l (fun i => w64 (h i)) (repeat (w64 rzero) m)) as (out & E & HL & HN) end.
  - intros q v Hin. apply in_flat_map in Hin as (i & Hi & [[= <- <-]|[]]). apply in_seq in Hi. rewrite repeat_length. split; [lia|reflexivity].
  - intros q Hq. rewrite repeat_length in Hq. eexists. apply in_flat_map. exists q. split; [apply in_seq; lia|left; reflexivity].
  - exists out. split; [exact E|]. rewrite repeat_length in *.
    apply (fresh_array Float64 [m] out); [reflexivity|cbn [prod itemsize]; rewrite Nat.mul_1_r; exact HB|rewrite HL; cbn [prod]; lia|].
    intros idx Hi. inversion Hi as [|r u c1 w Hr Hc1]; subst. inversion Hc1; subst. cbn [rank nth prod].
    replace (r * 1 + 0) with r by lia. apply HN, Hr.
Qed.
Theorem tensordot_mat_vec ka kb (x y : @operand V) m n f g : matrix_of x ka m n f -> vector_of y kb n g -> (Z.of_nat m * 8 < 2 ^ 63)%Z ->
  exists out, td x y 1 = Ok out /\
    vector_of out Float64 m (fun i => w64 (dotp n (fun j => rd ka (f i j)) (fun j => rd kb (g j)))).
Proof.
  intros (KX & WX & SX & IX & GX) (KY & WY & SY & IY & GY) HB.
  unfold tensordot_n, tensordot, ndim, dims_match. rewrite SX, SY, KX, KY. cbn -[prod]. rewrite Nat.eqb_refl. cbn -[prod].
  destruct (fill_loop (fun i => foldM (fun s j => bind (elem rd ka (snd x) [i; j]) (fun u => bind (elem rd kb (snd y) [j]) (fun v => Ok (radd s (rmul u v))))) (seq 0 n) rzero)
     (fun i => dotp n (fun j => rd ka (f i j)) (fun j => rd kb (g j))) m HB) as (buf & E & HM).
  - intros i Hi. apply acc_loop; intros j Hj.
    + assert (Hij : inb [i; j] [m; n]) by (repeat constructor; assumption).
      apply (elem_ok rd ka (snd x) [i; j]); [fold (o_arr x); rewrite SX; exact Hij|exact (GX _ Hij)].
    + assert (Hij : inb [j] [n]) by (repeat constructor; assumption).
      apply (elem_ok rd kb (snd y) [j]); [fold (o_arr y); rewrite SY; exact Hij|exact (GY _ Hij)].
  - rewrite E. eexists. split; [reflexivity|exact HM].
Qed.
Theorem tensordot_vec_mat ka kb (x y : @operand V) n p f g : vector_of x ka n f -> matrix_of y kb n p g -> (Z.of_nat p * 8 < 2 ^ 63)%Z ->
  exists out, td x y 1 = Ok out /\
    vector_of out Float64 p (fun j => w64 (dotp n (fun i => rd ka (f i)) (fun i => rd kb (g i j)))).
Proof.
  intros (KX & WX & SX & IX & GX) (KY & WY & SY & IY & GY) HB.
  unfold tensordot_n, tensordot, ndim, dims_match. rewrite SX, SY, KX, KY. cbn -[prod]. rewrite Nat.eqb_refl. cbn -[prod].
  destruct (fill_loop (fun j => foldM (fun s i => bind (elem rd ka (snd x) [i]) (fun u => bind (elem rd kb (snd y) [i; j]) (fun v => Ok (radd s (rmul u v))))) (seq 0 n) rzero)
     (fun j => dotp n (fun i => rd ka (f i)) (fun i => rd kb (g i j))) p HB) as (buf & E & HM).
  - intros j Hj. apply acc_loop; intros i Hi.
    + assert (Hij : inb [i] [n]) by (repeat constructor; assumption).
      apply (elem_ok rd ka (snd x) [i]); [fold (o_arr x); rewrite SX; exact Hij|exact (GX _ Hij)].
    + assert (Hij : inb [i; j] [n; p]) by (repeat constructor; assumption).
      apply (elem_ok rd kb (snd y) [i; j]); [fold (o_arr y); rewrite SY; exact Hij|exact (GY _ Hij)].
  - rewrite E. eexists. split; [reflexivity|exact HM].
Qed.
Theorem tensordot_vectors ka kb (x y : @operand V) n f g : vector_of x ka n f -> vector_of y kb n g ->
  exists out, td x y 1 = Ok out /\
    vector_of out Float64 1 (fun _ => w64 (dotp n (fun i => rd ka (f i)) (fun i => rd kb (g i)))).
Proof.
  intros (KX & WX & SX & IX & GX) (KY & WY & SY & IY & GY).
  unfold tensordot_n, tensordot, ndim, dims_match. rewrite SX, SY, KX, KY. cbn -[prod dot_loop]. rewrite Nat.eqb_refl. cbn -[prod dot_loop].
  rewrite (dot_loop_ok rzero radd rmul rd ka kb (snd x) (snd y) n f g).
  - cbn. eexists. split; [reflexivity|]. apply fresh_array; [reflexivity|reflexivity|reflexivity|].
    intros idx Hi. inversion Hi as [|i u c1 w Hi1 Hc1]; subst. inversion Hc1; subst. assert (i = 0) by lia. subst. reflexivity.
  - exact SX.
  - exact SY.
  - intros i Hi. apply (GX [i]). repeat constructor; exact Hi.
  - intros i Hi. apply (GY [i]). repeat constructor; exact Hi.
Qed.

(* ---------- dot ---------- *)
Variable vmul : kind -> V -> V -> V.
Notation dt := (dot2 rzero radd rmul rd wr vmul mm).
Theorem dot_vectors ka kb x y n f g : (0 < itemsize ka < 2 ^ 63)%Z -> vector_of x ka n f -> vector_of y kb n g ->
  exists out, dt x y = Ok out /\ array_of out ka [] (fun _ => wr ka (dotp n (fun i => rd ka (f i)) (fun i => rd kb (g i)))).
Proof.
  intros HI (KX & WX & SX & IX & GX) (KY & WY & SY & IY & GY). unfold dot2. rewrite SX, SY, Nat.eqb_refl, KX, KY. cbn [negb].
  rewrite (dot_loop_ok rzero radd rmul rd ka kb (snd x) (snd y) n f g).
  - cbn [bind]. eexists. split; [reflexivity|]. apply fresh_array; [lia|cbn [prod]; lia|reflexivity|].
    intros idx Hi. inversion Hi. reflexivity.
  - exact SX.
  - exact SY.
  - intros i Hi. apply (GX [i]). repeat constructor; exact Hi.
  - intros i Hi. apply (GY [i]). repeat constructor; exact Hi.
Qed.
Theorem dot_reject x y n m : a_shape (o_arr x) = [n] -> a_shape (o_arr y) = [m] -> n <> m -> dt x y = Err.
Proof. intros SX SY HN. unfold dot2. rewrite SX, SY. destruct (Nat.eqb_spec n m); [contradiction|reflexivity]. Qed.
Theorem dot_matrices x y m n p q : a_shape (o_arr x) = [m; n] -> a_shape (o_arr y) = [p; q] -> dt x y = mm x y.
Proof. intros SX SY. unfold dot2. rewrite SX, SY. reflexivity. Qed.
End T.

(* ---------- algebra ---------- *)
Section A.
Context {R : Type}.
Variables (zero one : R) (add mul sub : R -> R -> R) (opp : R -> R).
Hypothesis RT : ring_theory zero one add mul sub opp eq.
Add Ring Rr3 : RT.
Local Notation bg := (big zero add).

Lemma big_plus m k f : bg (m + k) f = add (bg m f) (bg k (fun j => f (m + j))).
Proof using RT.
  induction k as [|k IH]; [rewrite Nat.add_0_r; cbn [big]; ring|]. rewrite Nat.add_succ_r. cbn [big]. rewrite IH. ring.
Qed.
Lemma big_mult n q f : bg (n * q) f = bg n (fun j => bg q (fun l => f (j * q + l))).
Proof using RT.
  induction n as [|n IH]; [reflexivity|]. cbn [big]. rewrite <- IH, <- big_plus. f_equal. lia.
Qed.
Lemma kron_mixed n p q s x y z w r c : 0 < q ->
  product zero add mul (n * q) (kronecker mul p q x y) (kronecker mul q s z w) r c =
  kronecker mul p s (product zero add mul n x z) (product zero add mul q y w) r c.
Proof using RT.
  intros HQ. unfold product. rewrite big_mult. unfold kronecker.
  rewrite (big_ext zero add n _ (fun j => mul (mul (x (r / p) j) (z j (c / s))) (bg q (fun l => mul (y (r mod p) l) (w l (c mod s)))))).
  - rewrite (big_scale_r zero one add mul sub opp RT). reflexivity.
  - intros j Hj. rewrite <- (big_scale zero one add mul sub opp RT). apply big_ext. intros l Hl.
    assert (E1 : (j * q + l) / q = j) by (rewrite Nat.div_add_l, Nat.div_small by lia; lia).
    assert (E2 : (j * q + l) mod q = l) by (rewrite Nat.add_comm, Nat.mod_add, Nat.mod_small by lia; reflexivity).
    rewrite E1, E2. ring.
Qed.
Lemma dot_product_big n x y : dot_product zero add mul n x y = bg n (fun k => mul (x k) (y k)).
Proof using RT. apply (sum_prod_big zero one add mul sub opp RT). Qed.
Lemma cross_anti x y i : cross3 mul sub y x i = opp (cross3 mul sub x y i).
Proof using RT. destruct i as [|[|]]; cbn [cross3]; ring. Qed.
Lemma cross_orth_l x y : dot_product zero add mul 3 x (cross3 mul sub x y) = zero.
Proof using RT. unfold dot_product. cbn [seq fold_left cross3]. ring. Qed.
Lemma cross_orth_r x y : dot_product zero add mul 3 y (cross3 mul sub x y) = zero.
Proof using RT. unfold dot_product. cbn [seq fold_left cross3]. ring. Qed.
End A.
