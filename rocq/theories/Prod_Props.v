(* C78: dot, inner, outer and vdot are the textbook sums and products.
   C80: kron, cross and tensordot satisfy their defining equations. *)
From Coq Require Import Ring.
From Verif Require Import Base Lists Arr_Spec Arr_Model Arr_Wf Arr_Proofs Wf_Check Bcast_Model Elem_Model Int_Model F64_Model F64_Proofs Red_Model Conv_Spec Conv_Proofs Promo_Spec Promo_Model Gu_Spec Gu_Model Gu_Proofs Mat_Spec Mat_Model Mat_Proofs Mat_Batch Mat_Laws Prod_Spec Prod_Model Prod_Proofs Prod_Kron.
Local Open Scope nat_scope.

(* ================= C78 ================= *)
(* dot of two vectors, any dtypes, any layout: the sum of the products of the values read
   as doubles, converted to the dtype of the first operand *)
Theorem C78_dot_partial : forall V R (rzero : R) radd rmul rd (wr : kind -> R -> V) vmul mm ka kb x y n f g,
  (0 < itemsize ka < 2 ^ 63)%Z -> vector_of x ka n f -> vector_of y kb n g ->
  exists out, dot2 rzero radd rmul rd wr vmul mm x y = Ok out /\
    array_of out ka [] (fun _ => wr ka (dot_product rzero radd rmul n (fun i => rd ka (f i)) (fun i => rd kb (g i)))).
Proof. intros. eapply dot_vectors; eassumption. Qed.

(* ... so for float64 over exact arithmetic it is the sum of the products, in either order *)
Theorem C78_dot_exact_partial : forall R (zero one : R) add mul sub opp, ring_theory zero one add mul sub opp eq ->
  forall vmul mm x y n f g, vector_of x Float64 n f -> vector_of y Float64 n g ->
  exists o1 o2, dot2 zero add mul (fun _ v => v) (fun _ v => v) vmul mm x y = Ok o1 /\
    dot2 zero add mul (fun _ v => v) (fun _ v => v) vmul mm y x = Ok o2 /\
    array_of o1 Float64 [] (fun _ => big zero add n (fun k => mul (f k) (g k))) /\
    array_of o2 Float64 [] (fun _ => big zero add n (fun k => mul (f k) (g k))).
Proof.
  intros R zero one add mul sub opp RT vmul mm x y n f g HX HY.
  destruct (dot_vectors zero add mul (fun _ (v : R) => v) (fun _ v => v) mm vmul Float64 Float64 x y n f g ltac:(cbn; lia) HX HY) as (o1 & E1 & H1).
  destruct (dot_vectors zero add mul (fun _ (v : R) => v) (fun _ v => v) mm vmul Float64 Float64 y x n g f ltac:(cbn; lia) HY HX) as (o2 & E2 & H2).
  exists o1, o2. split; [exact E1|]. split; [exact E2|].
  split; (eapply array_of_ext; [|eassumption]); intros idx _; cbv beta; rewrite (dot_product_big zero one add mul sub opp RT); [reflexivity|].
  apply big_ext. intros i Hi. apply (Rmul_comm RT).
Qed.

(* int64 vectors: exact as long as every number met on the way is at most 2^53 *)
Lemma zf_sum n (f g : nat -> Z) :
  (forall k, k < n -> (Z.abs (f k) <= 2 ^ 53 /\ Z.abs (g k) <= 2 ^ 53 /\ Z.abs (f k * g k) <= 2 ^ 53)%Z) ->
  (forall m, m <= n -> (Z.abs (big 0 Z.add m (fun k => f k * g k)) <= 2 ^ 53)%Z) ->
  dot_product 0%Z zf_add zf_mul n (fun k => z_rd Int64 (f k)) (fun k => z_rd Int64 (g k)) = big 0%Z Z.add n (fun k => (f k * g k)%Z).
Proof.
  unfold dot_product. induction n as [|n IH]; intros H1 H2; [reflexivity|].
  rewrite seq_S, fold_left_app, IH; [|intros; apply H1; lia|intros; apply H2; lia].
  cbn [fold_left Nat.add big z_rd]. unfold zf_add, zf_mul.
  destruct (H1 n ltac:(lia)) as (A & B & C).
  rewrite (f64_of_int_small (f n)), (f64_of_int_small (g n)), (f64_of_int_small (f n * g n)) by assumption.
  apply f64_of_int_small. exact (H2 (S n) ltac:(lia)).
Qed.
Theorem C78_dot_int_partial : forall x y n f g, vector_of x Int64 n f -> vector_of y Int64 n g ->
  (forall k, k < n -> (Z.abs (f k) <= 2 ^ 53 /\ Z.abs (g k) <= 2 ^ 53 /\ Z.abs (f k * g k) <= 2 ^ 53)%Z) ->
  (forall m, m <= n -> (Z.abs (big 0 Z.add m (fun k => f k * g k)) <= 2 ^ 53)%Z) ->
  exists out, z_dot x y = Ok out /\ array_of out Int64 [] (fun _ => big 0%Z Z.add n (fun k => (f k * g k)%Z)).
Proof.
  intros x y n f g HX HY H1 H2.
  destruct (dot_vectors 0%Z zf_add zf_mul z_rd z_wr z_mm z_vmul Int64 Int64 x y n f g ltac:(cbn; lia) HX HY) as (out & E & H).
  exists out. split; [exact E|]. eapply array_of_ext; [|exact H]. intros idx _. cbv beta. rewrite zf_sum by assumption.
  cbn [z_wr]. specialize (H2 n (le_n n)). unfold sat. change (i_min i64) with (- 2 ^ 63)%Z. change (i_max i64) with (2 ^ 63 - 1)%Z. lia.
Qed.

(* inner over stacks of float64 vectors *)
Theorem C78_inner_partial : forall V R (vzero : V) (rzero : R) radd rmul rd wr raw x y lx ly loop n f g,
  array_of x Float64 (lx ++ [n]) f -> array_of y Float64 (ly ++ [n]) g ->
  joint [lx; ly] loop -> aligned x lx loop -> aligned y ly loop -> (Z.of_nat (prod loop) * 8 < 2 ^ 63)%Z ->
  exists out, inner vzero rzero radd rmul rd wr raw x y = Ok out /\
    array_of out Float64 loop (fun l => wr Float64 (dot_product rzero radd rmul n
      (fun q => rd Float64 (f (unbroadcast lx l ++ [q]))) (fun q => rd Float64 (g (unbroadcast ly l ++ [q]))))).
Proof.
  intros V R vzero rzero radd rmul rd wr raw x y lx ly loop n f g HX HY HJ AX AY HB.
  exact (inner_stack vzero rzero radd rmul rd wr raw Float64 Float64 Float64 x y lx ly loop n f g eq_refl ltac:(cbn; lia) HX HY HJ AX AY HB).
Qed.
(* inner of two vectors agrees with dot *)
Theorem C78_inner_dot : forall V R (vzero : V) (rzero : R) radd rmul rd wr raw vmul mm x y n f g,
  vector_of x Float64 n f -> vector_of y Float64 n g ->
  exists o1 o2 v, inner vzero rzero radd rmul rd wr raw x y = Ok o1 /\ dot2 rzero radd rmul rd wr vmul mm x y = Ok o2 /\
    array_of o1 Float64 [] (fun _ => v) /\ array_of o2 Float64 [] (fun _ => v).
Proof.
  intros V R vzero rzero radd rmul rd wr raw vmul mm x y n f g HX HY.
  destruct (inner_vectors vzero rzero radd rmul rd wr raw Float64 x y n f g ltac:(cbn; lia) ltac:(cbn; lia) HX HY) as (o1 & E1 & H1).
  destruct (dot_vectors rzero radd rmul rd wr mm vmul Float64 Float64 x y n f g ltac:(cbn; lia) HX HY) as (o2 & E2 & H2).
  exists o1, o2. eexists. split; [exact E1|]. split; [exact E2|]. split; [exact H1|exact H2].
Qed.
(* outer of C-contiguous float64 arrays of any shape, flattened in row-major order *)
Theorem C78_outer_partial : forall V R (vzero : V) (rmul : R -> R -> R) rd wr raw x y sx sy f g,
  array_of x Float64 sx f -> array_of y Float64 sy g -> a_c (o_arr x) = true -> a_c (o_arr y) = true ->
  (Z.of_nat (prod sx * prod sy) * 8 < 2 ^ 63)%Z ->
  exists out, outer vzero rmul rd wr raw x y = Ok out /\
    matrix_of out Float64 (prod sx) (prod sy) (fun i j => wr Float64 (rmul (rd Float64 (f (rm_unrank sx i))) (rd Float64 (g (rm_unrank sy j))))).
Proof.
  intros V R vzero rmul rd wr raw x y sx sy f g HX HY CX CY HB.
  exact (outer_spec vzero rmul rd wr raw Float64 Float64 Float64 x y sx sy f g eq_refl ltac:(cbn; lia) HX HY CX CY HB).
Qed.
(* vdot of arrays of equal size, any dtypes and layouts, in row-major order *)
Theorem C78_vdot : forall V R (rzero : R) radd rmul (rd : kind -> V -> R) ka kb x y sx sy f g,
  array_of x ka sx f -> array_of y kb sy g -> prod sx = prod sy ->
  vdot rzero radd rmul rd x y =
  Ok (dot_product rzero radd rmul (prod sx) (fun i => rd ka (f (rm_unrank sx i))) (fun i => rd kb (g (rm_unrank sy i)))).
Proof. intros. apply vdot_spec; assumption. Qed.
(* lengths that differ are refused *)
Theorem C78_rejects : forall V R (vzero : V) (rzero : R) radd rmul rd wr raw vmul mm x y,
  (forall n m, a_shape (o_arr x) = [n] -> a_shape (o_arr y) = [m] -> n <> m -> dot2 rzero radd rmul rd wr vmul mm x y = Err) /\
  (forall lx ly n m, a_shape (o_arr x) = lx ++ [n] -> a_shape (o_arr y) = ly ++ [m] -> n <> m ->
     inner vzero rzero radd rmul rd wr raw x y = Err) /\
  (size (o_arr x) <> size (o_arr y) -> vdot rzero radd rmul rd x y = Err).
Proof.
  intros V R vzero rzero radd rmul rd wr raw vmul mm x y. split; [|split].
  - intros n m. apply dot_reject.
  - intros lx ly n m. apply inner_reject.
  - apply vdot_reject.
Qed.

Definition zvec (k : kind) (l : list Z) : @operand Z := (k, (l, fresh [length l] 8)).
Definition zmat (k : kind) (m n : nat) (l : list Z) : @operand Z := (k, (l, fresh [m; n] 8)).
Lemma zvec_of k l : itemsize k = 8%Z -> (Z.of_nat (length l) * 8 < 2 ^ 63)%Z -> vector_of (zvec k l) k (length l) (fun i => nth i l 0%Z).
Proof.
  intros HI HB. split; [reflexivity|]. cbn [zvec o_arr fst snd].
  split; [apply fresh_wf; [lia|exact HB|cbn [prod]; lia]|]. split; [reflexivity|]. split; [symmetry; exact HI|].
  intros idx Hi. rewrite fresh_get by lia. inversion Hi as [|i u c1 w Hi1 Hc1]; subst. inversion Hc1; subst. cbn [rank prod nth].
  replace (i * 1 + 0) with i by lia. apply nth_error_nth', Hi1.
Qed.
Lemma zmat_of k m n l : itemsize k = 8%Z -> length l = m * n -> (Z.of_nat (m * n) * 8 < 2 ^ 63)%Z -> matrix_of (zmat k m n l) k m n (fun i j => nth (i * n + j) l 0%Z).
Proof.
  intros HI HL HB. split; [reflexivity|]. cbn [zmat o_arr fst snd].
  split; [apply fresh_wf; [lia|rewrite HL; exact HB|cbn [prod]; lia]|]. split; [reflexivity|]. split; [symmetry; exact HI|].
  intros idx Hi. rewrite fresh_get by lia. inversion Hi as [|i u c1 w Hi1 Hc1]; subst. inversion Hc1 as [|j u' c2 w' Hj Hc2]; subst. inversion Hc2; subst. cbn [rank prod nth].
  replace (i * (n * 1) + (j * 1 + 0)) with (i * n + j) by lia. apply nth_error_nth'. rewrite HL. nia.
Qed.

Example C78_dot_nonvacuous :
  vector_of (zvec Int64 [1; 2; 3]%Z) Int64 3 (fun i => nth i [1; 2; 3]%Z 0%Z) /\
  z_dot (zvec Int64 [1; 2; 3]%Z) (zvec Int64 [4; 5; 6]%Z) = Ok (Int64, ([32%Z], fresh [] 8)).
Proof. split; [apply (zvec_of Int64 [1; 2; 3]%Z); [reflexivity|cbn; lia]|vm_compute; reflexivity]. Qed.
(* a column of a matrix with a matrix of vectors *)
Example C78_inner_nonvacuous :
  z_inner (zmat Float64 2 3 [1; 2; 3; 4; 5; 6]%Z) (zvec Float64 [1; 0; 2]%Z) = Ok (Float64, ([7%Z; 16%Z], fresh [2] 8)) /\
  z_outer (zvec Float64 [1; 2]%Z) (zvec Float64 [3; 4; 5]%Z) = Ok (Float64, ([3; 4; 5; 6; 8; 10]%Z, fresh [2; 3] 8)) /\
  z_vdot (zmat Float64 2 2 [1; 2; 3; 4]%Z) (zvec Float64 [5; 6; 7; 8]%Z) = Ok 70%Z /\
  z_vdot (Float64, ([1; 2; 3; 4]%Z, transpose (fresh [2; 2] 8))) (zvec Int64 [5; 6; 7; 8]%Z) = Ok 69%Z.
Proof. repeat split; vm_compute; reflexivity. Qed.

(* ---- what does not hold ---- *)
(* the product of int64 vectors goes through doubles: (2^53+1)*1 comes out as 2^53 *)
Theorem C78_dot_int_refuted : exists x y f g, vector_of x Int64 1 f /\ vector_of y Int64 1 g /\
  exists v, z_dot x y = Ok (Int64, ([v], fresh [] 8)) /\ v <> big 0%Z Z.add 1 (fun k => (f k * g k)%Z).
Proof.
  exists (zvec Int64 [2 ^ 53 + 1]%Z), (zvec Int64 [1]%Z). do 2 eexists.
  split; [apply (zvec_of Int64 [2 ^ 53 + 1]%Z); [reflexivity|cbn; lia]|].
  split; [apply (zvec_of Int64 [1]%Z); [reflexivity|cbn; lia]|].
  exists (2 ^ 53)%Z. split; [vm_compute; reflexivity|]. vm_compute. discriminate.
Qed.
(* inner and outer of int64 arrays return the bit patterns of the doubles: [1].[1] is
   4607182418800017408 *)
Theorem C78_inner_int_refuted : exists x y f g, vector_of x Int64 1 f /\ vector_of y Int64 1 g /\
  z_inner x y = Ok (Int64, ([4607182418800017408%Z], fresh [] 8)) /\
  z_outer x y = Ok (Int64, ([4607182418800017408%Z], fresh [1; 1] 8)) /\
  big 0%Z Z.add 1 (fun k => (f k * g k)%Z) = 1%Z.
Proof.
  exists (zvec Int64 [1]%Z), (zvec Int64 [1]%Z). do 2 eexists.
  split; [apply (zvec_of Int64 [1]%Z); [reflexivity|cbn; lia]|].
  split; [apply (zvec_of Int64 [1]%Z); [reflexivity|cbn; lia]|].
  repeat split; vm_compute; reflexivity.
Qed.
(* for every dtype narrower than eight bytes, inner of two vectors writes beyond the result *)
Theorem C78_inner_narrow_refuted : forall V R (vzero : V) (rzero : R) radd rmul rd wr raw k x y n f g,
  (itemsize k < 8)%Z -> vector_of x k n f -> vector_of y k n g -> inner vzero rzero radd rmul rd wr raw x y = Fault.
Proof.
  intros V R vzero rzero radd rmul rd wr raw k x y n f g HI (KX & WX & SX & _) (KY & WY & SY & _).
  apply (inner_narrow vzero rzero radd rmul rd wr raw x y n n SX SY eq_refl WX WY). rewrite KX, KY, promote_same. exact HI.
Qed.
Example C78_inner_narrow_nonvacuous : vector_of (Float32, ([1; 2]%Z, fresh [2] 4)) Float32 2 (fun i => nth i [1; 2]%Z 0%Z).
Proof.
  split; [reflexivity|]. split; [apply fresh_wf; [reflexivity|reflexivity|reflexivity]|]. split; [reflexivity|]. split; [reflexivity|].
  intros idx Hi. cbn [o_arr fst snd]. rewrite fresh_get by reflexivity. inversion Hi as [|i u c1 w Hi1 Hc1]; subst. inversion Hc1; subst.
  destruct i as [|[|]]; [reflexivity|reflexivity|lia].
Qed.
(* outer refuses a strided vector, and lists a transposed matrix in memory order *)
Theorem C78_outer_strided_refuted :
  exists x y, vector_of x Float64 2 (fun i => nth i [1; 3]%Z 0%Z) /\ vector_of y Float64 1 (fun _ => 1%Z) /\ z_outer x y = Err.
Proof.
  exists (Float64, ([1; 2; 3; 4]%Z, mkArr 0 [2] [16%Z] 8 false false)), (zvec Float64 [1]%Z).
  split; [|split; [|vm_compute; reflexivity]].
  - split; [reflexivity|]. split; [apply wf_check_sound; vm_compute; reflexivity|]. split; [reflexivity|]. split; [reflexivity|].
    intros idx Hi. inversion Hi as [|i u c1 w Hi1 Hc1]; subst. inversion Hc1; subst. destruct i as [|[|]]; [reflexivity|reflexivity|lia].
  - eapply array_of_ext; [|apply (zvec_of Float64 [1]%Z); [reflexivity|cbn; lia]].
    intros idx Hi. inversion Hi as [|i u c1 w Hi1 Hc1]; subst. cbn [length] in *. assert (i = 0) by lia. subst. reflexivity.
Qed.
Theorem C78_outer_transposed_refuted :
  exists x y, matrix_of x Float64 2 2 (fun i j => nth (j * 2 + i) [1; 2; 3; 4]%Z 0%Z) /\ vector_of y Float64 1 (fun _ => 1%Z) /\
    z_outer x y = Ok (Float64, ([1; 2; 3; 4]%Z, fresh [4; 1] 8)).
Proof.
  exists (Float64, ([1; 2; 3; 4]%Z, transpose (fresh [2; 2] 8))), (zvec Float64 [1]%Z).
  split; [|split; [|vm_compute; reflexivity]].
  - exact (transpose_matrix (zmat Float64 2 2 [1; 2; 3; 4]%Z) Float64 2 2 _ (zmat_of Float64 2 2 [1; 2; 3; 4]%Z eq_refl eq_refl eq_refl)).
  - eapply array_of_ext; [|apply (zvec_of Float64 [1]%Z); [reflexivity|cbn; lia]].
    intros idx Hi. inversion Hi as [|i u c1 w Hi1 Hc1]; subst. cbn [length] in *. assert (i = 0) by lia. subst. reflexivity.
Qed.
(* dot of two 0-d arrays has shape (1,), and a fractional scalar is first converted to the
   other operand's dtype (shown here by the dtype of the result) *)
Theorem C78_scalar_dot_refuted :
  z_dot (Float64, ([3%Z], fresh [] 8)) (Float64, ([4%Z], fresh [] 8)) = Ok (Float64, ([12%Z], fresh [1] 8)) /\
  z_dot (Float64, ([3%Z], fresh [] 8)) (zvec Int64 [4; 5]%Z) = Ok (Int64, ([12; 15]%Z, fresh [2] 8)).
Proof. split; vm_compute; reflexivity. Qed.

(* ================= C80 ================= *)
(* the defining equation of kron for matrices and for vectors, any dtypes and layouts *)
Theorem C80_kron_partial : forall V R (rzero : R) rmul rd (wr : kind -> R -> V) ka kb x y,
  (forall m n p q f g, matrix_of x ka m n f -> matrix_of y kb p q g -> (Z.of_nat (m * p * (n * q)) * 8 < 2 ^ 63)%Z ->
   exists out h, kron rzero rmul rd wr x y = Ok out /\ matrix_of out Float64 (m * p) (n * q) h /\
     forall i j k l, i < m -> j < n -> k < p -> l < q ->
       h (i * p + k) (j * q + l) = wr Float64 (rmul (rd ka (f i j)) (rd kb (g k l)))) /\
  (forall m p f g, vector_of x ka m f -> vector_of y kb p g -> (Z.of_nat (m * p) * 8 < 2 ^ 63)%Z ->
   exists out h, kron rzero rmul rd wr x y = Ok out /\ vector_of out Float64 (m * p) h /\
     forall i k, i < m -> k < p -> h (i * p + k) = wr Float64 (rmul (rd ka (f i)) (rd kb (g k)))).
Proof.
  intros V R rzero rmul rd wr ka kb x y.
  assert (DM : forall i k p, k < p -> (i * p + k) / p = i /\ (i * p + k) mod p = k).
  { intros i k p H. split; [rewrite Nat.div_add_l, Nat.div_small by lia; lia|].
    rewrite Nat.add_comm, Nat.mod_add, Nat.mod_small by lia. reflexivity. }
  split.
  - intros m n p q f g HX HY HB. destruct (kron_matrices rzero rmul rd wr ka kb x y m n p q f g HX HY HB) as (out & E & HM).
    exists out. eexists. split; [exact E|]. split; [exact HM|]. intros i j k l Hi Hj Hk Hl. cbv beta. unfold kronecker.
    destruct (DM i k p Hk) as [-> ->]. destruct (DM j l q Hl) as [-> ->]. reflexivity.
  - intros m p f g HX HY HB. destruct (kron_vectors rzero rmul rd wr ka kb x y m p f g HX HY HB) as (out & E & HM).
    exists out. eexists. split; [exact E|]. split; [exact HM|]. intros i k Hi Hk. cbv beta. unfold kronecker1.
    destruct (DM i k p Hk) as [-> ->]. reflexivity.
Qed.

(* kron(a,b) @ kron(c,d) = kron(a @ c, b @ d), over exact arithmetic *)
Theorem C80_mixed_product : forall R (zero one : R) add mul sub opp, ring_theory zero one add mul sub opp eq ->
  forall truthy of_bool iadd imul a b c d m n s p q t fa fb fc fd,
  let kr := kron zero mul (fun _ v => v) (fun _ v => v) in
  let mm := matmul zero truthy of_bool iadd imul add mul in
  matrix_of a Float64 m n fa -> matrix_of b Float64 p q fb -> matrix_of c Float64 n s fc -> matrix_of d Float64 q t fd ->
  0 < q ->
  (Z.of_nat (m * p * (n * q)) * 8 < 2 ^ 63)%Z -> (Z.of_nat (n * q * (s * t)) * 8 < 2 ^ 63)%Z -> (Z.of_nat (m * p * (s * t)) * 8 < 2 ^ 63)%Z ->
  (Z.of_nat (m * s) * 8 < 2 ^ 63)%Z -> (Z.of_nat (p * t) * 8 < 2 ^ 63)%Z ->
  exists ab cd l ac bd r h, kr a b = Ok ab /\ kr c d = Ok cd /\ mm ab cd = Ok l /\
    mm a c = Ok ac /\ mm b d = Ok bd /\ kr ac bd = Ok r /\
    matrix_of l Float64 (m * p) (s * t) h /\ matrix_of r Float64 (m * p) (s * t) h.
Proof.
  intros R zero one add mul sub opp RT truthy of_bool iadd imul a b c d m n s p q t fa fb fc fd kr mm HA HB HC HD HQ B1 B2 B3 B4 B5.
  destruct (kron_matrices zero mul (fun _ (v : R) => v) (fun _ v => v) Float64 Float64 a b m n p q fa fb HA HB B1) as (ab & EAB & MAB).
  destruct (kron_matrices zero mul (fun _ (v : R) => v) (fun _ v => v) Float64 Float64 c d n s q t fc fd HC HD B2) as (cd & ECD & MCD).
  destruct (ring_product zero one add mul sub opp RT truthy of_bool iadd imul Float64 ab cd (m * p) (n * q) (s * t) _ _ (or_introl eq_refl) MAB MCD) as (l & EL & ML); [exact B3|].
  destruct (ring_product zero one add mul sub opp RT truthy of_bool iadd imul Float64 a c m n s _ _ (or_introl eq_refl) HA HC) as (ac & EAC & MAC); [exact B4|].
  destruct (ring_product zero one add mul sub opp RT truthy of_bool iadd imul Float64 b d p q t _ _ (or_introl eq_refl) HB HD) as (bd & EBD & MBD); [exact B5|].
  destruct (kron_matrices zero mul (fun _ (v : R) => v) (fun _ v => v) Float64 Float64 ac bd m s p t _ _ MAC MBD B3) as (r & ER & MR).
  exists ab, cd, l, ac, bd, r. eexists. do 6 (split; [eassumption|]). split; [|exact MR].
  eapply matrix_of_ext; [|exact ML]. intros i j Hi Hj. apply (kron_mixed zero one add mul sub opp RT). exact HQ.
Qed.

(* cross: the formula for any dtypes and layouts, and its two laws over exact arithmetic *)
Theorem C80_cross : forall V R (rmul rsub : R -> R -> R) rd (wr : kind -> R -> V) ka kb x y f g,
  vector_of x ka 3 f -> vector_of y kb 3 g ->
  exists out, cross rmul rsub rd wr x y = Ok out /\
    vector_of out Float64 3 (fun i => wr Float64 (cross3 rmul rsub (fun i => rd ka (f i)) (fun i => rd kb (g i)) i)).
Proof. intros. apply cross_spec; assumption. Qed.
Theorem C80_cross_laws : forall R (zero one : R) add mul sub opp, ring_theory zero one add mul sub opp eq ->
  forall vmul mm x y f g, let cr := cross mul sub (fun _ (v : R) => v) (fun _ v => v) in
  let dt := dot2 zero add mul (fun _ v => v) (fun _ v => v) vmul mm in
  vector_of x Float64 3 f -> vector_of y Float64 3 g ->
  exists xy yx h, cr x y = Ok xy /\ cr y x = Ok yx /\
    vector_of xy Float64 3 h /\ vector_of yx Float64 3 (fun i => opp (h i)) /\
    exists d1 d2, dt x xy = Ok d1 /\ dt y xy = Ok d2 /\ array_of d1 Float64 [] (fun _ => zero) /\ array_of d2 Float64 [] (fun _ => zero).
Proof.
  intros R zero one add mul sub opp RT vmul mm x y f g cr dt HX HY.
  destruct (cross_spec mul sub (fun _ (v : R) => v) (fun _ v => v) Float64 Float64 x y f g HX HY) as (xy & E1 & M1).
  destruct (cross_spec mul sub (fun _ (v : R) => v) (fun _ v => v) Float64 Float64 y x g f HY HX) as (yx & E2 & M2).
  destruct (dot_vectors zero add mul (fun _ (v : R) => v) (fun _ v => v) mm vmul Float64 Float64 x xy 3 _ _ ltac:(cbn; lia) HX M1) as (d1 & E3 & M3).
  destruct (dot_vectors zero add mul (fun _ (v : R) => v) (fun _ v => v) mm vmul Float64 Float64 y xy 3 _ _ ltac:(cbn; lia) HY M1) as (d2 & E4 & M4).
  exists xy, yx. eexists. split; [exact E1|]. split; [exact E2|]. split; [exact M1|]. split.
  { eapply array_of_ext; [|exact M2]. intros idx _. cbv beta. apply (cross_anti zero one add mul sub opp RT). }
  exists d1, d2. split; [exact E3|]. split; [exact E4|]. split.
  - eapply array_of_ext; [|exact M3]. intros idx _. apply (cross_orth_l zero one add mul sub opp RT).
  - eapply array_of_ext; [|exact M4]. intros idx _. apply (cross_orth_r zero one add mul sub opp RT).
Qed.
Theorem C80_cross_rejects : forall V R (rmul rsub : R -> R -> R) rd (wr : kind -> R -> V) x y,
  a_shape (o_arr x) <> [3] \/ a_shape (o_arr y) <> [3] -> cross rmul rsub rd wr x y = Err.
Proof.
  intros V R rmul rsub rd wr x y H. unfold cross.
  destruct (a_shape (o_arr x)) as [|[|[|[|[|]]]] [|]]; try reflexivity.
  destruct (a_shape (o_arr y)) as [|[|[|[|[|]]]] [|]]; try reflexivity.
  exfalso. destruct H as [H|H]; apply H; reflexivity.
Qed.

(* tensordot over one axis *)
Theorem C80_tensordot_partial : forall V R (rzero : R) radd rmul rd (wr : kind -> R -> V) mm ka kb x y,
  let td := tensordot_n rzero radd rmul rd wr mm x y 1 in
  let sum := dot_product rzero radd rmul in
  (forall m n p, a_shape (o_arr x) = [m; n] -> a_shape (o_arr y) = [n; p] -> td = mm x y) /\
  (forall m n f g, matrix_of x ka m n f -> vector_of y kb n g -> (Z.of_nat m * 8 < 2 ^ 63)%Z ->
     exists out, td = Ok out /\ vector_of out Float64 m (fun i => wr Float64 (sum n (fun j => rd ka (f i j)) (fun j => rd kb (g j))))) /\
  (forall n p f g, vector_of x ka n f -> matrix_of y kb n p g -> (Z.of_nat p * 8 < 2 ^ 63)%Z ->
     exists out, td = Ok out /\ vector_of out Float64 p (fun j => wr Float64 (sum n (fun i => rd ka (f i)) (fun i => rd kb (g i j))))) /\
  (forall n f g, vector_of x ka n f -> vector_of y kb n g ->
     exists out, td = Ok out /\ vector_of out Float64 1 (fun _ => wr Float64 (sum n (fun i => rd ka (f i)) (fun i => rd kb (g i))))).
Proof.
  intros V R rzero radd rmul rd wr mm ka kb x y td sum. split; [|split; [|split]]; intros.
  - eapply tensordot_matrices; eassumption.
  - eapply tensordot_mat_vec; eassumption.
  - eapply tensordot_vec_mat; eassumption.
  - eapply tensordot_vectors; eassumption.
Qed.

Example C80_nonvacuous :
  matrix_of (zmat Float64 2 2 [1; 2; 3; 4]%Z) Float64 2 2 (fun i j => nth (i * 2 + j) [1; 2; 3; 4]%Z 0%Z) /\
  z_kron (zmat Float64 2 2 [1; 2; 3; 4]%Z) (zmat Int64 1 2 [5; 6]%Z) = Ok (Float64, ([5; 6; 10; 12; 15; 18; 20; 24]%Z, fresh [2; 4] 8)) /\
  z_kron (zvec Float64 [1; 2]%Z) (zvec Float64 [3; 4]%Z) = Ok (Float64, ([3; 4; 6; 8]%Z, fresh [4] 8)) /\
  z_cross (zvec Float64 [1; 2; 3]%Z) (zvec Int64 [4; 5; 6]%Z) = Ok (Float64, ([-3; 6; -3]%Z, fresh [3] 8)) /\
  z_tensordot (zmat Float64 2 2 [1; 2; 3; 4]%Z) (zvec Float64 [5; 6]%Z) 1 = Ok (Float64, ([17; 39]%Z, fresh [2] 8)) /\
  z_tensordot (zvec Float64 [5; 6]%Z) (zmat Float64 2 2 [1; 2; 3; 4]%Z) 1 = Ok (Float64, ([23; 34]%Z, fresh [2] 8)).
Proof. split; [apply zmat_of; reflexivity|]. repeat split; vm_compute; reflexivity. Qed.

(* a vector and a matrix that is not contiguous float64: kron panics *)
Theorem C80_kron_mixed_rank_refuted : forall V R (rzero : R) rmul rd (wr : kind -> R -> V) ka kb x y n p q f g,
  vector_of x ka n f -> matrix_of y kb p q g -> 0 < n -> contig64 x && contig64 y = false ->
  kron rzero rmul rd wr x y = Panic.
Proof.
  intros V R rzero rmul rd wr ka kb x y n p q f g (KX & WX & SX & IX & GX) (KY & WY & SY & IY & GY) HN HC.
  unfold kron, ndim. rewrite SX, SY. cbn [length Nat.ltb Nat.leb orb Nat.max pad_ones Nat.sub repeat app]. rewrite HC.
  unfold kron_2d. destruct n as [|n]; [lia|]. cbn [seq foldM]. unfold elem at 1, get_element at 1. fold (o_arr x). rewrite SX.
  replace (idx_ok [0; 0] [S n]) with false by (cbn [idx_ok]; rewrite Bool.andb_false_r; reflexivity). reflexivity.
Qed.
Example C80_kron_mixed_rank_nonvacuous : z_kron (zvec Int64 [1; 2]%Z) (zmat Int64 1 2 [5; 6]%Z) = Panic.
Proof. vm_compute. reflexivity. Qed.
(* axes = 0 on two vectors: the sum of products in cell 0 and zeros, not the outer
   product; a panic when the second vector is shorter *)
Theorem C80_tensordot_axes0_refuted :
  z_tensordot (zvec Float64 [1; 2]%Z) (zvec Float64 [3; 4]%Z) 0 = Ok (Float64, ([11; 0; 0; 0]%Z, fresh [2; 2] 8)) /\
  z_tensordot (zvec Float64 [1; 2]%Z) (zvec Float64 [3]%Z) 0 = Panic.
Proof. split; vm_compute; reflexivity. Qed.
(* the default, two axes, is refused for matrices; a full contraction has shape (1,) *)
Theorem C80_tensordot_default_refuted :
  z_tensordot (zmat Float64 2 2 [1; 2; 3; 4]%Z) (zmat Float64 2 2 [1; 2; 3; 4]%Z) 2 = Err /\
  z_tensordot (zvec Float64 [1; 2]%Z) (zvec Float64 [3; 4]%Z) 1 = Ok (Float64, ([11]%Z, fresh [1] 8)).
Proof. split; vm_compute; reflexivity. Qed.

Print Assumptions C78_dot_partial.
Print Assumptions C78_dot_exact_partial.
Print Assumptions C78_dot_int_partial.
Print Assumptions C78_inner_partial.
Print Assumptions C78_inner_dot.
Print Assumptions C78_outer_partial.
Print Assumptions C78_vdot.
Print Assumptions C78_rejects.
Print Assumptions C78_dot_int_refuted.
Print Assumptions C78_inner_int_refuted.
Print Assumptions C78_inner_narrow_refuted.
Print Assumptions C78_outer_strided_refuted.
Print Assumptions C78_outer_transposed_refuted.
Print Assumptions C78_scalar_dot_refuted.
Print Assumptions C80_kron_partial.
Print Assumptions C80_mixed_product.
Print Assumptions C80_cross.
Print Assumptions C80_cross_laws.
Print Assumptions C80_cross_rejects.
Print Assumptions C80_tensordot_partial.
Print Assumptions C80_kron_mixed_rank_refuted.
Print Assumptions C80_tensordot_axes0_refuted.
Print Assumptions C80_tensordot_default_refuted.
