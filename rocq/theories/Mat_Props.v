(* C61: matrix products. *)
From Verif Require Import Base Lists Arr_Spec Arr_Model Arr_Wf Wf_Check Arr_Proofs Bcast_Model Idx_Model Int_Model Int_Proofs Conv_Spec Conv_Proofs Promo_Spec Promo_Model
  Gu_Spec Gu_Model Gu_Proofs Mat_Spec Mat_Model Mat_Proofs Mat_Batch Mat_Laws.
Local Open Scope nat_scope.

(* [matrix_of o k m n f]: the array o has dtype k, shape (m,n) and element f i j at
   (i,j), in whatever layout (transposed, strided, reversed, broadcast, ...).
   [int_kind k = Some t]: k is int64 or int32 and t its width. *)

(* ---- integers -------------------------------------------------------------------- *)

(* entry (i,j) is the sum of x(i,k) y(k,j), modulo the width of the dtype.  Missing from
   "integer": int8, int16 and the unsigned dtypes, see C61_refuted_small *)
Theorem C61_product_partial : forall fadd fmul k t x y m n p f g, int_kind k = Some t -> matrix_of x k m n f -> matrix_of y k n p g ->
  (Z.of_nat (m * p) * itemsize k < 2 ^ 63)%Z ->
  exists out, int_matmul fadd fmul x y = Ok out /\ matrix_of out k m p (fun i j => wrap t (zproduct n f g i j)).
Proof. exact int_product. Qed.

(* without overflow the entries are the mathematical ones *)
Theorem C61_exact_partial : forall fadd fmul k t x y m n p f g, int_kind k = Some t -> matrix_of x k m n f -> matrix_of y k n p g ->
  (Z.of_nat (m * p) * itemsize k < 2 ^ 63)%Z ->
  (forall i j, i < m -> j < p -> representable t (zproduct n f g i j)) ->
  exists out, int_matmul fadd fmul x y = Ok out /\ matrix_of out k m p (zproduct n f g).
Proof.
  intros fadd fmul k t x y m n p f g HK HX HY HB HR. destruct (int_ops fadd fmul k t HK) as (_ & _ & HT).
  destruct (int_product fadd fmul k t x y m n p f g HK HX HY HB) as (out & E & HM). exists out. split; [exact E|].
  eapply matrix_of_ext; [|exact HM]. intros i j Hi Hj. apply wrap_id; auto.
Qed.

(* (x y) z and x (y z) have the same entries, overflow or not *)
Theorem C61_associative_partial : forall fadd fmul k t x y z m n p q f g h, int_kind k = Some t ->
  matrix_of x k m n f -> matrix_of y k n p g -> matrix_of z k p q h ->
  (Z.of_nat (m * p) * itemsize k < 2 ^ 63)%Z -> (Z.of_nat (n * q) * itemsize k < 2 ^ 63)%Z -> (Z.of_nat (m * q) * itemsize k < 2 ^ 63)%Z ->
  exists xy yz u v e, int_matmul fadd fmul x y = Ok xy /\ int_matmul fadd fmul xy z = Ok u /\
    int_matmul fadd fmul y z = Ok yz /\ int_matmul fadd fmul x yz = Ok v /\
    matrix_of u k m q e /\ matrix_of v k m q e.
Proof.
  intros fadd fmul k t x y z m n p q f g h HK HX HY HZ B1 B2 B3. destruct (int_ops fadd fmul k t HK) as (_ & _ & HT).
  destruct (int_product fadd fmul k t x y m n p f g HK HX HY B1) as (xy & E1 & M1).
  destruct (int_product fadd fmul k t xy z m p q _ h HK M1 HZ B3) as (u & E2 & M2).
  destruct (int_product fadd fmul k t y z n p q g h HK HY HZ B2) as (yz & E3 & M3).
  destruct (int_product fadd fmul k t x yz m n q f _ HK HX M3 B3) as (v & E4 & M4).
  exists xy, yz, u, v. eexists. do 4 (split; [eassumption|]). split; [exact M2|].
  eapply matrix_of_ext; [|exact M4]. intros i j Hi Hj. cbv beta.
  rewrite (wrap_product_ext t n _ f _ (zproduct p g h) i j HT) by (intros; (reflexivity || apply wrap_wrap, HT)).
  rewrite (wrap_product_ext t p _ (zproduct n f g) _ h i j HT) by (intros; (reflexivity || apply wrap_wrap, HT)).
  f_equal. symmetry. apply (product_assoc 0%Z 1%Z Z.add Z.mul Z.sub Z.opp Zring).
Qed.

(* the transpose of a product is the product of the transposes in the other order *)
Theorem C61_transpose_partial : forall fadd fmul k t x y m n p f g, int_kind k = Some t -> matrix_of x k m n f -> matrix_of y k n p g ->
  (Z.of_nat (m * p) * itemsize k < 2 ^ 63)%Z ->
  exists u v e, int_matmul fadd fmul x y = Ok u /\
    int_matmul fadd fmul (with_arr y (transpose (o_arr y))) (with_arr x (transpose (o_arr x))) = Ok v /\
    matrix_of (with_arr u (transpose (o_arr u))) k p m e /\ matrix_of v k p m e.
Proof.
  intros fadd fmul k t x y m n p f g HK HX HY HB.
  destruct (int_product fadd fmul k t x y m n p f g HK HX HY HB) as (u & E1 & M1).
  destruct (int_product fadd fmul k t _ _ p n m (flip2 g) (flip2 f) HK (transpose_matrix y k n p g HY) (transpose_matrix x k m n f HX)) as (v & E2 & M2).
  { rewrite (Nat.mul_comm p m). exact HB. }
  exists u, v. eexists. split; [exact E1|]. split; [exact E2|]. split; [apply transpose_matrix, M1|].
  eapply matrix_of_ext; [|exact M2]. intros i j Hi Hj. cbv beta. unfold flip2 at 3. f_equal.
  apply (product_flip 0%Z 1%Z Z.add Z.mul Z.sub Z.opp Zring).
Qed.

(* multiplying by the identity matrix, on either side *)
Theorem C61_identity_partial : forall fadd fmul k t x e1 e2 m n f, int_kind k = Some t -> matrix_of x k m n f ->
  matrix_of e1 k m m (identity 0%Z 1%Z) -> matrix_of e2 k n n (identity 0%Z 1%Z) ->
  (forall i j, i < m -> j < n -> representable t (f i j)) -> (Z.of_nat (m * n) * itemsize k < 2 ^ 63)%Z ->
  exists u v, int_matmul fadd fmul e1 x = Ok u /\ int_matmul fadd fmul x e2 = Ok v /\
    matrix_of u k m n f /\ matrix_of v k m n f.
Proof.
  intros fadd fmul k t x e1 e2 m n f HK HX H1 H2 HR HB. destruct (int_ops fadd fmul k t HK) as (_ & _ & HT).
  destruct (int_product fadd fmul k t e1 x m m n _ f HK H1 HX HB) as (u & E1 & M1).
  destruct (int_product fadd fmul k t x e2 m n n f _ HK HX H2 HB) as (v & E2 & M2).
  exists u, v. split; [exact E1|]. split; [exact E2|].
  split; (eapply matrix_of_ext; [|eassumption]); intros i j Hi Hj; cbv beta; unfold zproduct.
  - rewrite (product_id_l 0%Z 1%Z Z.add Z.mul Z.sub Z.opp Zring) by exact Hi. apply wrap_id; auto.
  - rewrite (product_id_r 0%Z 1%Z Z.add Z.mul Z.sub Z.opp Zring) by exact Hj. apply wrap_id; auto.
Qed.

(* ---- one-dimensional operands ----------------------------------------------------- *)

Theorem C61_vector_matrix : forall fadd fmul k t x y n p f g, int_kind k = Some t -> vector_of x k n f -> matrix_of y k n p g ->
  (Z.of_nat p * itemsize k < 2 ^ 63)%Z ->
  exists out, int_matmul fadd fmul x y = Ok out /\ vector_of out k p (fun j => wrap t (zproduct n (fun _ => f) g 0 j)).
Proof.
  intros fadd fmul k t x y n p f g HK HX HY HB. destruct (int_ops fadd fmul k t HK) as (HO & HE & HT).
  destruct (matmul_vec_mat 0%Z z_truthy Z.b2z z_add z_mul fadd fmul k _ x y n p f g
              (loop_computes 0%Z z_truthy Z.b2z z_add z_mul fadd fmul k _ _ HO) (proj1 HE) HX HY HB) as (out & E & HM).
  exists out. split; [exact E|]. eapply array_of_ext; [|exact HM]. intros idx Hi. cbv beta. apply z_sum_prod, HT.
Qed.
Theorem C61_matrix_vector : forall fadd fmul k t x y m n f g, int_kind k = Some t -> matrix_of x k m n f -> vector_of y k n g ->
  (Z.of_nat m * itemsize k < 2 ^ 63)%Z ->
  exists out, int_matmul fadd fmul x y = Ok out /\ vector_of out k m (fun i => wrap t (zproduct n f (fun q _ => g q) i 0)).
Proof.
  intros fadd fmul k t x y m n f g HK HX HY HB. destruct (int_ops fadd fmul k t HK) as (HO & HE & HT).
  destruct (matmul_mat_vec 0%Z z_truthy Z.b2z z_add z_mul fadd fmul k _ x y m n f g
              (loop_computes 0%Z z_truthy Z.b2z z_add z_mul fadd fmul k _ _ HO) (proj1 HE) HX HY HB) as (out & E & HM).
  exists out. split; [exact E|]. eapply array_of_ext; [|exact HM]. intros idx Hi. cbv beta. apply z_sum_prod, HT.
Qed.
(* the value is right, but it comes as a vector of length 1 instead of a scalar *)
Theorem C61_vector_vector_partial : forall fadd fmul k t x y n f g, int_kind k = Some t -> vector_of x k n f -> vector_of y k n g ->
  exists out, int_matmul fadd fmul x y = Ok out /\ vector_of out k 1 (fun _ => wrap t (big 0%Z Z.add n (fun q => (f q * g q)%Z))).
Proof.
  intros fadd fmul k t x y n f g HK HX HY. destruct (int_ops fadd fmul k t HK) as (HO & HE & HT).
  destruct (matmul_vec_vec 0%Z z_truthy Z.b2z z_add z_mul fadd fmul k _ x y n f g
              (loop_computes 0%Z z_truthy Z.b2z z_add z_mul fadd fmul k _ _ HO) HE HX HY) as (out & E & HM).
  exists out. split; [exact E|]. eapply array_of_ext; [|exact HM]. intros idx Hi. cbv beta. apply z_sum_prod, HT.
Qed.
Theorem C61_refuted_scalar_shape : exists x y out, vector_of x Int64 2 (fun i => Z.of_nat i) /\ vector_of y Int64 2 (fun i => Z.of_nat i) /\
  int_matmul Z.add Z.mul x y = Ok out /\ a_shape (o_arr out) = [1].
Proof.
  exists (Int64, ([0; 1]%Z, fresh [2] 8)), (Int64, ([0; 1]%Z, fresh [2] 8)).
  eexists. assert (HV : vector_of (Int64, ([0; 1]%Z, fresh [2] 8)) Int64 2 (fun i => Z.of_nat i)).
  { split; [reflexivity|]. split; [apply wf_check_sound; reflexivity|]. split; [reflexivity|]. split; [reflexivity|].
    intros idx Hi. apply in_all_idx in Hi. cbn in Hi. destruct Hi as [<-|[<-|[]]]; reflexivity. }
  split; [exact HV|]. split; [exact HV|]. split; reflexivity.
Qed.

(* ---- other dtypes ------------------------------------------------------------------ *)

(* booleans: "some k has x(i,k) and y(k,j)" *)
Theorem C61_bool : forall fadd fmul x y m n p f g, matrix_of x Bool m n f -> matrix_of y Bool n p g -> (Z.of_nat (m * p) < 2 ^ 63)%Z ->
  exists out h, int_matmul fadd fmul x y = Ok out /\ matrix_of out Bool m p (fun i j => Z.b2z (h i j)) /\
    forall i j, h i j = true <-> exists k, k < n /\ f i k <> 0%Z /\ g k j <> 0%Z.
Proof.
  intros fadd fmul x y m n p f g HX HY HB.
  destruct (matmul_2d 0%Z z_truthy Z.b2z z_add z_mul fadd fmul Bool _ x y m n p f g
              (bool_computes 0%Z z_truthy Z.b2z z_add z_mul fadd fmul) eq_refl HX HY) as (out & E & HM).
  { change (itemsize Bool) with 1%Z. lia. }
  exists out, (fun i j => existsb (fun q => z_truthy (f i q) && z_truthy (g q j)) (seq 0 n)). split; [exact E|]. split; [exact HM|].
  intros i j. rewrite existsb_exists. unfold z_truthy. split.
  - intros (k & Hk & H). apply in_seq in Hk. apply andb_true_iff in H as [H1 H2]. exists k. split; [lia|].
    split; intros E0; rewrite E0 in *; discriminate.
  - intros (k & Hk & H1 & H2). exists k. split; [apply in_seq; lia|]. apply andb_true_iff.
    split; apply negb_true_iff, Z.eqb_neq; assumption.
Qed.

(* float32, float64, complex64, complex128, over any commutative ring (no rounding) *)
Theorem C61_ring : forall R (zero one : R) add mul sub opp, ring_theory zero one add mul sub opp eq ->
  forall truthy of_bool iadd imul k x y m n p f g, lib_kind k -> matrix_of x k m n f -> matrix_of y k n p g ->
  (Z.of_nat (m * p) * itemsize k < 2 ^ 63)%Z ->
  exists out, matmul zero truthy of_bool iadd imul add mul x y = Ok out /\ matrix_of out k m p (product zero add mul n f g).
Proof. intros R zero one add mul sub opp RT. intros. apply (ring_product zero one add mul sub opp RT truthy of_bool iadd imul); assumption. Qed.

(* int8, int16, uint8, ... : the result is all zeros *)
Theorem C61_refuted_small : exists x y f, matrix_of x Int16 2 2 f /\ matrix_of y Int16 2 2 (identity 0%Z 1%Z) /\
  exists out, int_matmul Z.add Z.mul x y = Ok out /\ f 1 1 = 4%Z /\ get (fst (snd out)) (o_arr out) [1; 1] = Some 0%Z.
Proof.
  exists (Int16, ([1; 2; 3; 4]%Z, fresh [2; 2] 2)), (Int16, ([1; 0; 0; 1]%Z, fresh [2; 2] 2)), (fun i j => Z.of_nat (2 * i + j + 1)).
  split; [|split].
  1,2: split; [reflexivity|]; split; [apply wf_check_sound; reflexivity|]; split; [reflexivity|]; split; [reflexivity|];
    intros idx Hi; apply in_all_idx in Hi; cbn in Hi; repeat (destruct Hi as [<-|Hi]; [reflexivity|]); destruct Hi.
  eexists. split; [reflexivity|]. split; reflexivity.
Qed.
(* int32 @ int64: the first operand's bytes are read as int64 *)
Theorem C61_refuted_mixed : exists x y, matrix_of x Int32 1 1 (fun _ _ => 2%Z) /\ matrix_of y Int64 1 1 (fun _ _ => 3%Z) /\
  int_matmul Z.add Z.mul x y = Fault.
Proof.
  exists (Int32, ([2]%Z, fresh [1; 1] 4)), (Int64, ([3]%Z, fresh [1; 1] 8)). split; [|split; [|reflexivity]].
  all: split; [reflexivity|]; split; [apply wf_check_sound; reflexivity|]; split; [reflexivity|]; split; [reflexivity|];
    intros idx Hi; apply in_all_idx in Hi; cbn in Hi; repeat (destruct Hi as [<-|Hi]; [reflexivity|]); destruct Hi.
Qed.

(* ---- shapes that do not fit --------------------------------------------------------- *)
Theorem C61_mismatch : forall fadd fmul x y lx ly m n n' p, a_shape (o_arr x) = lx ++ [m; n] -> a_shape (o_arr y) = ly ++ [n'; p] ->
  n <> n' -> int_matmul fadd fmul x y = Err.
Proof. intros. eapply matmul_reject; eassumption. Qed.

(* ---- stacks of matrices -------------------------------------------------------------- *)

(* every matrix of the stack is multiplied with its partner under broadcasting.
   Missing: loop axes of different number, loop axes with negative strides *)
Theorem C61_stack_partial : forall fadd fmul k t x y lx ly loop m n p f g, int_kind k = Some t ->
  array_of x k (lx ++ [m; n]) f -> array_of y k (ly ++ [n; p]) g ->
  joint [lx; ly] loop -> aligned x lx loop -> aligned y ly loop ->
  (Z.of_nat (prod (loop ++ [m; p])) * itemsize k < 2 ^ 63)%Z ->
  exists out h, int_matmul fadd fmul x y = Ok out /\ array_of out k (loop ++ [m; p]) h /\
    forall l i j, inb l loop -> i < m -> j < p ->
      h (l ++ [i; j]) = wrap t (zproduct n (fun i q => f (unbroadcast lx l ++ [i; q])) (fun q j => g (unbroadcast ly l ++ [q; j])) i j).
Proof.
  intros fadd fmul k t x y lx ly loop m n p f g HK HX HY HJ AX AY HB. destruct (int_ops fadd fmul k t HK) as (HO & HE & HT).
  destruct (matmul_stack 0%Z z_truthy Z.b2z z_add z_mul fadd fmul k _ x y lx ly loop m n p f g
              (loop_computes 0%Z z_truthy Z.b2z z_add z_mul fadd fmul k _ _ HO) (proj1 HE) HX HY HJ AX AY HB) as (out & h & E & HA & HV).
  exists out, h. split; [exact E|]. split; [exact HA|]. intros l i j Hl Hi Hj. rewrite (HV l i j Hl Hi Hj). apply z_sum_prod, HT.
Qed.
(* (2,3,1,1) @ (3,1,1): position (0,2) of the result should use matrix 2 of the second operand *)
Theorem C61_stack_refuted_left_aligned : exists x y out, array_of x Int64 [2; 3; 1; 1] (fun _ => 1%Z) /\
  array_of y Int64 [3; 1; 1] (fun idx => Z.of_nat (10 + nth 0 idx 0)) /\
  int_matmul Z.add Z.mul x y = Ok out /\ get (fst (snd out)) (o_arr out) [0; 2; 0; 0] = Some 10%Z.
Proof.
  exists (Int64, ([1; 1; 1; 1; 1; 1]%Z, fresh [2; 3; 1; 1] 8)), (Int64, ([10; 11; 12]%Z, fresh [3; 1; 1] 8)). eexists. split; [|split; [|split; [reflexivity|reflexivity]]].
  all: split; [reflexivity|]; split; [apply wf_check_sound; reflexivity|]; split; [reflexivity|]; split; [reflexivity|];
    intros idx Hi; apply in_all_idx in Hi; cbn in Hi; repeat (destruct Hi as [<-|Hi]; [reflexivity|]); destruct Hi.
Qed.
(* a[::-1] @ b on a stack of 3: every result uses the last matrix of a *)
Theorem C61_stack_refuted_reversed : exists x y out, array_of x Int64 [3; 1; 1] (fun idx => Z.of_nat (12 - nth 0 idx 0)) /\
  array_of y Int64 [3; 1; 1] (fun _ => 1%Z) /\
  int_matmul Z.add Z.mul x y = Ok out /\ get (fst (snd out)) (o_arr out) [2; 0; 0] = Some 12%Z.
Proof.
  exists (Int64, ([10; 11; 12]%Z, mkArr 16 [3; 1; 1] [-8; 8; 8]%Z 8 false false)), (Int64, ([1; 1; 1]%Z, fresh [3; 1; 1] 8)). eexists. split; [|split; [|split; [reflexivity|reflexivity]]].
  all: split; [reflexivity|]; split; [apply wf_check_sound; reflexivity|]; split; [reflexivity|]; split; [reflexivity|];
    intros idx Hi; apply in_all_idx in Hi; cbn in Hi; repeat (destruct Hi as [<-|Hi]; [reflexivity|]); destruct Hi.
Qed.
(* (1,2,3) @ (3,): the result should have shape (1,2); all axes of size 1 are dropped *)
Theorem C61_stack_refuted_squeeze : exists x y out, array_of x Int64 [1; 2; 3] (fun _ => 1%Z) /\ vector_of y Int64 3 (fun _ => 1%Z) /\
  int_matmul Z.add Z.mul x y = Ok out /\ a_shape (o_arr out) = [2].
Proof.
  exists (Int64, ([1; 1; 1; 1; 1; 1]%Z, fresh [1; 2; 3] 8)), (Int64, ([1; 1; 1]%Z, fresh [3] 8)). eexists. split; [|split; [|split; [reflexivity|reflexivity]]].
  all: split; [reflexivity|]; split; [apply wf_check_sound; reflexivity|]; split; [reflexivity|]; split; [reflexivity|];
    intros idx Hi; apply in_all_idx in Hi; cbn in Hi; repeat (destruct Hi as [<-|Hi]; [reflexivity|]); destruct Hi.
Qed.

(* ---- concrete instances ----------------------------------------------------------- *)
(* [[1,2,3],[4,5,6]] stored column by column, times its own transpose read backwards *)
Definition ex_a : operand := (Int64, ([1; 4; 2; 5; 3; 6]%Z, mkArr 0 [2; 3] [8; 16]%Z 8 false true)).
Definition ex_b : operand := (Int64, ([1; 4; 2; 5; 3; 6]%Z, mkArr 40 [3; 2] [-16; -8]%Z 8 false false)).
Example C61_product_nonvacuous :
  matrix_of ex_a Int64 2 3 (fun i j => Z.of_nat (3 * i + j + 1)) /\
  matrix_of ex_b Int64 3 2 (fun i j => Z.of_nat (6 - i - 3 * j)) /\
  exists out, int_matmul Z.add Z.mul ex_a ex_b = Ok out /\ fst (snd out) = [28; 10; 73; 28]%Z.
Proof.
  split; [|split].
  1,2: split; [reflexivity|]; split; [apply wf_check_sound; reflexivity|]; split; [reflexivity|]; split; [reflexivity|];
    intros idx Hi; apply in_all_idx in Hi; cbn in Hi; repeat (destruct Hi as [<-|Hi]; [reflexivity|]); destruct Hi.
  eexists. split; reflexivity.
Qed.
(* overflow: 2^31 * 2 in int32 *)
Example C61_overflow_nonvacuous : wrap i32 (zproduct 1 (fun _ _ => 2 ^ 30)%Z (fun _ _ => 2%Z) 0 0) = (- 2 ^ 31)%Z.
Proof. reflexivity. Qed.
Example C61_bool_nonvacuous : exists out, int_matmul Z.add Z.mul (Bool, ([1; 0; 0; 1]%Z, fresh [2; 2] 1)) (Bool, ([1; 1; 0; 0]%Z, fresh [2; 2] 1)) = Ok out /\
  fst (snd out) = [1; 1; 0; 0]%Z.
Proof. eexists. split; reflexivity. Qed.
Example C61_vector_nonvacuous : exists out, int_matmul Z.add Z.mul ex_a (Int64, ([1; 0; 2]%Z, fresh [3] 8)) = Ok out /\
  fst (snd out) = [7; 16]%Z /\ a_shape (o_arr out) = [2].
Proof. eexists. split; [reflexivity|]. split; reflexivity. Qed.
Example C61_stack_nonvacuous : exists out, int_matmul Z.add Z.mul (Int64, ([1; 2; 3; 4]%Z, fresh [2; 2; 1] 8)) (Int64, ([10; 20]%Z, fresh [1; 1; 2] 8)) = Ok out /\
  a_shape (o_arr out) = [2; 2; 2] /\ fst (snd out) = [10; 20; 20; 40; 30; 60; 40; 80]%Z.
Proof. eexists. split; [reflexivity|]. split; reflexivity. Qed.

Print Assumptions C61_product_partial.
Print Assumptions C61_exact_partial.
Print Assumptions C61_associative_partial.
Print Assumptions C61_transpose_partial.
Print Assumptions C61_identity_partial.
Print Assumptions C61_vector_matrix.
Print Assumptions C61_matrix_vector.
Print Assumptions C61_vector_vector_partial.
Print Assumptions C61_refuted_scalar_shape.
Print Assumptions C61_bool.
Print Assumptions C61_ring.
Print Assumptions C61_refuted_small.
Print Assumptions C61_refuted_mixed.
Print Assumptions C61_mismatch.
Print Assumptions C61_stack_partial.
Print Assumptions C61_stack_refuted_left_aligned.
Print Assumptions C61_stack_refuted_reversed.
Print Assumptions C61_stack_refuted_squeeze.
