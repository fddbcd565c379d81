(* Algebra of matrix products, powers and chains. *)
From Verif Require Import Base Lists Arr_Spec Arr_Model Arr_Wf Arr_Proofs Int_Model Int_Proofs Red_Model Red_Scan Conv_Spec Conv_Proofs Promo_Spec Promo_Model Gu_Spec Gu_Model Gu_Proofs Mat_Spec Mat_Model Mat_Proofs Mat_Batch.
From Coq Require Import Ring.
Local Open Scope nat_scope.

Definition lib_kind (k : kind) : Prop := k = Float64 \/ k = Float32 \/ k = Complex64 \/ k = Complex128.
Lemma lib_ops {T} (iadd imul : ity -> T -> T -> T) (add mul : T -> T -> T) k : lib_kind k -> loop_ops iadd imul add mul k = Some (add, mul) /\ (0 < itemsize k < 2 ^ 63)%Z.
Proof. intros [->|[->|[->| ->]]]; (split; [reflexivity|cbn; lia]). Qed.

Lemma matrix_of_ext {T} (o : @operand T) k m n x y : (forall i j, i < m -> j < n -> x i j = y i j) ->
  matrix_of o k m n x -> matrix_of o k m n y.
Proof.
  intros H. apply array_of_ext. intros idx Hi.
  inversion Hi as [|i u c1 w Hi1 Hc1]; subst. inversion Hc1 as [|j u' c2 w' Hj Hc2]; subst. cbn [nth]. auto.
Qed.

Lemma transpose_matrix {T} (o : @operand T) k m n (x : nat -> nat -> T) : matrix_of o k m n x ->
  matrix_of (with_arr o (transpose (o_arr o))) k n m (flip2 x).
Proof.
  intros (K1 & W & S1 & I1 & G1). destruct (transpose_is_view _ _ W) as (ES & W' & HG). rewrite S1 in *.
  split; [exact K1|]. split; [exact W'|]. split; [exact ES|]. split; [exact I1|].
  intros idx Hi. cbn [with_arr o_arr fst snd]. destruct (HG idx Hi) as [HI E]. rewrite E. rewrite G1 by exact HI.
  inversion Hi as [|i u c1 w Hi1 Hc1]; subst. inversion Hc1 as [|j u' c2 w' Hj Hc2]; subst. inversion Hc2; subst. reflexivity.
Qed.

(* the identity matrix *)
Lemma eye_spec {T} (zero one : T) s : (Z.of_nat (s * s) * 8 < 2 ^ 63)%Z ->
  exists e, eye zero one s = Ok e /\ matrix_of e Float64 s s (identity zero one).
Proof.
  intros HB. unfold eye.
  destruct (write_all_spec (map (fun i => (i * s + i, one)) (seq 0 s)) (repeat zero (s * s))) as (out & E & HL & HN).
  { intros p v Hin. apply in_map_iff in Hin as (i & [= <- <-] & Hi). apply in_seq in Hi. rewrite repeat_length. nia. }
  rewrite E. cbn [bind]. eexists. split; [reflexivity|]. rewrite repeat_length in HL.
  split; [reflexivity|]. cbn [o_arr fst snd].
  split; [apply fresh_wf; [reflexivity|rewrite HL; exact HB|rewrite HL; cbn [prod]; lia]|].
  split; [reflexivity|]. split; [reflexivity|]. intros idx Hi. rewrite fresh_get by reflexivity.
  inversion Hi as [|i u c1 w Hi1 Hc1]; subst. inversion Hc1 as [|j u' c2 w' Hj Hc2]; subst. inversion Hc2; subst.
  cbn [rank prod nth]. replace (i * (s * 1) + (j * 1 + 0)) with (i * s + j) by lia. unfold identity.
  destruct (Nat.eqb_spec i j) as [->|Hij].
  - apply (HN (j * s + j)).
    + apply in_map_iff. exists j. split; [reflexivity|]. apply in_seq. lia.
    + intros v Hin. apply in_map_iff in Hin as (i' & Ei & _). congruence.
  - rewrite (proj1 (HN (i * s + j))).
    + rewrite nth_error_repeat; [reflexivity|nia].
    + intros v Hin. apply in_map_iff in Hin as (i' & Ei & Hi'). injection Ei as Ei _. apply in_seq in Hi'.
      assert (i' = i) by nia. subst. lia.
Qed.

Section Ring.
Context {R : Type}.
Variables (zero one : R) (add mul sub : R -> R -> R) (opp : R -> R).
Hypothesis RT : ring_theory zero one add mul sub opp eq.
Add Ring Rr2 : RT.
Local Notation prd := (product zero add mul).
Local Notation bg := (big zero add).

Lemma big_scale_r n c f : bg n (fun i => mul (f i) c) = mul (bg n f) c.
Proof using RT.
  rewrite (big_ext zero add n _ (fun i => mul c (f i))) by (intros; ring).
  rewrite (big_scale zero one add mul sub opp RT). ring.
Qed.
Lemma product_ext n x x' y y' i j : (forall k, k < n -> x i k = x' i k) -> (forall k, k < n -> y k j = y' k j) ->
  prd n x y i j = prd n x' y' i j.
Proof using Type. intros H1 H2. unfold product. apply big_ext. intros k Hk. rewrite H1, H2 by exact Hk. reflexivity. Qed.
Lemma product_assoc n p x y z i j : prd p (prd n x y) z i j = prd n x (prd p y z) i j.
Proof using RT.
  unfold product.
  rewrite (big_ext zero add p _ (fun k => bg n (fun l => mul (mul (x i l) (y l k)) (z k j)))).
  2:{ intros k Hk. symmetry. apply (big_scale_r n (z k j) (fun l => mul (x i l) (y l k))). }
  rewrite (big_swap zero one add mul sub opp RT). apply big_ext. intros l Hl.
  rewrite <- (big_scale zero one add mul sub opp RT). apply big_ext. intros k Hk. ring.
Qed.
Lemma product_flip n x y i j : prd n (flip2 y) (flip2 x) j i = prd n x y i j.
Proof using RT. unfold product, flip2. apply big_ext. intros; ring. Qed.
Lemma product_id_r n x i j : j < n -> prd n x (identity zero one) i j = x i j.
Proof using RT.
  intros Hj. unfold product, identity.
  rewrite (big_ext zero add n _ (fun k => if k =? j then x i k else zero)).
  2:{ intros k _. destruct (k =? j); ring. }
  rewrite (big_single zero one add mul sub opp RT). destruct (Nat.ltb_spec j n); [reflexivity|lia].
Qed.
Lemma product_id_l n x i j : i < n -> prd n (identity zero one) x i j = x i j.
Proof using RT.
  intros Hi. unfold product, identity.
  rewrite (big_ext zero add n _ (fun k => if k =? i then x k j else zero)).
  2:{ intros k _. rewrite (Nat.eqb_sym i k). destruct (k =? i); ring. }
  rewrite (big_single zero one add mul sub opp RT). destruct (Nat.ltb_spec i n); [reflexivity|lia].
Qed.
Lemma product_add_r n x y z i j : prd n x (fun k j => add (y k j) (z k j)) i j = add (prd n x y i j) (prd n x z i j).
Proof using RT.
  unfold product. rewrite <- (big_add zero one add mul sub opp RT). apply big_ext. intros; ring.
Qed.

Lemma sum_prod_big n x y : sum_prod zero add mul n x y = bg n (fun k => mul (x k) (y k)).
Proof using RT.
  unfold sum_prod. rewrite <- (big_seq zero one add mul sub opp RT).
  transitivity (fold_left add (map (fun k => mul (x k) (y k)) (seq 0 n)) zero).
  - assert (G : forall l acc, fold_left (fun a k => add a (mul (x k) (y k))) l acc = fold_left add (map (fun k => mul (x k) (y k)) l) acc).
    { induction l as [|k l IH]; intros acc; [reflexivity|]. cbn [fold_left map]. apply IH. }
    apply G.
  - rewrite (fold_left_sum zero one add mul sub opp RT). ring.
Qed.

(* powers *)
Local Notation pw := (power zero one add mul).
Lemma power_ext s x x' n : (forall i j, i < s -> j < s -> x i j = x' i j) ->
  forall i j, i < s -> j < s -> pw s x n i j = pw s x' n i j.
Proof using Type.
  intros H. induction n as [|n IH]; intros i j Hi Hj; [reflexivity|]. cbn [power]. apply product_ext; intros k Hk; auto.
Qed.
Lemma power_add s x a b i j : i < s -> j < s -> pw s x (a + b) i j = prd s (pw s x a) (pw s x b) i j.
Proof using RT.
  revert i j. induction b as [|b IH]; intros i j Hi Hj.
  - rewrite Nat.add_0_r. cbn [power]. symmetry. apply product_id_r, Hj.
  - rewrite Nat.add_succ_r. cbn [power]. rewrite <- product_assoc.
    apply product_ext; intros k Hk; [apply IH; assumption|reflexivity].
Qed.
Lemma power_1 s x i j : i < s -> pw s x 1 i j = x i j.
Proof using RT. intros Hi. cbn [power]. apply product_id_l, Hi. Qed.
Lemma power_square s x n i j : i < s -> j < s -> pw s (prd s x x) n i j = pw s x (2 * n) i j.
Proof using RT.
  revert i j. induction n as [|n IH]; intros i j Hi Hj; [reflexivity|].
  replace (2 * S n) with (2 * n + 2) by lia. rewrite power_add by assumption. cbn [power].
  apply product_ext; intros k Hk; [apply IH; assumption|].
  change (prd s x x k j = prd s (prd s (identity zero one) x) x k j).
  apply product_ext; intros l Hl; [|reflexivity]. symmetry. apply product_id_l, Hk.
Qed.

(* ---------- arrays over R: float64 and the other kinds computed by the library ---------- *)
Variables (truthy : R -> bool) (of_bool : bool -> R) (iadd imul : ity -> R -> R -> R).
Local Notation mm := (matmul zero truthy of_bool iadd imul add mul).
Theorem ring_product k x y m n p f g : lib_kind k -> matrix_of x k m n f -> matrix_of y k n p g ->
  (Z.of_nat (m * p) * itemsize k < 2 ^ 63)%Z ->
  exists out, mm x y = Ok out /\ matrix_of out k m p (prd n f g).
Proof using RT.
  intros HK HX HY HB. destruct (lib_ops iadd imul add mul k HK) as [HO HE].
  destruct (matmul_2d zero truthy of_bool iadd imul add mul k _ x y m n p f g
              (loop_computes zero truthy of_bool iadd imul add mul k add mul HO) (proj1 HE) HX HY HB) as (out & E & HM).
  exists out. split; [exact E|]. eapply matrix_of_ext; [|exact HM]. intros i j Hi Hj. cbv beta. apply sum_prod_big.
Qed.

Lemma power_loop_spec s : (Z.of_nat (s * s) * 8 < 2 ^ 63)%Z -> forall fuel r res cur x y,
  (r < 2 ^ N.of_nat fuel)%N -> matrix_of res Float64 s s x -> matrix_of cur Float64 s s y ->
  exists out, power_loop zero truthy of_bool iadd imul add mul fuel r res cur = Ok out /\
    matrix_of out Float64 s s (prd s x (pw s y (N.to_nat r))).
Proof using RT.
  intros HB. induction fuel as [|fuel IH]; intros r rs cur x y Hr HX HY.
  - cbn [power_loop]. exists rs. split; [reflexivity|]. cbn [N.of_nat] in Hr. change (2 ^ 0)%N with 1%N in Hr.
    assert (r = 0%N) by lia. subst. eapply matrix_of_ext; [|exact HX]. intros i j Hi Hj. cbn [N.to_nat power].
    symmetry. apply product_id_r, Hj.
  - cbn [power_loop]. destruct (N.eqb_spec r 0) as [->|Hr0].
    + exists rs. split; [reflexivity|]. eapply matrix_of_ext; [|exact HX]. intros i j Hi Hj. symmetry. apply product_id_r, Hj.
    + assert (HF : lib_kind Float64) by (left; reflexivity).
      assert (HB' : (Z.of_nat (s * s) * itemsize Float64 < 2 ^ 63)%Z) by exact HB.
      pose proof (N.div_mod r 2 ltac:(lia)) as HDM. pose proof (N.mod_lt r 2 ltac:(lia)) as HM.
      set (q := (r / 2)%N) in *. set (b := (r mod 2)%N) in *.
      assert (HQ : (q < 2 ^ N.of_nat fuel)%N).
      { rewrite Nnat.Nat2N.inj_succ, N.pow_succ_r' in Hr. lia. }
      assert (S1 : exists rs', (if (b =? 1)%N then mm rs cur else Ok rs) = Ok rs' /\
                matrix_of rs' Float64 s s (prd s x (pw s y (N.to_nat b)))).
      { destruct (N.eqb_spec b 1) as [E|E].
        - destruct (ring_product Float64 rs cur s s s x y HF HX HY HB') as (o & EO & HO). exists o. split; [exact EO|].
          eapply matrix_of_ext; [|exact HO]. intros i j Hi Hj. rewrite E. change (N.to_nat 1) with 1.
          apply product_ext; intros k Hk; [reflexivity|]. symmetry. apply power_1, Hk.
        - exists rs. split; [reflexivity|]. assert (b = 0)%N as -> by lia. eapply matrix_of_ext; [|exact HX].
          intros i j Hi Hj. symmetry. apply product_id_r, Hj. }
      destruct S1 as (rs' & -> & HX'). cbn [bind].
      assert (EN : N.to_nat r = N.to_nat b + 2 * N.to_nat q) by lia.
      destruct (N.ltb_spec 0 q) as [Hq|Hq].
      * destruct (ring_product Float64 cur cur s s s y y HF HY HY HB') as (c2 & -> & HY'). cbn [bind].
        destruct (IH q rs' c2 _ _ HQ HX' HY') as (out & EO & HO). exists out. split; [exact EO|].
        eapply matrix_of_ext; [|exact HO]. intros i j Hi Hj. rewrite product_assoc.
        apply product_ext; intros k Hk; [reflexivity|]. rewrite EN, power_add by assumption.
        apply product_ext; intros l Hl; [reflexivity|]. apply power_square; assumption.
      * cbn [bind]. destruct (IH q rs' cur _ _ HQ HX' HY) as (out & EO & HO). exists out. split; [exact EO|].
        eapply matrix_of_ext; [|exact HO]. intros i j Hi Hj. assert (q = 0)%N as E0 by lia. rewrite E0 in *.
        rewrite EN. change (N.to_nat 0) with 0. rewrite Nat.mul_0_r, Nat.add_0_r. cbn [power].
        apply product_id_r, Hj.
Qed.

Theorem power_spec inv x s f n : matrix_of x Float64 s s f -> (Z.of_nat (s * s) * 8 < 2 ^ 63)%Z -> (0 <= n < 2 ^ 63)%Z ->
  exists out, matrix_power zero truthy of_bool iadd imul add mul one inv x n = Ok out /\
    matrix_of out Float64 s s (pw s f (Z.to_nat n)).
Proof using RT.
  intros HX HB Hn. pose proof HX as (_ & _ & SX & _). unfold matrix_power. rewrite SX, Nat.eqb_refl. cbn [negb].
  destruct (Nat.eqb_spec s 0) as [->|].
  - eexists. split; [reflexivity|]. split; [reflexivity|]. cbn [o_arr fst snd].
    split; [apply fresh_wf; [reflexivity|cbn; lia|reflexivity]|]. split; [reflexivity|]. split; [reflexivity|].
    intros idx Hi. inversion Hi as [|i u c1 w Hi1 Hc1]; subst. lia.
  - destruct (Z.eqb_spec n 0) as [->|].
    + destruct (eye_spec zero one s HB) as (e & E & HM). exists e. split; [exact E|exact HM].
    + destruct (Z.ltb_spec n 0); [lia|]. cbn [bind]. destruct (eye_spec zero one s HB) as (e & -> & HM). cbn [bind].
      assert (HF : (Z.abs_N n < 2 ^ N.of_nat 64)%N) by (change (2 ^ N.of_nat 64)%N with 18446744073709551616%N; lia).
      destruct (power_loop_spec s HB 64 (Z.abs_N n) e x _ f HF HM HX) as (out & EO & HO).
      exists out. split; [exact EO|]. eapply matrix_of_ext; [|exact HO]. intros i j Hi Hj.
      rewrite product_id_l by exact Hi. f_equal. lia.
Qed.
Theorem power_inv_spec inv x y s f g n : matrix_of x Float64 s s f -> 0 < s -> inv x = Ok y -> matrix_of y Float64 s s g ->
  (Z.of_nat (s * s) * 8 < 2 ^ 63)%Z -> (- 2 ^ 63 <= n < 0)%Z ->
  exists out, matrix_power zero truthy of_bool iadd imul add mul one inv x n = Ok out /\
    matrix_of out Float64 s s (pw s g (Z.to_nat (- n))).
Proof using RT.
  intros HX Hs HI HY HB Hn. pose proof HX as (_ & _ & SX & _). unfold matrix_power. rewrite SX, Nat.eqb_refl. cbn [negb].
  destruct (Nat.eqb_spec s 0); [lia|]. destruct (Z.eqb_spec n 0); [lia|]. destruct (Z.ltb_spec n 0); [|lia].
  rewrite HI. cbn [bind]. destruct (eye_spec zero one s HB) as (e & -> & HM). cbn [bind].
  assert (HF : (Z.abs_N n < 2 ^ N.of_nat 64)%N) by (change (2 ^ N.of_nat 64)%N with 18446744073709551616%N; lia).
  destruct (power_loop_spec s HB 64 (Z.abs_N n) e y _ g HF HM HY) as (out & EO & HO).
  exists out. split; [exact EO|]. eapply matrix_of_ext; [|exact HO]. intros i j Hi Hj.
  rewrite product_id_l by exact Hi. f_equal. lia.
Qed.

(* products of several matrices: widths and entries of the remaining factors *)
Inductive chain (k : kind) (m : nat) : nat -> list (@operand R) -> list (nat * (nat -> nat -> R)) -> Prop :=
| chain_nil w : chain k m w [] []
| chain_cons w o p x os xs : matrix_of o k w p x -> (Z.of_nat (m * p) * itemsize k < 2 ^ 63)%Z ->
    chain k m p os xs -> chain k m w (o :: os) ((p, x) :: xs).
Definition chain_product (w : nat) (x : nat -> nat -> R) (xs : list (nat * (nat -> nat -> R))) : nat * (nat -> nat -> R) :=
  fold_left (fun acc q => (fst q, prd (fst acc) (snd acc) (snd q))) xs (w, x).
Theorem multi_dot_spec k m w o os x xs : lib_kind k -> matrix_of o k m w x -> chain k m w os xs ->
  exists out, multi_dot zero truthy of_bool iadd imul add mul (o :: os) = Ok out /\
    matrix_of out k m (fst (chain_product w x xs)) (snd (chain_product w x xs)).
Proof using RT.
  intros HK HO HC. cbn [multi_dot]. revert o x HO. induction HC as [w|w o' p y os xs HY HB HC IH]; intros o x HO.
  - exists o. split; [reflexivity|exact HO].
  - cbn [foldM]. destruct (ring_product k o o' m w p x y HK HO HY HB) as (o2 & -> & HO2). cbn [bind].
    destruct (IH o2 _ HO2) as (out & E & HM). exists out. split; [exact E|exact HM].
Qed.
End Ring.

(* ---------- integers ---------- *)
Section Ints.
Local Open Scope Z_scope.

Lemma Zring : ring_theory 0 1 Z.add Z.mul Z.sub Z.opp eq.
Proof. constructor; intros; ring. Qed.

Lemma wrap_big t n f : ity_ok t -> wrap t (big 0 Z.add n (fun i => wrap t (f i))) = wrap t (big 0 Z.add n f).
Proof.
  intros H. induction n as [|n IH]; [reflexivity|]. cbn [big].
  rewrite wrap_add_r by exact H. rewrite <- wrap_add_l, IH, wrap_add_l by exact H. reflexivity.
Qed.
Lemma wrap_product_ext t n x x' y y' i j : ity_ok t ->
  (forall k, (k < n)%nat -> wrap t (x i k) = wrap t (x' i k)) -> (forall k, (k < n)%nat -> wrap t (y k j) = wrap t (y' k j)) ->
  wrap t (zproduct n x y i j) = wrap t (zproduct n x' y' i j).
Proof.
  intros H HX HY. unfold zproduct, product. rewrite <- (wrap_big t n (fun k => x i k * y k j)), <- (wrap_big t n (fun k => x' i k * y' k j)) by exact H.
  f_equal. apply big_ext. intros k Hk. rewrite <- wrap_mul_l, <- wrap_mul_r by exact H. rewrite HX, HY by exact Hk.
  rewrite wrap_mul_r, wrap_mul_l by exact H. reflexivity.
Qed.
Lemma z_sum_prod t n x y : ity_ok t -> sum_prod 0 (z_add t) (z_mul t) n x y = wrap t (big 0 Z.add n (fun k => x k * y k)).
Proof.
  intros H. unfold sum_prod, z_add, z_mul.
  induction n as [|n IH]; [symmetry; unfold wrap; cbn [big]; rewrite Z.sub_0_l|].
  - assert (HP : 0 < 2 ^ bits t) by (apply Z.pow_pos_nonneg; unfold ity_ok in H; lia).
    pose proof (wrap_id t 0 H) as HW. unfold wrap in HW. rewrite Z.sub_0_l in HW. apply HW.
    unfold representable, i_min, i_max. unfold ity_ok in H. destruct (signed t); [|lia].
    assert (0 < 2 ^ (bits t - 1)) by (apply Z.pow_pos_nonneg; lia). lia.
  - rewrite seq_S, fold_left_app. cbn [fold_left]. rewrite IH. cbn [big plus].
    rewrite wrap_add_l, wrap_add_r by exact H. reflexivity.
Qed.

Variables (fadd fmul : Z -> Z -> Z).
(* the integer dtypes that matmul supports *)
Definition int_kind (k : kind) : option ity := match k with Int64 => Some i64 | Int32 => Some i32 | _ => None end.
Lemma int_ops k t : int_kind k = Some t ->
  loop_ops z_add z_mul fadd fmul k = Some (z_add t, z_mul t) /\ 0 < itemsize k < 2 ^ 63 /\ ity_ok t.
Proof. destruct k; try discriminate; intros [= <-]; (split; [reflexivity|]); (split; [cbn; lia|reflexivity]). Qed.

Theorem int_product k t x y m n p f g : int_kind k = Some t -> matrix_of x k m n f -> matrix_of y k n p g ->
  Z.of_nat (m * p) * itemsize k < 2 ^ 63 ->
  exists out, int_matmul fadd fmul x y = Ok out /\ matrix_of out k m p (fun i j => wrap t (zproduct n f g i j)).
Proof.
  intros HK HX HY HB. destruct (int_ops k t HK) as (HO & HE & HT).
  destruct (matmul_2d 0 z_truthy Z.b2z z_add z_mul fadd fmul k _ x y m n p f g
              (loop_computes 0 z_truthy Z.b2z z_add z_mul fadd fmul k _ _ HO) (proj1 HE) HX HY HB) as (out & E & HM).
  exists out. split; [exact E|]. eapply matrix_of_ext; [|exact HM]. intros i j Hi Hj. cbv beta. apply z_sum_prod, HT.
Qed.
End Ints.
