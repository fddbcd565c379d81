(* Claim C156: arithmetic of complex arrays. *)
From Coq Require Import SpecFloat.
From Verif Require Import Base Lists Int_Model Int_Proofs F64_Model Arr_Spec Arr_Model Arr_Wf Arr_Proofs Wf_Check Bcast_Model Bcast_Proofs Copy_Model Copy_Proofs Idx_Model Idx_Assign
  Elem_Model Elem_Proofs Rng_Model Date_Model New_Model Promo_Spec Promo_Model Promo_Proofs Promo_Props SF_Proofs SF_Arith SF_Cmp Cast_Spec Cast_Model Cast_SF Cast_Proofs Cast_Laws Cast_Props
  Close_Proofs Bitw_Spec Bitw_Model Bitw_Proofs Rnd_Spec Rnd_Model Rnd_Proofs Rnd_Round Rnd_Props Ari_Spec SF_Round Ari_Model Ari_Proofs Ari_Ord Ari_Next Ari_Props Cpx_Spec Cpx_Model Cpx_Proofs CpxA_Spec CpxA_Proofs.
Local Open Scope Z_scope.

(* two arrays of which at least one is complex; the dtype of their result *)
Definition complex_pair (x y : narr) : Prop := good x /\ good y /\ is_complex_kind (promote (n_kind x) (n_kind y)) = true.
Definition result_dtype (x y : narr) : kind := promote (n_kind x) (n_kind y).
Definition part_holds (k : kind) (z : Z) : Prop := holds (part_kind k) (z, 0).
(* operands of one dtype, or a complex128 result of numbers that double holds *)
Definition read_exactly (x y : narr) (v w : scalar) : Prop :=
  n_kind x = n_kind y \/ result_dtype x y = Complex128 /\ ext_in f64_holds (real_value v) /\ ext_in f64_holds (real_value w).

Lemma part_rounded k N D e : is_complex_kind k = true -> fmt_rounded (fst (part k)) (snd (part k)) N D e -> rounded (part_kind k) N D e.
Proof. intros C H. destruct (part_fmt k C) as [P _]. apply rounded_kind; [destruct (complex_part k C); auto|]. rewrite P. exact H. Qed.
Lemma part_holds_fmt k z : is_complex_kind k = true -> (part_holds k z <-> fmt_holds (fst (part k)) (snd (part k)) z).
Proof. intros C. destruct (part_fmt k C) as [P _]. unfold part_holds. rewrite float_holds_kind by (destruct (complex_part k C); auto). rewrite P. reflexivity. Qed.
Lemma steps_fmt k a b c d : is_complex_kind k = true -> product_steps (part_holds k) a b c d -> product_steps (fmt_holds (fst (part k)) (snd (part k))) a b c d.
Proof.
  intros C ((p & Hp & Ep) & (q & Hq & Eq) & (s & Hs & Es) & (t & Ht & Et)). apply (part_holds_fmt k _ C) in Hp, Hq, Hs, Ht. split; [exists p|split; [exists q|split; [exists s|exists t]]]; split; assumption.
Qed.

(* ---- sums and differences -------------------------------------------------------- *)
(* each part rounded once.  Missing: complex64 results of a float32 or small integer array
   and complex64, and integers that double does not hold. *)
Theorem C156_sum_partial : forall (minus : bool) x y, complex_pair x y ->
  match broadcast_shapes (shape_of x) (shape_of y) with
  | None => cbinary (if minus then ASub else AAdd) x y = Err
  | Some sh => in_memory sh -> exists z, cbinary (if minus then ASub else AAdd) x y = Ok z /\
      pairwise (fun v w r => read_exactly x y v w -> (if minus then cdifference else csum) (rounded (part_kind (result_dtype x y))) (value v) (value w) (value r)) x y sh (result_dtype x y) z
  end.
Proof.
  intros minus x y (GX & GY & C). assert ((if minus then ASub else AAdd) <> ADiv) as ND by (destruct minus; discriminate). destruct (broadcast_shapes _ _) as [sh|] eqn:E; [|apply cbinary_err; auto].
  intros HS. destruct (cbinary_good (if minus then ASub else AAdd) x y sh GX GY C (or_introl ND) E HS) as (z & EZ & GZ & KZ & SZ & HZ). exists z. split; [exact EZ|]. split; [exact GZ|]. split; [exact KZ|]. split; [exact SZ|].
  intros idx Hi. destruct (HZ idx Hi) as (v & w & r & A & B & D & EV & EW & _ & EO). exists v, w, r. repeat (split; [assumption|]). intros RE.
  destruct (celem_floats _ (n_kind x) (n_kind y) v w (proj1 GX) (proj1 GY) C EV EW RE (or_introl ND)) as (a & b & OA & OB & VA & VB & EC). rewrite EC in EO. injection EO as <-. fold (result_dtype x y) in *. rewrite <- VA, <- VB.
  pose proof (part_format (result_dtype x y)) as HF. pose proof (fun N D e => part_rounded (result_dtype x y) N D e C) as PR. destruct minus.
  - destruct (sub_value _ _ HF a b OA OB) as [S1 S2]. split; [exact (arith_mono ASub _ _ _ _ _ PR S1)|exact (arith_mono ASub _ _ _ _ _ PR S2)].
  - destruct (add_value _ _ HF a b OA OB) as [S1 S2]. split; [exact (arith_mono AAdd _ _ _ _ _ PR S1)|exact (arith_mono AAdd _ _ _ _ _ PR S2)].
Qed.
Example C156_sum_nonvacuous :
  let x := row Complex128 [SCpx (S754_finite false 4503599627370496 (-52)) S754_nan; SCpx (S754_infinity false) (S754_zero false)] in
  let y := row Int8 [SInt 1] in
  complex_pair x y /\ broadcast_shapes (shape_of x) (shape_of y) = Some [2%nat] /\
  cbinary AAdd x y = Ok (row Complex128 [SCpx (S754_finite false 4503599627370496 (-51)) S754_nan; SCpx (S754_infinity false) (S754_zero false)]).
Proof. cbv zeta. split; [split; [good_row|split; [good_row|reflexivity]]|]. split; vm_compute; reflexivity. Qed.

(* ---- products -------------------------------------------------------------------- *)
(* exact when the products of the parts and the result are numbers of the dtype.
   Missing: what is returned when a step has to be rounded. *)
Theorem C156_product_partial : forall x y, complex_pair x y ->
  match broadcast_shapes (shape_of x) (shape_of y) with
  | None => cbinary AMul x y = Err
  | Some sh => in_memory sh -> exists z, cbinary AMul x y = Ok z /\
      pairwise (fun v w r => forall a b c d re im, read_exactly x y v w -> value v = (Fin a, Fin b) -> value w = (Fin c, Fin d) ->
                  exact_cproduct a b c d re im -> product_steps (part_holds (result_dtype x y)) a b c d -> part_holds (result_dtype x y) re -> part_holds (result_dtype x y) im ->
                  value r = (Fin re, Fin im)) x y sh (result_dtype x y) z
  end.
Proof.
  intros x y (GX & GY & C). assert (AMul <> ADiv) as ND by discriminate. destruct (broadcast_shapes _ _) as [sh|] eqn:E; [|apply cbinary_err; auto].
  intros HS. destruct (cbinary_good AMul x y sh GX GY C (or_introl ND) E HS) as (z & EZ & GZ & KZ & SZ & HZ). exists z. split; [exact EZ|]. split; [exact GZ|]. split; [exact KZ|]. split; [exact SZ|].
  intros idx Hi. destruct (HZ idx Hi) as (v & w & r & A & B & D & EV & EW & _ & EO). exists v, w, r. repeat (split; [assumption|]). intros a b c d re im RE VV VW EX ST HR HI.
  destruct (celem_floats _ (n_kind x) (n_kind y) v w (proj1 GX) (proj1 GY) C EV EW RE (or_introl ND)) as (f & g & OF & OG & VF & VG & EC). rewrite EC in EO. injection EO as <-. fold (result_dtype x y) in *.
  rewrite <- VF in VV. rewrite <- VG in VW. apply (part_holds_fmt _ _ C) in HR, HI. apply (steps_fmt _ _ _ _ _ C) in ST.
  exact (mul_exact _ _ (part_format (result_dtype x y)) f g a b c d re im OF OG VV VW EX ST HR HI).
Qed.

(* Gaussian integers: with parts below 2^26 (complex128) or 2^11 (complex64) the product
   is the product *)
Definition small (k : kind) : Z := match k with Complex64 => 2 ^ 11 | _ => 2 ^ 26 end.
Lemma small_holds k z : is_complex_kind k = true -> Z.abs z < 2 * (small k * small k) -> part_holds k (z * one).
Proof.
  intros C H. apply part_holds_fmt; [exact C|]. apply float_int; destruct k; try discriminate C; cbn [part fst snd small] in *; unfold SpecFloat.emin; lia.
Qed.
Theorem C156_integers : forall x y sh, complex_pair x y -> n_kind x = n_kind y -> broadcast_shapes (shape_of x) (shape_of y) = Some sh -> in_memory sh ->
  exists z, cbinary AMul x y = Ok z /\
    pairwise (fun v w r => forall a b c d, value v = (Fin (a * one), Fin (b * one)) -> value w = (Fin (c * one), Fin (d * one)) ->
      Z.abs a < small (n_kind x) -> Z.abs b < small (n_kind x) -> Z.abs c < small (n_kind x) -> Z.abs d < small (n_kind x) ->
      value r = (Fin ((a * c - b * d) * one), Fin ((a * d + b * c) * one))) x y sh (n_kind x) z.
Proof.
  intros x y sh HP K E HS. pose proof (C156_product_partial x y HP) as H. rewrite E in H. destruct (H HS) as (z & EZ & GZ & KZ & SZ & HZ). clear H. destruct HP as (GX & GY & C).
  assert (is_complex_kind (n_kind x) = true /\ result_dtype x y = n_kind x) as [CX PX] by (unfold result_dtype; rewrite <- K in *; destruct GX as [N _]; destruct (n_kind x); try discriminate N; try discriminate C; auto). rewrite PX in *.
  exists z. split; [exact EZ|]. split; [exact GZ|]. split; [exact KZ|]. split; [exact SZ|]. intros idx Hi. destruct (HZ idx Hi) as (v & w & r & A & B & D & HR). exists v, w, r. repeat (split; [assumption|]).
  intros a b c d VV VW HA HB HC HD. set (s := small (n_kind x)) in *.
  assert (forall p q, Z.abs p < s -> Z.abs q < s -> Z.abs (p * q) < s * s) as HM by (intros p q P Q; rewrite Z.abs_mul; apply Z.mul_lt_mono_nonneg; lia).
  assert (forall p q, Z.abs p < s -> Z.abs q < s -> product_in (part_holds (n_kind x)) (p * one) (q * one)) as HPI.
  { intros p q P Q. exists (p * q * one). split; [apply small_holds; [exact CX|fold s; specialize (HM p q P Q); assert (0 <= s * s) by (apply Z.square_nonneg); lia]|unfold exact_product; ring]. }
  apply (HR (a * one) (b * one) (c * one) (d * one)); try assumption; [left; exact K|split; ring|split; [|split; [|split]]; apply HPI; assumption| |].
  - apply small_holds; [exact CX|]. fold s. pose proof (HM a c HA HC). pose proof (HM b d HB HD). lia.
  - apply small_holds; [exact CX|]. fold s. pose proof (HM a d HA HD). pose proof (HM b c HB HC). lia.
Qed.
Example C156_integers_nonvacuous :
  let x := row Complex64 [SCpx (S754_finite false 8388608 (-23)) (S754_finite false 8388608 (-22))] in
  let y := row Complex64 [SCpx (S754_finite false 12582912 (-22)) (S754_finite true 8388608 (-23))] in
  complex_pair x y /\ cbinary AMul x y = Ok (row Complex64 [SCpx (S754_finite false 10485760 (-21)) (S754_finite false 10485760 (-21))]) /\
  value (SCpx (S754_finite false 8388608 (-23)) (S754_finite false 8388608 (-22))) = (Fin (1 * one), Fin (2 * one)).
Proof. cbv zeta. split; [split; [good_row|split; [good_row|reflexivity]]|]. split; vm_compute; reflexivity. Qed.

(* x + y is y + x and x * y is y * x, bit for bit *)
Theorem C156_commutative : forall op x y sh, op = AAdd \/ op = AMul -> good x -> good y -> is_complex_kind (n_kind x) = true -> n_kind y = n_kind x ->
  broadcast_shapes (shape_of x) (shape_of y) = Some sh -> in_memory sh ->
  exists z z', cbinary op x y = Ok z /\ cbinary op y x = Ok z' /\ n_kind z' = n_kind z /\ shape_of z' = shape_of z /\
    forall idx, inb idx sh -> item_at z' idx = item_at z idx /\ item_at z idx <> None.
Proof.
  intros op x y sh HO GX GY CX K E HS. assert (promote (n_kind x) (n_kind y) = n_kind x /\ promote (n_kind y) (n_kind x) = n_kind x) as [P1 P2] by (rewrite K; destruct (n_kind x); try discriminate CX; auto).
  assert (op <> ADiv) as ND by (destruct HO as [-> | ->]; discriminate).
  destruct (cbinary_good op x y sh GX GY ltac:(rewrite P1; exact CX) (or_introl ND) E HS) as (z & EZ & GZ & KZ & SZ & HZ). rewrite bshape_comm in E.
  destruct (cbinary_good op y x sh GY GX ltac:(rewrite P2; exact CX) (or_introl ND) E HS) as (z' & EZ' & GZ' & KZ' & SZ' & HZ').
  exists z, z'. split; [exact EZ|]. split; [exact EZ'|]. split; [congruence|]. split; [congruence|]. intros idx Hi.
  destruct (HZ idx Hi) as (v & w & r & A & B & D & EV & EW & _ & EO). destruct (HZ' idx Hi) as (w' & v' & r' & B' & A' & D' & _ & _ & _ & EO').
  rewrite A in A'. injection A' as <-. rewrite B in B'. injection B' as <-. rewrite D, D'. split; [|discriminate]. f_equal.
  unfold celem in EO, EO'. rewrite K, kind_eqb_refl in EO, EO'. rewrite K in EW. destruct (element_cpx _ v CX EV) as (a & b & -> & _ & _). destruct (element_cpx _ w CX EW) as (c & d & -> & _ & _). cbn [any_same] in *.
  rewrite (bin_comm _ _ op (c, d) (a, b) HO) in EO'. rewrite EO in EO'. injection EO' as ->. reflexivity.
Qed.
Example C156_commutative_nonvacuous :
  let x := row Complex64 [SCpx (S754_finite false 8388608 (-23)) (S754_finite false 8388609 (-22))] in
  good x /\ cbinary AMul x x = Ok (row Complex64 [SCpx (S754_finite true 12582916 (-22)) (S754_finite false 8388609 (-21))]).
Proof. cbv zeta. split; [good_row|vm_compute; reflexivity]. Qed.

(* conj(x + y) is conj(x) + conj(y), and the same for products: rounding does not get in the way *)
Theorem C156_conjugate : forall op x y sh, op = AAdd \/ op = AMul -> good x -> good y -> is_complex_kind (n_kind x) = true -> n_kind y = n_kind x ->
  broadcast_shapes (shape_of x) (shape_of y) = Some sh -> in_memory sh ->
  exists z cz cx cy z', cbinary op x y = Ok z /\ conj z = Ok cz /\ conj x = Ok cx /\ conj y = Ok cy /\ cbinary op cx cy = Ok z' /\
    forall idx, inb idx sh -> exists r r', item_at cz idx = Some r /\ item_at z' idx = Some r' /\ value r' = value r.
Proof.
  intros op x y sh HO GX GY CX K E HS. assert (promote (n_kind x) (n_kind x) = n_kind x) as P by (destruct (n_kind x); try discriminate CX; auto). assert (op <> ADiv) as ND by (destruct HO as [-> | ->]; discriminate).
  destruct (cbinary_good op x y sh GX GY ltac:(rewrite K, P; exact CX) (or_introl ND) E HS) as (z & EZ & GZ & KZ & SZ & HZ). destruct (conj_spec z GZ) as (cz & EC & _ & _ & SC & HC).
  destruct (conj_spec x GX) as (cx & ECX & GCX & KCX & SCX & HCX). destruct (conj_spec y GY) as (cy & ECY & GCY & KCY & SCY & HCY).
  assert (broadcast_shapes (shape_of cx) (shape_of cy) = Some sh) as E' by (rewrite SCX, SCY; exact E).
  destruct (cbinary_good op cx cy sh GCX GCY ltac:(rewrite KCX, KCY, K, P; exact CX) (or_introl ND) E' HS) as (z' & EZ' & GZ' & KZ' & SZ' & HZ').
  exists z, cz, cx, cy, z'. repeat (split; [assumption|]). intros idx Hi.
  destruct (HZ idx Hi) as (v & w & r & A & B & D & EV & EW & ER & EO). destruct (HZ' idx Hi) as (v' & w' & r' & A' & B' & D' & EV' & EW' & ER' & EO').
  pose proof Hi as Hj. rewrite <- SZ in Hj. destruct (HC idx Hj) as (r0 & s & D0 & DS & VS). rewrite D in D0. injection D0 as <-. exists s, r'. split; [exact DS|]. split; [exact D'|]. rewrite VS.
  destruct (bc_items x y sh E (proj1 (proj2 GX)) (proj1 (proj2 GY)) idx Hi) as (I1 & I2 & _). 
  destruct (HCX _ I1) as (v0 & v1 & X1 & X2 & VX). destruct (HCY _ I2) as (w0 & w1 & Y1 & Y2 & VY).
  unfold bc_at in A, B, A', B'. rewrite SCX in A'. rewrite SCY in B'.
  rewrite A in X1. injection X1 as <-. rewrite B in Y1. injection Y1 as <-. rewrite A' in X2. injection X2 as <-. rewrite B' in Y2. injection Y2 as <-.
  rewrite KCX in EV'. rewrite KCY in EW'. rewrite K in EW, EW'.
  assert (one_format (n_kind x) (n_kind x) v w /\ one_format (n_kind x) (n_kind x) v' w') as [OF OF'] by (split; left; reflexivity).
  rewrite K in EO. rewrite KCX, KCY, K in EO'. assert (is_complex_kind (promote (n_kind x) (n_kind x)) = true) as C by (rewrite P; exact CX).
  destruct (celem_floats op _ _ v w (proj1 GX) (proj1 GX) C EV EW OF (or_introl ND)) as (a & b & OA & OB & VA & VB & EC1). rewrite EC1 in EO. injection EO as <-.
  destruct (celem_floats op _ _ v' w' (proj1 GX) (proj1 GX) C EV' EW' OF' (or_introl ND)) as (a' & b' & OA' & OB' & VA' & VB' & EC2). rewrite EC2 in EO'. injection EO' as <-. rewrite P in *.
  set (p := fst (part (n_kind x))) in *. set (m := snd (part (n_kind x))) in *. pose proof (part_format (n_kind x)) as HF. fold p m in HF.
  change (cvalue (cpx_bin op p m a' b') = conjugate (cvalue (cpx_bin op p m a b))).
  assert (cvalue a' = cvalue (cconj a) /\ cvalue b' = cvalue (cconj b)) as [QA QB] by (rewrite !conj_value; split; congruence).
  transitivity (cvalue (cpx_bin op p m (cconj a) (cconj b))); [|destruct HO as [-> | ->]; [apply conj_add|apply conj_mul]; assumption].
  apply (bin_values p m HF op); try assumption; apply conj_ok; assumption.
Qed.
Example C156_conjugate_nonvacuous :
  let x := row Complex64 [SCpx (S754_finite false 8388608 (-23)) (S754_finite false 8388609 (-22))] in
  good x /\ bind (conj x) (fun c => cbinary AMul c c) = bind (cbinary AMul x x) conj.
Proof. cbv zeta. split; [good_row|vm_compute; reflexivity]. Qed.

(* ---- quotients ------------------------------------------------------------------- *)
(* two complex arrays of one dtype: exact when the steps and the result are numbers of the
   dtype.  Missing: rounded steps (they can overflow or vanish, refuted below) and quotients
   of different dtypes. *)
Theorem C156_quotient_partial : forall x y, complex_pair x y -> n_kind x = n_kind y ->
  match broadcast_shapes (shape_of x) (shape_of y) with
  | None => cbinary ADiv x y = Err
  | Some sh => in_memory sh -> exists z, cbinary ADiv x y = Ok z /\
      pairwise (fun v w r => forall a b c d re im, value v = (Fin a, Fin b) -> value w = (Fin c, Fin d) ->
                  exact_cquotient a b c d re im -> quotient_steps (part_holds (n_kind x)) a b c d -> part_holds (n_kind x) re -> part_holds (n_kind x) im ->
                  value r = (Fin re, Fin im)) x y sh (n_kind x) z
  end.
Proof.
  intros x y (GX & GY & C) K. assert (is_complex_kind (n_kind x) = true /\ promote (n_kind x) (n_kind x) = n_kind x) as [CX P] by (rewrite <- K in C; destruct GX as [N _]; destruct (n_kind x); try discriminate N; try discriminate C; auto).
  assert (ADiv <> ADiv \/ is_complex_kind (n_kind x) = true /\ is_complex_kind (n_kind y) = true) as ND by (right; rewrite <- K; auto). destruct (broadcast_shapes _ _) as [sh|] eqn:E; [|apply cbinary_err; auto].
  intros HS. destruct (cbinary_good ADiv x y sh GX GY C ND E HS) as (z & EZ & GZ & KZ & SZ & HZ). rewrite <- K, P in KZ. exists z. split; [exact EZ|]. split; [exact GZ|]. split; [exact KZ|]. split; [exact SZ|].
  intros idx Hi. destruct (HZ idx Hi) as (v & w & r & A & B & D & EV & EW & _ & EO). exists v, w, r. repeat (split; [assumption|]). intros a b c d re im VV VW EX ST HR HI.
  destruct (celem_floats ADiv (n_kind x) (n_kind y) v w (proj1 GX) (proj1 GY) C EV EW (or_introl K) (or_intror K)) as (f & g & OF & OG & VF & VG & EC). rewrite EC in EO. injection EO as <-. rewrite <- K, P in *.
  rewrite <- VF in VV. rewrite <- VG in VW. apply (part_holds_fmt _ _ CX) in HR, HI.
  assert (quotient_steps (fmt_holds (fst (part (n_kind x))) (snd (part (n_kind x)))) a b c d) as ST'.
  { destruct ST as (S1 & (p1 & H1 & E1) & (p2 & H2 & E2) & (p3 & H3 & E3) & (p4 & H4 & E4) & (p5 & H5 & E5)). apply (part_holds_fmt _ _ CX) in H1, H2, H3, H4, H5.
    split; [apply (steps_fmt _ _ _ _ _ CX S1)|]. split; [exists p1|split; [exists p2|split; [exists p3|split; [exists p4|exists p5]]]]; split; assumption. }
  exact (div_exact _ _ (part_format (n_kind x)) f g a b c d re im OF OG VV VW EX ST' HR HI).
Qed.
(* (1 + 2i)(3 - i) = 5 + 5i, so (5 + 5i) / (3 - i) is 1 + 2i *)
Example C156_quotient_nonvacuous :
  let x := row Complex64 [SCpx (S754_finite false 10485760 (-21)) (S754_finite false 10485760 (-21))] in
  let y := row Complex64 [SCpx (S754_finite false 12582912 (-22)) (S754_finite true 8388608 (-23))] in
  complex_pair x y /\ cbinary ADiv x y = Ok (row Complex64 [SCpx (S754_finite false 8388608 (-23)) (S754_finite false 8388608 (-22))]) /\
  exact_cquotient (5 * one) (5 * one) (3 * one) (- one) one (2 * one) /\ quotient_steps (part_holds Complex64) (5 * one) (5 * one) (3 * one) (- one).
Proof.
  cbv zeta. split; [split; [good_row|split; [good_row|reflexivity]]|]. split; [vm_compute; reflexivity|]. pose proof one_pos as H1. split; [split; [left; lia|split; ring]|].
  assert (forall z, Z.abs z <= 1000 -> part_holds Complex64 (z * one)) as HI by (intros z Hz; apply small_holds; [reflexivity|cbn [small]; lia]).
  unfold quotient_steps, product_steps, product_in, scaled_in, exact_product.
  repeat split; [exists (15 * one)|exists (-5 * one)|exists (-5 * one)|exists (15 * one)|exists (9 * one)|exists (1 * one)|exists (10 * one)|exists (10 * one)|exists (20 * one)]; (split; [apply HI; lia|ring]).
Qed.
(* x / x is not 1 when the square of x leaves the dtype: 2^600 / 2^600 and 2^-600 / 2^-600 are
   NaN in complex128 and 1 / 2^600 is 0; a zero divisor gives NaN + NaN i, not an infinity *)
Theorem C156_quotient_refuted :
  let c x := row Complex128 [SCpx x (S754_zero false)] in
  let big := S754_finite false 4503599627370496 548 in let tiny := S754_finite false 4503599627370496 (-652) in let unit := S754_finite false 4503599627370496 (-52) in
  good (c big) /\ good (c tiny) /\ exact_cquotient (2 ^ 600 * one) 0 (2 ^ 600 * one) 0 one 0 /\ value (SCpx big (S754_zero false)) = (Fin (2 ^ 600 * one), Fin 0) /\
  cbinary ADiv (c big) (c big) = Ok (row Complex128 [SCpx S754_nan (S754_zero false)]) /\
  cbinary ADiv (c unit) (c big) = Ok (row Complex128 [SCpx (S754_zero false) (S754_zero false)]) /\
  cbinary ADiv (c tiny) (c tiny) = Ok (row Complex128 [SCpx S754_nan S754_nan]) /\
  cbinary ADiv (c unit) (c (S754_zero false)) = Ok (row Complex128 [SCpx S754_nan S754_nan]).
Proof.
  cbv zeta. split; [good_row|]. split; [good_row|]. split; [split; [left; intros H; apply Z.mul_eq_0 in H; pose proof one_pos; destruct H as [H|H]; [discriminate H|lia]|split; ring]|]. split; [vm_compute; reflexivity|]. repeat (split; [vm_compute; reflexivity|]). vm_compute; reflexivity.
Qed.

(* ---- maximum, minimum, fmax, fmin ------------------------------------------------ *)
Definition extremum_spec (op : aop) : number -> number -> number -> Prop :=
  match op with
  | AMaximum => cnan_wins cgreater
  | AMinimum => cnan_wins cless
  | AFMax => cnan_loses cgreater
  | AFMin => cnan_loses cless
  | _ => fun _ _ _ => False
  end.
(* the lexicographically greater (less), with a NaN in either part winning (losing) *)
Theorem C156_extrema_partial : forall op x y, In op [AMaximum; AMinimum; AFMax; AFMin] -> complex_pair x y ->
  match broadcast_shapes (shape_of x) (shape_of y) with
  | None => cbinary op x y = Err
  | Some sh => in_memory sh -> exists z, cbinary op x y = Ok z /\
      pairwise (fun v w r => read_exactly x y v w -> extremum_spec op (value v) (value w) (value r)) x y sh (result_dtype x y) z
  end.
Proof.
  intros op x y HO (GX & GY & C). assert (op <> ADiv) as ND by (intros ->; repeat destruct HO as [HO|HO]; try discriminate HO; exact HO). destruct (broadcast_shapes _ _) as [sh|] eqn:E; [|apply cbinary_err; auto].
  intros HS. destruct (cbinary_good op x y sh GX GY C (or_introl ND) E HS) as (z & EZ & GZ & KZ & SZ & HZ). exists z. split; [exact EZ|]. split; [exact GZ|]. split; [exact KZ|]. split; [exact SZ|].
  intros idx Hi. destruct (HZ idx Hi) as (v & w & r & A & B & D & EV & EW & _ & EO). exists v, w, r. repeat (split; [assumption|]). intros RE.
  destruct (celem_floats _ (n_kind x) (n_kind y) v w (proj1 GX) (proj1 GY) C EV EW RE (or_introl ND)) as (a & b & OA & OB & VA & VB & EC). rewrite EC in EO. injection EO as <-. rewrite <- VA, <- VB.
  destruct (extrema_value _ _ (part_format (promote (n_kind x) (n_kind y))) a b OA OB) as (X1 & X2 & X3 & X4).
  destruct HO as [<- |[<- |[<- |[<- |[]]]]]; assumption.
Qed.
Example C156_extrema_nonvacuous :
  let i := S754_finite false 4503599627370496 (-52) in let o := S754_zero false in
  let x := row Complex128 [SCpx i o; SCpx o S754_nan] in let y := row Complex128 [SCpx i i; SCpx i o] in
  complex_pair x y /\ cbinary AMaximum x y = Ok (row Complex128 [SCpx i i; SCpx S754_nan S754_nan]) /\ cbinary AFMin x y = Ok (row Complex128 [SCpx i o; SCpx i o]).
Proof. cbv zeta. split; [split; [good_row|split; [good_row|reflexivity]]|]. split; vm_compute; reflexivity. Qed.

Print Assumptions C156_sum_partial.
Print Assumptions C156_product_partial.
Print Assumptions C156_integers.
Print Assumptions C156_commutative.
Print Assumptions C156_conjugate.
Print Assumptions C156_quotient_partial.
Print Assumptions C156_quotient_refuted.
Print Assumptions C156_extrema_partial.
