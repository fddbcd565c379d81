(* Claims C150 (addition, subtraction, multiplication, division with dtypes), C151
   (maximum, minimum, fmax, fmin), C152 (remainder and floor division of floats). *)
From Coq Require Import SpecFloat.
From Verif Require Import Base Lists Int_Model Int_Proofs F64_Model Arr_Spec Arr_Model Arr_Wf Arr_Proofs Wf_Check Bcast_Model Bcast_Proofs Copy_Model Copy_Proofs Idx_Model Idx_Assign
  Elem_Model Elem_Proofs Rng_Model Date_Model New_Model Promo_Spec Promo_Model Promo_Proofs Promo_Props SF_Proofs SF_Arith SF_Cmp Cast_Spec Cast_Model Cast_SF Cast_Proofs Cast_Laws Cast_Props
  Close_Proofs Bitw_Spec Bitw_Model Bitw_Proofs Rnd_Spec Rnd_Model Rnd_Proofs Rnd_Round Rnd_Props Ari_Spec SF_Round Ari_Model Ari_Proofs Ari_Ord Lay_Copy.
Local Open Scope Z_scope.

(* + - * / *)
Inductive arith := Plus | Minus | Times | Over.
Definition aop_of (o : arith) : aop := match o with Plus => AAdd | Minus => ASub | Times => AMul | Over => ADiv end.
Definition rounded_result (o : arith) : (Z -> Z -> ext -> Prop) -> ext -> ext -> ext -> Prop :=
  match o with Plus => sum_of | Minus => difference_of | Times => product_of | Over => quotient_of end.
Definition exact_result (o : arith) : Z -> Z -> Z -> Prop :=
  match o with Plus => exact_sum | Minus => exact_difference | Times => exact_product | Over => exact_quotient end.
Lemma aop_arith o : is_arith (aop_of o) = true. Proof. destruct o; reflexivity. Qed.
Lemma aop_no_panic o : no_panic (aop_of o) = true. Proof. destruct o; reflexivity. Qed.

(* z = x op y: the shape is the broadcast one, the dtype k, and the elements that the
   index idx of the result comes from are related by R *)
Definition pairwise (R : scalar -> scalar -> scalar -> Prop) (x y : narr) (sh : list nat) (k : kind) (z : narr) : Prop :=
  good z /\ n_kind z = k /\ shape_of z = sh /\
  forall idx, inb idx sh -> exists v w r, bc_at x idx = Some v /\ bc_at y idx = Some w /\ item_at z idx = Some r /\ R v w r.
Definition real_array (x : narr) : Prop := good x /\ real (n_kind x) = true.
(* the dtype of a quotient: two integers give float64; one integer counts as the float dtype
   its size gives; otherwise, and for + - *, the promoted dtype *)
Definition as_float (k : kind) : kind :=
  match k with Int8 | Uint8 => Float16 | Int16 | Uint16 => Float32 | Int32 | Uint32 | Int64 | Uint64 => Float64 | _ => k end.
Definition quotient_kind (kx ky : kind) : kind :=
  if integer kx && integer ky then Float64 else promote (as_float kx) (as_float ky).
Definition arith_kind (o : arith) (kx ky : kind) : kind := match o with Over => quotient_kind kx ky | _ => promote kx ky end.
Lemma arith_kind_is o kx ky : result_kind (aop_of o) kx ky = arith_kind o kx ky.
Proof. destruct o; try reflexivity. cbn [aop_of arith_kind]. unfold result_kind, quotient_kind. cbn [working]. unfold divided_in.
  assert (forall k, as_float k = if integer k then float_for k else k) as H by (intros []; reflexivity). rewrite !H. destruct (integer kx), (integer ky); reflexivity.
Qed.

(* ---- C150 ------------------------------------------------------------------- *)
(* the result is rounded once: both arrays are float32, or the result is float64, the
   operands are doubles, and no zero divides an element of another dtype *)
Definition rounds_once (o : arith) (x y : narr) (v w : scalar) : Prop :=
  n_kind x = Float32 /\ n_kind y = Float32 \/
  arith_kind o (n_kind x) (n_kind y) = Float64 /\ fits v /\ fits w /\ (o = Over -> n_kind x = n_kind y \/ real_value w <> Fin 0).
(* a + b, a - b, a * b, a / b: the exact result, rounded to the nearest element of the
   dtype, ties to even, overflow to infinity; NaN and infinities as IEEE 754 has them.
   Missing: float16 results (rounded twice), and mixed dtypes whose result is float32. *)
Theorem C150_rounded_partial : forall o x y, real_array x -> real_array y ->
  match broadcast_shapes (shape_of x) (shape_of y) with
  | None => binary (aop_of o) x y = Err
  | Some sh => in_memory sh -> exists z, binary (aop_of o) x y = Ok z /\
      pairwise (fun v w r => rounds_once o x y v w ->
                  rounded_result o (rounded (arith_kind o (n_kind x) (n_kind y))) (real_value v) (real_value w) (real_value r))
               x y sh (arith_kind o (n_kind x) (n_kind y)) z
  end.
Proof.
  intros o x y [GX RX] [GY RY]. destruct (broadcast_shapes (shape_of x) (shape_of y)) as [sh|] eqn:E; [|apply binary_err; assumption]. intros HS.
  assert (forall R, rounded_result o R = arith_of (aop_of o) R) as ER by (intros; destruct o; reflexivity).
  destruct (binary_good (aop_of o) x y sh (fun v w r => rounds_once o x y v w -> rounded_result o (rounded (arith_kind o (n_kind x) (n_kind y))) (real_value v) (real_value w) (real_value r)))
    as (z & EZ & GZ & KZ & SZ & HZ); try assumption; [apply aop_no_panic| |].
  2: { exists z. split; [exact EZ|]. split; [exact GZ|]. split; [rewrite KZ; apply arith_kind_is|]. split; [exact SZ|]. intros idx Hi. destruct (HZ idx Hi) as (v & w & r & A & B & C & _ & _ & _ & D). exists v, w, r. auto. }
  intros v w r EV EW k1 k2 E1 E2 EK EO HR. rewrite ER. rewrite <- arith_kind_is in *.
  destruct HR as [[K1 K2]|(K & FV & FW & HD)].
  - assert (k1 = Float32 /\ k2 = Float32 /\ result_kind (aop_of o) (n_kind x) (n_kind y) = Float32) as (-> & -> & ->) by (unfold k1, k2; rewrite K1, K2; destruct o; repeat split; reflexivity).
    unfold conv in EO. rewrite K1, K2 in EO. rewrite K1 in EV. rewrite K2 in EW. rewrite kind_eqb_refl in EO. apply (elem_rounded _ Float32); auto. apply aop_arith.
  - assert (arith_kind o (n_kind x) (n_kind y) = Float64) as K' by exact K. rewrite <- arith_kind_is in K'. rewrite K'.
    destruct (working_conv (aop_of o) x (n_kind y) v true GX RX RY EV FV) as [V1 _]. destruct (working_conv (aop_of o) y (n_kind x) w false GY RY RX EW FW) as [V2 _]. fold k1 in V1. fold k2 in V2.
    assert (real_value v = real_value (conv k1 x v)) as W1 by (unfold real_value; rewrite V1; reflexivity). assert (real_value w = real_value (conv k2 y w)) as W2 by (unfold real_value; rewrite V2; reflexivity).
    destruct (working_real (aop_of o) _ _ RX RY) as [R1 R2]. fold k1 in R1. fold k2 in R2. rewrite W1, W2. destruct (kind_eqb k1 k2) eqn:Q.
    + apply kind_eqb_eq in Q. assert (k1 = Float64) as Q1 by (unfold result_kind in K'; fold k1 k2 in K'; rewrite <- Q, promote_self in K' by exact R1; exact K').
      rewrite <- Q in *. rewrite Q1 in *. apply (elem_rounded _ Float64); auto. apply aop_arith.
    + apply (elem_rounded_mixed _ k1 k2); auto; [apply aop_arith|unfold fits; rewrite <- W1; exact FV|unfold fits; rewrite <- W2; exact FW|].
      intros EA. assert (o = Over) as EO' by (destruct o; try discriminate EA; reflexivity). rewrite <- W2. destruct (HD EO') as [EQ|H]; [|exact H].
      exfalso. unfold k1, k2 in Q. rewrite EQ in Q. rewrite EO' in Q. cbn [aop_of working] in Q. unfold divided_in in Q. destruct (integer (n_kind y)); cbn [andb fst snd] in Q; rewrite kind_eqb_refl in Q; discriminate Q.
Qed.
Example C150_rounded_nonvacuous :
  let x := row Float64 [fl 1 10; fl 1 1; SFlt (S754_infinity false)] in
  let y := row Float64 [fl 2 10; fl 3 1; SFlt (S754_infinity true)] in
  let i := row Int32 [SInt 1; SInt (-7); SInt 0] in
  real_array x /\ real_array y /\ real_array i /\
  binary AAdd x y = Ok (row Float64 [SFlt (S754_finite false 5404319552844596 (-54)); fl 4 1; SFlt S754_nan]) /\
  binary ADiv i i = Ok (row Float64 [fl 1 1; fl 1 1; SFlt S754_nan]) /\
  binary AMul i (row Float32 [SFlt (S754_finite false 8388608 (-24)); SFlt (S754_finite false 8388608 (-24)); SFlt S754_nan]) = Ok (row Float64 [fl 1 2; fl (-7) 2; SFlt S754_nan]) /\
  arith_kind Times Int32 Float32 = Float64 /\
  rounds_once Times i (row Float32 []) (SInt (-7)) (SFlt (S754_finite false 8388608 (-24))).
Proof.
  cbv zeta. split; [split; [good_row|reflexivity]|]. split; [split; [good_row|reflexivity]|]. split; [split; [good_row|reflexivity]|].
  split; [vm_compute; reflexivity|]. split; [vm_compute; reflexivity|]. split; [vm_compute; reflexivity|]. split; [reflexivity|].
  right. split; [reflexivity|]. split; [apply (narrow_fits Int32); try reflexivity; split; [apply int_int; lia|reflexivity]|]. split; [apply (narrow_fits Float32); reflexivity|discriminate].
Qed.

(* whatever the real dtypes, a result the dtype has is exact; operands of two dtypes, and
   divided integers, must be doubles.  Missing: wider integers in mixed dtypes. *)
Theorem C150_exact_partial : forall o x y, real_array x -> real_array y ->
  match broadcast_shapes (shape_of x) (shape_of y) with
  | None => binary (aop_of o) x y = Err
  | Some sh => in_memory sh -> exists z, binary (aop_of o) x y = Ok z /\
      pairwise (fun v w r => forall a b c, real_value v = Fin a -> real_value w = Fin b ->
                  exact_result o a b c -> holds (arith_kind o (n_kind x) (n_kind y)) (c, 0) ->
                  (n_kind x = n_kind y /\ o <> Over) \/ f64_holds a /\ f64_holds b /\ f64_holds c -> real_value r = Fin c)
               x y sh (arith_kind o (n_kind x) (n_kind y)) z
  end.
Proof.
  intros o x y [GX RX] [GY RY]. destruct (broadcast_shapes (shape_of x) (shape_of y)) as [sh|] eqn:E; [|apply binary_err; assumption]. intros HS.
  assert (exact_result o = exact_of (aop_of o)) as ER by (destruct o; reflexivity).
  destruct (binary_good (aop_of o) x y sh (fun v w r => forall a b c, real_value v = Fin a -> real_value w = Fin b -> exact_result o a b c -> holds (arith_kind o (n_kind x) (n_kind y)) (c, 0) ->
                  (n_kind x = n_kind y /\ o <> Over) \/ f64_holds a /\ f64_holds b /\ f64_holds c -> real_value r = Fin c))
    as (z & EZ & GZ & KZ & SZ & HZ); try assumption; [apply aop_no_panic| |].
  2: { exists z. split; [exact EZ|]. split; [exact GZ|]. split; [rewrite KZ; apply arith_kind_is|]. split; [exact SZ|]. intros idx Hi. destruct (HZ idx Hi) as (v & w & r & A & B & C & _ & _ & _ & D). exists v, w, r. auto. }
  intros v w r EV EW k1 k2 E1 E2 EK EO a b c VA VB HE HC HR. rewrite ER in HE. rewrite <- arith_kind_is in HC.
  destruct HR as [[KE NO]|(FA & FB & FC)].
  - assert (k1 = n_kind x /\ k2 = n_kind x /\ result_kind (aop_of o) (n_kind x) (n_kind y) = n_kind x) as (Q1 & Q2 & Q3).
    { unfold k1, k2, result_kind. rewrite <- KE. destruct o; try contradiction; cbn [aop_of working fst snd]; rewrite promote_self by exact RX; auto. }
    rewrite Q1, Q2 in EO. rewrite Q3 in HC. unfold conv in EO. rewrite <- KE, kind_eqb_refl in EO. unfold elem_out in EO. rewrite kind_eqb_refl in EO. rewrite <- KE in EW.
    exact (same_exact (n_kind x) (aop_of o) v w r a b c RX (aop_arith o) EV EW EO VA VB HE HC).
  - assert (fits v /\ fits w) as [FV FW] by (unfold fits; rewrite VA, VB; split; assumption).
    destruct (working_conv (aop_of o) x (n_kind y) v true GX RX RY EV FV) as [V1 _]. destruct (working_conv (aop_of o) y (n_kind x) w false GY RY RX EW FW) as [V2 _]. fold k1 in V1. fold k2 in V2.
    assert (real_value (conv k1 x v) = Fin a) as W1 by (unfold real_value in *; rewrite V1; exact VA). assert (real_value (conv k2 y w) = Fin b) as W2 by (unfold real_value in *; rewrite V2; exact VB).
    destruct (working_real (aop_of o) _ _ RX RY) as [R1 R2]. fold k1 in R1. fold k2 in R2. unfold result_kind in HC. fold k1 k2 in HC. unfold elem_out in EO. destruct (kind_eqb k1 k2) eqn:Q.
    + apply kind_eqb_eq in Q. rewrite <- Q in *. rewrite promote_self in HC by exact R1. exact (same_exact k1 (aop_of o) _ _ r a b c R1 (aop_arith o) E1 E2 EO W1 W2 HE HC).
    + exact (mixed_exact (promote k1 k2) k1 k2 (aop_of o) _ _ r a b c (promote_real _ _ R1 R2) R1 R2 (aop_arith o) E1 E2 EO W1 W2 FA FB HE FC HC).
Qed.
Example C150_exact_nonvacuous :
  let x := row Int8 [SInt 100; SInt (-3)] in let y := row Uint8 [SInt 200; SInt 2] in
  real_array x /\ real_array y /\ binary AAdd x y = Ok (row Int16 [SInt 300; SInt (-1)]) /\ binary AMul x y = Ok (row Int16 [SInt 20000; SInt (-6)]) /\
  binary ADiv x y = Ok (row Float64 [fl 1 2; fl (-3) 2]) /\ exact_quotient (-3 * one) (2 * one) (-3 * 2 ^ 1073) /\ holds Float64 (-3 * 2 ^ 1073, 0).
Proof.
  cbv zeta. split; [split; [good_row|reflexivity]|]. split; [split; [good_row|reflexivity]|]. split; [vm_compute; reflexivity|]. split; [vm_compute; reflexivity|]. split; [vm_compute; reflexivity|].
  split; [split; [vm_compute; discriminate|vm_compute; reflexivity]|]. split; [|reflexivity]. exists (-3), (-1). repeat split; vm_compute; reflexivity || discriminate.
Qed.

(* a + b and b + a, a * b and b * a are the same arrays *)
Lemma normalize_comm prec emax x y : SFadd prec emax x y = SFadd prec emax y x /\ SFmul prec emax x y = SFmul prec emax y x.
Proof.
  destruct x as [s|s| |s m e], y as [t|t| |t n g]; cbn; try (split; reflexivity); try (split; [destruct s, t; reflexivity|destruct s, t; reflexivity]); try (split; [reflexivity|rewrite xorb_comm; reflexivity]).
  split; [rewrite (Z.min_comm e g), Z.add_comm; reflexivity|]. rewrite xorb_comm, Pos.mul_comm, (Z.add_comm e g). reflexivity.
Qed.
Lemma elem_comm op kx ky v w : real kx = true -> real ky = true -> op = AAdd \/ op = AMul -> element kx v -> element ky w -> elem_out op kx ky v w = elem_out op ky kx w v.
Proof.
  intros RX RY HO EV EW. assert (forall p m a b, float_bin op p m a b = float_bin op p m b a) as HB by (intros; destruct HO as [-> | ->]; apply normalize_comm). unfold elem_out.
  assert (kind_eqb kx ky = kind_eqb ky kx) as EK by (destruct (kind_eqb kx ky) eqn:A, (kind_eqb ky kx) eqn:B; try reflexivity; [apply kind_eqb_eq in A; subst; rewrite kind_eqb_refl in B; discriminate|apply kind_eqb_eq in B; subst; rewrite kind_eqb_refl in A; discriminate]).
  rewrite <- EK. destruct (kind_eqb kx ky) eqn:Q.
  - apply kind_eqb_eq in Q. subst ky. destruct (is_float_kind kx) eqn:K.
    + pose proof (real_float kx RX K) as KF. destruct (element_float kx v KF EV) as (a & -> & _). destruct (element_float kx w KF EW) as (b & -> & _). cbn [same_elem]. do 2 f_equal.
      destruct KF as [-> |[-> | ->]]; cbn [float_elem]; [|apply HB|apply HB]. destruct HO as [-> | ->]; rewrite HB; reflexivity.
    + assert (is_integer kx = true \/ kx = Bool) as KI by (destruct (real_cases kx RX) as [H|[H|H]]; [right; exact H|left; exact H|congruence]).
      destruct (element_int kx v KI EV) as (i & -> & _). destruct (element_int kx w KI EW) as (j & -> & _).
      destruct KI as [KI| ->]; [|destruct HO as [-> | ->]; cbn [same_elem int_of]; unfold bool_bin; destruct (i =? 0), (j =? 0); reflexivity].
      destruct (int_of_integer kx KI) as (t & ET & _). assert (forall a b, same_elem kx op (SInt a) (SInt b) = bind (int_bin t op a b) (fun z => Ok (SInt z))) as EE by (intros; destruct kx; try discriminate KI; injection ET as <-; reflexivity).
      rewrite !EE. destruct HO as [-> | ->]; cbn [int_bin]; [rewrite Z.add_comm|rewrite Z.mul_comm]; reflexivity.
  - rewrite (mixed_elem_is _ kx ky) by assumption. rewrite (mixed_elem_is _ ky kx) by assumption. rewrite (promote_comm_real ky kx) by assumption. do 2 f_equal. destruct HO as [-> | ->]; cbn [mixed_bin]; apply HB.
Qed.
Theorem C150_commutative : forall o x y sh, o = Plus \/ o = Times -> real_array x -> real_array y -> broadcast_shapes (shape_of x) (shape_of y) = Some sh -> in_memory sh ->
  exists z z', binary (aop_of o) x y = Ok z /\ binary (aop_of o) y x = Ok z' /\ n_kind z' = n_kind z /\ shape_of z' = shape_of z /\
    forall idx, inb idx sh -> item_at z' idx = item_at z idx /\ item_at z idx <> None.
Proof.
  intros o x y sh HO [GX RX] [GY RY] E HS. assert (aop_of o = AAdd \/ aop_of o = AMul) as HO' by (destruct HO as [-> | ->]; auto).
  assert (forall kx ky, working (aop_of o) kx ky = (kx, ky)) as HW by (destruct HO as [-> | ->]; reflexivity).
  destruct (binary_good (aop_of o) x y sh (fun v w r => elem_out (aop_of o) (n_kind x) (n_kind y) v w = Ok r) GX GY RX RY (aop_no_panic o) E HS) as (z & EZ & GZ & KZ & SZ & HZ).
  { intros v w r _ _ k1 k2 _ _ _ EO. subst k1 k2. rewrite HW in EO. cbn [fst snd] in EO. unfold conv in EO. rewrite !kind_eqb_refl in EO. exact EO. }
  rewrite bshape_comm in E.
  destruct (binary_good (aop_of o) y x sh (fun v w r => elem_out (aop_of o) (n_kind y) (n_kind x) v w = Ok r) GY GX RY RX (aop_no_panic o) E HS) as (z' & EZ' & GZ' & KZ' & SZ' & HZ').
  { intros v w r _ _ k1 k2 _ _ _ EO. subst k1 k2. rewrite HW in EO. cbn [fst snd] in EO. unfold conv in EO. rewrite !kind_eqb_refl in EO. exact EO. }
  exists z, z'. split; [exact EZ|]. split; [exact EZ'|]. split; [rewrite KZ, KZ'; unfold result_kind; rewrite !HW; apply promote_comm_real; assumption|]. split; [congruence|].
  intros idx Hi. destruct (HZ idx Hi) as (v & w & r & A & B & C & EV & EW & _ & D). destruct (HZ' idx Hi) as (w' & v' & r' & B' & A' & C' & _ & _ & _ & D').
  rewrite A in A'. injection A' as <-. rewrite B in B'. injection B' as <-. rewrite (elem_comm (aop_of o) _ _ v w RX RY HO' EV EW) in D. rewrite D in D'. injection D' as <-. rewrite C, C'. split; [reflexivity|discriminate].
Qed.
Example C150_commutative_nonvacuous :
  let x := row Float32 [SFlt (S754_finite false 10485760 (-21)); SFlt S754_nan] in let y := row Int16 [SInt 3] in
  real_array x /\ real_array y /\ broadcast_shapes (shape_of x) (shape_of y) = Some [2%nat] /\ in_memory [2%nat] /\
  binary AAdd x y = Ok (row Float32 [SFlt (S754_finite false 8388608 (-20)); SFlt S754_nan]) /\ binary AAdd y x = binary AAdd x y.
Proof. cbv zeta. split; [split; [good_row|reflexivity]|]. split; [split; [good_row|reflexivity]|]. repeat (split; [vm_compute; reflexivity|]). vm_compute; reflexivity. Qed.

(* integers of two dtypes go through doubles: 2^53 + 1 plus 0 is not 2^53 + 1 *)
Theorem C150_wide_integers_refuted : exists x y z, real_array x /\ real_array y /\ n_kind x = Int64 /\ n_kind y = Int32 /\
  binary AAdd x y = Ok z /\ n_kind z = Int64 /\ n_buf x = [SInt (2 ^ 53 + 1)] /\ n_buf y = [SInt 0] /\ n_buf z = [SInt (2 ^ 53)].
Proof.
  exists (row Int64 [SInt (2 ^ 53 + 1)]), (row Int32 [SInt 0]), (row Int64 [SInt (2 ^ 53)]). split; [split; [good_row|reflexivity]|]. split; [split; [good_row|reflexivity]|].
  repeat (split; [vm_compute; reflexivity|]). vm_compute; reflexivity.
Qed.
(* the quotient of two dtypes is NaN, not infinity, where the divisor is zero *)
Theorem C150_zero_divisor_refuted : exists x y z, real_array x /\ real_array y /\ n_kind x = Float64 /\ n_kind y = Float32 /\ binary ADiv x y = Ok z /\
  n_buf x = [fl 1 1] /\ n_buf y = [SFlt (S754_zero false)] /\ n_buf z = [SFlt S754_nan] /\ ~ quotient_of (rounded Float64) (real_value (fl 1 1)) (Fin 0) NaN.
Proof.
  exists (row Float64 [fl 1 1]), (row Float32 [SFlt (S754_zero false)]), (row Float64 [SFlt S754_nan]). split; [split; [good_row|reflexivity]|]. split; [split; [good_row|reflexivity]|].
  repeat (split; [vm_compute; reflexivity|]). assert (real_value (fl 1 1) = Fin (1 * one)) as -> by (vm_compute; reflexivity). cbn [quotient_of]. change (0 =? 0) with true. cbv iota.
  destruct (Z.eqb_spec (1 * one) 0) as [H|_]; [pose proof one_pos; lia|]. intros [t H]. discriminate H.
Qed.
(* bool arrays: + is or, * is and, - is and-not; the result is a bool array *)
Theorem C150_bool : forall o x y, o <> Over -> good x -> good y -> n_kind x = Bool -> n_kind y = Bool ->
  match broadcast_shapes (shape_of x) (shape_of y) with
  | None => binary (aop_of o) x y = Err
  | Some sh => in_memory sh -> exists z, binary (aop_of o) x y = Ok z /\
      pairwise (fun v w r => exists a b : bool, v = SInt (Z.b2z a) /\ w = SInt (Z.b2z b) /\
                  r = SInt (Z.b2z match o with Plus => a || b | Times => a && b | _ => a && negb b end)) x y sh Bool z
  end.
Proof.
  intros o x y NO GX GY KX KY. assert (real (n_kind x) = true /\ real (n_kind y) = true) as [RX RY] by (rewrite KX, KY; split; reflexivity).
  destruct (broadcast_shapes (shape_of x) (shape_of y)) as [sh|] eqn:E; [|apply binary_err; assumption]. intros HS.
  destruct (binary_good (aop_of o) x y sh (fun v w r => exists a b : bool, v = SInt (Z.b2z a) /\ w = SInt (Z.b2z b) /\
                  r = SInt (Z.b2z match o with Plus => a || b | Times => a && b | _ => a && negb b end))) as (z & EZ & GZ & KZ & SZ & HZ); try assumption; [apply aop_no_panic| |].
  2: { exists z. split; [exact EZ|]. split; [exact GZ|]. split; [rewrite KZ, KX, KY; destruct o; reflexivity|]. split; [exact SZ|]. intros idx Hi. destruct (HZ idx Hi) as (v & w & r & A & B & C & _ & _ & _ & D). exists v, w, r. auto. }
  intros v w r EV EW k1 k2 E1 E2 EK EO. rewrite KX in EV. rewrite KY in EW.
  assert (k1 = Bool /\ k2 = Bool) as [HK1 HK2] by (unfold k1, k2; rewrite KX, KY; destruct o; repeat split; reflexivity). rewrite HK1, HK2 in EO.
  unfold conv in EO. rewrite KX, KY in EO. rewrite kind_eqb_refl in EO. unfold elem_out in EO. rewrite kind_eqb_refl in EO.
  destruct (element_int Bool v (or_intror eq_refl) EV) as (i & -> & HI). destruct (element_int Bool w (or_intror eq_refl) EW) as (j & -> & HJ). cbn [int_range fst snd] in HI, HJ.
  exists (negb (i =? 0)), (negb (j =? 0)). assert (forall c, 0 <= c <= 1 -> c = Z.b2z (negb (c =? 0))) as HB by (intros c HC; assert (c = 0 \/ c = 1) as [-> | ->] by lia; reflexivity).
  split; [f_equal; apply HB, HI|]. split; [f_equal; apply HB, HJ|].
  assert (i = 0 \/ i = 1) as [-> | ->] by lia; assert (j = 0 \/ j = 1) as [-> | ->] by lia; destruct o; try congruence; cbn in EO; injection EO as <-; reflexivity.
Qed.
Example C150_bool_nonvacuous : let x := row Bool [SInt 1; SInt 0] in let y := row Bool [SInt 1; SInt 1] in
  good x /\ good y /\ in_memory [2%nat] /\ binary AAdd x y = Ok (row Bool [SInt 1; SInt 1]) /\ binary AMul x y = Ok x.
Proof. cbv zeta. split; [good_row|]. split; [good_row|]. split; [unfold in_memory; cbn; lia|]. split; vm_compute; reflexivity. Qed.
(* bools divide to bools, and anything divided by False is itself *)
Theorem C150_bool_division_refuted : exists x y, real_array x /\ real_array y /\ x = row Bool [SInt 1; SInt 0] /\ y = row Bool [SInt 0; SInt 0] /\ binary ADiv x y = Ok x.
Proof. exists (row Bool [SInt 1; SInt 0]), (row Bool [SInt 0; SInt 0]). split; [split; [good_row|reflexivity]|]. split; [split; [good_row|reflexivity]|]. repeat (split; [reflexivity|]). vm_compute; reflexivity. Qed.

(* ---- C151 ------------------------------------------------------------------- *)
Inductive order := Maximum | Minimum | FMax | FMin.
Definition oop_of (o : order) : aop := match o with Maximum => AMaximum | Minimum => AMinimum | FMax => AFMax | FMin => AFMin end.
Definition picks (o : order) : ext -> ext -> ext -> Prop :=
  match o with Maximum => nan_wins larger | Minimum => nan_wins smaller | FMax => nan_loses larger | FMin => nan_loses smaller end.
Lemma picks_is o : picks o = order_of (oop_of o) /\ is_order (oop_of o) = true /\ no_panic (oop_of o) = true. Proof. destruct o; auto. Qed.
(* dtypes whose elements come together exactly *)
Definition comparable (x y : narr) : Prop := n_kind x = n_kind y \/ wide_int (n_kind x) = false /\ wide_int (n_kind y) = false.
(* maximum, minimum, fmax, fmin: the larger (smaller) of the two elements, in the promoted
   dtype; maximum and minimum give NaN if either is NaN, fmax and fmin the other element.
   Missing: 64-bit integers with another dtype; C151_wide_integers_refuted. *)
Theorem C151_picks_partial : forall o x y, real_array x -> real_array y -> comparable x y ->
  match broadcast_shapes (shape_of x) (shape_of y) with
  | None => binary (oop_of o) x y = Err
  | Some sh => in_memory sh -> exists z, binary (oop_of o) x y = Ok z /\
      pairwise (fun v w r => picks o (real_value v) (real_value w) (real_value r)) x y sh (promote (n_kind x) (n_kind y)) z
  end.
Proof.
  intros o x y [GX RX] [GY RY] HC. destruct (broadcast_shapes (shape_of x) (shape_of y)) as [sh|] eqn:E; [|apply binary_err; assumption]. intros HS. destruct (picks_is o) as (EP & HO & HP). rewrite EP.
  assert (forall kx ky, working (oop_of o) kx ky = (kx, ky)) as HW by (destruct o; reflexivity).
  destruct (binary_good (oop_of o) x y sh (fun v w r => order_of (oop_of o) (real_value v) (real_value w) (real_value r)) GX GY RX RY HP E HS) as (z & EZ & GZ & KZ & SZ & HZ).
  - intros v w r EV EW k1 k2 _ _ _ EO. subst k1 k2. rewrite HW in EO. cbn [fst snd] in EO. unfold conv in EO. rewrite !kind_eqb_refl in EO. exact (order_out _ _ _ v w r RX RY HO HC EV EW EO).
  - exists z. split; [exact EZ|]. split; [exact GZ|]. split; [rewrite KZ; unfold result_kind; rewrite HW; reflexivity|]. split; [exact SZ|]. intros idx Hi. destruct (HZ idx Hi) as (v & w & r & A & B & C & _ & _ & _ & D). exists v, w, r. auto.
Qed.
Example C151_picks_nonvacuous :
  let x := row Float64 [fl 1 2; SFlt S754_nan; fl 3 1; SFlt (S754_infinity true)] in let y := row Int8 [SInt (-1); SInt 2; SInt 7; SInt (-128)] in
  real_array x /\ real_array y /\ comparable x y /\ in_memory [4%nat] /\
  binary AMaximum x y = Ok (row Float64 [fl 1 2; SFlt S754_nan; fl 7 1; fl (-128) 1]) /\ binary AFMin x y = Ok (row Float64 [fl (-1) 1; fl 2 1; fl 3 1; SFlt (S754_infinity true)]).
Proof. cbv zeta. split; [split; [good_row|reflexivity]|]. split; [split; [good_row|reflexivity]|]. split; [right; split; reflexivity|]. split; [reflexivity|]. split; vm_compute; reflexivity. Qed.
(* the order of the operands does not matter; an array with itself is itself *)
Theorem C151_commutative : forall o x y sh, real_array x -> real_array y -> comparable x y -> broadcast_shapes (shape_of x) (shape_of y) = Some sh -> in_memory sh ->
  exists z z', binary (oop_of o) x y = Ok z /\ binary (oop_of o) y x = Ok z' /\ n_kind z' = n_kind z /\ shape_of z' = shape_of z /\
    forall idx, inb idx sh -> exists r r', item_at z idx = Some r /\ item_at z' idx = Some r' /\ real_value r' = real_value r.
Proof.
  intros o x y sh RX RY HC E HS. pose proof (C151_picks_partial o x y RX RY HC) as H. rewrite E in H. destruct (H HS) as (z & EZ & _ & KZ & SZ & HZ).
  pose proof (C151_picks_partial o y x RY RX) as H'. rewrite bshape_comm, E in H'. destruct H' as (z' & EZ' & _ & KZ' & SZ' & HZ'); [unfold comparable in *; destruct HC as [->|[? ?]]; auto|exact HS|].
  exists z, z'. split; [exact EZ|]. split; [exact EZ'|]. split; [rewrite KZ, KZ'; apply promote_comm_real; [apply RY|apply RX]|]. split; [congruence|].
  intros idx Hi. destruct (HZ idx Hi) as (v & w & r & A & B & C & D). destruct (HZ' idx Hi) as (w' & v' & r' & B' & A' & C' & D'). rewrite A in A'. injection A' as <-. rewrite B in B'. injection B' as <-.
  exists r, r'. split; [exact C|]. split; [exact C'|]. destruct (picks_is o) as (EP & HO & _). rewrite EP in D, D'. symmetry. exact (order_unique _ _ _ _ _ HO D D').
Qed.
Theorem C151_idempotent : forall o x, real_array x -> in_memory (shape_of x) -> exists z, binary (oop_of o) x x = Ok z /\ n_kind z = n_kind x /\ shape_of z = shape_of x /\
  forall idx, inb idx (shape_of x) -> exists v r, item_at x idx = Some v /\ item_at z idx = Some r /\ real_value r = real_value v.
Proof.
  intros o x RX HS. pose proof (C151_picks_partial o x x RX RX (or_introl eq_refl)) as H. rewrite bshape_idem in H. destruct (H HS) as (z & EZ & _ & KZ & SZ & HZ).
  exists z. split; [exact EZ|]. split; [rewrite KZ; apply promote_self; apply RX|]. split; [exact SZ|]. intros idx Hi. destruct (HZ idx Hi) as (v & w & r & A & B & C & D).
  rewrite A in B. injection B as <-. unfold bc_at in A. rewrite unbroadcast_same in A by exact Hi. exists v, r. split; [exact A|]. split; [exact C|].
  destruct (picks_is o) as (EP & HO & _). rewrite EP in D. destruct (order_is_one _ _ _ _ HO D); assumption.
Qed.
Example C151_laws_nonvacuous : let x := row Float32 [SFlt S754_nan; SFlt (S754_zero true)] in real_array x /\ in_memory (shape_of x) /\ binary AFMax x x = Ok x.
Proof. cbv zeta. split; [split; [good_row|reflexivity]|]. split; [reflexivity|vm_compute; reflexivity]. Qed.
Theorem C151_wide_integers_refuted : exists x y z, real_array x /\ real_array y /\ n_kind x = Int64 /\ n_kind y = Int32 /\ binary AMaximum x y = Ok z /\
  n_buf x = [SInt (2 ^ 53 + 1)] /\ n_buf y = [SInt 0] /\ n_buf z = [SInt (2 ^ 53)].
Proof.
  exists (row Int64 [SInt (2 ^ 53 + 1)]), (row Int32 [SInt 0]), (row Int64 [SInt (2 ^ 53)]). split; [split; [good_row|reflexivity]|]. split; [split; [good_row|reflexivity]|].
  repeat (split; [vm_compute; reflexivity|]). vm_compute; reflexivity.
Qed.

(* ---- C152 ------------------------------------------------------------------- *)
Definition float_kind (k : kind) : Prop := k = Float16 \/ k = Float32 \/ k = Float64.
(* a % b of one float dtype: the exact remainder of the division toward zero *)
Theorem C152_remainder : forall k x y, float_kind k -> good x -> good y -> n_kind x = k -> n_kind y = k ->
  match broadcast_shapes (shape_of x) (shape_of y) with
  | None => binary AMod x y = Err
  | Some sh => in_memory sh -> exists z, binary AMod x y = Ok z /\
      pairwise (fun v w r => remainder_of (real_value v) (real_value w) (real_value r)) x y sh k z
  end.
Proof.
  intros k x y K GX GY KX KY. destruct (broadcast_shapes (shape_of x) (shape_of y)) as [sh|] eqn:E; [|apply plain_err; assumption]. intros HS.
  apply (float_pair k AMod x y sh); try assumption. intros a b VA VB. split; [apply float_elem_valid; auto|]. exact (rem_elem k a b K VA VB).
Qed.
(* a // b of one float dtype, elements whole numbers the significand has room for: the floor *)
Theorem C152_floor_partial : forall k x y, float_kind k -> good x -> good y -> n_kind x = k -> n_kind y = k ->
  match broadcast_shapes (shape_of x) (shape_of y) with
  | None => binary AFloorDiv x y = Err
  | Some sh => in_memory sh -> exists z, binary AFloorDiv x y = Ok z /\
      pairwise (fun v w r => forall a b, real_value v = Fin (a * one) -> real_value w = Fin (b * one) -> b <> 0 ->
                  Z.abs a < 2 ^ fst (format k) -> Z.abs b < 2 ^ fst (format k) -> real_value r = Fin (a / b * one)) x y sh k z
  end.
Proof.
  intros k x y K GX GY KX KY. destruct (broadcast_shapes (shape_of x) (shape_of y)) as [sh|] eqn:E; [|apply plain_err; assumption]. intros HS.
  apply (float_pair k AFloorDiv x y sh); try assumption. intros a b VA VB. split; [apply float_elem_valid; auto|]. intros i j EA EB NB HA HB. exact (floor_elem k a b i j K VA VB EA EB NB HA HB).
Qed.
Example C152_nonvacuous :
  let x := row Float64 [fl 7 1; fl (-7) 1; fl 7 2] in let y := row Float64 [fl 2 1; fl 2 1; fl (-2) 1] in
  good x /\ good y /\ binary AMod x y = Ok (row Float64 [fl 1 1; fl (-1) 1; fl 3 2]) /\ binary AFloorDiv x y = Ok (row Float64 [fl 3 1; fl (-4) 1; fl (-2) 1]).
Proof. cbv zeta. split; [good_row|]. split; [good_row|]. split; vm_compute; reflexivity. Qed.
(* the remainder takes the sign of the dividend, the quotient is rounded down: they do not
   belong together.  -7 // 2 = -4 and -7 % 2 = -1, but -4 * 2 + -1 = -9 *)
Theorem C152_identity_refuted : exists x y q r, good x /\ good y /\ x = row Float64 [fl (-7) 1] /\ y = row Float64 [fl 2 1] /\
  binary AFloorDiv x y = Ok q /\ binary AMod x y = Ok r /\ exists p s, binary AMul q y = Ok p /\ binary AAdd p r = Ok s /\ s = row Float64 [fl (-9) 1].
Proof.
  exists (row Float64 [fl (-7) 1]), (row Float64 [fl 2 1]), (row Float64 [fl (-4) 1]), (row Float64 [fl (-1) 1]). split; [good_row|]. split; [good_row|]. repeat (split; [vm_compute; reflexivity|]).
  exists (row Float64 [fl (-8) 1]), (row Float64 [fl (-9) 1]). repeat (split; [vm_compute; reflexivity|]). reflexivity.
Qed.
(* the rounded quotient is floored: 1.0 // 0.1 is 10 although 10 * 0.1, exactly, is above 1 *)
Theorem C152_fraction_refuted : exists x y z, good x /\ good y /\ x = row Float64 [fl 1 1] /\ y = row Float64 [fl 1 10] /\ binary AFloorDiv x y = Ok z /\ z = row Float64 [fl 10 1] /\
  exists a b, real_value (fl 1 1) = Fin a /\ real_value (fl 1 10) = Fin b /\ ~ floor_quotient a b (10 * one).
Proof.
  exists (row Float64 [fl 1 1]), (row Float64 [fl 1 10]), (row Float64 [fl 10 1]). split; [good_row|]. split; [good_row|]. repeat (split; [vm_compute; reflexivity|]).
  exists one, (7205759403792794 * 2 ^ (1074 - 56)). split; [vm_compute; reflexivity|]. split; [vm_compute; reflexivity|]. intros [_ H]. revert H. vm_compute. discriminate.
Qed.

Print Assumptions C150_rounded_partial.
Print Assumptions C150_exact_partial.
Print Assumptions C150_commutative.
Print Assumptions C150_wide_integers_refuted.
Print Assumptions C150_zero_divisor_refuted.
Print Assumptions C150_bool.
Print Assumptions C150_bool_division_refuted.
Print Assumptions C151_picks_partial.
Print Assumptions C151_commutative.
Print Assumptions C151_idempotent.
Print Assumptions C151_wide_integers_refuted.
Print Assumptions C152_remainder.
Print Assumptions C152_floor_partial.
Print Assumptions C152_identity_refuted.
Print Assumptions C152_fraction_refuted.
