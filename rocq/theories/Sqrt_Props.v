(* C170, C171: square roots. *)
From Coq Require Import SpecFloat.
From Verif Require Import Base Lists Int_Model Int_Proofs F64_Model Arr_Spec Arr_Model Arr_Wf Arr_Proofs Wf_Check Copy_Model Copy_Proofs Elem_Model Elem_Proofs Rng_Model New_Model Promo_Spec Promo_Model Promo_Proofs Promo_Props SF_Proofs SF_Arith Cast_Spec Cast_Model Cast_SF Cast_Proofs Cast_Laws Cast_Props Close_Proofs Bitw_Spec Bitw_Model Bitw_Proofs Rnd_Spec Rnd_Model Rnd_Proofs Rnd_Round Rnd_Props Ari_Spec SF_Round Ari_Model Ari_Proofs Cpx_Spec Cpx_Model Cpx_Proofs Tra_Spec Tra_Model Tra_Proofs Tra_Props Sqrt_Spec Sqrt_Model Sqrt_Proofs Sqrt_Half.
Local Open Scope Z_scope.

(* ---- C170 ------------------------------------------------------------------- *)
(* fc, the complex kernel, plays no part here *)
Definition complex_kernel (fc : kind -> cpx -> cpx) : Prop :=
  forall k a b, is_complex_kind k = true -> valid_in k a -> valid_in k b -> valid_in k (fst (fc k (a, b))) /\ valid_in k (snd (fc k (a, b))).
Lemma sqrt_kernels fc : complex_kernel fc -> kernels sqrt_float fc.
Proof. intros H. split; [exact sqrt_valid|exact H]. Qed.
(* float dtypes: NaN below zero, else as near to the true root as the dtype allows *)
Theorem C170_float : forall fc x, complex_kernel fc -> good x -> real (n_kind x) = true -> is_float_kind (n_kind x) = true ->
  exists z, fun_map sqrt_float fc true x = Ok z /\ good z /\ n_kind z = n_kind x /\ shape_of z = shape_of x /\
    forall idx, inb idx (shape_of x) -> exists v w, item_at x idx = Some v /\ item_at z idx = Some w /\
      square_root (fun r => holds (n_kind x) (r, 0)) (real_value v) (real_value w).
Proof.
  intros fc x HC G R K. destruct (C168_float sqrt_float fc true x (sqrt_kernels fc HC) G K) as (z & E & GZ & KZ & SZ & HZ). exists z. do 4 (split; [assumption|]).
  intros idx I. specialize (HZ idx I). destruct (item_at x idx) as [v|] eqn:EV; [|contradiction]. pose proof (good_element x idx v G EV) as LV.
  destruct v as [c|a|a b]; [contradiction| |exfalso; destruct (n_kind x); try discriminate R; try discriminate K; exact LV]. exists (SFlt a), (SFlt (sqrt_float (n_kind x) a)). split; [reflexivity|]. split; [exact HZ|].
  cbn [real_value]. apply sqrt_every; [exact R|exact K|]. destruct (n_kind x); try discriminate R; try discriminate K; exact LV.
Qed.
(* integers and bools: the same in numpy's float dtype, for every element that a double holds (only
   64-bit integers beyond 2^53 can be others) *)
Theorem C170_int : forall fc x, complex_kernel fc -> good x -> real (n_kind x) = true -> is_float_kind (n_kind x) = false ->
  exists z, fun_map sqrt_float fc true x = Ok z /\ good z /\ n_kind z = function_float (n_kind x) /\ shape_of z = shape_of x /\
    forall idx, inb idx (shape_of x) -> exists v w, item_at x idx = Some v /\ item_at z idx = Some w /\
      (fits v -> square_root (fun r => holds (function_float (n_kind x)) (r, 0)) (real_value v) (real_value w)).
Proof.
  intros fc x HC G R K. destruct (C168_int sqrt_float fc x (sqrt_kernels fc HC) G R K) as (z & E & GZ & KZ & SZ & HZ).
  exists z. do 4 (split; [assumption|]). intros idx I. destruct (HZ idx I) as (v & y & EV & VY & HY & EZ). exists v, (SFlt (sqrt_float (function_float (n_kind x)) y)). split; [exact EV|]. split; [exact EZ|].
  intros F. rewrite <- (HY F). cbn [real_value]. apply sqrt_every; [| |exact VY]; destruct (n_kind x); try discriminate R; try discriminate K; reflexivity.
Qed.
(* any real dtype: where the root is a number of the result's dtype, the result is that root *)
Theorem C170_exact : forall fc x, complex_kernel fc -> good x -> real (n_kind x) = true ->
  exists z, fun_map sqrt_float fc true x = Ok z /\ good z /\ n_kind z = function_float (n_kind x) /\ shape_of z = shape_of x /\
    forall idx v a r, inb idx (shape_of x) -> item_at x idx = Some v -> fits v -> real_value v = Fin a ->
      0 <= r -> r * r = a * one -> holds (function_float (n_kind x)) (r, 0) ->
      exists w, item_at z idx = Some w /\ real_value w = Fin r.
Proof.
  intros fc x HC G R. destruct (is_float_kind (n_kind x)) eqn:FK.
  - assert (KF : function_float (n_kind x) = n_kind x) by (destruct (n_kind x); try discriminate FK; reflexivity). rewrite KF.
    destruct (C168_float sqrt_float fc true x (sqrt_kernels fc HC) G FK) as (z & E & GZ & KZ & SZ & HZ). exists z. do 4 (split; [assumption|]).
    intros idx v a r I EV F EA R0 RR H. specialize (HZ idx I). rewrite EV in HZ. pose proof (good_element x idx v G EV) as LV.
    destruct v as [c|y|y b]; [contradiction| |exfalso; destruct (n_kind x); try discriminate R; try discriminate FK; exact LV].
    exists (SFlt (sqrt_float (n_kind x) y)). split; [exact HZ|]. cbn [real_value] in *. apply (sqrt_exact (n_kind x) y a r R FK); try assumption. destruct (n_kind x); try discriminate R; try discriminate FK; exact LV.
  - destruct (C168_int sqrt_float fc x (sqrt_kernels fc HC) G R FK) as (z & E & GZ & KZ & SZ & HZ). exists z. do 4 (split; [assumption|]).
    intros idx v a r I EV F EA R0 RR H. destruct (HZ idx I) as (v' & y & EV' & VY & HY & EZ). rewrite EV in EV'. injection EV' as <-. exists (SFlt (sqrt_float (function_float (n_kind x)) y)). split; [exact EZ|].
    cbn [real_value]. apply (sqrt_exact _ y a r); try assumption; [destruct (n_kind x); try discriminate R; try discriminate FK; reflexivity|destruct (n_kind x); try discriminate R; try discriminate FK; reflexivity|]. rewrite (HY F). exact EA.
Qed.
Example C170_nonvacuous :
  let x := grid Float64 [fl 2 1; fl 9 4; fl (-1) 1] [3]%nat in
  let y := grid Int8 [SInt 49; SInt 4] [2]%nat in
  let w := grid Int16 [SInt 144; SInt (-4)] [2]%nat in
  complex_kernel mirror /\ good x /\ good y /\ good w /\
  fun_map sqrt_float mirror true x = Ok (grid Float64 [SFlt (S754_finite false 6369051672525773 (-52)); fl 3 2; SFlt S754_nan] [3]%nat) /\
  fun_map sqrt_float mirror true y = Ok (grid Float16 [SFlt (S754_finite false 1792 (-8)); SFlt (S754_finite false 1024 (-9))] [2]%nat) /\
  fun_map sqrt_float mirror true w = Ok (grid Float32 [SFlt (S754_finite false 12582912 (-20)); SFlt S754_nan] [2]%nat) /\
  holds Float16 (7 * one, 0) /\ (7 * one) * (7 * one) = (49 * one) * one.
Proof.
  cbv zeta. split; [exact (proj2 squares_kernels)|]. do 3 (split; [good_grid|]). do 3 (split; [vm_compute; reflexivity|]). split; [|unfold one; ring].
  split; [|reflexivity]. exists 7, 0. split; [lia|]. split; [lia|reflexivity].
Qed.

(* ---- C171 ------------------------------------------------------------------- *)
Lemma root_kernels other : complex_kernel other -> kernels sqrt_float (sqrt_complex other).
Proof. intros H. split; [exact sqrt_valid|exact (sqrt_complex_valid other H)]. Qed.
(* emath.sqrt of a real array without negative elements: the real roots *)
Theorem C171_real : forall other x, complex_kernel other -> good x -> real (n_kind x) = true ->
  ~ (exists idx v, inb idx (shape_of x) /\ item_at x idx = Some v /\ outside DNonneg (real_value v)) ->
  exists z, fun_extended sqrt_float (sqrt_complex other) true DNonneg x = Ok z /\ good z /\ n_kind z = function_float (n_kind x) /\ shape_of z = shape_of x /\
    forall idx, inb idx (shape_of x) -> exists v w, item_at x idx = Some v /\ item_at z idx = Some w /\
      (fits v -> square_root (fun r => holds (function_float (n_kind x)) (r, 0)) (real_value v) (real_value w)).
Proof.
  intros other x HC G R NO. rewrite C169_within by assumption. destruct (is_float_kind (n_kind x)) eqn:FK.
  - assert (KF : function_float (n_kind x) = n_kind x) by (destruct (n_kind x); try discriminate FK; reflexivity). rewrite KF.
    destruct (C170_float (sqrt_complex other) x (sqrt_complex_valid other HC) G R FK) as (z & E & GZ & KZ & SZ & HZ). exists z. do 4 (split; [assumption|]).
    intros idx I. destruct (HZ idx I) as (v & w & EV & EW & Q). exists v, w. auto.
  - exact (C170_int (sqrt_complex other) x (sqrt_complex_valid other HC) G R FK).
Qed.
(* with a negative element anywhere: complex numbers, the real root of a positive element with
   imaginary part zero, and real part zero with the root of its magnitude for a negative one,
   rounded to the nearest number of the parts *)
Theorem C171_complex : forall other x, complex_kernel other -> good x -> real (n_kind x) = true ->
  (exists idx v, inb idx (shape_of x) /\ item_at x idx = Some v /\ outside DNonneg (real_value v)) ->
  exists z, fun_extended sqrt_float (sqrt_complex other) true DNonneg x = Ok z /\ good z /\ n_kind z = function_complex (n_kind x) /\ shape_of z = shape_of x /\
    forall idx, inb idx (shape_of x) -> exists v p q, item_at x idx = Some v /\ item_at z idx = Some (SCpx p q) /\
      (fits v -> axis_root (fun r => holds (part_kind (n_kind z)) (r, 0)) (real_value v) (float_value p) (float_value q)).
Proof.
  intros other x HC G R NO. destruct (C169_outside sqrt_float (sqrt_complex other) true DNonneg x (root_kernels other HC) G R NO) as (z & E & GZ & KZ & SZ & HZ). exists z. do 4 (split; [assumption|]).
  intros idx I. destruct (HZ idx I) as (v & y & EV & VY & HY & EZ). cbv zeta in EZ. eexists v, _, _. split; [exact EV|]. split; [exact EZ|]. intros F. rewrite <- (HY F), KZ.
  assert (C : is_complex_kind (function_complex (n_kind x)) = true) by (destruct (n_kind x); reflexivity).
  assert (part_kind (function_complex (n_kind x)) = part_of (function_complex (n_kind x))) as -> by (destruct (n_kind x); reflexivity). apply sqrt_axis; assumption.
Qed.
Example C171_nonvacuous :
  let x := grid Float64 [fl 9 4; fl (-4) 1] [2]%nat in
  let y := grid Int64 [SInt 9; SInt 16] [2]%nat in
  complex_kernel mirror /\ good x /\ good y /\ outside DNonneg (real_value (fl (-4) 1)) /\
  fun_extended sqrt_float (sqrt_complex mirror) true DNonneg x = Ok (grid Complex128 [SCpx (S754_finite false 6755399441055744 (-52)) (S754_zero false); SCpx (S754_zero false) (S754_finite false 4503599627370496 (-51))] [2]%nat) /\
  fun_extended sqrt_float (sqrt_complex mirror) true DNonneg y = Ok (grid Float64 [fl 3 1; fl 4 1] [2]%nat).
Proof. cbv zeta. split; [exact (proj2 squares_kernels)|]. do 2 (split; [good_grid|]). do 2 (split; [vm_compute; reflexivity|]). vm_compute. reflexivity. Qed.

Print Assumptions C170_float.
Print Assumptions C170_int.
Print Assumptions C170_exact.
Print Assumptions C171_real.
Print Assumptions C171_complex.
