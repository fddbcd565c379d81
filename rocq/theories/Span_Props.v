(* C95: arange.  C96: linspace.  C97: full. *)
From Coq Require Import SpecFloat.
From Verif Require Import Base Lists Int_Model Arr_Spec Arr_Model Arr_Wf Arr_Proofs Rng_Model SF_Proofs SF_Arith New_Spec New_Model Span_Spec Span_Model Span_Proofs.
Local Open Scope Z_scope.

(* ---- C95 -------------------------------------------------------------------- *)

(* arange(start, stop, step) of integers: exactly the terms of the progression that
   lie before stop, although the count is a rounded quotient and every term a
   rounded sum.  Missing: values from 2^53 on, non-integers, step 0 (refuted below). *)
Theorem C95_arange_partial : forall d start stop step,
  std d -> step <> 0 -> Z.abs start < 2 ^ 53 -> Z.abs stop < 2 ^ 53 -> Z.abs step < 2 ^ 53 -> Z.abs (stop - start) < 2 ^ 53 ->
  (forall i : nat, before step stop (start + Z.of_nat i * step) -> fits d (PInt (start + Z.of_nat i * step))) ->
  exists l, arange_py (f64_int start) (Some (f64_int stop)) (Some (f64_int step)) (Some d) = Ok l /\ progression d start stop step l.
Proof. intros d start stop step H1 H2 H3 H4 H5 H6 H7. now apply arange_ok. Qed.
Example C95_arange_nonvacuous :
  (forall i : nat, before (-3) (-5) (7 + Z.of_nat i * -3) -> fits (LInt (mkIty 8 true)) (PInt (7 + Z.of_nat i * -3))) /\
  arange_py (f64_int 7) (Some (f64_int (-5))) (Some (f64_int (-3))) (Some (LInt (mkIty 8 true))) = Ok (map CInt [7; 4; 1; -2]).
Proof.
  split; [|vm_compute; reflexivity]. intros i H. unfold before in H. cbn [fits]. unfold representable, i_min, i_max. cbn [signed bits].
  change (2 ^ (8 - 1)) with 128. lia.
Qed.

(* arange(n) with the defaults is 0, 1, ..., n-1 in int64 *)
Theorem C95_default_partial : forall n : Z, 0 <= n < 2 ^ 53 ->
  exists l, arange_py (f64_int n) None None None = Ok l /\ length l = Z.to_nat n /\
    forall (i : nat) c, nth_error l i = Some c -> c = CInt (Z.of_nat i).
Proof.
  intros n Hn. destruct (arange_ok (LInt i64_ty) 0 n 1) as (l & E & P1 & P2).
  - unfold std, std_int. cbn [bits i64_ty]. auto.
  - discriminate.
  - reflexivity.
  - lia.
  - reflexivity.
  - lia.
  - intros i [[_ B]|[B _]]; [|lia]. cbn [fits]. unfold representable, i_min, i_max, i64_ty. cbn [signed bits]. change (64 - 1) with 63.
    assert (2 ^ 53 < 2 ^ 63) by reflexivity. lia.
  - exists l. split; [exact E|]. split.
    + destruct (Nat.lt_trichotomy (length l) (Z.to_nat n)) as [L|[L|L]]; [exfalso|exact L|exfalso].
      * assert (before 1 n (0 + Z.of_nat (length l) * 1)) as B by (left; lia). apply P1 in B. lia.
      * apply P1 in L. destruct L as [[_ L]|[L _]]; lia.
    + intros i c Ec. specialize (P2 i c Ec). destruct c; cbn [stores] in P2; [|contradiction]. f_equal. lia.
Qed.
Example C95_default_nonvacuous : arange_py (f64_int 4) None None None = Ok (map CInt [0; 1; 2; 3]).
Proof. vm_compute. reflexivity. Qed.

(* arange(0, 1, 0.25) without dtype is four integer zeros *)
Theorem C95_float_refuted : exists quarter,
  sf_is quarter 1 (-2) /\ arange_py (f64_int 0) (Some (f64_int 1)) (Some quarter) None = Ok (map CInt [0; 0; 0; 0]).
Proof. exists (fdiv (f64_int 1) (f64_int 4)). split; vm_compute; reflexivity. Qed.

(* beyond 2^53: arange(2^53, 2^53 + 3) has four elements, with repetitions *)
Theorem C95_precision_refuted : exists start l,
  start = 2 ^ 53 /\ arange_py (f64_int start) (Some (f64_int (start + 3))) None None = Ok l /\
  ~ progression (LInt i64_ty) start (start + 3) 1 l /\ l = map CInt [start; start; start + 2; start + 4].
Proof.
  exists (2 ^ 53). eexists. split; [reflexivity|]. split; [vm_compute; reflexivity|]. split; [|reflexivity].
  intros [P _]. specialize (P 3%nat). destruct P as [P _]. specialize (P ltac:(cbn; lia)). unfold before in P. lia.
Qed.

(* step 0: a panic, or an empty array, instead of an error *)
Theorem C95_zero_step_refuted :
  arange_py (f64_int 0) (Some (f64_int 5)) (Some (f64_int 0)) None = Panic /\
  arange_py (f64_int 5) (Some (f64_int 5)) (Some (f64_int 0)) None = Ok [].
Proof. split; vm_compute; reflexivity. Qed.

(* arange(2^61): the size in bytes wraps to 0 and the elements are written outside *)
Theorem C95_overflow_refuted : arange_py (f64_int (2 ^ 61)) None None None = Fault.
Proof.
  unfold arange_py, arange. assert (ceil_usize (fdiv64 (fsub64 (f64_int (2 ^ 61)) (f64_int 0)) (f64_int 1)) = 2 ^ 61) as -> by (vm_compute; reflexivity).
  assert (alloc (2 ^ 61) (ld_item (LInt i64_ty)) = Fault) as -> by (vm_compute; reflexivity). reflexivity.
Qed.

(* ---- C96 -------------------------------------------------------------------- *)

(* linspace(start, stop, num) of integers whose spacing is an integer: num equally
   spaced numbers, the first start and the last stop.  Missing: spacings that are
   not exact, where the last element may differ from stop (refuted below). *)
Theorem C96_linspace_partial : forall d start stop num,
  std d -> (1 < num)%nat -> Z.of_nat num < 2 ^ 53 -> Z.abs start < 2 ^ 53 -> Z.abs stop < 2 ^ 53 -> Z.abs (stop - start) < 2 ^ 53 ->
  (Z.of_nat num - 1 | stop - start) ->
  (forall z, Z.min start stop <= z <= Z.max start stop -> fits d (PInt z)) ->
  exists l, linspace d (f64_int start) (f64_int stop) num = Ok l /\ spaced d start stop num l.
Proof. exact linspace_ok. Qed.
Example C96_linspace_nonvacuous :
  linspace (LInt (mkIty 32 true)) (f64_int 10) (f64_int (-2)) 5 = Ok (map CInt [10; 7; 4; 1; -2]) /\ (Z.of_nat 5 - 1 | -2 - 10).
Proof. split; [vm_compute; reflexivity|]. exists (-3). reflexivity. Qed.

(* the number of elements is num for every start and stop *)
Theorem C96_length : forall d start stop num l, linspace d start stop num = Ok l -> length l = num.
Proof.
  intros d start stop num l. unfold linspace. destruct (alloc (Z.of_nat num) (ld_item d)); cbn [bind]; try discriminate.
  intro E. injection E as <-. now rewrite map_length, seq_length.
Qed.
Example C96_length_nonvacuous : exists l, linspace LF64 (f64_int 0) (f64_int 1) 3 = Ok l /\ length l = 3%nat.
Proof. eexists. split; vm_compute; reflexivity. Qed.

(* the first element of a float64 linspace is start, when start is not zero and the
   spacing is finite *)
Theorem C96_first_partial : forall s m e stop num step l, (0 < num)%nat ->
  linspace LF64 (S754_finite s m e) stop num = Ok l ->
  step = (if (1 <? num)%nat then fdiv64 (fsub64 stop (S754_finite s m e)) (f64_int (Z.of_nat num - 1)) else f64_int 0) ->
  (exists s', step = S754_zero s') \/ (exists s' m' e', step = S754_finite s' m' e') ->
  nth_error l 0 = Some (CFlt (S754_finite s m e)).
Proof.
  intros s m e stop num step l Hn E Es Hst. unfold linspace in E. destruct (alloc (Z.of_nat num) (ld_item LF64)); cbn [bind] in E; try discriminate.
  rewrite <- Es in E. clear Es. injection E as <-. destruct num as [|num]; [lia|]. cbn [seq map nth_error write_f64]. do 2 f_equal.
  change (f64_int (Z.of_nat 0)) with (S754_zero false). destruct Hst as [[s' ->]|(s' & m' & e' & ->)]; reflexivity.
Qed.
Example C96_first_nonvacuous : exists l, linspace LF64 (f64_int 1) (f64_int 2) 4 = Ok l /\ nth_error l 0 = Some (CFlt (f64_int 1)).
Proof. eexists. split; vm_compute; reflexivity. Qed.

(* linspace(0, 1, 50) does not end at 1 *)
Theorem C96_endpoint_refuted : exists l f,
  linspace LF64 (f64_int 0) (f64_int 1) 50 = Ok l /\ nth_error l 49 = Some (CFlt f) /\ SFcompare f (f64_int 1) = Some Lt.
Proof. eexists _, _. split; [vm_compute; reflexivity|]. split; [reflexivity|]. vm_compute. reflexivity. Qed.
(* linspace(-3, 0, 3, dtype=int64): -1.5 is stored as -1 (NumPy rounds down, -2) *)
Theorem C96_integer_refuted :
  linspace (LInt i64_ty) (f64_int (-3)) (f64_int 0) 3 = Ok (map CInt [-3; -1; 0]).
Proof. vm_compute. reflexivity. Qed.

(* ---- C97 -------------------------------------------------------------------- *)

(* full(shape, v): every element is v.  Missing: integers from 2^53 on. *)
Theorem C97_full_partial : forall d sh v, std d -> Z.abs v < 2 ^ 53 -> fits d (PInt v) -> Z.of_nat (prod sh) * 8 < 2 ^ 63 ->
  let r := full d sh (f64_int v) in
  a_shape (snd r) = sh /\ wf (fst r) (snd r) /\
  forall idx, inb idx sh -> exists c, get (fst r) (snd r) idx = Some c /\ stores d (PInt v) c.
Proof.
  intros d sh v Hd Hv HF HB. pose proof (ld_item_pos d Hd) as BI. unfold full. cbn [fst snd]. split; [reflexivity|]. split.
  - apply fresh_wf; [lia| |now rewrite map_length, seq_length]. rewrite map_length, seq_length. nia.
  - intros idx Hi. rewrite fresh_get by lia. rewrite nth_error_map', nth_error_seq. pose proof (rank_lt sh idx Hi) as L.
    apply Nat.ltb_lt in L. rewrite L. cbn [option_map]. eexists; split; [reflexivity|]. now apply write_f64_small.
Qed.
Example C97_full_nonvacuous : fst (full (LInt i64_ty) [2; 2]%nat (f64_int 7)) = map CInt [7; 7; 7; 7].
Proof. vm_compute. reflexivity. Qed.
(* full((1,), 2^53 + 1, dtype=int64) holds 2^53 *)
Theorem C97_precision_refuted : fst (full (LInt i64_ty) [1]%nat (f64_int (2 ^ 53 + 1))) = [CInt (2 ^ 53)].
Proof. vm_compute. reflexivity. Qed.

Print Assumptions C95_arange_partial.
Print Assumptions C95_default_partial.
Print Assumptions C95_float_refuted.
Print Assumptions C95_precision_refuted.
Print Assumptions C95_zero_step_refuted.
Print Assumptions C95_overflow_refuted.
Print Assumptions C96_linspace_partial.
Print Assumptions C96_length.
Print Assumptions C96_first_partial.
Print Assumptions C96_endpoint_refuted.
Print Assumptions C96_integer_refuted.
Print Assumptions C97_full_partial.
Print Assumptions C97_precision_refuted.
