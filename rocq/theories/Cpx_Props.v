(* Claims C154 (isnan, isinf, isfinite, signbit, isneginf, isposinf, isreal, iscomplex) and
   C155 (real, imag, conj, nan_to_num). *)
From Coq Require Import SpecFloat.
From Verif Require Import Base Lists Int_Model Int_Proofs F64_Model Arr_Spec Arr_Model Arr_Wf Arr_Proofs Wf_Check Bcast_Model Bcast_Proofs Copy_Model Copy_Proofs Idx_Model Idx_Assign
  Elem_Model Elem_Proofs Rng_Model Date_Model New_Model Promo_Spec Promo_Model Promo_Proofs Promo_Props SF_Proofs SF_Arith SF_Cmp Cast_Spec Cast_Model Cast_SF Cast_Proofs Cast_Laws Cast_Props
  Close_Proofs Bitw_Spec Bitw_Model Bitw_Proofs Rnd_Spec Rnd_Model Rnd_Proofs Rnd_Round Rnd_Props Ari_Spec SF_Round Ari_Model Ari_Proofs Ari_Ord Ari_Next Cpx_Spec Cpx_Model Cpx_Proofs.
Local Open Scope Z_scope.

(* ---- C154 ------------------------------------------------------------------------- *)
(* z is the bool array that says where P holds in x *)
Definition marks (P : scalar -> Prop) (x z : narr) : Prop :=
  good z /\ n_kind z = Bool /\ shape_of z = shape_of x /\
  forall idx, inb idx (shape_of x) -> exists v (b : bool), item_at x idx = Some v /\ item_at z idx = Some (SInt (if b then 1 else 0)) /\ (b = true <-> P v).

(* isnan, isinf, isfinite, isneginf, isposinf, every numeric dtype but bool.
   Missing: bool arrays (refuted below). *)
Theorem C154_tests_partial : forall t x, good x -> n_kind x <> Bool ->
  exists z, predicate (pred_of t) x = Ok z /\ marks (fun v => test_holds t (value v)) x z.
Proof.
  intros t x G NB. destruct (predicate_spec (pred_of t) x G NB) as (z & E & GZ & KZ & SZ & HZ). exists z. split; [exact E|]. split; [exact GZ|]. split; [exact KZ|]. split; [exact SZ|].
  intros idx Hi. destruct (HZ idx Hi) as (v & A & EV & B). exists v, (pred_elem (pred_of t) v). split; [exact A|]. split; [rewrite B; destruct (pred_elem _ v); reflexivity|]. apply (pred_elem_value (n_kind x)); [apply G|exact EV].
Qed.
Example C154_tests_nonvacuous :
  let x := row Float32 [SFlt S754_nan; SFlt (S754_infinity true); SFlt (S754_finite true 8388608 (-23)); SFlt (S754_zero true)] in
  let c := row Complex128 [SCpx S754_nan (S754_infinity false); SCpx (S754_infinity false) (S754_zero true); SCpx (S754_zero false) (S754_infinity true)] in
  good x /\ good c /\
  predicate PNan x = Ok (row Bool [SInt 1; SInt 0; SInt 0; SInt 0]) /\ predicate PNegInf x = Ok (row Bool [SInt 0; SInt 1; SInt 0; SInt 0]) /\
  predicate PFinite x = Ok (row Bool [SInt 0; SInt 0; SInt 1; SInt 1]) /\ predicate PSign x = Ok (row Bool [SInt 0; SInt 1; SInt 1; SInt 1]) /\
  predicate PNan c = Ok (row Bool [SInt 1; SInt 0; SInt 0]) /\ predicate PInf c = Ok (row Bool [SInt 1; SInt 1; SInt 1]) /\
  predicate PPosInf c = Ok (row Bool [SInt 0; SInt 1; SInt 0]) /\ predicate PFinite (row Int8 [SInt 3]) = Ok (row Bool [SInt 1]).
Proof. cbv zeta. split; [good_row|]. split; [good_row|]. repeat (split; [vm_compute; reflexivity|]). vm_compute; reflexivity. Qed.

(* signbit: negative, or the zero -0; a NaN's sign is not in the model *)
Theorem C154_signbit_partial : forall x, good x -> n_kind x <> Bool ->
  exists z, predicate PSign x = Ok z /\ good z /\ n_kind z = Bool /\ shape_of z = shape_of x /\
    forall idx, inb idx (shape_of x) -> exists v (b : bool), item_at x idx = Some v /\ item_at z idx = Some (SInt (if b then 1 else 0)) /\ (real_value v <> NaN -> (b = true <-> sign_set v)).
Proof.
  intros x G NB. destruct (predicate_spec PSign x G NB) as (z & E & GZ & KZ & SZ & HZ). exists z. split; [exact E|]. split; [exact GZ|]. split; [exact KZ|]. split; [exact SZ|].
  intros idx Hi. destruct (HZ idx Hi) as (v & A & EV & B). exists v, (pred_elem PSign v). split; [exact A|]. split; [rewrite B; destruct (pred_elem _ v); reflexivity|]. intros _. apply (pred_sign_value (n_kind x)); [apply G|exact EV].
Qed.

Example C154_signbit_nonvacuous :
  let x := row Float32 [SFlt (S754_zero true); SFlt (S754_zero false); SFlt (S754_infinity true)] in
  good x /\ predicate PSign x = Ok (row Bool [SInt 1; SInt 0; SInt 1]) /\ predicate PSign (row Int16 [SInt (-3); SInt 0]) = Ok (row Bool [SInt 1; SInt 0]).
Proof. cbv zeta. split; [good_row|]. split; vm_compute; reflexivity. Qed.

(* isfinite(x) is ~(isnan(x) | isinf(x)); of a real array, isinf is isposinf | isneginf and
   no two of isnan, isfinite, isposinf, isneginf hold together *)
Theorem C154_laws : forall x, good x -> n_kind x <> Bool ->
  exists n i f p m, predicate PNan x = Ok n /\ predicate PInf x = Ok i /\ predicate PFinite x = Ok f /\ predicate PPosInf x = Ok p /\ predicate PNegInf x = Ok m /\
    forall idx, inb idx (shape_of x) -> exists bn bi bf bp bm : bool,
      item_at n idx = Some (SInt (if bn then 1 else 0)) /\ item_at i idx = Some (SInt (if bi then 1 else 0)) /\ item_at f idx = Some (SInt (if bf then 1 else 0)) /\
      item_at p idx = Some (SInt (if bp then 1 else 0)) /\ item_at m idx = Some (SInt (if bm then 1 else 0)) /\
      bf = negb (bn || bi) /\ (is_complex_kind (n_kind x) = false -> bi = bp || bm /\ bn && bi = false /\ bp && bm = false).
Proof.
  intros x G NB. destruct (C154_tests_partial TNan x G NB) as (n & EN & _ & _ & _ & HN). destruct (C154_tests_partial TInf x G NB) as (i & EI & _ & _ & _ & HI).
  destruct (C154_tests_partial TFinite x G NB) as (f & EF & _ & _ & _ & HF). destruct (C154_tests_partial TPosInf x G NB) as (p & EP & _ & _ & _ & HP). destruct (C154_tests_partial TNegInf x G NB) as (m & EM & _ & _ & _ & HM).
  exists n, i, f, p, m. repeat (split; [assumption|]). intros idx Hi.
  destruct (HN idx Hi) as (v & bn & A & BN & CN). destruct (HI idx Hi) as (v1 & bi & A1 & BI & CI). destruct (HF idx Hi) as (v2 & bf & A2 & BF & CF). destruct (HP idx Hi) as (v3 & bp & A3 & BP & CP). destruct (HM idx Hi) as (v4 & bm & A4 & BM & CM).
  rewrite A in A1, A2, A3, A4. injection A1 as <-. injection A2 as <-. injection A3 as <-. injection A4 as <-.
  exists bn, bi, bf, bp, bm. repeat (split; [assumption|]).
  assert (forall e, e = NaN \/ infinite e \/ finite e) as TRI by (intros [|s|z]; [left; reflexivity|right; left; eexists; reflexivity|right; right; eexists; reflexivity]).
  assert (forall e, finite e -> e <> NaN /\ ~ infinite e) as FIN by (intros e [z ->]; split; [discriminate|intros [s H]; discriminate H]).
  destruct (value v) as [a b] eqn:EV. cbn [test_holds fst snd] in *. split.
  - apply eq_true_iff_eq. rewrite CF, negb_true_iff. split.
    + intros [FA FB]. destruct (FIN a FA) as [NA IA], (FIN b FB) as [NB' IB]. apply orb_false_iff. split; [destruct bn|destruct bi]; try reflexivity; exfalso.
      * destruct (proj1 CN eq_refl); contradiction.
      * destruct (proj1 CI eq_refl); contradiction.
    + intros H. apply orb_false_iff in H as [-> ->]. split.
      * destruct (TRI a) as [H|[H|H]]; [|  |exact H]; exfalso; [assert (false = true) by (apply CN; auto)|assert (false = true) by (apply CI; auto)]; discriminate.
      * destruct (TRI b) as [H|[H|H]]; [|  |exact H]; exfalso; [assert (false = true) by (apply CN; auto)|assert (false = true) by (apply CI; auto)]; discriminate.
  - intros C. destruct (good_item x idx G Hi) as (w & Hw & EW). rewrite A in Hw. injection Hw as <-.
    assert (b = Fin 0) as ->. { destruct v; try (cbn in EV; injection EV as _ <-; reflexivity). destruct (n_kind x); try discriminate C; contradiction. }
    destruct a as [|s|z].
    + assert (bn = true) as -> by (apply CN; auto). assert (bi = false) as -> by (destruct bi; auto; destruct (proj1 CI eq_refl) as [[t H]|[t H]]; discriminate H).
      assert (bp = false) as -> by (destruct bp; auto; discriminate (proj1 CP eq_refl)). assert (bm = false) as -> by (destruct bm; auto; discriminate (proj1 CM eq_refl)). auto.
    + assert (bi = true) as -> by (apply CI; left; eexists; reflexivity). assert (bn = false) as -> by (destruct bn; auto; destruct (proj1 CN eq_refl) as [H|H]; discriminate H).
      destruct s.
      * assert (bm = true) as -> by (apply CM; reflexivity). assert (bp = false) as -> by (destruct bp; auto; discriminate (proj1 CP eq_refl)). auto.
      * assert (bp = true) as -> by (apply CP; reflexivity). assert (bm = false) as -> by (destruct bm; auto; discriminate (proj1 CM eq_refl)). auto.
    + assert (bi = false) as -> by (destruct bi; auto; destruct (proj1 CI eq_refl) as [[t H]|[t H]]; discriminate H). assert (bn = false) as -> by (destruct bn; auto; destruct (proj1 CN eq_refl) as [H|H]; discriminate H).
      assert (bp = false) as -> by (destruct bp; auto; discriminate (proj1 CP eq_refl)). assert (bm = false) as -> by (destruct bm; auto; discriminate (proj1 CM eq_refl)). auto.
Qed.

Example C154_laws_nonvacuous :
  let x := row Float32 [SFlt S754_nan; SFlt (S754_infinity true)] in
  good x /\ n_kind x <> Bool /\ is_complex_kind (n_kind x) = false /\ predicate PInf x = Ok (row Bool [SInt 0; SInt 1]) /\ predicate PPosInf x = Ok (row Bool [SInt 0; SInt 0]).
Proof. cbv zeta. split; [good_row|]. split; [discriminate|]. split; [reflexivity|]. split; vm_compute; reflexivity. Qed.

(* a bool array is returned as it is, whatever the test: isnan([True]) is [True],
   isfinite([False]) is [False] *)
Theorem C154_bool_refuted :
  (forall p x, good x -> n_kind x = Bool -> exists z, predicate p x = Ok z /\ n_kind z = Bool /\ shape_of z = shape_of x /\ forall idx, inb idx (shape_of x) -> item_at z idx = item_at x idx) /\
  (let x := row Bool [SInt 1; SInt 0] in good x /\ predicate PNan x = Ok x /\ predicate PFinite x = Ok x /\
     ~ test_holds TNan (value (SInt 1)) /\ test_holds TFinite (value (SInt 0))).
Proof.
  split.
  - intros p x G B. destruct (predicate_bool p x G B) as (z & E & _ & K & S' & H). exists z. auto.
  - cbv zeta. split; [good_row|]. split; [vm_compute; reflexivity|]. split; [vm_compute; reflexivity|]. split; [intros [H|H]; discriminate H|split; eexists; reflexivity].
Qed.

(* isreal (true) and iscomplex (false) of anything but a bool array: 1 where the imaginary
   part is (is not) zero and 0 elsewhere.  Missing: the result is not a bool array, and
   bool arrays (both refuted below). *)
Theorem C154_reality_partial : forall x, good x -> n_kind x <> Bool ->
  exists r c, reality true x = Ok r /\ reality false x = Ok c /\ good r /\ good c /\ shape_of r = shape_of x /\ shape_of c = shape_of x /\
    forall idx, inb idx (shape_of x) -> exists v w u (b : bool), item_at x idx = Some v /\ item_at r idx = Some w /\ item_at c idx = Some u /\
      value w = (Fin ((if b then 1 else 0) * one), Fin 0) /\ value u = (Fin ((if b then 0 else 1) * one), Fin 0) /\ (b = true <-> snd (value v) = Fin 0).
Proof.
  intros x G NB. destruct (reality_spec true x G) as (r & ER & GR & _ & SR & HR). destruct (reality_spec false x G) as (c & EC & GC & _ & SC & HC).
  exists r, c. repeat (split; [assumption|]). intros idx Hi. destruct (HR idx Hi) as (v & A & EV & B). destruct (HC idx Hi) as (v' & A' & _ & B'). rewrite A in A'. injection A' as <-.
  destruct (reality_elem_value (n_kind x) true v (proj1 G) NB EV) as (_ & b & V1 & I1). destruct (reality_elem_value (n_kind x) false v (proj1 G) NB EV) as (_ & d & V2 & I2).
  exists v, (reality_elem (n_kind x) true v), (reality_elem (n_kind x) false v), b. split; [exact A|]. split; [exact B|]. split; [exact B'|]. split; [exact V1|]. split; [|exact I1].
  rewrite V2. assert (d = negb b) as -> by (destruct b, d; cbn; try reflexivity; exfalso; [assert (true = false) by (apply I2, I1; reflexivity); discriminate|assert (false = true) by (apply I1, I2; reflexivity); discriminate]).
  destruct b; reflexivity.
Qed.
Example C154_reality_nonvacuous :
  let c := row Complex64 [SCpx (S754_zero false) (S754_zero true); SCpx (S754_zero false) S754_nan] in
  good c /\ reality true c = Ok (row Complex64 [SCpx (S754_finite false 8388608 (-23)) (S754_zero false); SCpx (S754_zero false) (S754_zero false)]) /\
  reality true (row Uint8 [SInt 7]) = Ok (row Uint8 [SInt 1]) /\ reality false (row Uint8 [SInt 7]) = Ok (row Uint8 [SInt 0]).
Proof. cbv zeta. split; [good_row|]. split; [vm_compute; reflexivity|]. split; vm_compute; reflexivity. Qed.
(* the result keeps the dtype of the argument, so only a bool array gives a bool array; and
   a bool array comes back unchanged: isreal([False]) is [False], iscomplex([True]) is [True] *)
Theorem C154_reality_refuted :
  (forall r x, good x -> exists z, reality r x = Ok z /\ n_kind z = n_kind x) /\
  (let x := row Bool [SInt 1; SInt 0] in good x /\ reality true x = Ok x /\ reality false x = Ok x).
Proof.
  split.
  - intros r x G. destruct (reality_spec r x G) as (z & E & _ & K & _). exists z. auto.
  - cbv zeta. split; [good_row|]. split; vm_compute; reflexivity.
Qed.

(* ---- C155 ------------------------------------------------------------------------- *)
(* the values of z are those of x under f *)
Definition maps (f : number -> number) (k : kind) (x z : narr) : Prop :=
  good z /\ n_kind z = k /\ shape_of z = shape_of x /\
  forall idx, inb idx (shape_of x) -> exists v r, item_at x idx = Some v /\ item_at z idx = Some r /\ value r = f (value v).

(* real, imag and conj of every numeric array, however it is laid out: the parts, exactly,
   in the float dtype of the complex one; real arrays are copied, their imaginary part is 0 *)
Theorem C155_parts : forall x, good x ->
  exists re im cj, real_part x = Ok re /\ imag_part x = Ok im /\ conj x = Ok cj /\
    maps (fun p => (fst p, Fin 0)) (part_kind (n_kind x)) x re /\
    maps (fun p => (snd p, Fin 0)) (part_kind (n_kind x)) x im /\
    maps conjugate (n_kind x) x cj.
Proof.
  intros x G. destruct (real_spec x G) as (re & E1 & A1). destruct (imag_spec x G) as (im & E2 & A2). destruct (conj_spec x G) as (cj & E3 & A3).
  exists re, im, cj. split; [exact E1|]. split; [exact E2|]. split; [exact E3|]. split; [exact A1|]. split; [exact A2|exact A3].
Qed.
Example C155_parts_nonvacuous :
  let c := row Complex64 [SCpx (S754_finite false 8388608 (-23)) (S754_finite true 8388608 (-22)); SCpx S754_nan (S754_infinity false)] in
  good c /\ real_part c = Ok (row Float32 [SFlt (S754_finite false 8388608 (-23)); SFlt S754_nan]) /\
  imag_part c = Ok (row Float32 [SFlt (S754_finite true 8388608 (-22)); SFlt (S754_infinity false)]) /\
  conj c = Ok (row Complex64 [SCpx (S754_finite false 8388608 (-23)) (S754_finite false 8388608 (-22)); SCpx S754_nan (S754_infinity true)]) /\
  imag_part (row Int8 [SInt 5]) = Ok (row Int8 [SInt 0]) /\ conj (row Int8 [SInt 5]) = Ok (row Int8 [SInt 5]).
Proof. cbv zeta. split; [good_row|]. repeat (split; [vm_compute; reflexivity|]). vm_compute; reflexivity. Qed.

(* conj(conj(x)) is x; real and imag of conj(x) are real(x) and -imag(x) *)
Theorem C155_conj_twice : forall x, good x ->
  exists c d, conj x = Ok c /\ conj c = Ok d /\ maps (fun p => p) (n_kind x) x d.
Proof.
  intros x G. destruct (conj_spec x G) as (c & EC & GC & KC & SC & HC). destruct (conj_spec c GC) as (d & ED & GD & KD & SD & HD).
  exists c, d. split; [exact EC|]. split; [exact ED|]. split; [exact GD|]. split; [congruence|]. split; [congruence|].
  intros idx Hi. destruct (HC idx Hi) as (v & r & A & B & V). rewrite <- SC in Hi. destruct (HD idx Hi) as (v' & s & A' & B' & V'). rewrite B in A'. injection A' as <-.
  exists v, s. split; [exact A|]. split; [exact B'|]. rewrite V', V. unfold conjugate. cbn [fst snd]. rewrite ext_opp_opp. destruct (value v); reflexivity.
Qed.
Example C155_conj_twice_nonvacuous : let c := row Complex128 [SCpx (S754_finite false 4503599627370496 (-52)) (S754_zero true)] in good c /\ bind (conj c) conj = Ok c.
Proof. cbv zeta. split; [good_row|vm_compute; reflexivity]. Qed.

(* nan_to_num: every finite part stays, NaN and the infinities are replaced; a replacement
   is rounded to the dtype; without one an infinity becomes the greatest number of the
   dtype.  Integer and bool arrays are copied. *)
Theorem C155_nan_to_num : forall nan pos neg x, good x -> valid_binary 53 1024 nan = true -> option_valid pos -> option_valid neg ->
  exists z, nan_to_num nan pos neg x = Ok z /\ good z /\ n_kind z = n_kind x /\ shape_of z = shape_of x /\
    forall idx, inb idx (shape_of x) -> exists v r, item_at x idx = Some v /\ item_at z idx = Some r /\
      if is_float_kind (n_kind x) then
        let R := replaced (converted_to (part_kind (n_kind x))) (n_kind x) (float_value nan) (option_map float_value pos) (option_map float_value neg) in
        R (fst (value v)) (fst (value r)) /\ (if is_complex_kind (n_kind x) then R (snd (value v)) (snd (value r)) else snd (value r) = Fin 0)
      else r = v.
Proof.
  intros nan pos neg x G VN VP VM. destruct (is_float_kind (n_kind x)) eqn:K.
  - destruct (nan_to_num_spec nan pos neg x G K VN VP VM) as (z & E & GZ & KZ & SZ & HZ). exists z. repeat (split; [assumption|]). intros idx Hi.
    destruct (HZ idx Hi) as (v & r & A & B & _ & C & D). exists v, r. split; [exact A|]. split; [exact B|]. split; [exact C|]. destruct (is_complex_kind (n_kind x)); [exact D|rewrite D; reflexivity].
  - rewrite nan_to_num_int by exact K. destruct (copy_spec x G) as (z & E & GZ & KZ & SZ & HZ). exists z. repeat (split; [assumption|]). intros idx Hi. destruct (good_item x idx G Hi) as (v & A & _).
    exists v, v. split; [exact A|]. split; [rewrite (HZ idx Hi); exact A|reflexivity].
Qed.
Example C155_nan_to_num_nonvacuous :
  let x := row Float32 [SFlt S754_nan; SFlt (S754_infinity true); SFlt (S754_infinity false); SFlt (S754_finite true 8388608 (-23))] in
  good x /\ nan_to_num zero None None x = Ok (row Float32 [SFlt zero; SFlt (S754_finite true 16777215 104); SFlt (S754_finite false 16777215 104); SFlt (S754_finite true 8388608 (-23))]) /\
  nan_to_num zero (Some (S754_finite false 4503599627370496 (-52))) None (row Complex128 [SCpx (S754_infinity false) S754_nan]) = Ok (row Complex128 [SCpx (S754_finite false 4503599627370496 (-52)) zero]).
Proof. cbv zeta. split; [good_row|]. split; vm_compute; reflexivity. Qed.

(* with the default replacements every element is finite, and a second nan_to_num changes
   nothing *)
Theorem C155_nan_to_num_finite : forall x, good x -> n_kind x <> Bool ->
  exists z f z', nan_to_num zero None None x = Ok z /\ predicate PFinite z = Ok f /\ nan_to_num zero None None z = Ok z' /\
    forall idx, inb idx (shape_of x) -> item_at f idx = Some (SInt 1) /\ exists r r', item_at z idx = Some r /\ item_at z' idx = Some r' /\ value r' = value r.
Proof.
  intros x G NB. destruct (C155_nan_to_num zero None None x G eq_refl I I) as (z & E & GZ & KZ & SZ & HZ). assert (n_kind z <> Bool) as NBZ by congruence.
  destruct (C154_tests_partial TFinite z GZ NBZ) as (f & EF & _ & _ & _ & HF). destruct (C155_nan_to_num zero None None z GZ eq_refl I I) as (z' & E' & _ & _ & _ & HZ').
  exists z, f, z'. split; [exact E|]. split; [exact EF|]. split; [exact E'|]. intros idx Hi. pose proof Hi as Hj. rewrite <- SZ in Hj.
  destruct (HZ idx Hi) as (v & r & A & B & C). destruct (HF idx Hj) as (r0 & b & A0 & B0 & C0). rewrite B in A0. injection A0 as <-. destruct (HZ' idx Hj) as (r1 & r' & A1 & B1 & C1). rewrite B in A1. injection A1 as <-. rewrite KZ in C1.
  assert (forall e s, is_float_kind (n_kind x) = true -> replaced (converted_to (part_kind (n_kind x))) (n_kind x) (float_value zero) None None e s -> finite s) as HR.
  { intros e s K H. destruct e as [|[]|t]; cbn [replaced] in H; try (subst s; eexists; reflexivity). cbn [zero float_value converted_to] in H.
    destruct s as [|t|t]; [contradiction| |eexists; reflexivity]. exfalso. destruct H as [H _]. apply H. unfold in_range. destruct (format (part_kind (n_kind x))) as [p m] eqn:EP.
    assert (0 < p) by (destruct (n_kind x); try discriminate K; injection EP as <- <-; lia). assert (0 < 2 ^ (m - p + 1074)) by (apply Z.pow_pos_nonneg; [lia|destruct (n_kind x); try discriminate K; injection EP as <- <-; lia]).
    assert (1 < 2 ^ (p + 1)) by (apply Z.pow_gt_1; lia). nia. }
  assert (finite (fst (value r)) /\ finite (snd (value r))) as [FR FI].
  { destruct (is_float_kind (n_kind x)) eqn:K.
    - destruct C as [C D]. split; [exact (HR _ _ eq_refl C)|]. destruct (is_complex_kind (n_kind x)); [exact (HR _ _ eq_refl D)|rewrite D; eexists; reflexivity].
    - subst r. destruct (good_item x idx G Hi) as (v' & A' & EV). rewrite A in A'. injection A' as <-. destruct v as [t|t|t u]; [split; eexists; reflexivity| |]; destruct (n_kind x); try discriminate K; contradiction. }
  split.
  - rewrite B0. assert (b = true) as -> by (apply C0; split; assumption). reflexivity.
  - exists r, r'. split; [exact B|]. split; [exact B1|]. destruct (is_float_kind (n_kind x)); [|subst r'; reflexivity]. destruct C1 as [P Q]. destruct FR as [a FR], FI as [c FI].
    rewrite FR in P. cbn [replaced] in P. rewrite (surjective_pairing (value r')), (surjective_pairing (value r)). rewrite P, FR. f_equal.
    destruct (is_complex_kind (n_kind x)) eqn:CX; [rewrite FI in Q; cbn [replaced] in Q; congruence|]. rewrite Q. destruct (good_item z idx GZ Hj) as (w & HW & EW). rewrite B in HW. injection HW as <-. rewrite KZ in EW.
    destruct r; try reflexivity. destruct (n_kind x); try discriminate CX; contradiction.
Qed.
Example C155_nan_to_num_finite_nonvacuous :
  let x := row Complex64 [SCpx S754_nan (S754_infinity true)] in
  good x /\ bind (nan_to_num zero None None x) (predicate PFinite) = Ok (row Bool [SInt 1]).
Proof. cbv zeta. split; [good_row|vm_compute; reflexivity]. Qed.
(* a replacement the dtype cannot hold is an infinity again: nan_to_num(float32 inf,
   posinf=1e300) *)
Theorem C155_overflow_refuted :
  let x := row Float32 [SFlt (S754_infinity false)] in
  let big := S754_finite false 6755399441055744 944 in
  good x /\ valid_binary 53 1024 big = true /\ finite (float_value big) /\ nan_to_num zero (Some big) None x = Ok x.
Proof. cbv zeta. split; [good_row|]. split; [vm_compute; reflexivity|]. split; [eexists; reflexivity|vm_compute; reflexivity]. Qed.

Print Assumptions C154_tests_partial.
Print Assumptions C154_signbit_partial.
Print Assumptions C154_laws.
Print Assumptions C154_bool_refuted.
Print Assumptions C154_reality_partial.
Print Assumptions C154_reality_refuted.
Print Assumptions C155_parts.
Print Assumptions C155_conj_twice.
Print Assumptions C155_nan_to_num.
Print Assumptions C155_nan_to_num_finite.
Print Assumptions C155_overflow_refuted.
