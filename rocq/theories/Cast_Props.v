(* Claims C140 (astype), C141 (comparisons), C142 (laws of comparison, array_equal). *)
From Coq Require Import SpecFloat.
From Verif Require Import Base Lists Int_Model F64_Model Arr_Spec Arr_Model Arr_Wf Arr_Proofs Wf_Check Bcast_Model Bcast_Proofs Copy_Model Copy_Proofs Idx_Model Idx_Assign
  Elem_Model Elem_Proofs Rng_Model Date_Model New_Model Promo_Spec Promo_Model Promo_Proofs Promo_Props Lay_Copy Cast_Spec Cast_Model Cast_SF Cast_Proofs Cast_Laws.
Local Open Scope Z_scope.

(* ---- C140 ------------------------------------------------------------------- *)

(* a.astype(k) has the shape of a, and every element keeps its value when dtype k has it.
   _partial: elements of real dtypes whose value is also a double (every one but the
   64-bit integers that need more than 53 bits); the others are refuted below *)
Theorem C140_astype_partial : forall x k, good x -> real (n_kind x) = true -> numeric k = true ->
  exists y, astype x k = Ok y /\ n_kind y = k /\ shape_of y = shape_of x /\
    forall idx, inb idx (shape_of x) ->
      exists v w, item_at x idx = Some v /\ item_at y idx = Some w /\
        (fits v -> holds_value k (value v) -> value w = value v /\ element k w).
Proof.
  intros x k G R N. destruct (astype_spec x k G N) as (y & E & K & HS & _ & _ & HI). exists y. repeat (split; [assumption|]).
  intros idx Hi. destruct (good_item x idx G Hi) as (v & Hv & EV). exists v, (conv k x v). split; [exact Hv|].
  split; [rewrite HI, Hv by exact Hi; reflexivity|]. intros F H. unfold conv. destruct (kind_eqb (n_kind x) k) eqn:KE.
  - split; [reflexivity|]. rewrite <- (kind_eqb_eq _ _ KE). exact EV.
  - eapply cast_exact; eassumption.
Qed.
(* to the dtype it already has: the elements themselves *)
Theorem C140_same_dtype : forall x, good x ->
  exists y, astype x (n_kind x) = Ok y /\ n_kind y = n_kind x /\ shape_of y = shape_of x /\
    forall idx, inb idx (shape_of x) -> item_at y idx = item_at x idx.
Proof.
  intros x G. destruct (astype_spec x (n_kind x) G (proj1 G)) as (y & E & K & HS & _ & _ & HI). exists y. repeat (split; [assumption|]).
  intros idx Hi. rewrite HI by exact Hi. unfold conv. rewrite kind_eqb_refl. destruct (item_at x idx); reflexivity.
Qed.
(* there and back again *)
Theorem C140_round_trip : forall x k, good x -> real (n_kind x) = true -> real k = true ->
  (forall idx v, inb idx (shape_of x) -> item_at x idx = Some v -> fits v /\ holds_value k (value v)) ->
  exists y z, astype x k = Ok y /\ astype y (n_kind x) = Ok z /\ shape_of z = shape_of x /\
    forall idx, inb idx (shape_of x) -> exists v w, item_at x idx = Some v /\ item_at z idx = Some w /\ value w = value v.
Proof.
  intros x k G R RK H. pose proof (real_numeric _ RK) as N. destruct (astype_spec x k G N) as (y & E & K & HS & WY & LY & HI).
  assert (HV : forall idx, inb idx (shape_of x) -> exists v w, item_at x idx = Some v /\ item_at y idx = Some w /\ value w = value v /\ element k w /\ element (n_kind x) v).
  { intros idx Hi. destruct (good_item x idx G Hi) as (v & Hv & EV). destruct (H idx v Hi Hv) as [F HH]. exists v, (conv k x v). split; [exact Hv|].
    split; [rewrite HI, Hv by exact Hi; reflexivity|]. unfold conv. destruct (kind_eqb (n_kind x) k) eqn:KE.
    - split; [reflexivity|]. split; [rewrite <- (kind_eqb_eq _ _ KE); exact EV|exact EV].
    - destruct (cast_exact _ k v R N EV F HH) as [A B]. split; [exact A|]. split; [exact B|exact EV]. }
  assert (GY : good y).
  { split; [rewrite K; exact N|]. split; [exact WY|]. split; [|fold (shape_of y); rewrite HS; apply G].
    rewrite K. apply Forall_forall. intros w Hw. destruct (In_nth_error _ _ Hw) as [n Hn].
    assert (n < prod (shape_of x))%nat by (rewrite <- LY; apply nth_error_Some; congruence).
    assert (HF : n_arr y = fresh (shape_of x) (itemsize k)).
    { unfold astype in E. destruct (if kind_eqb (n_kind x) k then _ else _); try discriminate E. cbn [bind] in E. injection E as <-. reflexivity. }
    assert (Hi : inb (unrank (shape_of x) n) (shape_of x)) by (apply unrank_inb; assumption).
    destruct (HV _ Hi) as (v & w' & _ & Hw' & _ & EW & _). unfold item_at in Hw'. rewrite HF, fresh_get in Hw' by (apply item_pos; exact N).
    rewrite rank_unrank in Hw' by assumption. congruence. }
  destruct (astype_spec y (n_kind x) GY (real_numeric _ R)) as (z & E' & K' & HS' & _ & _ & HI'). exists y, z. split; [exact E|]. split; [exact E'|].
  split; [congruence|]. intros idx Hi. destruct (HV idx Hi) as (v & w & Hv & Hw & VW & EW & EV). rewrite HS in HI'.
  exists v, (conv (n_kind x) y w). split; [exact Hv|]. split; [rewrite HI', Hw by exact Hi; reflexivity|]. rewrite <- VW. unfold conv.
  destruct (kind_eqb (n_kind y) (n_kind x)); [reflexivity|]. rewrite <- K in EW, RK. destruct (H idx v Hi Hv) as [F _].
  refine (proj1 (cast_exact (n_kind y) (n_kind x) w RK (real_numeric _ R) EW _ _)); [unfold fits, real_value in *; rewrite VW; exact F|].
  rewrite VW. apply element_holds; [apply real_numeric; exact R|exact EV].
Qed.
(* to an integer dtype: toward zero, saturating; NaN becomes 0 *)
Theorem C140_to_integer : forall x k, good x -> real (n_kind x) = true -> integer k = true -> n_kind x <> k ->
  exists y, astype x k = Ok y /\ shape_of y = shape_of x /\
    forall idx v, inb idx (shape_of x) -> item_at x idx = Some v -> fits v -> item_at y idx = Some (SInt (to_int k (real_value v))).
Proof.
  intros x k G R I D. assert (N : numeric k = true) by (destruct k; try discriminate I; reflexivity).
  destruct (astype_spec x k G N) as (y & E & K & HS & _ & _ & HI). exists y. split; [exact E|]. split; [exact HS|].
  intros idx v Hi Hv F. rewrite HI, Hv by exact Hi. cbn [option_map]. f_equal. unfold conv.
  destruct (kind_eqb (n_kind x) k) eqn:KE; [apply kind_eqb_eq in KE; contradiction|].
  destruct (as_f64_value _ v R (good_element x idx v G Hv) F) as [A B]. unfold cast. rewrite <- A. set (f := as_f64 v) in *. clearbody f.
  assert (HA : forall t lo hi, i_min t = lo -> i_max t = hi ->
    as_int t f = match float_value f with NaN => 0 | Inf s => if s then lo else hi | Fin m => Z.max lo (Z.min hi (Z.quot m one)) end).
  { intros t lo hi <- <-. destruct (float_value f) as [|s|m] eqn:EF.
    - destruct f; try discriminate EF; reflexivity.
    - destruct f; try discriminate EF. injection EF as <-. reflexivity.
    - apply as_int_value; assumption. }
  destruct k; try discriminate I; cbn [write_f64]; f_equal; apply HA; reflexivity.
Qed.
(* to bool: True exactly for the elements that are not zero *)
Theorem C140_to_bool : forall x, good x -> real (n_kind x) = true -> n_kind x <> Bool ->
  exists y, astype x Bool = Ok y /\ shape_of y = shape_of x /\
    forall idx v, inb idx (shape_of x) -> item_at x idx = Some v -> fits v ->
      (item_at y idx = Some (SInt 0) /\ real_value v = Fin 0) \/ (item_at y idx = Some (SInt 1) /\ real_value v <> Fin 0).
Proof.
  intros x G R D. destruct (astype_spec x Bool G eq_refl) as (y & E & K & HS & _ & _ & HI). exists y. split; [exact E|]. split; [exact HS|].
  intros idx v Hi Hv F. rewrite HI, Hv by exact Hi. cbn [option_map]. unfold conv.
  destruct (kind_eqb (n_kind x) Bool) eqn:KE; [apply kind_eqb_eq in KE; contradiction|].
  destruct (as_f64_value _ v R (good_element x idx v G Hv) F) as [A B]. unfold cast. rewrite <- A. set (f := as_f64 v) in *. clearbody f. cbn [write_f64].
  pose proof (zero_value f B) as Z0. destruct f as [s|s| |s m e]; [left; split; reflexivity|right; split; [reflexivity|discriminate]|right; split; [reflexivity|discriminate]|].
  right. split; [reflexivity|]. intros H. apply Z0 in H as [s' H]. discriminate H.
Qed.

Example C140_nonvacuous :
  let x := mkN Float64 [SFlt (f64_int 7); SFlt (S754_finite true 5764607523034235 (-51)); SFlt S754_nan; SFlt (f64_int 300)] (mkArr 0 [2; 2]%nat [8; 16] 8 false true) in
  good x /\ real (n_kind x) = true /\
  (exists y, astype x Uint8 = Ok y /\ map (item_at y) (all_idx [2; 2]%nat) = map Some [SInt 7; SInt 0; SInt 0; SInt 255]) /\
  (exists y, astype x Int8 = Ok y /\ map (item_at y) (all_idx [2; 2]%nat) = map Some [SInt 7; SInt 0; SInt (-2); SInt 127]) /\
  fits (SInt 1000) /\ holds_value Float32 (value (SInt 1000)) /\ value (cast Float32 (SInt 1000)) = value (SInt 1000).
Proof.
  cbv zeta. split; [split; [reflexivity|split; [apply wf_check_sound; vm_compute; reflexivity|split; [repeat constructor; vm_compute; reflexivity|reflexivity]]]|].
  split; [reflexivity|]. split; [eexists; split; [vm_compute; reflexivity|vm_compute; reflexivity]|].
  split; [eexists; split; [vm_compute; reflexivity|vm_compute; reflexivity]|].
  split; [apply float_int; lia|]. split; [split; [apply float_int; lia|reflexivity]|vm_compute; reflexivity].
Qed.
(* conversions between the 64-bit integers go through doubles: 2^53 + 1 changes, and so does int64's maximum *)
Theorem C140_wide_integers_refuted : exists v, element Int64 v /\ holds_value Uint64 (value v) /\ value (cast Uint64 v) <> value v.
Proof.
  exists (SInt (2 ^ 53 + 1)). split; [split; [apply int_int; lia|reflexivity]|].
  split; [exists ((2 ^ 53 + 1) * one); split; [reflexivity|split; [apply int_int; lia|reflexivity]]|].
  replace (cast Uint64 (SInt (2 ^ 53 + 1))) with (SInt (2 ^ 53)) by (vm_compute; reflexivity). intros H. assert (H' := f_equal fst H). apply (real_value_inj (2 ^ 53) (2 ^ 53 + 1)) in H'. discriminate H'.
Qed.
(* complex arrays become zeros, even between the two complex dtypes *)
Theorem C140_complex_refuted : forall k v, is_complex_kind k = true \/ real k = true -> (exists a b, v = SCpx a b) ->
  value (cast k v) = (Fin 0, Fin 0).
Proof. intros k v H (a & b & ->). destruct k; try (destruct H; discriminate); reflexivity. Qed.
Example C140_complex_refuted_nonvacuous :
  let x := mkN Complex64 [SCpx (S754_finite false 8388608 (-23)) (S754_finite false 8388608 (-22))] (fresh [1%nat] 8) in
  good x /\ exists y, astype x Complex128 = Ok y /\ item_at y [0%nat] = Some (SCpx (S754_zero false) (S754_zero false)).
Proof.
  cbv zeta. split; [split; [reflexivity|split; [apply wf_check_sound; vm_compute; reflexivity|split; [repeat constructor; vm_compute; reflexivity|reflexivity]]]|].
  eexists. split; [vm_compute; reflexivity|reflexivity].
Qed.

(* ---- C141 ------------------------------------------------------------------- *)

(* comparing two arrays compares, at every position of the broadcast shape, the exact
   numbers of the two elements, provided the promoted dtype has both numbers.
   _partial: real dtypes; without the proviso refuted below *)
Theorem C141_compare_partial : forall op x y, good x -> good y -> real (n_kind x) = true -> real (n_kind y) = true ->
  match broadcast_shapes (shape_of x) (shape_of y) with
  | None => compare op x y = Err
  | Some sh => exists out, compare op x y = Ok (sh, out) /\ length out = prod sh /\
      forall idx, inb idx sh -> exists v w,
        item_at x (unbroadcast (shape_of x) idx) = Some v /\ item_at y (unbroadcast (shape_of y) idx) = Some w /\
        (holds_value (promote (n_kind x) (n_kind y)) (value v) -> holds_value (promote (n_kind x) (n_kind y)) (value w) ->
         get out (fresh sh 1) idx = Some (says op (ext_compare (real_value v) (real_value w))))
  end.
Proof.
  intros op x y GX GY RX RY. pose proof (compare_spec op x y GX GY) as H.
  destruct (broadcast_shapes (shape_of x) (shape_of y)) as [sh|] eqn:E; [|exact H].
  eexists. split; [exact H|]. split; [rewrite map_length; apply all_idx_length|]. intros idx Hi.
  destruct (bc_items x y sh E (proj1 (proj2 GX)) (proj1 (proj2 GY)) idx Hi) as (BX & BY & v & w & Hv & Hw).
  exists v, w. split; [exact Hv|]. split; [exact Hw|]. intros HX HY. rewrite map_get by (exact Hi || lia). f_equal. unfold cell2. rewrite Hv, Hw.
  apply cmp_cell_exact; try assumption; eapply good_element; eassumption.
Qed.
(* the proviso holds for arrays of one dtype, and for any dtypes but the 64-bit integers *)
Theorem C141_same_or_narrow : forall op x y, good x -> good y -> real (n_kind x) = true -> real (n_kind y) = true ->
  n_kind x = n_kind y \/ (wide_int (n_kind x) = false /\ wide_int (n_kind y) = false) ->
  compare op x y =
  match broadcast_shapes (shape_of x) (shape_of y) with
  | None => Err
  | Some sh => Ok (sh, map (cell2 (fun v w => says op (ext_compare (real_value v) (real_value w))) x y) (all_idx sh))
  end.
Proof.
  intros op x y GX GY RX RY HK. rewrite (compare_spec op x y GX GY). destruct (broadcast_shapes (shape_of x) (shape_of y)) as [sh|]; [|reflexivity].
  f_equal. f_equal. apply map_ext. intros idx. apply cell2_ext. intros v w Hv Hw. pose proof (good_element _ _ _ GX Hv) as EX. pose proof (good_element _ _ _ GY Hw) as EY.
  apply cmp_cell_exact; try assumption.
  - destruct HK as [HK|[HK _]]; [rewrite <- HK, C58_idempotent; apply element_holds; [apply GX|exact EX]|apply promote_holds; try assumption; apply GY].
  - destruct HK as [HK|[_ HK]]; [rewrite HK, C58_idempotent; apply element_holds; [apply GY|exact EY]|].
    rewrite (C58_commutative_partial _ _ (proj1 GX) (proj1 GY)). apply promote_holds; try assumption; apply GX.
Qed.
(* an array with a Python number *)
Theorem C141_scalar_partial : forall op x s, good x -> real (n_kind x) = true -> wide_int (n_kind x) = false -> valid_in Float64 s -> shape_of x <> [] ->
  exists out, compare_scalar op x s = Ok (shape_of x, out) /\
    forall idx, inb idx (shape_of x) -> exists v, item_at x idx = Some v /\
      get out (fresh (shape_of x) 1) idx = Some (says op (ext_compare (real_value v) (float_value s))).
Proof.
  intros op x s G R W V HS. set (y := mkN Float64 [SFlt s] (fresh [1%nat] 8)).
  assert (GY : good y).
  { split; [reflexivity|]. split; [apply fresh_wf; reflexivity|]. split; [constructor; [exact V|constructor]|reflexivity]. }
  assert (EB : broadcast_shapes (shape_of x) [1%nat] = Some (shape_of x)).
  { clearbody y. clear -HS. apply bshape_iff_all. destruct (shape_of x) as [|n l]; [contradiction|]. split; [cbn [length]; lia|]. intros i.
    assert (rdim [1%nat] i = 1%nat) as -> by (destruct i as [|[|i]]; reflexivity). unfold bdim. set (d := rdim (n :: l) i).
    destruct (Nat.eqb_spec d 1) as [->|]; reflexivity. }
  pose proof (C141_same_or_narrow op x y G GY R eq_refl (or_intror (conj W eq_refl))) as H. unfold compare_scalar. fold y. rewrite H.
  change (shape_of y) with [1%nat]. rewrite EB. eexists. split; [reflexivity|]. intros idx Hi. destruct (good_item x idx G Hi) as (v & Hv & EV). exists v. split; [exact Hv|].
  rewrite map_get by (exact Hi || lia). f_equal. unfold cell2. rewrite (unbroadcast_same _ _ Hi), Hv.
  assert (Hy : item_at y (unbroadcast (shape_of y) idx) = Some (SFlt s)).
  { destruct (bc_items x y (shape_of x) EB (proj1 (proj2 G)) (proj1 (proj2 GY)) idx Hi) as (_ & _ & v' & w' & _ & Hw'). rewrite Hw'.
    unfold item_at, get in Hw'. apply load_in in Hw'. destruct Hw' as [<-|[]]. reflexivity. }
  rewrite Hy. reflexivity.
Qed.
(* complex arrays of one dtype: equal when both parts are *)
Theorem C141_complex_equality : forall x y, good x -> good y -> n_kind x = n_kind y -> is_complex_kind (n_kind x) = true ->
  compare CEq x y =
  match broadcast_shapes (shape_of x) (shape_of y) with
  | None => Err
  | Some sh => Ok (sh, map (cell2 (fun v w => says CEq (ext_compare (fst (value v)) (fst (value w))) && says CEq (ext_compare (snd (value v)) (snd (value w)))) x y) (all_idx sh))
  end.
Proof.
  intros x y GX GY HK HC. rewrite (compare_spec CEq x y GX GY). destruct (broadcast_shapes (shape_of x) (shape_of y)) as [sh|]; [|reflexivity].
  f_equal. f_equal. apply map_ext. intros idx. apply cell2_ext. intros v w Hv Hw. pose proof (good_element _ _ _ GX Hv) as EX. pose proof (good_element _ _ _ GY Hw) as EY.
  unfold cmp_cell, conv. rewrite <- HK in EY |- *. rewrite C58_idempotent, kind_eqb_refl. cbv zeta.
  destruct (n_kind x); try discriminate HC; destruct v as [|?|a b]; try contradiction; destruct w as [|?|a' b']; try contradiction; destruct EX as [E1 E2], EY as [E3 E4];
    cbn [cmp_elem format value fst snd].
  - change (float_cmp CEq a a' && float_cmp CEq b b' = says CEq (ext_compare (float_value a) (float_value a')) && says CEq (ext_compare (float_value b) (float_value b'))).
    rewrite (float_cmp_value 24 128 CEq a a'), (float_cmp_value 24 128 CEq b b') by (try assumption; try lia; vm_compute; discriminate). reflexivity.
  - change (float_cmp CEq a a' && float_cmp CEq b b' = says CEq (ext_compare (float_value a) (float_value a')) && says CEq (ext_compare (float_value b) (float_value b'))).
    rewrite (float_cmp_value 53 1024 CEq a a'), (float_cmp_value 53 1024 CEq b b') by (try assumption; try lia; vm_compute; discriminate). reflexivity.
Qed.

Definition row (k : kind) (l : list scalar) : narr := mkN k l (fresh [length l] (itemsize k)).
Ltac good_row := split; [reflexivity|split; [apply wf_check_sound; vm_compute; reflexivity|split; [cbn [n_buf n_kind row]; repeat (apply Forall_cons; [cbn [element]; first [split; [apply int_int; lia|reflexivity]|split; vm_compute; reflexivity|vm_compute; reflexivity]|]); apply Forall_nil|reflexivity]]].
Example C141_nonvacuous :
  let x := row Int8 [SInt (-1); SInt 5; SInt 7] in
  let y := row Uint8 [SInt 255; SInt 5; SInt 3] in
  let z := row Float32 [SFlt (S754_finite false 10485760 (-21)); SFlt S754_nan; SFlt (S754_infinity false)] in
  good x /\ good y /\ good z /\
  compare CLt x y = Ok ([3%nat], [true; false; false]) /\ compare CEq x y = Ok ([3%nat], [false; true; false]) /\
  compare CGe z x = Ok ([3%nat], [true; false; true]) /\ compare CNe z x = Ok ([3%nat], [true; true; true]) /\
  compare_scalar CGt x (f64_int 300) = Ok ([3%nat], [false; false; false]).
Proof.
  cbv zeta. split; [good_row|]. split; [good_row|]. split; [good_row|].
  repeat (split; [vm_compute; reflexivity|]). vm_compute; reflexivity.
Qed.
(* 2^53 and 2^53 + 1 are equal: int64 with uint64, with float64, and with a Python integer *)
Theorem C141_wide_integers_refuted :
  let x := row Int64 [SInt (2 ^ 53 + 1)] in
  good x /\ good (row Uint64 [SInt (2 ^ 53)]) /\ good (row Float64 [SFlt (f64_int (2 ^ 53))]) /\
  compare CEq x (row Uint64 [SInt (2 ^ 53)]) = Ok ([1%nat], [true]) /\
  compare CEq x (row Float64 [SFlt (f64_int (2 ^ 53))]) = Ok ([1%nat], [true]) /\
  compare_scalar CEq x (f64_int (2 ^ 53)) = Ok ([1%nat], [true]) /\
  real_value (SInt (2 ^ 53 + 1)) <> real_value (SInt (2 ^ 53)).
Proof.
  cbv zeta. split; [good_row|]. split; [good_row|]. split; [good_row|].
  repeat (split; [vm_compute; reflexivity|]). intros H. apply real_value_inj in H. discriminate H.
Qed.
(* complex64 with complex128: the first is turned into zeros, so 1+2i equals 0 *)
Theorem C141_mixed_complex_refuted :
  let x := row Complex64 [SCpx (S754_finite false 8388608 (-23)) (S754_finite false 8388608 (-22))] in
  let y := row Complex128 [SCpx (S754_zero false) (S754_zero false)] in
  good x /\ good y /\ compare CEq x y = Ok ([1%nat], [true]).
Proof. cbv zeta. split; [good_row|]. split; [good_row|]. vm_compute; reflexivity. Qed.
(* complex numbers are ordered by magnitude: -2 < 1 is False, and 1 <= -1 together with -1 <= 1 although they differ *)
Theorem C141_complex_order_refuted :
  let c z := SCpx (f64_int z) (S754_zero false) in
  good (row Complex128 [c (-2)]) /\ good (row Complex128 [c 1]) /\ good (row Complex128 [c (-1)]) /\
  compare CLt (row Complex128 [c (-2)]) (row Complex128 [c 1]) = Ok ([1%nat], [false]) /\
  compare CLe (row Complex128 [c 1]) (row Complex128 [c (-1)]) = Ok ([1%nat], [true]) /\
  compare CLe (row Complex128 [c (-1)]) (row Complex128 [c 1]) = Ok ([1%nat], [true]) /\
  compare CEq (row Complex128 [c (-1)]) (row Complex128 [c 1]) = Ok ([1%nat], [false]).
Proof. cbv zeta. split; [good_row|]. split; [good_row|]. split; [good_row|]. repeat (split; [vm_compute; reflexivity|]). vm_compute; reflexivity. Qed.

(* ---- C142 ------------------------------------------------------------------- *)

(* a != b is the negation of a == b, for every numeric dtypes and values *)
Theorem C142_not_equal : forall x y, good x -> good y ->
  compare CNe x y = bind (compare CEq x y) (fun r => Ok (fst r, map negb (snd r))).
Proof.
  intros x y GX GY. rewrite !compare_spec by assumption. destruct (broadcast_shapes (shape_of x) (shape_of y)) as [sh|] eqn:E; [|reflexivity].
  cbn [bind fst snd]. rewrite map_map. f_equal. f_equal. apply map_ext_in. intros idx Hi. apply in_all_idx in Hi.
  destruct (bc_items x y sh E (proj1 (proj2 GX)) (proj1 (proj2 GY)) idx Hi) as (_ & _ & v & w & Hv & Hw). unfold cell2. rewrite Hv, Hw.
  pose proof (C58_numeric _ _ (proj1 GX) (proj1 GY)) as N.
  apply shaped_ne; apply conv_shaped; try exact N; eapply good_element; eassumption.
Qed.
(* exchanging the operands exchanges < with > and <= with >= *)
Theorem C142_exchange : forall op x y, good x -> good y ->
  compare op x y = compare (match op with CGt => CLt | CLt => CGt | CGe => CLe | CLe => CGe | CEq => CEq | CNe => CNe end) y x.
Proof.
  intros op x y GX GY. rewrite !compare_spec by assumption. rewrite (bshape_comm (shape_of y) (shape_of x)).
  destruct (broadcast_shapes (shape_of x) (shape_of y)) as [sh|] eqn:E; [|reflexivity].
  f_equal. f_equal. apply map_ext. intros idx. rewrite (cell2_swap _ y x). apply cell2_ext. intros v w _ _. unfold cmp_cell.
  rewrite (C58_commutative_partial _ _ (proj1 GY) (proj1 GX)). cbv zeta. rewrite cmp_elem_flip. destruct op; reflexivity.
Qed.
(* a <= b is a < b or a == b, for real dtypes (with complex ones refuted above) *)
Theorem C142_less_or_equal : forall x y, good x -> good y -> real (n_kind x) = true -> real (n_kind y) = true ->
  compare CLe x y = bind (compare CLt x y) (fun r => bind (compare CEq x y) (fun s => Ok (fst r, map (fun p => fst p || snd p) (combine (snd r) (snd s))))).
Proof.
  intros x y GX GY RX RY. rewrite !compare_spec by assumption. destruct (broadcast_shapes (shape_of x) (shape_of y)) as [sh|] eqn:E; [|reflexivity].
  cbn [bind fst snd]. f_equal. f_equal.
  assert (HC : forall (f g : list nat -> bool) l, map (fun p => fst p || snd p) (combine (map f l) (map g l)) = map (fun i => f i || g i) l)
    by (intros f g l; induction l as [|i l IH]; [reflexivity|cbn [map combine]; rewrite IH; reflexivity]).
  rewrite HC. apply map_ext_in. intros idx Hi. apply in_all_idx in Hi.
  destruct (bc_items x y sh E (proj1 (proj2 GX)) (proj1 (proj2 GY)) idx Hi) as (_ & _ & v & w & Hv & Hw). unfold cell2. rewrite Hv, Hw.
  pose proof (C58_numeric _ _ (proj1 GX) (proj1 GY)) as N. apply shaped_le.
  - clear -RX RY. destruct (n_kind x); try discriminate RX; destruct (n_kind y); try discriminate RY; reflexivity.
  - apply conv_shaped; [exact N|eapply good_element; eassumption].
  - apply conv_shaped; [exact N|eapply good_element; eassumption].
Qed.

Lemma array_equal_spec x y : good x -> good y ->
  exists b, array_equal x y = Ok b /\
    (b = true <-> shape_of x = shape_of y /\ forall idx, inb idx (shape_of x) ->
       exists v w, item_at x idx = Some v /\ item_at y idx = Some w /\ cmp_cell CEq x y v w = true).
Proof.
  intros GX GY. unfold array_equal. fold (shape_of x). fold (shape_of y). destruct (list_eqb (shape_of x) (shape_of y)) eqn:ES.
  - apply list_eqb_eq in ES. rewrite compare_spec by assumption. rewrite <- ES, bshape_idem. eexists. split; [reflexivity|].
    unfold all_true. rewrite forallb_forall. split.
    + intros H. split; [reflexivity|]. intros idx Hi. destruct (good_item x idx GX Hi) as (v & Hv & _).
      destruct (good_item y idx GY ltac:(rewrite <- ES; exact Hi)) as (w & Hw & _). exists v, w. split; [exact Hv|]. split; [exact Hw|].
      assert (HB : cell2 (cmp_cell CEq x y) x y idx = true) by (apply H, in_map, in_all_idx; exact Hi).
      unfold cell2 in HB. rewrite <- ES, (unbroadcast_same _ _ Hi), Hv, Hw in HB. exact HB.
    + intros [_ H] b Hb. apply in_map_iff in Hb as (idx & <- & Hi). apply in_all_idx in Hi. destruct (H idx Hi) as (v & w & Hv & Hw & HB).
      unfold cell2. rewrite <- ES, (unbroadcast_same _ _ Hi), Hv, Hw. exact HB.
  - exists false. split; [reflexivity|]. split; [discriminate|]. intros [H _]. apply list_eqb_eq in H. congruence.
Qed.
(* array_equal: same shape and equal numbers everywhere.
   _partial: one real dtype, or no 64-bit integers *)
Theorem C142_array_equal_partial : forall x y, good x -> good y -> real (n_kind x) = true -> real (n_kind y) = true ->
  n_kind x = n_kind y \/ (wide_int (n_kind x) = false /\ wide_int (n_kind y) = false) ->
  exists b, array_equal x y = Ok b /\
    (b = true <-> shape_of x = shape_of y /\ forall idx, inb idx (shape_of x) ->
       exists v w, item_at x idx = Some v /\ item_at y idx = Some w /\ ext_compare (real_value v) (real_value w) = Some Eq).
Proof.
  intros x y GX GY RX RY HK. destruct (array_equal_spec x y GX GY) as (b & E & H). exists b. split; [exact E|]. rewrite H.
  assert (HV : forall idx v w, item_at x idx = Some v -> item_at y idx = Some w -> cmp_cell CEq x y v w = says CEq (ext_compare (real_value v) (real_value w))).
  { intros idx v w Hv Hw. pose proof (good_element _ _ _ GX Hv) as EX. pose proof (good_element _ _ _ GY Hw) as EY. apply cmp_cell_exact; try assumption.
    - destruct HK as [HK|[HK _]]; [rewrite <- HK, C58_idempotent; apply element_holds; [apply GX|exact EX]|apply promote_holds; try assumption; apply GY].
    - destruct HK as [HK|[_ HK]]; [rewrite HK, C58_idempotent; apply element_holds; [apply GY|exact EY]|].
      rewrite (C58_commutative_partial _ _ (proj1 GX) (proj1 GY)). apply promote_holds; try assumption; apply GX. }
  split; (intros [ES HA]; split; [exact ES|]; intros idx Hi; destruct (HA idx Hi) as (v & w & Hv & Hw & HB); exists v, w; split; [exact Hv|]; split; [exact Hw|]).
  - rewrite (HV idx v w Hv Hw) in HB. destruct (ext_compare (real_value v) (real_value w)) as [[]|]; try discriminate HB. reflexivity.
  - rewrite (HV idx v w Hv Hw), HB. reflexivity.
Qed.
(* an array equals itself exactly when it has no NaN *)
Theorem C142_reflexive : forall x, good x -> real (n_kind x) = true ->
  exists b, array_equal x x = Ok b /\ (b = true <-> forall idx v, inb idx (shape_of x) -> item_at x idx = Some v -> real_value v <> NaN).
Proof.
  intros x G R. destruct (C142_array_equal_partial x x G G R R (or_introl eq_refl)) as (b & E & H). exists b. split; [exact E|]. rewrite H. split.
  - intros [_ HA] idx v Hi Hv HN. destruct (HA idx Hi) as (v' & w' & Hv' & Hw' & HB). assert (v' = v) by congruence. subst v'. rewrite HN in HB. discriminate HB.
  - intros HA. split; [reflexivity|]. intros idx Hi. destruct (good_item x idx G Hi) as (v & Hv & _). exists v, v. repeat (split; [exact Hv|]).
    specialize (HA idx v Hi Hv). destruct (real_value v) as [|s|z]; [contradiction|destruct s; reflexivity|cbn; rewrite Z.compare_refl; reflexivity].
Qed.
Theorem C142_symmetric : forall x y, good x -> good y -> array_equal x y = array_equal y x.
Proof.
  intros x y GX GY. unfold array_equal. rewrite (C142_exchange CEq x y GX GY).
  assert (HL : list_eqb (a_shape (n_arr x)) (a_shape (n_arr y)) = list_eqb (a_shape (n_arr y)) (a_shape (n_arr x))).
  { apply eq_true_iff_eq. rewrite !list_eqb_eq. split; intros HE; symmetry; exact HE. }
  rewrite HL. reflexivity.
Qed.
Lemma ext_eq_trans a b c : ext_compare a b = Some Eq -> ext_compare b c = Some Eq -> ext_compare a c = Some Eq.
Proof.
  destruct a as [|s|x], b as [|t|y], c as [|u|z]; cbn [ext_compare]; try discriminate; try (destruct t; discriminate); try (destruct s; discriminate); try (destruct u; discriminate).
  - destruct s, t, u; try discriminate; reflexivity.
  - intros A B. injection A as A. injection B as B. apply Z.compare_eq in A. apply Z.compare_eq in B. subst. rewrite Z.compare_refl. reflexivity.
Qed.
Theorem C142_transitive_partial : forall x y z, good x -> good y -> good z -> real (n_kind x) = true -> n_kind y = n_kind x -> n_kind z = n_kind x ->
  array_equal x y = Ok true -> array_equal y z = Ok true -> array_equal x z = Ok true.
Proof.
  intros x y z GX GY GZ R KY KZ H1 H2.
  assert (RY : real (n_kind y) = true) by congruence. assert (RZ : real (n_kind z) = true) by congruence.
  destruct (C142_array_equal_partial x y GX GY R RY (or_introl (eq_sym KY))) as (b1 & E1 & I1).
  destruct (C142_array_equal_partial y z GY GZ RY RZ (or_introl (eq_trans KY (eq_sym KZ)))) as (b2 & E2 & I2).
  destruct (C142_array_equal_partial x z GX GZ R RZ (or_introl (eq_sym KZ))) as (b3 & E3 & I3).
  assert (b1 = true) by congruence. assert (b2 = true) by congruence. subst b1 b2. destruct (proj1 I1 eq_refl) as [S1 A1]. destruct (proj1 I2 eq_refl) as [S2 A2].
  rewrite E3. f_equal. apply I3. split; [congruence|]. intros idx Hi. destruct (A1 idx Hi) as (v & w & Hv & Hw & C1). rewrite S1 in Hi. destruct (A2 idx Hi) as (w' & u & Hw' & Hu & C2).
  assert (w' = w) by congruence. subst w'. exists v, u. split; [exact Hv|]. split; [exact Hu|]. eapply ext_eq_trans; eassumption.
Qed.
(* across dtypes it is not: int64 2^53+1, float64 2^53, int64 2^53 *)
Theorem C142_transitive_refuted :
  let x := row Int64 [SInt (2 ^ 53 + 1)] in let y := row Float64 [SFlt (f64_int (2 ^ 53))] in let z := row Int64 [SInt (2 ^ 53)] in
  good x /\ good y /\ good z /\ array_equal x y = Ok true /\ array_equal y z = Ok true /\ array_equal x z = Ok false.
Proof. cbv zeta. split; [good_row|]. split; [good_row|]. split; [good_row|]. repeat (split; [vm_compute; reflexivity|]). vm_compute; reflexivity. Qed.
Example C142_nonvacuous :
  let x := mkN Float64 [SFlt (f64_int 1); SFlt (f64_int 2); SFlt (S754_zero true); SFlt (f64_int 4)] (mkArr 0 [2; 2]%nat [8; 16] 8 false true) in
  let y := mkN Int16 [SInt 1; SInt 0; SInt 2; SInt 4] (fresh [2; 2]%nat 2) in
  good x /\ good y /\ array_equal x y = Ok true /\ array_equal x (row Float64 [SFlt (f64_int 1)]) = Ok false /\
  array_equal (row Float64 [SFlt S754_nan]) (row Float64 [SFlt S754_nan]) = Ok false.
Proof. cbv zeta. split; [good_row|]. split; [good_row|]. repeat (split; [vm_compute; reflexivity|]). vm_compute; reflexivity. Qed.

Print Assumptions C140_astype_partial.
Print Assumptions C140_same_dtype.
Print Assumptions C140_round_trip.
Print Assumptions C140_to_integer.
Print Assumptions C140_to_bool.
Print Assumptions C140_wide_integers_refuted.
Print Assumptions C140_complex_refuted.
Print Assumptions C141_compare_partial.
Print Assumptions C141_same_or_narrow.
Print Assumptions C141_scalar_partial.
Print Assumptions C141_complex_equality.
Print Assumptions C141_wide_integers_refuted.
Print Assumptions C141_mixed_complex_refuted.
Print Assumptions C141_complex_order_refuted.
Print Assumptions C142_not_equal.
Print Assumptions C142_exchange.
Print Assumptions C142_less_or_equal.
Print Assumptions C142_array_equal_partial.
Print Assumptions C142_reflexive.
Print Assumptions C142_symmetric.
Print Assumptions C142_transitive_partial.
Print Assumptions C142_transitive_refuted.
