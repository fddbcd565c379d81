(* Claims C143 (isclose, allclose) and C144 (logical operations). *)
From Coq Require Import SpecFloat.
From Verif Require Import Base Lists Int_Model F64_Model Arr_Spec Arr_Model Arr_Wf Arr_Proofs Wf_Check Bcast_Model Bcast_Proofs Copy_Model Copy_Proofs Idx_Model Idx_Assign
  Elem_Model Elem_Proofs Rng_Model Date_Model Promo_Spec Promo_Model Promo_Proofs Promo_Props Lay_Copy SF_Proofs SF_Arith SF_Cmp Cast_Spec Cast_Model Cast_SF Cast_Proofs Cast_Laws Cast_Props Close_Proofs.
Local Open Scope Z_scope.

(* ---- C143 ------------------------------------------------------------------- *)

(* a tolerance: a double that is not negative; infinity only where said so *)
Definition tolerance (t : spec_float) (inf_ok : bool) : Prop :=
  valid_in Float64 t /\ ((exists r, float_value t = Fin r /\ 0 <= r) \/ (inf_ok = true /\ float_value t = Inf false)).
Lemma tolerance_nonneg t b : tolerance t b -> nonneg t = true /\ (b = false -> is_inf t = false).
Proof.
  intros [V [(r & E & H)|[-> E]]].
  - destruct t as [s|s| |s m e]; try discriminate E; [split; reflexivity|]. split; [|reflexivity]. destruct s; [|reflexivity]. cbn [float_value cond_Zopp] in E. apply fin_inj in E.
    apply (valid_inv 53 1024) in V as (_ & [V _] & _); [|lia]. assert (-1074 <= e) by exact V. pose proof (pow_pos (e + 1074) ltac:(lia)). set (P := 2 ^ (e + 1074)) in *. clearbody P. rewrite Z.mul_opp_l in E. nia.
  - destruct t; try discriminate E. injection E as ->. split; [reflexivity|discriminate].
Qed.

Lemma isclose_spec rtol atol en x y : good x -> good y ->
  isclose rtol atol en x y = match broadcast_shapes (shape_of x) (shape_of y) with
                             | None => Err
                             | Some sh => Ok (sh, map (cell2 (fun v w => close rtol atol en (as_f64 v) (as_f64 w)) x y) (all_idx sh))
                             end.
Proof. intros GX GY. apply zip_spec; [apply GX|apply GY]. Qed.

(* the shape of isclose is the broadcast shape, and each of its elements depends on the two elements there:
   - equal numbers (infinities included) are close
   - NaN is close to NaN when equal_nan, and to nothing otherwise
   - an infinity is close to itself only
   _partial: real dtypes, elements that are doubles (refuted for the others below) *)
Theorem C143_isclose_partial : forall rtol atol equal_nan x y, good x -> good y -> real (n_kind x) = true -> real (n_kind y) = true ->
  tolerance rtol false -> tolerance atol true ->
  match broadcast_shapes (shape_of x) (shape_of y) with
  | None => isclose rtol atol equal_nan x y = Err
  | Some sh => exists out, isclose rtol atol equal_nan x y = Ok (sh, out) /\ length out = prod sh /\
      forall idx, inb idx sh -> exists v w b,
        item_at x (unbroadcast (shape_of x) idx) = Some v /\ item_at y (unbroadcast (shape_of y) idx) = Some w /\
        get out (fresh sh 1) idx = Some b /\
        (fits v -> fits w ->
          (ext_compare (real_value v) (real_value w) = Some Eq -> b = true) /\
          (real_value v = NaN -> real_value w = NaN -> b = equal_nan) /\
          ((real_value v = NaN <-> real_value w <> NaN) -> b = false) /\
          (forall s, real_value v = Inf s \/ real_value w = Inf s -> (b = true <-> real_value v = real_value w)))
  end.
Proof.
  intros rtol atol en x y GX GY RX RY TR TA. pose proof (isclose_spec rtol atol en x y GX GY) as H. destruct (broadcast_shapes (shape_of x) (shape_of y)) as [sh|] eqn:E; [|exact H].
  eexists. split; [exact H|]. split; [rewrite map_length; apply all_idx_length|]. intros idx Hi.
  destruct (bc_items x y sh E (proj1 (proj2 GX)) (proj1 (proj2 GY)) idx Hi) as (BX & BY & v & w & Hv & Hw).
  exists v, w, (close rtol atol en (as_f64 v) (as_f64 w)). split; [exact Hv|]. split; [exact Hw|].
  split; [rewrite map_get by (exact Hi || lia); f_equal; unfold cell2; rewrite Hv, Hw; reflexivity|]. intros FX FY.
  destruct (as_f64_value _ v RX (good_element _ _ _ GX Hv) FX) as [A1 B1]. destruct (as_f64_value _ w RY (good_element _ _ _ GY Hw) FY) as [A2 B2].
  destruct (tolerance_nonneg _ _ TR) as [N1 N2]. destruct (tolerance_nonneg _ _ TA) as [N3 _]. rewrite <- A1, <- A2. split; [|split; [|split]].
  - intros EC. apply close_equal; auto.
  - intros E1 E2. rewrite close_nan by (left; exact E1). rewrite E1, E2. reflexivity.
  - intros [HN1 HN2]. pose proof (close_nan rtol atol en (as_f64 v) (as_f64 w)) as HC.
    destruct (float_value (as_f64 v)) as [|s1|z1]; destruct (float_value (as_f64 w)) as [|s2|z2];
      try (exfalso; exact (HN1 eq_refl eq_refl)); try (exact (HC (or_introl eq_refl))); try (exact (HC (or_intror eq_refl)));
      (assert (HX : NaN <> NaN -> False) by (intros HX; exact (HX eq_refl)); exfalso; refine (_ (HN2 _)); [intros HQ; discriminate HQ|intros HQ; discriminate HQ]).
  - intros s HS. rewrite close_inf; [|exact B1|exact B2|destruct HS as [HS|HS]; eauto].
    destruct (float_value (as_f64 v)) as [|s1|z1], (float_value (as_f64 w)) as [|s2|z2]; destruct HS as [HS|HS]; try discriminate HS; cbn [ext_compare];
      try (split; intros HX; discriminate HX); try (destruct s1, s2; split; intros HX; try discriminate HX; reflexivity); try (destruct s1; split; intros HX; discriminate HX); destruct s2; split; intros HX; discriminate HX.
Qed.
(* whole numbers a, b and whole tolerances, all small: close exactly when |a - b| <= atol + rtol |b| *)
Theorem C143_whole_numbers : forall equal_nan r t x y, good x -> good y -> real (n_kind x) = true -> real (n_kind y) = true ->
  0 <= r < 2 ^ 53 -> 0 <= t < 2 ^ 53 ->
  forall sh idx v w a b, broadcast_shapes (shape_of x) (shape_of y) = Some sh -> inb idx sh ->
    item_at x (unbroadcast (shape_of x) idx) = Some v -> item_at y (unbroadcast (shape_of y) idx) = Some w ->
    real_value v = Fin (a * one) -> real_value w = Fin (b * one) -> Z.abs a < 2 ^ 52 -> Z.abs b < 2 ^ 52 -> t + r * Z.abs b < 2 ^ 53 ->
    exists out, isclose (f64_int r) (f64_int t) equal_nan x y = Ok (sh, out) /\ get out (fresh sh 1) idx = Some (Z.abs (a - b) <=? t + r * Z.abs b).
Proof.
  intros en r t x y GX GY RX RY Hr Ht sh idx v w a b E Hi Hv Hw Ha Hb La Lb HS.
  pose proof (isclose_spec (f64_int r) (f64_int t) en x y GX GY) as H. rewrite E in H. eexists. split; [exact H|]. rewrite map_get by (exact Hi || lia). f_equal. unfold cell2. rewrite Hv, Hw.
  assert (HF : forall k u c, real k = true -> element k u -> real_value u = Fin (c * one) -> Z.abs c < 2 ^ 52 -> c <> 0 -> as_f64 u = f64_int c).
  { intros k u c R EU EC LC NC. assert (FU : fits u) by (unfold fits; rewrite EC; apply float_int; lia).
    destruct (as_f64_value k u R EU FU) as [A1 B1]. rewrite EC in A1. destruct (int_exact 53 1024 c ltac:(lia) ltac:(vm_compute; discriminate) ltac:(apply float_int; cbn; lia)) as [A2 B2].
    change (binary_normalize 53 1024 c 0 false) with (f64_int c) in *.
    pose proof (compare_value 53 1024 _ _ ltac:(lia) ltac:(vm_compute; discriminate) B1 B2) as C. rewrite A1, A2 in C. cbn [ext_compare] in C. rewrite Z.compare_refl in C.
    assert (NN : float_value (f64_int c) <> Fin 0). { rewrite A2. intros X. apply (real_value_inj c 0) in X. contradiction. }
    clear -C NN. destruct (as_f64 u) as [s|s| |s m e], (f64_int c) as [q|q| |q m' e']; cbn [SFcompare] in C; try discriminate C; try (exfalso; apply NN; reflexivity);
      try (destruct s; discriminate C); try (destruct q; discriminate C).
    - destruct s, q; try discriminate C; reflexivity.
    - destruct s, q; try discriminate C; destruct (Z.compare_spec e e') as [->|L|L]; try discriminate C; injection C as C.
      + destruct (Pos.compare_cont Eq m m') eqn:EM; try discriminate C. apply Pos.compare_eq in EM. subst. reflexivity.
      + apply Pos.compare_eq in C. subst. reflexivity. }
  assert (HZ : forall k u, real k = true -> element k u -> real_value u = Fin (0 * one) -> exists s, as_f64 u = S754_zero s).
  { intros k u R EU EC. assert (FU : fits u) by (unfold fits; rewrite EC; apply f64_zero). destruct (as_f64_value k u R EU FU) as [A1 B1]. rewrite EC in A1.
    apply (zero_value _ B1). exact A1. }
  rewrite <- (close_int en r t a b) by lia.
  pose proof (good_element _ _ _ GX Hv) as EV. pose proof (good_element _ _ _ GY Hw) as EW.
  destruct (Z.eq_dec a 0) as [->|NA]; destruct (Z.eq_dec b 0) as [->|NB]; rewrite ?(HF _ v a RX EV Ha La NA), ?(HF _ w b RY EW Hb Lb NB);
    try (destruct (HZ _ v RX EV Ha) as [s ->]); try (destruct (HZ _ w RY EW Hb) as [s' ->]); change (f64_int 0) with (S754_zero false); try reflexivity.
  - destruct s, s'; reflexivity.
  - assert (HB : exists q m e, f64_int b = S754_finite q m e) by (destruct b as [|p|p]; [lia| |]; rewrite ?f64_int_pos, ?f64_int_neg by lia; unfold canon; eauto).
    destruct HB as (q & m & e & ->). reflexivity.
  - assert (HA : exists q m e, f64_int a = S754_finite q m e) by (destruct a as [|p|p]; [lia| |]; rewrite ?f64_int_pos, ?f64_int_neg by lia; unfold canon; eauto).
    destruct HA as (q & m & e & ->). reflexivity.
Qed.
(* allclose is True exactly when isclose is True everywhere *)
Theorem C143_allclose : forall rtol atol equal_nan x y, good x -> good y ->
  match isclose rtol atol equal_nan x y with
  | Ok (sh, out) => exists b, allclose rtol atol equal_nan x y = Ok b /\ (b = true <-> forall idx, inb idx sh -> get out (fresh sh 1) idx = Some true)
  | e => e = Err /\ allclose rtol atol equal_nan x y = Err
  end.
Proof.
  intros rtol atol en x y GX GY. unfold allclose. pose proof (isclose_spec rtol atol en x y GX GY) as H. rewrite H. destruct (broadcast_shapes (shape_of x) (shape_of y)) as [sh|]; [|split; reflexivity].
  cbn [bind snd]. eexists. split; [reflexivity|]. unfold all_true. rewrite forallb_forall. split.
  - intros HA idx Hi. rewrite map_get by (exact Hi || lia). f_equal. apply HA, in_map, in_all_idx. exact Hi.
  - intros HA b Hb. apply in_map_iff in Hb as (idx & <- & Hi). apply in_all_idx in Hi. specialize (HA idx Hi). rewrite map_get in HA by (exact Hi || lia). congruence.
Qed.
Example C143_nonvacuous :
  let x := row Float64 [SFlt (f64_int 100); SFlt S754_nan; SFlt (S754_infinity false); SFlt (S754_infinity true)] in
  let y := row Int32 [SInt 103; SInt 3; SInt 4; SInt 5] in
  good x /\ good y /\ tolerance (f64_int 0) false /\ tolerance (f64_int 3) true /\
  isclose (f64_int 0) (f64_int 3) false x y = Ok ([4%nat], [true; false; false; false]) /\
  isclose (f64_int 0) (f64_int 2) true x x = Ok ([4%nat], [true; true; true; true]) /\
  isclose (f64_int 0) (f64_int 2) false x y = Ok ([4%nat], [false; false; false; false]) /\
  allclose (f64_int 0) (f64_int 2) true x x = Ok true.
Proof.
  cbv zeta. split; [good_row|]. split; [good_row|].
  split; [split; [vm_compute; reflexivity|left; exists 0; split; [reflexivity|lia]]|].
  split; [split; [vm_compute; reflexivity|left; exists (3 * one); split; [apply (int_exact 53 1024 3); [lia|vm_compute; discriminate|apply float_int; cbn; lia]|pose proof one_pos; lia]]|].
  repeat (split; [vm_compute; reflexivity|]). vm_compute; reflexivity.
Qed.
(* it is not symmetric: the tolerance is relative to the second operand *)
Theorem C143_symmetric_refuted :
  let x := row Int64 [SInt 1] in let y := row Int64 [SInt 3] in
  good x /\ good y /\ allclose (f64_int 1) (f64_int 0) false x y = Ok true /\ allclose (f64_int 1) (f64_int 0) false y x = Ok false.
Proof. cbv zeta. split; [good_row|]. split; [good_row|]. split; vm_compute; reflexivity. Qed.
(* 64-bit integers are compared after rounding: with zero tolerances 2^53 + 1 is close to 2^53 *)
Theorem C143_wide_integers_refuted :
  let x := row Int64 [SInt (2 ^ 53 + 1)] in let y := row Int64 [SInt (2 ^ 53)] in
  good x /\ good y /\ allclose (f64_int 0) (f64_int 0) false x y = Ok true /\ array_equal x y = Ok false.
Proof. cbv zeta. split; [good_row|]. split; [good_row|]. split; vm_compute; reflexivity. Qed.
(* complex arrays are read as zeros: any two are close *)
Theorem C143_complex_refuted : forall rtol atol equal_nan a b c d, tolerance rtol false -> tolerance atol true ->
  close rtol atol equal_nan (as_f64 (SCpx a b)) (as_f64 (SCpx c d)) = true.
Proof.
  intros rtol atol en a b c d TR TA. destruct (tolerance_nonneg _ _ TR) as [N1 N2]. destruct (tolerance_nonneg _ _ TA) as [N3 _].
  apply close_equal; auto.
Qed.
Example C143_complex_refuted_nonvacuous :
  let x := row Complex128 [SCpx (f64_int 1) (f64_int 2)] in let y := row Complex128 [SCpx (f64_int 100) (f64_int (-7))] in
  good x /\ good y /\ allclose (f64_int 0) (f64_int 0) false x y = Ok true /\ array_equal x y = Ok false.
Proof. cbv zeta. split; [good_row|]. split; [good_row|]. split; vm_compute; reflexivity. Qed.

(* ---- C144 ------------------------------------------------------------------- *)

(* an element counts as true when it is not zero (NaN does, -0.0 does not) *)
Definition is_true (v : scalar) : Prop := value v <> (Fin 0, Fin 0).
Definition combine_ (op : lop) (p q : Prop) : Prop :=
  match op with LAnd => p /\ q | LOr => p \/ q | LXor => (p /\ ~ q) \/ (~ p /\ q) end.
Lemma truthy_true k v : numeric k = true -> element k v -> (truthy v = true <-> is_true v).
Proof.
  intros N E. unfold is_true. rewrite <- (truthy_value k v N E). destruct (truthy v); split; intros H; try reflexivity; try discriminate H; try congruence.
Qed.
Theorem C144_logical : forall op x y, good x -> good y ->
  match broadcast_shapes (shape_of x) (shape_of y) with
  | None => logical op x y = Err
  | Some sh => exists out, logical op x y = Ok (sh, out) /\ length out = prod sh /\
      forall idx, inb idx sh -> exists v w b,
        item_at x (unbroadcast (shape_of x) idx) = Some v /\ item_at y (unbroadcast (shape_of y) idx) = Some w /\
        get out (fresh sh 1) idx = Some b /\ (b = true <-> combine_ op (is_true v) (is_true w))
  end.
Proof.
  intros op x y GX GY. pose proof (zip_spec (fun v w => lop_fn op (truthy v) (truthy w)) PTrait x y (proj1 (proj2 GX)) (proj1 (proj2 GY))) as H.
  fold (logical op x y) in H. destruct (broadcast_shapes (shape_of x) (shape_of y)) as [sh|] eqn:E; [|exact H].
  eexists. split; [exact H|]. split; [rewrite map_length; apply all_idx_length|]. intros idx Hi.
  destruct (bc_items x y sh E (proj1 (proj2 GX)) (proj1 (proj2 GY)) idx Hi) as (BX & BY & v & w & Hv & Hw).
  exists v, w, (lop_fn op (truthy v) (truthy w)). split; [exact Hv|]. split; [exact Hw|].
  split; [rewrite map_get by (exact Hi || lia); f_equal; unfold cell2; rewrite Hv, Hw; reflexivity|].
  pose proof (truthy_true _ v (proj1 GX) (good_element _ _ _ GX Hv)) as TV. pose proof (truthy_true _ w (proj1 GY) (good_element _ _ _ GY Hw)) as TW.
  destruct op; cbn [combine_]; rewrite <- TV, <- TW; destruct (truthy v), (truthy w); cbn [lop_fn andb orb negb Bool.eqb]; intuition congruence.
Qed.
Lemma not_spec x : good x -> logical_not x = Ok (map (fun idx => match item_at x idx with Some v => negb (truthy v) | None => false end) (all_idx (shape_of x))).
Proof.
  intros G. unfold logical_not. rewrite trait_map_spec by apply G. apply mapM_total. intros idx Hi. apply in_all_idx in Hi.
  destruct (good_item x idx G Hi) as (v & Hv & _). unfold lift1. unfold item_at in *. rewrite Hv. reflexivity.
Qed.
Theorem C144_not : forall x, good x ->
  exists out, logical_not x = Ok out /\ length out = prod (shape_of x) /\
    forall idx, inb idx (shape_of x) -> exists v b, item_at x idx = Some v /\ get out (fresh (shape_of x) 1) idx = Some b /\ (b = true <-> ~ is_true v).
Proof.
  intros x G. eexists. split; [apply not_spec; exact G|]. split; [rewrite map_length; apply all_idx_length|]. intros idx Hi.
  destruct (good_item x idx G Hi) as (v & Hv & EV). exists v, (negb (truthy v)). split; [exact Hv|]. split; [rewrite map_get by (exact Hi || lia); rewrite Hv; reflexivity|].
  rewrite <- (truthy_true _ v (proj1 G) EV). destruct (truthy v); cbn [negb]; intuition congruence.
Qed.
Lemma bool_arr_good sh l : length l = prod sh -> Z.of_nat (prod sh) * 16 < 2 ^ 63 -> good (bool_arr sh l).
Proof.
  intros HL HB. split; [reflexivity|]. split; [apply fresh_wf; [lia|cbn [n_buf bool_arr]; rewrite map_length, HL; lia|cbn [n_buf bool_arr]; rewrite map_length; exact HL]|]. split; [|exact HB].
  cbn [n_kind n_buf bool_arr]. apply Forall_forall. intros v Hv. apply in_map_iff in Hv as (b & <- & _). split; [apply int_int; destruct b; lia|reflexivity].
Qed.
Lemma bool_arr_item sh f idx : inb idx sh -> item_at (bool_arr sh (map f (all_idx sh))) idx = Some (SInt (if f idx then 1 else 0)).
Proof. intros Hi. unfold item_at, bool_arr. cbn [n_buf n_arr]. rewrite map_map. rewrite map_get by (exact Hi || lia). reflexivity. Qed.
(* De Morgan, with broadcasting: not (x op y) is (not x) op' (not y) *)
Theorem C144_de_morgan : forall op x y, good x -> good y -> op <> LXor ->
  exists nx ny, logical_not x = Ok nx /\ logical_not y = Ok ny /\
    logical (match op with LAnd => LOr | LOr => LAnd | LXor => LXor end) (bool_arr (shape_of x) nx) (bool_arr (shape_of y) ny) =
    bind (logical op x y) (fun r => Ok (fst r, map negb (snd r))).
Proof.
  intros op x y GX GY HO. do 2 eexists. split; [apply not_spec; exact GX|]. split; [apply not_spec; exact GY|].
  set (nx := map _ (all_idx (shape_of x))). set (ny := map _ (all_idx (shape_of y))).
  assert (BX : good (bool_arr (shape_of x) nx)) by (apply bool_arr_good; [unfold nx; rewrite map_length; apply all_idx_length|apply GX]).
  assert (BY : good (bool_arr (shape_of y) ny)) by (apply bool_arr_good; [unfold ny; rewrite map_length; apply all_idx_length|apply GY]).
  unfold logical. rewrite !zip_spec by (apply BX || apply BY || apply GX || apply GY).
  change (shape_of (bool_arr (shape_of x) nx)) with (shape_of x). change (shape_of (bool_arr (shape_of y) ny)) with (shape_of y).
  destruct (broadcast_shapes (shape_of x) (shape_of y)) as [sh|] eqn:E; [|reflexivity]. cbn [bind fst snd]. rewrite map_map. f_equal. f_equal. apply map_ext_in. intros idx Hi. apply in_all_idx in Hi.
  destruct (bc_items x y sh E (proj1 (proj2 GX)) (proj1 (proj2 GY)) idx Hi) as (IX & IY & v & w & Hv & Hw). unfold cell2.
  change (shape_of (bool_arr (shape_of x) nx)) with (shape_of x). change (shape_of (bool_arr (shape_of y) ny)) with (shape_of y).
  unfold nx, ny. rewrite !bool_arr_item by assumption. rewrite Hv, Hw. destruct op; [| |contradiction]; destruct (truthy v), (truthy w); reflexivity.
Qed.
(* not not x is x as a bool array; xor is "different truth values" *)
Theorem C144_double_negation : forall x, good x ->
  exists nx nnx, logical_not x = Ok nx /\ logical_not (bool_arr (shape_of x) nx) = Ok nnx /\
    forall idx, inb idx (shape_of x) -> exists v b, item_at x idx = Some v /\ get nnx (fresh (shape_of x) 1) idx = Some b /\ (b = true <-> is_true v).
Proof.
  intros x G. pose proof (not_spec x G) as E. set (nx := map _ (all_idx (shape_of x))) in E.
  assert (B : good (bool_arr (shape_of x) nx)) by (apply bool_arr_good; [unfold nx; rewrite map_length; apply all_idx_length|apply G]).
  exists nx. eexists. split; [exact E|]. split; [apply not_spec; exact B|]. intros idx Hi. destruct (good_item x idx G Hi) as (v & Hv & EV). exists v, (truthy v). split; [exact Hv|].
  split; [|apply (truthy_true _ v (proj1 G) EV)]. change (shape_of (bool_arr (shape_of x) nx)) with (shape_of x). rewrite map_get by (exact Hi || lia). f_equal.
  unfold nx. rewrite bool_arr_item by exact Hi. rewrite Hv. destruct (truthy v); reflexivity.
Qed.
Example C144_nonvacuous :
  let x := row Float64 [SFlt S754_nan; SFlt (S754_zero true); SFlt (f64_int 2)] in
  let y := row Complex64 [SCpx (S754_zero false) (S754_finite false 8388608 (-23)); SCpx (S754_zero false) (S754_zero false); SCpx (S754_zero false) (S754_zero true)] in
  good x /\ good y /\ logical LAnd x y = Ok ([3%nat], [true; false; false]) /\ logical LOr x y = Ok ([3%nat], [true; false; true]) /\
  logical LXor x y = Ok ([3%nat], [false; false; true]) /\ logical_not x = Ok [false; true; false].
Proof. cbv zeta. split; [good_row|]. split; [good_row|]. repeat (split; [vm_compute; reflexivity|]). vm_compute; reflexivity. Qed.

Print Assumptions C143_isclose_partial.
Print Assumptions C143_whole_numbers.
Print Assumptions C143_allclose.
Print Assumptions C143_symmetric_refuted.
Print Assumptions C143_wide_integers_refuted.
Print Assumptions C143_complex_refuted.
Print Assumptions C144_logical.
Print Assumptions C144_not.
Print Assumptions C144_de_morgan.
Print Assumptions C144_double_negation.
