(* Machine bitwise operations against unbounded two's complement integers. *)
From Coq Require Import SpecFloat.
From Verif Require Import Base Lists Int_Model Int_Proofs F64_Model Arr_Spec Arr_Model Arr_Wf Arr_Proofs Bcast_Model Bcast_Proofs Copy_Model Copy_Proofs
  Elem_Spec Elem_Model Elem_Proofs Rng_Model New_Model Promo_Spec Promo_Model Promo_Proofs Promo_Props Cast_Spec Cast_Model Cast_SF Cast_Proofs Cast_Laws Bitw_Spec Bitw_Model.
Local Open Scope Z_scope.

(* the representable integers are those whose high bits all agree *)
Definition top (t : ity) : Z := if signed t then bits t - 1 else bits t.
Lemma rep_shiftr t z : 0 < bits t -> representable t z <-> (Z.shiftr z (top t) = 0 \/ (signed t = true /\ Z.shiftr z (top t) = -1)).
Proof.
  intros HB. unfold representable, i_min, i_max, top. destruct (signed t).
  - rewrite Z.shiftr_div_pow2 by lia. set (p := 2 ^ (bits t - 1)). assert (0 < p) by (apply Z.pow_pos_nonneg; lia).
    pose proof (Z.div_mod z p ltac:(lia)). pose proof (Z.mod_pos_bound z p ltac:(lia)). split.
    + intros Hz. assert (-1 <= z / p <= 0) by nia. destruct (Z.eq_dec (z / p) 0); [left; assumption|right; split; [reflexivity|lia]].
    + intros [E|[_ E]]; rewrite E in *; lia.
  - rewrite Z.shiftr_div_pow2 by lia. set (p := 2 ^ bits t). assert (0 < p) by (apply Z.pow_pos_nonneg; lia).
    pose proof (Z.div_mod z p ltac:(lia)). pose proof (Z.mod_pos_bound z p ltac:(lia)). split.
    + intros Hz. left. apply Z.div_small. lia.
    + intros [E|[E _]]; [|discriminate]. rewrite E in *. lia.
Qed.
Definition zop (op : bitop) : Z -> Z -> Z := match op with And => Z.land | Or => Z.lor | Xor => Z.lxor end.
Lemma zop_combines op x y : combines op x y (zop op x y).
Proof. intros i Hi. destruct op; cbn [zop on_bits]; [apply Z.land_spec|apply Z.lor_spec|apply Z.lxor_spec]. Qed.
Lemma combines_unique op x y z : combines op x y z -> z = zop op x y.
Proof. intros H. apply Z.bits_inj'. intros i Hi. rewrite (H i Hi). symmetry. apply zop_combines. exact Hi. Qed.
Lemma zop_rep op t x y : 0 < bits t -> representable t x -> representable t y -> representable t (zop op x y).
Proof.
  intros HB HX HY. apply (rep_shiftr t _ HB). apply (rep_shiftr t _ HB) in HX. apply (rep_shiftr t _ HB) in HY.
  assert (Z.shiftr (zop op x y) (top t) = zop op (Z.shiftr x (top t)) (Z.shiftr y (top t))) as E.
  { destruct op; cbn [zop]; [apply Z.shiftr_land|apply Z.shiftr_lor|apply Z.shiftr_lxor]. }
  rewrite E. destruct HX as [->|[SX ->]], HY as [->|[SY ->]], op; cbn; auto.
Qed.
Lemma zop_pattern op t x y : 0 < bits t -> zop op (pattern t x) (pattern t y) = (zop op x y) mod 2 ^ bits t.
Proof.
  intros HB. unfold pattern. apply Z.bits_inj'. intros i Hi. rewrite (zop_combines op _ _ i Hi).
  destruct (Z.ltb_spec i (bits t)).
  - rewrite !Z.mod_pow2_bits_low by lia. rewrite (zop_combines op _ _ i Hi). reflexivity.
  - rewrite !Z.mod_pow2_bits_high by lia. destruct op; reflexivity.
Qed.
Lemma wrap_mod t z : ity_ok t -> wrap t (z mod 2 ^ bits t) = wrap t z.
Proof.
  intros H. apply wrap_eq; [exact H|]. assert (0 < 2 ^ bits t) by (apply Z.pow_pos_nonneg; unfold ity_ok in H; lia).
  rewrite Zminus_mod, Z.mod_mod by lia. rewrite Z.sub_diag. apply Z.mod_0_l. lia.
Qed.
Lemma int_bit_zop op t x y : ity_ok t -> representable t x -> representable t y ->
  int_bit t (match op with And => BAnd | Or => BOr | Xor => BXor end) x y = zop op x y.
Proof.
  intros H HX HY. assert (0 < bits t) as HB by exact H. pose proof (zop_rep op t x y HB HX HY) as R.
  pose proof (zop_pattern op t x y HB) as E. destruct op; cbn [int_bit zop] in *; rewrite E, wrap_mod by exact H; apply wrap_id; assumption.
Qed.
(* in a signed dtype ~x is -x-1; in an unsigned one it counts down from the greatest *)
Lemma int_not_spec t x : ity_ok t -> representable t x -> int_not t x = if signed t then - x - 1 else i_max t - x.
Proof.
  intros H HX. unfold int_not, pattern. assert (0 < bits t) as HB by exact H. assert (0 < 2 ^ bits t) as HP by (apply Z.pow_pos_nonneg; lia).
  symmetry. apply wrap_unique; [exact H| |].
  - unfold representable, i_min, i_max in *. destruct (signed t); lia.
  - pose proof (Z.div_mod x (2 ^ bits t) ltac:(lia)) as D. destruct (signed t) eqn:S.
    + replace (- x - 1 - (2 ^ bits t - 1 - x mod 2 ^ bits t)) with ((- (x / 2 ^ bits t) - 1) * 2 ^ bits t) by nia. apply Z.mod_mul. lia.
    + unfold i_max. rewrite S. replace (2 ^ bits t - 1 - x - (2 ^ bits t - 1 - x mod 2 ^ bits t)) with ((- (x / 2 ^ bits t)) * 2 ^ bits t) by nia. apply Z.mod_mul. lia.
Qed.
Lemma shl_spec t x n : ity_ok t -> bits t <= 2 ^ 32 -> 0 <= n < bits t -> int_bit t BShl x n = wrap t (x * 2 ^ n).
Proof. intros H HW HN. cbn [int_bit]. rewrite (Z.mod_small n) by lia. rewrite (Z.mod_small n) by lia. rewrite Z.shiftl_mul_pow2 by lia. reflexivity. Qed.
Lemma shr_spec t x n : ity_ok t -> bits t <= 2 ^ 32 -> 0 <= n < bits t -> int_bit t BShr x n = x / 2 ^ n.
Proof. intros H HW HN. cbn [int_bit]. rewrite (Z.mod_small n) by lia. rewrite (Z.mod_small n) by lia. rewrite Z.shiftr_div_pow2 by lia. reflexivity. Qed.
Lemma shr_rep t x n : ity_ok t -> 0 <= n -> representable t x -> representable t (x / 2 ^ n).
Proof.
  intros H HN HX. pose proof (Z.pow_pos_nonneg 2 n ltac:(lia) HN) as HP. unfold representable, i_min, i_max in *.
  pose proof (Z.div_mod x (2 ^ n) ltac:(lia)). pose proof (Z.mod_pos_bound x (2 ^ n) ltac:(lia)). set (p := 2 ^ n) in *. destruct (signed t).
  - set (b := 2 ^ (bits t - 1)) in *. assert (0 < b) by (apply Z.pow_pos_nonneg; unfold ity_ok in H; lia). split; nia.
  - split; [apply Z.div_pos; lia|]. nia.
Qed.

(* ---- elements and dtypes ------------------------------------------------------ *)
Lemma int_of_integer k : is_integer k = true -> exists t, int_of k = Some t /\ ity_ok t /\ bits t = width k /\ signed t = is_signed k /\ i_min t = fst (int_range k) /\ i_max t = snd (int_range k).
Proof. destruct k; try discriminate; intros _; eexists; repeat (split; [reflexivity|]); reflexivity. Qed.
Lemma int_element k z : is_integer k = true \/ k = Bool -> element k (SInt z) <-> fst (int_range k) <= z <= snd (int_range k).
Proof.
  assert (forall lo hi, (int_holds lo hi (z * one) /\ 0 = 0) <-> lo <= z <= hi) as H.
  { intros lo hi. split; [|intros; split; [apply int_int; assumption|reflexivity]]. intros [(w & HW & E) _]. apply Z.mul_cancel_r in E; [|apply one_nz]. lia. }
  intros [K| ->]; [destruct k; try discriminate K|]; apply H.
Qed.
Lemma element_int k v : is_integer k = true \/ k = Bool -> element k v -> exists z, v = SInt z /\ fst (int_range k) <= z <= snd (int_range k).
Proof.
  intros K E. assert (exists z, v = SInt z) as [z ->].
  { destruct K as [K| ->]; [destruct k; try discriminate K|]; destruct v; try contradiction; eexists; reflexivity. }
  exists z. split; [reflexivity|]. apply int_element; assumption.
Qed.

Definition elem_bit (k : kind) (op : bop) (a b : Z) : Z := match int_of k with Some t => int_bit t op a b | None => bool_bit op a b end.
Lemma elem_bit_range k op a b : is_integer k = true \/ (k = Bool /\ is_shift op = false) ->
  fst (int_range k) <= a <= snd (int_range k) -> fst (int_range k) <= b <= snd (int_range k) ->
  fst (int_range k) <= elem_bit k op a b <= snd (int_range k).
Proof.
  intros K HA HB. unfold elem_bit. destruct K as [K|[-> _]].
  - destruct (int_of_integer k K) as (t & -> & HT & HW & _ & HL & HU). rewrite <- HL, <- HU in *. assert (0 < bits t) as HP by exact HT.
    destruct op; try (apply (wrap_rep t); exact HT). cbn [int_bit]. rewrite Z.shiftr_div_pow2 by (apply Z.mod_pos_bound; lia).
    apply (shr_rep t); [exact HT| |exact HA]. apply Z.mod_pos_bound. lia.
  - cbn. unfold bool_bit, bit01. destruct op; match goal with |- context[if ?c then _ else _] => destruct c end; lia.
Qed.
Lemma bit_elem_int k op a b : is_integer k = true \/ k = Bool -> bit_elem k op (SInt a) (SInt b) = Some (SInt (elem_bit k op a b)).
Proof.
  intros [K| ->]; [|reflexivity]. unfold elem_bit. cbn [bit_elem]. destruct (int_of_integer k K) as (t & E & _). rewrite E. destruct k; try discriminate K; reflexivity.
Qed.

Lemma bitwise_same k op x y sh : good x -> good y -> n_kind x = k -> n_kind y = k -> is_integer k = true \/ (k = Bool /\ is_shift op = false) ->
  broadcast_shapes (shape_of x) (shape_of y) = Some sh -> Z.of_nat (prod sh) * 16 < 2 ^ 63 ->
  exists z, bitwise op x y = Ok z /\ good z /\ n_kind z = k /\ shape_of z = sh /\
    forall idx, inb idx sh -> exists a b, item_at x (unbroadcast (shape_of x) idx) = Some (SInt a) /\ item_at y (unbroadcast (shape_of y) idx) = Some (SInt b) /\
      element k (SInt a) /\ element k (SInt b) /\ item_at z idx = Some (SInt (elem_bit k op a b)).
Proof.
  intros GX GY KX KY K E HS. assert (is_integer k = true \/ k = Bool) as K' by (destruct K as [K|[K _]]; auto).
  assert (numeric k = true) as N by (rewrite <- KX; apply GX). pose proof (item_pos k N) as HI.
  assert (itemsize k <= 16) as HI16 by (destruct k; try discriminate N; cbn; lia).
  assert (promote k k = k) as PK by (destruct K' as [K'| ->]; [destruct k; try discriminate K'|]; reflexivity).
  set (g := fun idx => match item_at x (unbroadcast (shape_of x) idx), item_at y (unbroadcast (shape_of y) idx) with
    | Some (SInt a), Some (SInt b) => SInt (elem_bit k op a b) | _, _ => SInt 0 end).
  assert (forall idx, inb idx sh -> exists a b, item_at x (unbroadcast (shape_of x) idx) = Some (SInt a) /\ item_at y (unbroadcast (shape_of y) idx) = Some (SInt b) /\
      element k (SInt a) /\ element k (SInt b) /\ g idx = SInt (elem_bit k op a b)) as HG.
  { intros idx Hi. destruct (bc_items x y sh E (proj1 (proj2 GX)) (proj1 (proj2 GY)) idx Hi) as (_ & _ & v & w & Hv & Hw).
    pose proof (good_element x _ v GX Hv) as EV. pose proof (good_element y _ w GY Hw) as EW. rewrite KX in EV. rewrite KY in EW.
    destruct (element_int k v K' EV) as (a & -> & _). destruct (element_int k w K' EW) as (b & -> & _). exists a, b. repeat (split; [assumption|]). unfold g. rewrite Hv, Hw. reflexivity. }
  assert (bitwise op x y = Ok (mkN k (map g (all_idx sh)) (fresh sh (itemsize k)))) as EB.
  { unfold bitwise. rewrite KX, KY, PK. fold (shape_of x) (shape_of y). rewrite E, kind_eqb_refl.
    replace (match int_of k with Some _ => true | None => match k with Bool => negb (is_shift op) | _ => false end end) with true
      by (destruct K as [K|[-> H]]; [destruct k; try discriminate K; reflexivity|cbn; rewrite H; reflexivity]).
    cbn [andb]. destruct (Nat.eqb_spec (prod sh) 0) as [Z0|_].
    - cbn [bind]. do 2 f_equal. pose proof (all_idx_length sh) as L. rewrite Z0 in L. destruct (all_idx sh); [reflexivity|discriminate].
    - pose proof (elementwise2_spec (fun v w => or_err (bit_elem k op v w)) PKernel _ _ _ _ (proj1 (proj2 GX)) (proj1 (proj2 GY))) as H.
      fold (shape_of x) (shape_of y) in H. rewrite E in H. rewrite H. rewrite (mapM_total _ g); [reflexivity|]. intros idx Hi. apply in_all_idx in Hi.
      destruct (HG idx Hi) as (a & b & Ha & Hb & _ & _ & ->). unfold item_at in Ha, Hb. rewrite Ha, Hb. cbn [of_load bind]. rewrite bit_elem_int by exact K'. reflexivity. }
  eexists. split; [exact EB|]. split; [|split; [reflexivity|split; [reflexivity|]]].
  - split; [exact N|]. split; [|split; [|exact HS]].
    + cbn [n_buf n_arr]. apply fresh_wf; [exact HI| |]; rewrite map_length, all_idx_length; [nia|reflexivity].
    + cbn [n_buf n_kind]. apply Forall_forall. intros v Hv. apply in_map_iff in Hv as (idx & <- & Hi). apply in_all_idx in Hi.
      destruct (HG idx Hi) as (a & b & _ & _ & EA & EB' & ->). apply int_element; [exact K'|]. apply elem_bit_range; [exact K| |]; apply int_element; assumption.
  - intros idx Hi. destruct (HG idx Hi) as (a & b & Ha & Hb & EA & EB' & G). exists a, b. repeat (split; [assumption|]). unfold item_at. cbn [n_buf n_arr].
    rewrite map_get by assumption. rewrite G. reflexivity.
Qed.
Definition elem_not (k : kind) (a : Z) : Z := match int_of k with Some t => int_not t a | None => bit01 (a =? 0) end.
Lemma not_same k x : good x -> n_kind x = k -> is_integer k = true \/ k = Bool ->
  exists z, bitwise_not x = Ok z /\ good z /\ n_kind z = k /\ shape_of z = shape_of x /\
    forall idx, inb idx (shape_of x) -> exists a, item_at x idx = Some (SInt a) /\ element k (SInt a) /\ item_at z idx = Some (SInt (elem_not k a)).
Proof.
  intros GX KX K. assert (numeric k = true) as N by (rewrite <- KX; apply GX). pose proof (item_pos k N) as HI.
  assert (itemsize k <= 16) as HI16 by (destruct k; try discriminate N; cbn; lia).
  set (g := fun idx => match item_at x idx with Some (SInt a) => SInt (elem_not k a) | _ => SInt 0 end).
  assert (forall idx, inb idx (shape_of x) -> exists a, item_at x idx = Some (SInt a) /\ element k (SInt a) /\ g idx = SInt (elem_not k a)) as HG.
  { intros idx Hi. destruct (good_item x idx GX Hi) as (v & Hv & EV). rewrite KX in EV. destruct (element_int k v K EV) as (a & -> & _). exists a. split; [exact Hv|]. split; [exact EV|]. unfold g. rewrite Hv. reflexivity. }
  assert (forall a, not_elem k (SInt a) = Some (SInt (elem_not k a))) as NE.
  { intros a. unfold elem_not. destruct K as [K| ->]; [|reflexivity]. destruct k; try discriminate K; reflexivity. }
  assert (bitwise_not x = Ok (mkN k (map g (all_idx (shape_of x))) (fresh (shape_of x) (itemsize k)))) as EB.
  { unfold bitwise_not. rewrite trait_map_spec by apply GX. fold (shape_of x). rewrite (mapM_total _ g); [cbn [bind]; rewrite KX; reflexivity|]. intros idx Hi. apply in_all_idx in Hi.
    destruct (HG idx Hi) as (a & Ha & _ & ->). unfold lift1. unfold item_at in Ha. rewrite Ha. cbn [of_load bind]. rewrite KX, NE. reflexivity. }
  eexists. split; [exact EB|]. split; [|split; [reflexivity|split; [reflexivity|]]].
  - split; [exact N|]. split; [|split; [|apply GX]].
    + cbn [n_buf n_arr]. destruct GX as (_ & _ & _ & HS). apply fresh_wf; [exact HI| |]; rewrite map_length, all_idx_length; [unfold shape_of; nia|reflexivity].
    + cbn [n_buf n_kind]. apply Forall_forall. intros v Hv. apply in_map_iff in Hv as (idx & <- & Hi). apply in_all_idx in Hi.
      destruct (HG idx Hi) as (a & _ & EA & ->). apply int_element; [exact K|]. unfold elem_not. destruct K as [K| ->].
      * destruct (int_of_integer k K) as (t & -> & HT & HW & _ & HL & HU). rewrite <- HL, <- HU. apply (wrap_rep t). exact HT.
      * cbn. unfold bit01. destruct (a =? 0); lia.
  - intros idx Hi. destruct (HG idx Hi) as (a & Ha & EA & G). exists a. repeat (split; [assumption|]). unfold item_at. cbn [n_buf n_arr].
    rewrite map_get by assumption. rewrite G. reflexivity.
Qed.
