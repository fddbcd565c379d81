(* Claim C145: bitwise operations and shifts. *)
From Coq Require Import SpecFloat.
From Verif Require Import Base Lists Int_Model Int_Proofs F64_Model Arr_Spec Arr_Model Arr_Wf Arr_Proofs Wf_Check Bcast_Model Bcast_Proofs Copy_Model Copy_Proofs
  Elem_Spec Elem_Model Elem_Proofs Rng_Model New_Model Promo_Spec Promo_Model Promo_Proofs Promo_Props Lay_Copy SF_Proofs SF_Arith Cast_Spec Cast_Model Cast_SF Cast_Proofs Cast_Laws Cast_Props Bitw_Spec Bitw_Model Bitw_Proofs.
From Verif Require Mean_Proofs.
Local Open Scope Z_scope.

(* an array of an integer dtype or of bools *)
Definition int_array (k : kind) (x : narr) : Prop := good x /\ n_kind x = k /\ (is_integer k = true \/ k = Bool).
(* the integer at a position of the broadcast shape *)
Definition at_bc (x : narr) (idx : list nat) : option scalar := item_at x (unbroadcast (shape_of x) idx).
Definition fits_memory (sh : list nat) : Prop := Z.of_nat (prod sh) * 16 < 2 ^ 63.
Definition of_bitop (op : bitop) : bop := match op with And => BAnd | Or => BOr | Xor => BXor end.

(* operands of one dtype: every bit of every element of the result is the combination of the
   bits of the operands' elements, signs included.  Missing: operands of two dtypes. *)
Theorem C145_bits_partial : forall op k x y, int_array k x -> int_array k y ->
  match broadcast_shapes (shape_of x) (shape_of y) with
  | None => bitwise (of_bitop op) x y = Err
  | Some sh => fits_memory sh -> exists z, bitwise (of_bitop op) x y = Ok z /\ int_array k z /\ shape_of z = sh /\
      forall idx, inb idx sh -> exists a b c, at_bc x idx = Some (SInt a) /\ at_bc y idx = Some (SInt b) /\ item_at z idx = Some (SInt c) /\ combines op a b c
  end.
Proof.
  intros op k x y (GX & KX & K) (GY & KY & _). destruct (broadcast_shapes (shape_of x) (shape_of y)) as [sh|] eqn:E.
  2: { unfold bitwise. fold (shape_of x) (shape_of y). rewrite E. reflexivity. }
  intros HS. destruct (bitwise_same k (of_bitop op) x y sh GX GY KX KY) as (z & EZ & GZ & KZ & SZ & HZ); try assumption.
  { destruct K as [K|K]; [left; exact K|right; split; [exact K|destruct op; reflexivity]]. }
  exists z. split; [exact EZ|]. split; [split; [exact GZ|split; assumption]|]. split; [exact SZ|]. intros idx Hi. destruct (HZ idx Hi) as (a & b & Ha & Hb & EA & EB & HC).
  exists a, b, (elem_bit k (of_bitop op) a b). repeat (split; [assumption|]).
  apply (int_element k a K) in EA. apply (int_element k b K) in EB. unfold elem_bit. destruct K as [K| ->].
  - destruct (int_of_integer k K) as (t & -> & HT & _ & _ & HL & HU). rewrite <- HL, <- HU in *. pose proof (int_bit_zop op t a b HT EA EB) as EI.
    replace (int_bit t (of_bitop op) a b) with (zop op a b) by (rewrite <- EI; destruct op; reflexivity). apply zop_combines.
  - cbn [int_of int_range fst snd] in *. assert (a = 0 \/ a = 1) as HA by lia. assert (b = 0 \/ b = 1) as HB by lia.
    assert (bool_bit (of_bitop op) a b = zop op a b) as -> by (destruct HA as [-> | ->], HB as [-> | ->], op; reflexivity). apply zop_combines.
Qed.
Example C145_bits_nonvacuous :
  let x := row Int8 [SInt (-6); SInt 77] in let y := row Int8 [SInt 15; SInt (-128)] in
  int_array Int8 x /\ int_array Int8 y /\ fits_memory [2%nat] /\ bitwise BAnd x y = Ok (row Int8 [SInt 10; SInt 0]) /\ bitwise BOr x y = Ok (row Int8 [SInt (-1); SInt (-51)]) /\
  bitwise BXor x y = Ok (row Int8 [SInt (-11); SInt (-51)]).
Proof.
  cbv zeta. split; [split; [good_row|split; [reflexivity|left; reflexivity]]|]. split; [split; [good_row|split; [reflexivity|left; reflexivity]]|].
  split; [reflexivity|]. split; [vm_compute; reflexivity|]. split; vm_compute; reflexivity.
Qed.

(* ~x turns over every bit: -x-1 in the signed dtypes, the greatest element less x in the others *)
Theorem C145_not : forall k x, int_array k x ->
  exists z, bitwise_not x = Ok z /\ int_array k z /\ shape_of z = shape_of x /\
    forall idx, inb idx (shape_of x) -> exists a, item_at x idx = Some (SInt a) /\
      item_at z idx = Some (SInt (if is_signed k then - a - 1 else snd (int_range k) - a)).
Proof.
  intros k x (GX & KX & K). destruct (not_same k x GX KX K) as (z & EZ & GZ & KZ & SZ & HZ). exists z. split; [exact EZ|]. split; [split; [exact GZ|split; assumption]|]. split; [exact SZ|].
  intros idx Hi. destruct (HZ idx Hi) as (a & Ha & EA & HC). exists a. split; [exact Ha|]. rewrite HC. do 2 f_equal. apply (int_element k a K) in EA. unfold elem_not. destruct K as [K| ->].
  - destruct (int_of_integer k K) as (t & -> & HT & _ & HS & HL & HU). rewrite <- HL, <- HU in *. rewrite (int_not_spec t a HT EA), HS. reflexivity.
  - cbn [int_of int_range fst snd is_signed] in *. assert (a = 0 \/ a = 1) as [-> | ->] by lia; reflexivity.
Qed.
(* floats have no bits to turn over *)
Theorem C145_float_error : forall x, good x -> is_integer (n_kind x) = false -> n_kind x <> Bool -> prod (shape_of x) <> 0%nat -> bitwise_not x = Err.
Proof.
  intros x GX K NB NZ. unfold bitwise_not. rewrite trait_map_spec by apply GX. fold (shape_of x).
  pose proof (all_idx_length (shape_of x)) as L. destruct (all_idx (shape_of x)) as [|idx l] eqn:E; [cbn in L; lia|]. cbn [mapM].
  assert (inb idx (shape_of x)) as Hi by (apply in_all_idx; rewrite E; left; reflexivity). destruct (good_item x idx GX Hi) as (v & Hv & EV). unfold lift1. unfold item_at in Hv. rewrite Hv. cbn [of_load bind].
  destruct GX as (N & _). clear - K NB N EV. destruct v; [|reflexivity|reflexivity]. destruct (n_kind x); try discriminate N; try discriminate K; try contradiction; reflexivity.
Qed.

(* shifts by less than the width, which no bool has: x * 2^n modulo 2^width, and the floor of
   x / 2^n.  Missing: larger and negative counts. *)
Theorem C145_shift_partial : forall k x y sh, int_array k x -> int_array k y -> is_integer k = true ->
  broadcast_shapes (shape_of x) (shape_of y) = Some sh -> fits_memory sh ->
  (forall idx n, inb idx sh -> at_bc y idx = Some (SInt n) -> 0 <= n < width k) ->
  exists l r, bitwise BShl x y = Ok l /\ bitwise BShr x y = Ok r /\ int_array k l /\ int_array k r /\ shape_of l = sh /\ shape_of r = sh /\
    forall idx, inb idx sh -> exists a n c, at_bc x idx = Some (SInt a) /\ at_bc y idx = Some (SInt n) /\
      item_at l idx = Some (SInt c) /\ reduces k (a * 2 ^ n) c /\ item_at r idx = Some (SInt (a / 2 ^ n)).
Proof.
  intros k x y sh (GX & KX & _) (GY & KY & _) K E HS HC.
  destruct (bitwise_same k BShl x y sh GX GY KX KY (or_introl K) E HS) as (l & EL & GL & KL & SL & HL).
  destruct (bitwise_same k BShr x y sh GX GY KX KY (or_introl K) E HS) as (r & ER & GR & KR & SR & HR).
  exists l, r. split; [exact EL|]. split; [exact ER|]. split; [split; auto|]. split; [split; auto|]. split; [exact SL|]. split; [exact SR|].
  intros idx Hi. destruct (HL idx Hi) as (a & n & Ha & Hn & EA & EN & Hc). destruct (HR idx Hi) as (a' & n' & Ha' & Hn' & _ & _ & Hr).
  rewrite Ha in Ha'. rewrite Hn in Hn'. injection Ha' as <-. injection Hn' as <-. specialize (HC idx n Hi Hn).
  exists a, n, (elem_bit k BShl a n). repeat (split; [assumption|]). unfold elem_bit in *. destruct (int_of_integer k K) as (t & ET & HT & HW & _ & HLo & HUp). rewrite ET in *.
  assert (bits t <= 2 ^ 32) as HB by (rewrite HW; destruct k; try discriminate K; cbn; lia). rewrite <- HW in HC.
  rewrite (shr_spec t a n HT HB HC) in Hr. rewrite (shl_spec t a n HT HB HC). split; [|exact Hr]. split.
  - rewrite <- HLo, <- HUp. apply (wrap_rep t). exact HT.
  - rewrite <- HW. apply (wrap_cong t). exact HT.
Qed.
Example C145_shift_nonvacuous :
  let x := row Int8 [SInt (-100); SInt 77] in let y := row Int8 [SInt 1; SInt 7] in
  int_array Int8 x /\ int_array Int8 y /\ bitwise BShl x y = Ok (row Int8 [SInt 56; SInt (-128)]) /\ bitwise BShr x y = Ok (row Int8 [SInt (-50); SInt 0]).
Proof.
  cbv zeta. split; [split; [good_row|split; [reflexivity|left; reflexivity]]|]. split; [split; [good_row|split; [reflexivity|left; reflexivity]]|].
  split; vm_compute; reflexivity.
Qed.

(* a Python integer that is a double, with an int64 array *)
Theorem C145_scalar_partial : forall op x n, int_array Int64 x -> fits_memory (shape_of x) -> shape_of x <> [] -> - 2 ^ 63 <= n < 2 ^ 63 -> f64_holds (n * one) ->
  exists z, bitwise_scalar (of_bitop op) x n = Ok z /\ int_array Int64 z /\ shape_of z = shape_of x /\
    forall idx, inb idx (shape_of x) -> exists a c, item_at x idx = Some (SInt a) /\ item_at z idx = Some (SInt c) /\ combines op a n c.
Proof.
  intros op x n X HS NE HN HF. assert (as_int i64 (f64_int n) = n) as EN.
  { destruct (int_exact 53 1024 n) as [V W]; [lia|vm_compute; discriminate|exact HF|]. apply as_int_exact; [exact W|exact V|]. cbn. lia. }
  assert (py_int n = row Int64 [SInt n]) as EP by (unfold py_int; rewrite EN; reflexivity).
  assert (int_array Int64 (py_int n)) as Y.
  { rewrite EP. split; [|split; [reflexivity|left; reflexivity]]. split; [reflexivity|]. split; [|split; [|reflexivity]].
    - apply fresh_wf; [reflexivity|cbn; lia|reflexivity].
    - cbn [n_buf n_kind row]. apply Forall_cons; [|apply Forall_nil]. apply int_element; [left; reflexivity|]. cbn. lia. }
  assert (broadcast_shapes (shape_of x) [1%nat] = Some (shape_of x)) as EB by (apply Mean_Proofs.bshape_one; exact NE).
  pose proof (C145_bits_partial op Int64 x (py_int n) X Y) as H. change (shape_of (py_int n)) with [1%nat] in H. rewrite EB in H. destruct (H HS) as (z & EZ & GZ & SZ & HZ).
  exists z. split; [|split; [exact GZ|split; [exact SZ|]]].
  { unfold bitwise_scalar. destruct (Z.leb_spec (- 2 ^ 63) n); [|lia]. destruct (Z.ltb_spec n (2 ^ 63)); [|lia]. exact EZ. }
  intros idx Hi. destruct (HZ idx Hi) as (a & b & c & Ha & Hb & Hc & HO). exists a, c. split; [|split; [exact Hc|]].
  - unfold at_bc in Ha. rewrite unbroadcast_same in Ha by exact Hi. exact Ha.
  - unfold at_bc in Hb. rewrite EP in Hb. assert (item_at (row Int64 [SInt n]) (unbroadcast [1%nat] idx) = Some (SInt n)) as E1.
    { assert (unbroadcast [1%nat] idx = [0%nat]) as ->; [|reflexivity]. destruct (Mean_Proofs.broadcast_inb _ _ _ idx EB Hi) as [_ I1].
      inversion I1 as [|i ? is ? Hi0 His]; subst. inversion His; subst. f_equal. lia. }
    change (shape_of (row Int64 [SInt n])) with [1%nat] in Hb. rewrite E1 in Hb. injection Hb as <-. exact HO.
Qed.

Example C145_scalar_nonvacuous : int_array Int64 (row Int64 [SInt 5; SInt (-1)]) /\ f64_holds (3 * one) /\
  bitwise_scalar BXor (row Int64 [SInt 5; SInt (-1)]) 3 = Ok (row Int64 [SInt 6; SInt (-4)]).
Proof.
  split; [split; [good_row|split; [reflexivity|left; reflexivity]]|]. split; [|vm_compute; reflexivity].
  exists 3, 0. split; [lia|]. split; [lia|]. reflexivity.
Qed.

(* ---- laws ------------------------------------------------------------------------- *)
Definition same_items (x y : narr) : Prop := shape_of x = shape_of y /\ n_kind x = n_kind y /\ forall idx, inb idx (shape_of x) -> item_at x idx = item_at y idx.
Theorem C145_commutative : forall op k x y sh, int_array k x -> int_array k y -> broadcast_shapes (shape_of x) (shape_of y) = Some sh -> fits_memory sh ->
  exists z w, bitwise (of_bitop op) x y = Ok z /\ bitwise (of_bitop op) y x = Ok w /\ same_items z w.
Proof.
  intros op k x y sh X Y E HS. pose proof (C145_bits_partial op k x y X Y) as H. rewrite E in H. destruct (H HS) as (z & EZ & (_ & KZ & _) & SZ & HZ).
  pose proof (C145_bits_partial op k y x Y X) as H'. rewrite bshape_comm, E in H'. destruct (H' HS) as (w & EW & (_ & KW & _) & SW & HW).
  exists z, w. split; [exact EZ|]. split; [exact EW|]. split; [congruence|]. split; [congruence|]. rewrite SZ. intros idx Hi.
  destruct (HZ idx Hi) as (a & b & c & Ha & Hb & Hc & HO). destruct (HW idx Hi) as (b' & a' & c' & Hb' & Ha' & Hc' & HO').
  rewrite Ha in Ha'. rewrite Hb in Hb'. injection Ha' as <-. injection Hb' as <-. rewrite Hc, Hc'. do 2 f_equal.
  apply Z.bits_inj'. intros i Hi'. rewrite (HO i Hi'), (HO' i Hi'). destruct op, (Z.testbit a i), (Z.testbit b i); reflexivity.
Qed.
(* the complement's bits, up to the width of the dtype *)
Lemma not_bits k a i : is_integer k = true \/ k = Bool -> fst (int_range k) <= a <= snd (int_range k) -> 0 <= i < width k ->
  Z.testbit (if is_signed k then - a - 1 else snd (int_range k) - a) i = negb (Z.testbit a i).
Proof.
  intros K HA Hi. destruct (is_signed k) eqn:S.
  - replace (- a - 1) with (Z.lnot a) by (unfold Z.lnot; lia). apply Z.lnot_spec. lia.
  - assert (snd (int_range k) = Z.ones (width k)) as EO by (destruct K as [K| ->]; [destruct k; try discriminate K; try discriminate S|]; reflexivity).
    assert (0 <= a) as H0 by (assert (fst (int_range k) = 0) as E0 by (destruct K as [K| ->]; [destruct k; try discriminate K; try discriminate S|]; reflexivity); lia).
    rewrite EO in *. assert (Z.ldiff (Z.ones (width k)) a = Z.ones (width k) - a) as <-.
    { symmetry. apply Z.sub_nocarry_ldiff. apply Z.bits_inj'. intros j Hj. rewrite Z.ldiff_spec, Z.bits_0. destruct (Z.ltb_spec j (width k)).
      - rewrite Z.ones_spec_low by lia. apply andb_false_r.
      - rewrite Z.ones_spec_high by lia. rewrite andb_true_r. destruct (Z.eq_dec a 0) as [->|NZ]; [apply Z.bits_0|]. apply Z.bits_above_log2; [lia|].
        assert (a < 2 ^ width k) by (rewrite Z.ones_equiv in HA; lia). apply Z.log2_lt_pow2; [lia|]. apply Z.lt_le_trans with (2 ^ width k); [lia|]. apply Z.pow_le_mono_r; lia. }
    rewrite Z.ldiff_spec, Z.ones_spec_low by lia. reflexivity.
Qed.
(* elements of a dtype are determined by their bits up to the width *)
Lemma width_bits k a b : is_integer k = true \/ k = Bool -> fst (int_range k) <= a <= snd (int_range k) -> fst (int_range k) <= b <= snd (int_range k) ->
  (forall i, 0 <= i < width k -> Z.testbit a i = Z.testbit b i) -> a = b.
Proof.
  intros K HA HB H. assert (0 < width k) as HW by (destruct k; reflexivity).
  assert (a mod 2 ^ width k = b mod 2 ^ width k) as E.
  { apply Z.bits_inj'. intros i Hi. destruct (Z.ltb_spec i (width k)); [rewrite !Z.mod_pow2_bits_low by lia; apply H; lia|rewrite !Z.mod_pow2_bits_high by lia; reflexivity]. }
  assert (snd (int_range k) - fst (int_range k) < 2 ^ width k) as HR by (destruct K as [K| ->]; [destruct k; try discriminate K|]; reflexivity).
  assert (0 < 2 ^ width k) as HP by (apply Z.pow_pos_nonneg; lia). pose proof (Z.div_mod a (2 ^ width k) ltac:(lia)). pose proof (Z.div_mod b (2 ^ width k) ltac:(lia)).
  rewrite E in *. set (p := 2 ^ width k) in *. set (qa := a / p) in *. set (qb := b / p) in *. assert (qa = qb) by nia. lia.
Qed.
Theorem C145_de_morgan : forall op k x y sh, op <> Xor -> int_array k x -> int_array k y -> broadcast_shapes (shape_of x) (shape_of y) = Some sh -> fits_memory sh ->
  exists nx ny z nz w, bitwise_not x = Ok nx /\ bitwise_not y = Ok ny /\ bitwise (of_bitop op) x y = Ok z /\ bitwise_not z = Ok nz /\
    bitwise (of_bitop (match op with And => Or | Or => And | Xor => Xor end)) nx ny = Ok w /\ same_items nz w.
Proof.
  intros op k x y sh NX X Y E HS. destruct (C145_not k x X) as (nx & ENX & NXA & SNX & HNX). destruct (C145_not k y Y) as (ny & ENY & NYA & SNY & HNY).
  pose proof (C145_bits_partial op k x y X Y) as H. rewrite E in H. destruct (H HS) as (z & EZ & ZA & SZ & HZ). clear H.
  destruct (C145_not k z ZA) as (nz & ENZ & NZA & SNZ & HNZ). set (op' := match op with And => Or | Or => And | Xor => Xor end).
  pose proof (C145_bits_partial op' k nx ny NXA NYA) as H. rewrite SNX, SNY, E in H. destruct (H HS) as (w & EW & WA & SW & HW). clear H.
  exists nx, ny, z, nz, w. repeat (split; [assumption|]). split; [congruence|]. split; [destruct NZA as (_ & -> & _), WA as (_ & -> & _); reflexivity|]. rewrite SNZ, SZ. intros idx Hi.
  destruct (Mean_Proofs.broadcast_inb _ _ _ idx E Hi) as [IX IY].
  destruct (HZ idx Hi) as (a & b & c & Ha & Hb & Hc & HO). rewrite SZ in HNZ. destruct (HNZ idx Hi) as (c' & Hc' & Hnc). rewrite Hc in Hc'. injection Hc' as <-.
  destruct (HNX _ IX) as (a' & Ha' & Hna). destruct (HNY _ IY) as (b' & Hb' & Hnb). unfold at_bc in Ha, Hb. rewrite Ha in Ha'. rewrite Hb in Hb'. injection Ha' as <-. injection Hb' as <-.
  destruct (HW idx Hi) as (na & nb & d & Hna' & Hnb' & Hd & HO'). unfold at_bc in Hna', Hnb'. rewrite SNX in Hna'. rewrite SNY in Hnb'. rewrite Hna in Hna'. rewrite Hnb in Hnb'. injection Hna' as <-. injection Hnb' as <-.
  rewrite Hnc, Hd. do 2 f_equal. destruct X as (GX & KX & K), Y as (GY & KY & _), ZA as (GZ & KZ & _), WA as (GW & KW & _), NZA as (GNZ & KNZ & _).
  pose proof (good_element _ _ _ GX Ha) as RA. pose proof (good_element _ _ _ GY Hb) as RB. pose proof (good_element _ _ _ GZ Hc) as RC. pose proof (good_element _ _ _ GW Hd) as RD. pose proof (good_element _ _ _ GNZ Hnc) as RN.
  rewrite KX in RA. rewrite KY in RB. rewrite KZ in RC. rewrite KW in RD. rewrite KNZ in RN. apply (int_element k _ K) in RA, RB, RC, RD, RN.
  apply (width_bits k); try assumption. intros i Hw. rewrite (HO' i) by lia. rewrite !not_bits by assumption. rewrite (HO i) by lia.
  unfold op'. destruct op; [| |contradiction]; destruct (Z.testbit a i), (Z.testbit b i); reflexivity.
Qed.
Theorem C145_double_complement : forall k x, int_array k x -> exists y z, bitwise_not x = Ok y /\ bitwise_not y = Ok z /\ same_items z x.
Proof.
  intros k x X. destruct (C145_not k x X) as (y & EY & YA & SY & HY). destruct (C145_not k y YA) as (z & EZ & ZA & SZ & HZ). exists y, z. split; [exact EY|]. split; [exact EZ|].
  split; [congruence|]. split; [destruct ZA as (_ & -> & _), X as (_ & -> & _); reflexivity|]. rewrite SZ, SY. intros idx Hi. destruct (HY idx Hi) as (a & Ha & Hb). rewrite SY in HZ. destruct (HZ idx Hi) as (b & Hb' & Hc).
  rewrite Hb in Hb'. injection Hb' as <-. rewrite Ha, Hc. do 2 f_equal. destruct (is_signed k); lia.
Qed.
(* x ^ y ^ y is x *)
Theorem C145_xor_cancels : forall k x y, int_array k x -> int_array k y -> shape_of x = shape_of y -> fits_memory (shape_of x) ->
  exists z w, bitwise BXor x y = Ok z /\ bitwise BXor z y = Ok w /\ same_items w x.
Proof.
  intros k x y X Y ES HS. pose proof (C145_bits_partial Xor k x y X Y) as H. rewrite <- ES, bshape_idem in H. destruct (H HS) as (z & EZ & ZA & SZ & HZ). clear H.
  pose proof (C145_bits_partial Xor k z y ZA Y) as H. rewrite <- ES, SZ, bshape_idem in H. destruct (H HS) as (w & EW & WA & SW & HW). clear H.
  exists z, w. split; [exact EZ|]. split; [exact EW|]. split; [exact SW|]. split; [destruct WA as (_ & -> & _), X as (_ & -> & _); reflexivity|]. rewrite SW. intros idx Hi.
  destruct (HZ idx Hi) as (a & b & c & Ha & Hb & Hc & HO). destruct (HW idx Hi) as (c' & b' & d & Hc' & Hb' & Hd & HO').
  unfold at_bc in *. rewrite <- ES, ?SZ in *. rewrite unbroadcast_same in * by assumption. rewrite Hb in Hb'. rewrite Hc in Hc'. injection Hb' as <-. injection Hc' as <-. rewrite Hd, Ha. do 2 f_equal.
  apply Z.bits_inj'. intros i Hp. rewrite (HO' i Hp), (HO i Hp). destruct (Z.testbit a i), (Z.testbit b i); reflexivity.
Qed.
Example C145_laws_nonvacuous :
  let x := row Uint8 [SInt 200; SInt 7] in let y := row Uint8 [SInt 15] in
  int_array Uint8 x /\ int_array Uint8 y /\ broadcast_shapes (shape_of x) (shape_of y) = Some [2%nat] /\ bitwise_not x = Ok (row Uint8 [SInt 55; SInt 248]) /\
  bitwise BOr x y = Ok (row Uint8 [SInt 207; SInt 15]).
Proof.
  cbv zeta. split; [split; [good_row|split; [reflexivity|left; reflexivity]]|]. split; [split; [good_row|split; [reflexivity|left; reflexivity]]|].
  split; [reflexivity|]. split; vm_compute; reflexivity.
Qed.

(* ---- refuted ------------------------------------------------------------------------ *)
(* shifting by the width gives the number back instead of zero *)
Theorem C145_wide_shift_refuted : forall a, bitwise BShl (row Int64 [SInt a]) (row Int64 [SInt 64]) = Ok (row Int64 [SInt (wrap i64 a)]) /\
  bitwise BShr (row Int64 [SInt a]) (row Int64 [SInt 64]) = Ok (row Int64 [SInt a]).
Proof. intros a. split; reflexivity. Qed.
(* True << True is True, not 2 *)
Theorem C145_bool_shift_refuted : bitwise BShl (row Bool [SInt 1]) (row Bool [SInt 1]) = Ok (row Bool [SInt 1]).
Proof. vm_compute. reflexivity. Qed.
(* two dtypes: the memory of the narrower operand is read as elements of the wider dtype *)
Theorem C145_mixed_refuted :
  (* the first of two int32 elements, as a view, or-ed with an int64 zero *)
  bitwise BOr (mkN Int32 [SInt 1; SInt 2] (mkArr 0 [1%nat] [4] 4 true true)) (row Int64 [SInt 0]) = Ok (row Int64 [SInt 8589934593]) /\
  (* a whole int32 array: the last read runs past the end of its memory *)
  bitwise BOr (row Int32 [SInt 1; SInt 2]) (row Int64 [SInt 0; SInt 0]) = Fault.
Proof. split; vm_compute; reflexivity. Qed.
(* x & n with a Python integer reads past the end of any one-element array narrower than int64 *)
Theorem C145_narrow_scalar_refuted : forall op k z n, In k [Int8; Int16; Int32; Uint8; Uint16; Uint32; Bool] -> - 2 ^ 63 <= n < 2 ^ 63 ->
  bitwise_scalar op (row k [SInt z]) n = Fault.
Proof.
  intros op k z n HK HN. unfold bitwise_scalar. destruct (Z.leb_spec (- 2 ^ 63) n); [|lia]. destruct (Z.ltb_spec n (2 ^ 63)); [|lia]. cbn [andb].
  unfold py_int. set (m := as_int i64 (f64_int n)). clearbody m. cbn [In] in HK. intuition (subst; reflexivity).
Qed.
(* a Python integer is rounded to a double first *)
Theorem C145_big_scalar_refuted : bitwise_scalar BAnd (row Int64 [SInt (-1)]) (2 ^ 53 + 1) = Ok (row Int64 [SInt (2 ^ 53)]).
Proof. vm_compute. reflexivity. Qed.

Print Assumptions C145_bits_partial.
Print Assumptions C145_not.
Print Assumptions C145_float_error.
Print Assumptions C145_shift_partial.
Print Assumptions C145_scalar_partial.
Print Assumptions C145_commutative.
Print Assumptions C145_de_morgan.
Print Assumptions C145_double_complement.
Print Assumptions C145_xor_cancels.
Print Assumptions C145_wide_shift_refuted.
Print Assumptions C145_bool_shift_refuted.
Print Assumptions C145_mixed_refuted.
Print Assumptions C145_narrow_scalar_refuted.
Print Assumptions C145_big_scalar_refuted.
