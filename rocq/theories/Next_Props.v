(* Claim C153: copysign and nextafter. *)
From Coq Require Import SpecFloat.
From Verif Require Import Base Lists Int_Model Int_Proofs F64_Model Arr_Spec Arr_Model Arr_Wf Arr_Proofs Wf_Check Bcast_Model Bcast_Proofs Copy_Model Copy_Proofs Idx_Model Idx_Assign
  Elem_Model Elem_Proofs Rng_Model Date_Model New_Model Promo_Spec Promo_Model Promo_Proofs Promo_Props SF_Proofs SF_Arith SF_Cmp Cast_Spec Cast_Model Cast_SF Cast_Proofs Cast_Laws Cast_Props
  Close_Proofs Bitw_Spec Bitw_Model Bitw_Proofs Rnd_Spec Rnd_Model Rnd_Proofs Rnd_Round Rnd_Props Ari_Spec SF_Round Ari_Model Ari_Proofs Ari_Ord Ari_Props Ari_Next.
Local Open Scope Z_scope.

(* ---- copysign ---------------------------------------------------------------------- *)
(* copysign(a, b): the size of a with the sign of b, in the promoted dtype, whenever that
   dtype holds the size.  Missing: 64-bit integers with another dtype (they pass through
   float64), and the least integer of a signed dtype; C153_least_refuted. *)
Theorem C153_copysign_partial : forall x y, real_array x -> real_array y -> comparable x y ->
  match broadcast_shapes (shape_of x) (shape_of y) with
  | None => binary ACopysign x y = Err
  | Some sh => in_memory sh -> exists z, binary ACopysign x y = Ok z /\
      pairwise (fun v w r => holds_value (promote (n_kind x) (n_kind y)) (ext_abs (real_value v), Fin 0) ->
                             with_sign_of (real_value v) (real_value w) (real_value r)) x y sh (promote (n_kind x) (n_kind y)) z
  end.
Proof.
  intros x y [GX RX] [GY RY] HC. destruct (broadcast_shapes (shape_of x) (shape_of y)) as [sh|] eqn:E; [|apply binary_err; assumption]. intros HS.
  destruct (binary_good ACopysign x y sh (fun v w r => holds_value (promote (n_kind x) (n_kind y)) (ext_abs (real_value v), Fin 0) -> with_sign_of (real_value v) (real_value w) (real_value r)) GX GY RX RY eq_refl E HS) as (z & EZ & GZ & KZ & SZ & HZ).
  - intros v w r EV EW k1 k2 _ _ _ EO HH. subst k1 k2. cbn [working fst snd] in EO. unfold conv in EO. rewrite !kind_eqb_refl in EO. exact (copysign_out _ _ v w r RX RY HC EV EW HH EO).
  - exists z. split; [exact EZ|]. split; [exact GZ|]. split; [exact KZ|]. split; [exact SZ|]. intros idx Hi. destruct (HZ idx Hi) as (v & w & r & A & B & C & _ & _ & _ & D). exists v, w, r. auto.
Qed.
Example C153_copysign_nonvacuous :
  let f s m e := SFlt (S754_finite s m e) in
  let x := row Float32 [f false 12582912%positive (-23); SFlt (S754_infinity true); SFlt (S754_zero true); f true 8388608%positive (-25)] in let y := row Int8 [SInt (-5); SInt 5; SInt (-1); SInt 0] in
  real_array x /\ real_array y /\ comparable x y /\ in_memory [4%nat] /\ binary ACopysign x y = Ok (row Float32 [f true 12582912%positive (-23); SFlt (S754_infinity false); SFlt (S754_zero true); f false 8388608%positive (-25)]).
Proof. cbv zeta. split; [split; [good_row|reflexivity]|]. split; [split; [good_row|reflexivity]|]. split; [right; split; reflexivity|]. split; [reflexivity|vm_compute; reflexivity]. Qed.
(* copysign(a, a) is a *)
Lemma sign_self e r : with_sign_of e e r -> r = e.
Proof.
  intros (A & B & C). destruct e as [|s|x], r as [|t|y]; try discriminate A; try reflexivity.
  - destruct s; [rewrite (C eq_refl); reflexivity|rewrite (B eq_refl); reflexivity].
  - destruct (Z.lt_trichotomy x 0) as [L|[->|L]].
    + rewrite (C (proj2 (fin_lt _ _) L)). cbn. f_equal. lia.
    + cbn in A. injection A as A. f_equal. lia.
    + rewrite (B (proj2 (fin_lt _ _) L)). cbn. f_equal. lia.
Qed.
Theorem C153_copysign_self : forall x, real_array x -> in_memory (shape_of x) ->
  (forall idx v, inb idx (shape_of x) -> item_at x idx = Some v -> holds_value (n_kind x) (ext_abs (real_value v), Fin 0)) ->
  exists z, binary ACopysign x x = Ok z /\ n_kind z = n_kind x /\ shape_of z = shape_of x /\
    forall idx, inb idx (shape_of x) -> exists v r, item_at x idx = Some v /\ item_at z idx = Some r /\ real_value r = real_value v.
Proof.
  intros x RX HS HH. pose proof (C153_copysign_partial x x RX RX (or_introl eq_refl)) as H. rewrite bshape_idem in H. destruct (H HS) as (z & EZ & _ & KZ & SZ & HZ).
  exists z. split; [exact EZ|]. rewrite promote_self in * by apply RX. split; [exact KZ|]. split; [exact SZ|]. intros idx Hi. destruct (HZ idx Hi) as (v & w & r & A & B & C & D).
  rewrite A in B. injection B as <-. unfold bc_at in A. rewrite Lay_Copy.unbroadcast_same in A by exact Hi. exists v, r. split; [exact A|]. split; [exact C|].
  apply sign_self. apply D. exact (HH idx v Hi A).
Qed.
Example C153_self_nonvacuous : let x := row Int8 [SInt (-127); SInt 5] in real_array x /\ in_memory (shape_of x) /\
  (forall idx v, inb idx (shape_of x) -> item_at x idx = Some v -> holds_value (n_kind x) (ext_abs (real_value v), Fin 0)) /\ binary ACopysign x x = Ok x.
Proof.
  cbv zeta. split; [split; [good_row|reflexivity]|]. split; [reflexivity|]. split; [|vm_compute; reflexivity].
  intros idx v Hi Hv. assert (element Int8 v /\ v <> SInt (-128)) as [EV NV].
  { inversion Hi as [|i ? l ? Hl Hr]; subst. inversion Hr; subst. cbn in Hl. destruct i as [|[|i]]; [| |lia]; injection Hv as <-; (split; [apply int_element; [left; reflexivity|cbn; lia]|discriminate]). }
  destruct (element_int Int8 v (or_introl eq_refl) EV) as (i & -> & HI). cbn [int_range fst snd] in HI. change (real_value (SInt i)) with (Fin (i * one)). cbn [ext_abs n_kind].
  rewrite Z.abs_mul, (Z.abs_eq one) by (pose proof one_pos; lia). apply holds_fin; [reflexivity|]. apply (proj2 (int_element Int8 (Z.abs i) (or_introl eq_refl))). cbn [int_range fst snd].
  assert (i <> -128) by (intros ->; apply NV; reflexivity). lia.
Qed.
(* int8: copysign(-128, 1) is negative *)
Theorem C153_least_refuted : exists x y z, real_array x /\ real_array y /\ x = row Int8 [SInt (-128)] /\ y = row Int8 [SInt 1] /\ binary ACopysign x y = Ok z /\ z = row Int8 [SInt (-128)].
Proof. exists (row Int8 [SInt (-128)]), (row Int8 [SInt 1]), (row Int8 [SInt (-128)]). split; [split; [good_row|reflexivity]|]. split; [split; [good_row|reflexivity]|]. split; [reflexivity|]. split; [reflexivity|]. split; [vm_compute; reflexivity|reflexivity]. Qed.

(* ---- nextafter --------------------------------------------------------------------- *)
Definition next_in (k : kind) (v w r : scalar) : Prop := next_toward (fun z => holds k (z, 0)) (real_value v) (real_value w) (real_value r).
Lemma next_toward_ext (P Q : Z -> Prop) e f r : (forall z, P z <-> Q z) -> next_toward P e f r -> next_toward Q e f r.
Proof.
  intros H. assert (forall g, ext_in P g <-> ext_in Q g) as HE by (intros [| |z]; cbn; [reflexivity|reflexivity|apply H]).
  unfold next_toward. destruct (ext_compare e f) as [[]|]; auto; intros (A & B & C); (split; [apply HE; exact A|]; split; [exact B|]; intros z HZ; apply C; apply HE; exact HZ).
Qed.
(* nextafter(a, b) of two arrays of one float dtype: the number of the dtype next to a
   toward b, for a > 0, and for a = +0 when b > 0.
   Missing: a < 0, -0, and 0 toward a negative number; C153_negative_refuted, C153_zero_refuted. *)
Theorem C153_next_partial : forall k x y, float_kind k -> good x -> good y -> n_kind x = k -> n_kind y = k ->
  match broadcast_shapes (shape_of x) (shape_of y) with
  | None => binary ANextafter x y = Err
  | Some sh => in_memory sh -> exists z, binary ANextafter x y = Ok z /\
      pairwise (fun v w r => ext_lt (Fin 0) (real_value v) \/ v = SFlt (S754_zero false) /\ ext_lt (Fin 0) (real_value w) -> next_in k v w r) x y sh k z
  end.
Proof.
  intros k x y K GX GY KX KY. assert (real k = true) as R by (destruct K as [-> |[-> | ->]]; reflexivity).
  destruct (broadcast_shapes (shape_of x) (shape_of y)) as [sh|] eqn:E; [|apply binary_err; try assumption; congruence]. intros HS.
  destruct (float_pair k ANextafter x y sh (fun v w r => ext_lt (Fin 0) (real_value v) \/ v = SFlt (S754_zero false) /\ ext_lt (Fin 0) (real_value w) -> next_in k v w r) GX GY KX KY K E HS) as (z & EZ & GZ & KZ & SZ & HZ).
  - intros a b VA VB. unfold valid_in in *. pose proof (kind_format k K) as HF. assert (3 <= snd (format k)) as H3 by (destruct K as [-> |[-> | ->]]; cbn; lia).
    assert (float_elem k ANextafter a b = float_next (fst (format k)) (snd (format k)) a b) as -> by (destruct K as [-> |[-> | ->]]; reflexivity).
    split; [apply next_valid; assumption|]. intros HC. unfold next_in. eapply next_toward_ext; [intros q; symmetry; apply float_holds_kind; exact K|]. change (real_value (SFlt ?q)) with (float_value q) in *.
    apply next_value; try assumption. destruct HC as [HC|[HC HC']]; [left; exact HC|right; split; [congruence|exact HC']].
  - exists z. split; [exact EZ|]. split; [exact GZ|]. split; [exact KZ|]. split; [exact SZ|]. exact HZ.
Qed.
Example C153_next_nonvacuous :
  let o := SFlt (S754_finite false 1024 (-10)) in
  let x := row Float16 [o; o; SFlt (S754_infinity false); SFlt (S754_zero false)] in let y := row Float16 [SFlt (S754_finite false 1024 (-9)); SFlt (S754_zero false); o; o] in
  good x /\ good y /\ in_memory [4%nat] /\
  binary ANextafter x y = Ok (row Float16 [SFlt (S754_finite false 1025 (-10)); SFlt (S754_finite false 2047 (-11)); SFlt (S754_finite false 2047 5); SFlt (S754_finite false 1 (-24))]).
Proof. cbv zeta. split; [good_row|]. split; [good_row|]. split; [reflexivity|vm_compute; reflexivity]. Qed.
(* different dtypes with a float64 result: the next double, for every a but 0 *)
Theorem C153_next_mixed_partial : forall x y, real_array x -> real_array y -> n_kind x <> n_kind y -> promote (n_kind x) (n_kind y) = Float64 ->
  wide_int (n_kind x) = false -> wide_int (n_kind y) = false ->
  match broadcast_shapes (shape_of x) (shape_of y) with
  | None => binary ANextafter x y = Err
  | Some sh => in_memory sh ->
      (forall idx v, inb idx sh -> bc_at x idx = Some v -> real_value v <> Fin 0) ->
      exists z, binary ANextafter x y = Ok z /\ pairwise (next_in Float64) x y sh Float64 z
  end.
Proof.
  intros x y [GX RX] [GY RY] NK KP WX WY. destruct (broadcast_shapes (shape_of x) (shape_of y)) as [sh|] eqn:E; [|apply binary_err; assumption]. intros HS HN.
  change (binary ANextafter x y) with (binary_plain ANextafter x y).
  destruct (plain_good ANextafter x y sh (next_in Float64) GX GY RX RY E HS) as (z & EZ & GZ & KZ & SZ & HZ).
  - intros idx v w Hi Hv _ EV EW. assert (kind_eqb (n_kind x) (n_kind y) = false) as Q by (destruct (kind_eqb _ _) eqn:Q; [apply kind_eqb_eq in Q; contradiction|reflexivity]).
    unfold elem_out. rewrite Q, KP, (mixed_elem_is Float64 (n_kind x) (n_kind y) _ v w RX RY EV EW). eexists. split; [reflexivity|].
    destruct (as_f64_value _ v RX EV (narrow_fits _ v RX WX EV)) as [AX BX]. destruct (as_f64_value _ w RY EW (narrow_fits _ w RY WY EW)) as [AY BY].
    destruct (mixed_next_value (as_f64 v) (as_f64 w) BX BY) as [M V]; [rewrite AX; exact (HN idx v Hi Hv)|]. cbn [mixed_bin write_f64]. rewrite AX, AY in M.
    split; [exact V|]. unfold next_in. eapply next_toward_ext; [intros q; symmetry; apply (float_holds_kind Float64); auto|exact M].
  - exists z. split; [exact EZ|]. split; [exact GZ|]. split; [rewrite KZ; exact KP|]. split; [exact SZ|]. intros idx Hi. destruct (HZ idx Hi) as (v & w & r & A & B & C & _ & _ & _ & D). exists v, w, r. auto.
Qed.
Example C153_next_mixed_nonvacuous : let x := row Float64 [fl (-1) 1; fl 1 1] in let y := row Int8 [SInt 0; SInt 5] in
  real_array x /\ real_array y /\ promote Float64 Int8 = Float64 /\ in_memory [2%nat] /\
  binary ANextafter x y = Ok (row Float64 [SFlt (S754_finite true (2 ^ 53 - 1) (-53)); SFlt (S754_finite false (2 ^ 52 + 1) (-52))]).
Proof. cbv zeta. split; [split; [good_row|reflexivity]|]. split; [split; [good_row|reflexivity]|]. split; [reflexivity|]. split; [reflexivity|vm_compute; reflexivity]. Qed.
(* nextafter(-1.0, 0.0) moves away from 0 *)
Theorem C153_negative_refuted : exists x y z v r, good x /\ good y /\ x = row Float64 [v] /\ y = row Float64 [fl 0 1] /\ binary ANextafter x y = Ok z /\ z = row Float64 [r] /\
  real_value v = Fin (- one) /\ ext_lt (real_value r) (real_value v).
Proof.
  exists (row Float64 [fl (-1) 1]), (row Float64 [fl 0 1]), (row Float64 [SFlt (S754_finite true (2 ^ 52 + 1) (-52))]), (fl (-1) 1), (SFlt (S754_finite true (2 ^ 52 + 1) (-52))).
  split; [good_row|]. split; [good_row|]. split; [reflexivity|]. split; [reflexivity|]. split; [vm_compute; reflexivity|]. split; [reflexivity|]. split; [vm_compute; reflexivity|vm_compute; reflexivity].
Qed.
(* nextafter(0.0, -1.0) is NaN; nextafter(-0.0, 1.0) is negative *)
Theorem C153_zero_refuted : exists x y z, good x /\ good y /\ x = row Float64 [SFlt (S754_zero false); SFlt (S754_zero true)] /\ y = row Float64 [fl (-1) 1; fl 1 1] /\ binary ANextafter x y = Ok z /\
  z = row Float64 [SFlt S754_nan; SFlt (S754_finite true 1 (-1074))].
Proof.
  eexists _, _, _. split; [|split; [|split; [reflexivity|]; split; [reflexivity|]; split; [|reflexivity]]]; [good_row|good_row|vm_compute; reflexivity].
Qed.
(* float32 with int16: the step is lost when the double is rounded *)
Theorem C153_lost_step_refuted : exists x y, good x /\ good y /\ x = row Float32 [SFlt (S754_finite false 8388608 (-23))] /\ y = row Int16 [SInt 2] /\ binary ANextafter x y = Ok x.
Proof. exists (row Float32 [SFlt (S754_finite false 8388608 (-23))]), (row Int16 [SInt 2]). split; [good_row|]. split; [good_row|]. split; [reflexivity|]. split; [reflexivity|]. vm_compute; reflexivity. Qed.

(* ---- floor division and remainder of whole integer arrays (C21) ----------------------- *)
Lemma quot_rem_range a b : b <> 0 -> Z.abs (Z.rem a b) <= Z.abs a /\ Z.abs (Z.quot a b) <= Z.abs a /\ (2 <= Z.abs b -> 2 * Z.abs (Z.quot a b) <= Z.abs a).
Proof.
  intros NB. rewrite <- Z.rem_abs, <- Z.quot_abs by exact NB. rewrite Z.rem_mod_nonneg, Z.quot_div_nonneg by lia. set (p := Z.abs a). set (q := Z.abs b).
  assert (0 <= p) by (unfold p; lia). assert (0 < q) by (unfold q; lia). clearbody p q. split; [apply Z.mod_le; lia|].
  pose proof (Z.mul_div_le p q ltac:(lia)). pose proof (Z.div_pos p q ltac:(lia) ltac:(lia)). set (d := p / q) in *. clearbody d. split; [|intros HQ]; nia.
Qed.
(* two arrays of one integer dtype, no element the least integer over -1: the quotient is
   cut toward zero, the remainder goes with it, and a zero divisor gives 0 *)
Theorem C21_arrays : forall x y sh, good x -> good y -> is_integer (n_kind x) = true -> n_kind y = n_kind x ->
  broadcast_shapes (shape_of x) (shape_of y) = Some sh -> in_memory sh ->
  (forall idx a, inb idx sh -> bc_at x idx = Some (SInt a) -> bc_at y idx = Some (SInt (-1)) -> a <> fst (int_range (n_kind x))) ->
  exists q m, binary AFloorDiv x y = Ok q /\ binary AMod x y = Ok m /\ good q /\ good m /\ n_kind q = n_kind x /\ n_kind m = n_kind x /\ shape_of q = sh /\ shape_of m = sh /\
    forall idx, inb idx sh -> exists a b c d, bc_at x idx = Some (SInt a) /\ bc_at y idx = Some (SInt b) /\ item_at q idx = Some (SInt c) /\ item_at m idx = Some (SInt d) /\
      if b =? 0 then c = 0 /\ d = 0 else a = c * b + d /\ Z.abs d < Z.abs b /\ (a <> 0 -> d <> 0 -> Z.sgn d = Z.sgn a).
Proof.
  intros x y sh GX GY KI KY E HS HM. assert (real (n_kind x) = true) as R by (destruct (n_kind x); try discriminate KI; reflexivity).
  assert (forall op, op = AFloorDiv \/ op = AMod -> exists z, binary op x y = Ok z /\ good z /\ n_kind z = n_kind x /\ shape_of z = sh /\
    forall idx, inb idx sh -> exists v w r, bc_at x idx = Some v /\ bc_at y idx = Some w /\ item_at z idx = Some r /\ element (n_kind x) v /\ element (n_kind y) w /\ element (n_kind z) r /\
      exists a b, v = SInt a /\ w = SInt b /\ r = SInt (if b =? 0 then 0 else if match op with AMod => true | _ => false end then Z.rem a b else Z.quot a b)) as HO.
  { intros op HOP. assert (binary op x y = binary_plain op x y) as -> by (destruct HOP as [-> | ->]; reflexivity).
    destruct (plain_good op x y sh (fun v w r => exists a b, v = SInt a /\ w = SInt b /\ r = SInt (if b =? 0 then 0 else if match op with AMod => true | _ => false end then Z.rem a b else Z.quot a b)) GX GY R) as (z & EZ & GZ & KZ & SZ & HZ); try assumption; [rewrite KY; exact R| |].
    - intros idx v w Hi Hv Hw EV EW. rewrite KY in EW. destruct (element_int _ v (or_introl KI) EV) as (a & -> & HA). destruct (element_int _ w (or_introl KI) EW) as (b & -> & HB).
      destruct (int_of_integer _ KI) as (t & ET & HT & _ & _ & HL & HU). unfold elem_out. rewrite KY, kind_eqb_refl, promote_self by exact R.
      assert (same_elem (n_kind x) op (SInt a) (SInt b) = bind (int_bin t op a b) (fun z => Ok (SInt z))) as -> by (destruct (n_kind x); try discriminate KI; injection ET as <-; reflexivity).
      assert ((b =? -1) && (a =? i_min t) = false) as NP. { destruct (Z.eqb_spec b (-1)) as [->|]; [|reflexivity]. destruct (Z.eqb_spec a (i_min t)) as [Q|]; [|reflexivity]. exfalso. apply (HM idx a Hi Hv Hw). congruence. }
      set (c := if b =? 0 then 0 else if match op with AMod => true | _ => false end then Z.rem a b else Z.quot a b). assert (int_bin t op a b = Ok c) as ->.
      { unfold c. destruct HOP as [-> | ->]; cbn [int_bin]; rewrite NP; destruct (b =? 0); reflexivity. }
      exists (SInt c). split; [reflexivity|]. split; [|exists a, b; auto]. apply int_element; [left; exact KI|].
      assert (fst (int_range (n_kind x)) = 0 \/ fst (int_range (n_kind x)) = - snd (int_range (n_kind x)) - 1 /\ 0 < snd (int_range (n_kind x))) as KS by (destruct (n_kind x); try discriminate KI; cbn; lia).
      assert (b = -1 -> a <> fst (int_range (n_kind x))) as NM. { intros ->. apply (HM idx a Hi Hv Hw). }
      set (lo := fst (int_range (n_kind x))) in *. set (hi := snd (int_range (n_kind x))) in *. clearbody lo hi. clear - HA HB KS NM HOP.
      unfold c. clear c. destruct (Z.eqb_spec b 0) as [|NB]; [lia|]. destruct (quot_rem_range a b NB) as (RA & QA & QH).
      destruct HOP as [-> | ->].
      + destruct KS as [K0|[K1 K2]]; [pose proof (Z.quot_pos a b ltac:(lia) ltac:(lia)); lia|].
        assert (a <> lo \/ a = lo) as [NA|NA] by lia; [lia|]. assert (b <> -1) by (intros B; exact (NM B NA)). assert (b = 1 \/ 2 <= Z.abs b) as [->|B2] by lia; [rewrite Z.quot_1_r; lia|].
        specialize (QH B2). lia.
      + destruct KS as [K0|[K1 K2]]; [pose proof (Z.rem_nonneg a b NB ltac:(lia)); lia|]. assert (a <> lo \/ a = lo) as [NA|NA] by lia; [lia|].
        pose proof (Z.rem_bound_abs a b NB). lia.
    - exists z. split; [exact EZ|]. split; [exact GZ|]. split; [rewrite KZ, KY; apply promote_self; exact R|]. split; [exact SZ|exact HZ]. }
  destruct (HO AFloorDiv (or_introl eq_refl)) as (q & EQ & GQ & KQ & SQ & HQ). destruct (HO AMod (or_intror eq_refl)) as (m & EM & GM & KM & SM & HMM).
  exists q, m. repeat (split; [assumption|]). intros idx Hi. destruct (HQ idx Hi) as (v & w & r & A & B & C & _ & _ & _ & a & b & -> & -> & ->).
  destruct (HMM idx Hi) as (v' & w' & r' & A' & B' & C' & _ & _ & _ & a' & b' & -> & -> & ->). rewrite A in A'. injection A' as <-. rewrite B in B'. injection B' as <-.
  eexists a, b, _, _. split; [exact A|]. split; [exact B|]. split; [exact C|]. split; [exact C'|]. cbv iota. destruct (Z.eqb_spec b 0) as [|NB]; [auto|].
  split; [pose proof (Z.quot_rem' a b); lia|]. split; [apply Z.rem_bound_abs; exact NB|]. intros NA ND. apply Z.rem_sign_nz; assumption.
Qed.
Example C21_arrays_nonvacuous : let x := row Int8 [SInt (-7); SInt (-128); SInt 5] in let y := row Int8 [SInt 2; SInt 1; SInt 0] in
  good x /\ good y /\ in_memory [3%nat] /\ binary AFloorDiv x y = Ok (row Int8 [SInt (-3); SInt (-128); SInt 0]) /\ binary AMod x y = Ok (row Int8 [SInt (-1); SInt 0; SInt 0]).
Proof. cbv zeta. split; [good_row|]. split; [good_row|]. split; [reflexivity|]. split; vm_compute; reflexivity. Qed.

Print Assumptions C153_copysign_partial.
Print Assumptions C153_copysign_self.
Print Assumptions C153_least_refuted.
Print Assumptions C153_next_partial.
Print Assumptions C153_next_mixed_partial.
Print Assumptions C153_negative_refuted.
Print Assumptions C153_zero_refuted.
Print Assumptions C153_lost_step_refuted.
Print Assumptions C21_arrays.
