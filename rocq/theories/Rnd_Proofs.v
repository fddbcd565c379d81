(* Proofs about rounding, clipping, sign and absolute value. *)
From Coq Require Import SpecFloat.
From Verif Require Import Base Lists Int_Model Int_Proofs F64_Model Arr_Spec Arr_Model Arr_Wf Arr_Proofs Bcast_Model Bcast_Proofs Copy_Model Copy_Proofs Idx_Model Idx_Assign
  Elem_Model Elem_Proofs Rng_Model Date_Model New_Model Promo_Spec Promo_Model Promo_Proofs Promo_Props SF_Proofs SF_Arith SF_Cmp Cast_Spec Cast_Model Cast_SF Cast_Proofs Cast_Laws
  Close_Proofs Bitw_Spec Bitw_Model Bitw_Proofs Rnd_Spec Rnd_Model.
Local Open Scope Z_scope.

(* ---- one float ------------------------------------------------------------- *)
Definition rounds (op : uop) (x r : Z) : Prop :=
  match op with
  | UFloor => floor_of x r | UCeil => ceil_of x r | UTrunc => trunc_of x r | URint => nearest_of x r
  | UNeg => r = - x | UAbs => r = Z.abs x | USign => r = Z.sgn x * one | UPositive => r = x
  end.
Definition is_rounding (op : uop) : bool := match op with UFloor | UCeil | UTrunc | URint => true | _ => false end.

(* the formats: f16, f32, f64 *)
Definition a_format (prec emax : Z) : Prop := 1 < prec /\ -1074 <= SpecFloat.emin prec emax /\ SpecFloat.emin prec emax <= 0 <= emax - prec.
Lemma f64_format : a_format 53 1024. Proof. unfold a_format, SpecFloat.emin. lia. Qed.
Lemma f32_format : a_format 24 128. Proof. unfold a_format, SpecFloat.emin. lia. Qed.
Lemma f16_format : a_format 11 16. Proof. unfold a_format, SpecFloat.emin. lia. Qed.

Lemma whole_holds prec emax n : a_format prec emax -> 0 <= n < 2 ^ prec -> fmt_holds prec emax (n * one).
Proof. intros (H1 & H2 & H3) HN. exists n, 0. split; [lia|]. split; [exact H3|reflexivity]. Qed.
Lemma float_whole_value prec emax s n : a_format prec emax -> 0 <= n < 2 ^ prec ->
  float_value (float_whole prec emax s n) = Fin ((if s then - n else n) * one) /\ valid_binary prec emax (float_whole prec emax s n) = true.
Proof.
  intros H HN. pose proof (whole_holds prec emax n H HN) as HW. destruct H as (H1 & H2 & H3). destruct n as [|p|p]; [|  |lia].
  - split; [destruct s; reflexivity|reflexivity].
  - cbn [float_whole]. destruct (round_holds prec emax s p 0 ltac:(lia) H2 ltac:(lia) HW) as [A B]. split; [|exact B]. rewrite A. destruct s; reflexivity.
Qed.

Lemma round_mag_bound op s m e : 0 < m -> e < 0 -> 0 <= round_mag op s m e <= m.
Proof.
  intros HM HE. unfold round_mag. cbv zeta. set (d := 2 ^ (- e)).
  assert (2 <= d) as HD by (change 2 with (2 ^ 1) at 1; apply Z.pow_le_mono_r; lia).
  pose proof (Z.div_mod m d ltac:(lia)) as HQ. pose proof (Z.mod_pos_bound m d ltac:(lia)) as HR. pose proof (Z.div_pos m d ltac:(lia) ltac:(lia)) as HP.
  set (q := m / d) in *. set (r := m mod d) in *.
  assert (q + 1 <= m \/ r = 0) as HK by (destruct (Z.eq_dec r 0); [right; assumption|left; nia]).
  assert (q <= m) by nia.
  destruct op; try lia.
  - destruct s; cbn [andb]; [|lia]. destruct (Z.eqb_spec r 0); cbn [negb]; lia.
  - destruct s; cbn [andb negb]; [lia|]. destruct (Z.eqb_spec r 0); cbn [negb]; lia.
  - destruct (Z.leb_spec d (2 * r)); lia.
Qed.

Lemma round_mag_value op (s : bool) m e : is_rounding op = true -> 0 < m -> e < 0 -> -1074 <= e ->
  rounds op ((if s then - m else m) * 2 ^ (e + 1074)) ((if s then - round_mag op s m e else round_mag op s m e) * one).
Proof.
  intros HO HM HE HE'.
  assert (HOne : one = 2 ^ (- e) * 2 ^ (e + 1074)) by (unfold one; rewrite <- pow_add_nonneg by lia; f_equal; lia).
  pose proof (pow_pos (e + 1074) ltac:(lia)) as HP. pose proof (pow_pos (- e) ltac:(lia)) as HD. unfold round_mag. cbv zeta.
  rewrite HOne in *. unfold rounds, floor_of, ceil_of, trunc_of, nearest_of, whole. rewrite HOne. clear HOne.
  set (p := 2 ^ (e + 1074)) in *. set (d := 2 ^ (- e)) in *. clearbody p d.
  pose proof (Z.div_mod m d ltac:(lia)) as HQ. pose proof (Z.mod_pos_bound m d ltac:(lia)) as HR. pose proof (Z.div_pos m d ltac:(lia) ltac:(lia)) as HN.
  set (q := m / d) in *. set (r := m mod d) in *. clearbody q r.
  destruct op; try discriminate HO; clear HO; (split; [eexists; reflexivity|]).
  - destruct s; cbn [andb]; [destruct (Z.eqb_spec r 0); cbn [negb]|]; nia.
  - destruct s; cbn [andb negb]; [|destruct (Z.eqb_spec r 0); cbn [negb]]; nia.
  - destruct s.
    + rewrite !Z.mul_opp_l, !Z.abs_opp, !Z.abs_eq by nia. split; [nia|]. replace (- (m * p * - (q * (d * p)))) with (m * p * (q * (d * p))) by ring. apply Z.mul_nonneg_nonneg; nia.
    + rewrite !Z.abs_eq by nia. split; [nia|]. apply Z.mul_nonneg_nonneg; nia.
  - assert (forall a b, 2 * Z.abs (a - b) <= d * p -> 2 * Z.abs (- a - - b) <= d * p) as SY by (intros; lia).
    assert (2 * Z.abs (m * p - (if d <=? 2 * r then q + 1 else q) * (d * p)) <= d * p) as H.
    { destruct (Z.leb_spec d (2 * r)).
      - replace (m * p - (q + 1) * (d * p)) with ((r - d) * p) by (rewrite HQ; ring). rewrite Z.abs_mul, (Z.abs_eq p) by lia. rewrite Z.abs_neq by lia. nia.
      - replace (m * p - q * (d * p)) with (r * p) by (rewrite HQ; ring). rewrite Z.abs_eq by nia. nia. }
    destruct s; [|exact H]. rewrite !Z.mul_opp_l. apply SY. exact H.
Qed.

Lemma floor_whole x : whole x -> floor_of x x. Proof. intros H. split; [exact H|]. pose proof one_pos. lia. Qed.
Lemma rounds_whole op x : is_rounding op = true -> whole x -> rounds op x x.
Proof.
  intros HO H. pose proof one_pos. destruct op; try discriminate HO; (split; [exact H|]).
  - lia. - lia. - split; [lia|]. nia. - rewrite Z.sub_diag. cbn [Z.abs]. lia.
Qed.
Lemma finite_whole (s : bool) m e : 0 <= e -> whole ((if s then - Zpos m else Zpos m) * 2 ^ (e + 1074)).
Proof. intros H. exists ((if s then - Zpos m else Zpos m) * 2 ^ e). unfold one. rewrite <- Z.mul_assoc, <- pow_add_nonneg by lia. reflexivity. Qed.
Lemma cond_opp_if (s : bool) z : cond_Zopp s z = if s then - z else z. Proof. reflexivity. Qed.

Theorem round_float_value prec emax op x : a_format prec emax -> is_rounding op = true -> valid_binary prec emax x = true ->
  on_finite (rounds op) (float_value x) (float_value (round_float prec emax op x)) /\ valid_binary prec emax (round_float prec emax op x) = true.
Proof.
  intros HF HO V. destruct x as [s|s| |s m e]; try (split; reflexivity).
  - split; [|reflexivity]. exists 0. split; [reflexivity|]. apply rounds_whole; [exact HO|]. exists 0. reflexivity.
  - cbn [round_float]. pose proof HF as (H1 & H2 & H3). destruct (valid_inv prec emax s m e ltac:(lia) V) as (D & R & _).
    destruct (Z.leb_spec 0 e) as [L|L].
    + split; [|exact V]. cbn [float_value on_finite]. eexists. split; [reflexivity|]. apply rounds_whole; [exact HO|]. apply finite_whole. exact L.
    + pose proof (round_mag_bound op s (Zpos m) e ltac:(lia) L) as HB. pose proof (dlen_bounds m) as [_ DB].
      assert (2 ^ dlen m <= 2 ^ prec) by (apply Z.pow_le_mono_r; lia).
      destruct (float_whole_value prec emax s (round_mag op s (Zpos m) e) HF ltac:(lia)) as [A B]. split; [|exact B].
      cbn [float_value on_finite]. rewrite A. eexists. split; [reflexivity|]. apply round_mag_value; [exact HO|lia|exact L|lia].
Qed.

Definition unary_value (op : uop) (e e' : ext) : Prop :=
  match op with
  | UFloor => on_finite floor_of e e' | UCeil => on_finite ceil_of e e'
  | UTrunc => on_finite trunc_of e e' | URint => on_finite nearest_of e e'
  | UNeg => e' = ext_opp e | UAbs => e' = ext_abs e | USign => e' = ext_sgn e | UPositive => e' = e
  end.

Lemma opp_value x : float_value (SFopp x) = ext_opp (float_value x).
Proof. destruct x as [s|s| |s m e]; try reflexivity. cbn. destruct s; cbn [cond_Zopp negb]; rewrite ?Z.mul_opp_l, ?Z.opp_involutive; reflexivity. Qed.
Lemma abs_value prec emax x : a_format prec emax -> valid_binary prec emax x = true -> float_value (SFabs x) = ext_abs (float_value x).
Proof.
  intros (H1 & H2 & _) V. destruct x as [s|s| |s m e]; try reflexivity. cbn [SFabs float_value ext_abs cond_Zopp]. f_equal.
  destruct (valid_inv prec emax s m e ltac:(lia) V) as (_ & R & _). pose proof (pow_pos (e + 1074) ltac:(lia)). rewrite Z.abs_mul, (Z.abs_eq (2 ^ _)) by lia. f_equal. destruct s; reflexivity.
Qed.
Lemma opp_valid prec emax x : valid_binary prec emax (SFopp x) = valid_binary prec emax x. Proof. destruct x; reflexivity. Qed.
Lemma abs_valid prec emax x : valid_binary prec emax (SFabs x) = valid_binary prec emax x. Proof. destruct x; reflexivity. Qed.

Lemma float_one_value prec emax s : a_format prec emax -> float_value (float_one prec emax s) = Fin ((if s then -1 else 1) * one) /\ valid_binary prec emax (float_one prec emax s) = true.
Proof.
  intros H. apply (float_whole_value prec emax s 1 H). split; [lia|]. destruct H as (H & _). apply (Z.pow_gt_1 2 prec); lia.
Qed.
Lemma sign_value prec emax x : a_format prec emax -> valid_binary prec emax x = true ->
  float_value (float_unary USign prec emax x) = ext_sgn (float_value x) /\ valid_binary prec emax (float_unary USign prec emax x) = true.
Proof.
  intros HF V. destruct (float_one_value prec emax false HF) as [A1 B1]. destruct (float_one_value prec emax true HF) as [A2 B2]. pose proof HF as (H1 & H2 & _).
  destruct x as [s|s| |s m e]; cbn [float_unary is_nan SFltb SFcompare ext_sgn float_value].
  - split; reflexivity.
  - destruct s; unfold SFltb; cbn [SFcompare]; cbv iota; [rewrite A2|rewrite A1]; (split; [|assumption]); f_equal; lia.
  - split; reflexivity.
  - destruct (valid_inv prec emax s m e ltac:(lia) V) as (_ & R & _). pose proof (pow_pos (e + 1074) ltac:(lia)).
    destruct s; cbn [cond_Zopp]; [rewrite A2|rewrite A1]; (split; [|assumption]); f_equal; f_equal; rewrite Z.sgn_mul, (Z.sgn_pos (2 ^ _)) by lia; reflexivity.
Qed.

Lemma float_unary_value prec emax op x : a_format prec emax -> valid_binary prec emax x = true ->
  unary_value op (float_value x) (float_value (float_unary op prec emax x)) /\ valid_binary prec emax (float_unary op prec emax x) = true.
Proof.
  intros HF V. destruct op; cbn [float_unary unary_value].
  - apply (round_float_value prec emax UFloor); auto.
  - apply (round_float_value prec emax UCeil); auto.
  - apply (round_float_value prec emax UTrunc); auto.
  - apply (round_float_value prec emax URint); auto.
  - rewrite opp_value, opp_valid. auto.
  - rewrite abs_valid. split; [apply (abs_value prec emax); assumption|exact V].
  - apply sign_value; assumption.
  - auto.
Qed.

(* ---- every dtype ------------------------------------------------------------ *)
Lemma rounds_of_whole op x r : is_rounding op = true -> whole x -> rounds op x r -> r = x.
Proof.
  pose proof one_pos as H1. intros HO [z ->] H. assert (whole r) as [y ->] by (destruct op; try discriminate HO; apply H).
  assert (- one < z * one - y * one < one) as HD.
  { destruct op; try discriminate HO; destruct H as [_ H]; [lia|lia| |lia]. destruct H as [H HS].
    assert (0 <= z * y) by (set (o := one) in *; clearbody o; replace (z * o * (y * o)) with (z * y * (o * o)) in HS by ring; nia).
    assert (0 <= z /\ 0 <= y \/ z <= 0 /\ y <= 0) as [[HZ HY]|[HZ HY]] by nia.
    - rewrite !Z.abs_eq in H by nia. lia.
    - rewrite !Z.abs_neq in H by nia. lia. }
  f_equal. set (o := one) in *; clearbody o. nia.
Qed.
Lemma rounds_near op x r : is_rounding op = true -> rounds op x r -> whole r /\ Z.abs r < Z.abs x + one.
Proof. pose proof one_pos as H1. intros HO H. destruct op; try discriminate HO; (split; [apply H|]); destruct H as [_ H]; lia. Qed.

Lemma rounds_fits prec emax op x r : a_format prec emax -> is_rounding op = true -> valid_binary prec emax x = true ->
  on_finite (rounds op) (float_value x) r -> ext_in (fmt_holds prec emax) r.
Proof.
  intros HF HO V H. pose proof HF as (H1 & H2 & H3). pose proof (valid_holds prec emax x ltac:(lia) V H3) as HV.
  destruct x as [s|s| |s m e]; cbn [float_value on_finite] in H; try (subst r; exact I).
  - destruct H as (y & -> & H). apply rounds_of_whole in H; [|exact HO|exists 0; reflexivity]. subst y. exact HV.
  - destruct H as (y & -> & H). destruct (valid_inv prec emax s m e ltac:(lia) V) as (D & R & _). destruct (Z.leb_spec 0 e) as [L|L].
    + apply rounds_of_whole in H; [|exact HO|apply finite_whole; exact L]. subst y. exact HV.
    + apply rounds_near in H as [[z ->] HN]; [|exact HO]. cbn [ext_in].
      assert (Z.abs (cond_Zopp s (Zpos m) * 2 ^ (e + 1074)) < 2 ^ (prec - 1) * one) as HX.
      { pose proof (dlen_bounds m) as [_ DB]. assert (2 ^ dlen m <= 2 ^ prec) by (apply Z.pow_le_mono_r; lia).
        pose proof (pow_pos (e + 1074) ltac:(lia)) as HP. rewrite Z.abs_mul, (Z.abs_eq (2 ^ (e + 1074))) by lia.
        replace (Z.abs (cond_Zopp s (Zpos m))) with (Zpos m) by (destruct s; reflexivity).
        replace (2 ^ (prec - 1) * one) with (2 ^ prec * 2 ^ 1073) by (unfold one; rewrite <- !pow_add_nonneg by lia; f_equal; lia).
        assert (2 ^ (e + 1074) <= 2 ^ 1073) by (apply Z.pow_le_mono_r; lia). set (a := 2 ^ (e + 1074)) in *. set (b := 2 ^ 1073) in *. clearbody a b. nia. }
      pose proof one_pos as HO1. assert (Z.abs z <= 2 ^ (prec - 1)) as HZ.
      { rewrite Z.abs_mul, (Z.abs_eq one) in HN by lia. set (o := one) in *. clearbody o. nia. }
      assert (2 ^ (prec - 1) < 2 ^ prec) by (apply Z.pow_lt_mono_r; lia). exists z, 0. split; [lia|]. split; [exact H3|reflexivity].
Qed.
Lemma unary_fits prec emax op x r : a_format prec emax -> valid_binary prec emax x = true ->
  unary_value op (float_value x) r -> ext_in (fmt_holds prec emax) r.
Proof.
  intros HF V H. pose proof HF as (H1 & H2 & H3). pose proof (valid_holds prec emax x ltac:(lia) V H3) as HV.
  destruct op; cbn [unary_value] in H.
  - apply (rounds_fits prec emax UFloor x); auto.
  - apply (rounds_fits prec emax UCeil x); auto.
  - apply (rounds_fits prec emax UTrunc x); auto.
  - apply (rounds_fits prec emax URint x); auto.
  - subst r. destruct (float_value x); try exact I. apply fmt_opp. exact HV.
  - subst r. destruct (float_value x); try exact I. cbn [ext_abs ext_in]. destruct (Z.abs_eq_or_opp x0) as [-> | ->]; [exact HV|apply fmt_opp; exact HV].
  - subst r. assert (forall z, -1 <= z <= 1 -> fmt_holds prec emax (z * one)) as HW.
    { intros z Hz. exists z, 0. assert (1 < 2 ^ prec) by (apply Z.pow_gt_1; lia). split; [lia|]. split; [exact H3|reflexivity]. }
    destruct (float_value x) as [|s|z]; [exact I| |]; cbn [ext_sgn ext_in].
    + destruct s; [replace (- one) with (-1 * one) by lia|replace one with (1 * one) by lia]; apply HW; lia.
    + apply HW. lia.
  - subst r. exact HV.
Qed.

Lemma widen_f16 x : valid_binary 11 16 x = true -> float_value (to_format 24 128 x) = float_value x /\ valid_binary 24 128 (to_format 24 128 x) = true.
Proof.
  intros V. apply (to_format_exact 11 16 24 128); try (unfold SpecFloat.emin; lia); [exact V|].
  pose proof (valid_holds 11 16 x ltac:(lia) V ltac:(unfold SpecFloat.emin; lia)) as H. destruct (float_value x) as [| |z]; try exact I. cbn [ext_in] in *.
  destruct H as (m & e & HM & HE & ->). exists m, e. unfold SpecFloat.emin in *. split; [|split; [lia|reflexivity]]. assert (2 ^ 11 < 2 ^ 24) by reflexivity. lia.
Qed.

Definition float_part (k : kind) : bool := is_float_kind k.
Lemma kernel_value k op x : is_float_kind k = true -> valid_in k x ->
  unary_value op (float_value x) (float_value (float_kernel k op x)) /\ valid_in k (float_kernel k op x).
Proof.
  intros K V. destruct k; try discriminate K; unfold valid_in in *; cbn [format fst snd float_kernel] in *.
  - assert (op = UPositive \/ op <> UPositive) as [-> | NP] by (destruct op; auto; right; discriminate); [split; [reflexivity|exact V]|].
    replace (match op with UPositive => x | _ => to_format 11 16 (float_unary op 24 128 (to_format 24 128 x)) end) with (to_format 11 16 (float_unary op 24 128 (to_format 24 128 x))) by (destruct op; try reflexivity; congruence).
    destruct (widen_f16 x V) as [A B]. destruct (float_unary_value 24 128 op _ f32_format B) as [C D]. rewrite A in C.
    pose proof (unary_fits 11 16 op x _ f16_format V C) as HF.
    destruct (to_format_exact 24 128 11 16 _ ltac:(lia) ltac:(unfold SpecFloat.emin; lia) ltac:(lia) ltac:(unfold SpecFloat.emin; lia) D HF) as [E F]. rewrite E. split; [exact C|exact F].
  - apply (float_unary_value 24 128); [exact f32_format|exact V].
  - apply (float_unary_value 53 1024); [exact f64_format|exact V].
  - apply (float_unary_value 24 128); [exact f32_format|exact V].
  - apply (float_unary_value 53 1024); [exact f64_format|exact V].
Qed.

(* ---- arrays ------------------------------------------------------------------ *)
Lemma slice_map_spec {A W} (f : A -> res W) buf a : wf buf a -> slice_map f buf a = mapM (lift1 f buf a) (all_idx (a_shape a)).
Proof.
  intros WA. unfold slice_map. destruct (Nat.eqb_spec (size a) 0) as [H0|H0]; [rewrite all_idx_empty by exact H0; reflexivity|].
  destruct (a_c a) eqn:CA.
  - apply mapM_seq_all. intros k Hk. rewrite (contig_off buf a k WA CA) by exact Hk. apply app1_lift.
  - pose proof WA as (_ & _ & _ & HL & _). unfold iter_offsets. rewrite strided_offsets_spec, mapM_map by exact HL. reflexivity.
Qed.
(* the result of a function of one element that never fails *)
Lemma map_good k' (f : scalar -> res scalar) (g : scalar -> scalar) x m : good x -> numeric k' = true ->
  (forall v, element (n_kind x) v -> f v = Ok (g v) /\ element k' (g v)) ->
  m = mapM (lift1 f (n_buf x) (n_arr x)) (all_idx (shape_of x)) ->
  exists z, m = Ok (n_buf z) /\ z = mkN k' (n_buf z) (fresh (shape_of x) (itemsize k')) /\ good z /\
    forall idx, inb idx (shape_of x) -> exists v, item_at x idx = Some v /\ element (n_kind x) v /\ item_at z idx = Some (g v).
Proof.
  intros GX N HF ->. pose proof (item_pos k' N) as HI. assert (itemsize k' <= 16) as HI16 by (destruct k'; try discriminate N; cbn; lia).
  set (h := fun idx => match item_at x idx with Some v => g v | None => SInt 0 end).
  exists (mkN k' (map h (all_idx (shape_of x))) (fresh (shape_of x) (itemsize k'))). cbn [n_buf].
  assert (forall idx, inb idx (shape_of x) -> exists v, item_at x idx = Some v /\ element (n_kind x) v /\ h idx = g v) as HG.
  { intros idx Hi. destruct (good_item x idx GX Hi) as (v & Hv & EV). exists v. split; [exact Hv|]. split; [exact EV|]. unfold h. rewrite Hv. reflexivity. }
  split; [|split; [reflexivity|split]].
  - apply mapM_total. intros idx Hi. apply in_all_idx in Hi. destruct (HG idx Hi) as (v & Hv & EV & ->). unfold lift1. unfold item_at in Hv. rewrite Hv. cbn [of_load bind]. apply HF. exact EV.
  - split; [exact N|]. split; [|split; [|apply GX]].
    + cbn [n_buf n_arr]. destruct GX as (_ & _ & _ & HS). apply fresh_wf; [exact HI| |]; rewrite map_length, all_idx_length; [unfold shape_of; nia|reflexivity].
    + cbn [n_buf n_kind]. apply Forall_forall. intros v Hv. apply in_map_iff in Hv as (idx & <- & Hi). apply in_all_idx in Hi. destruct (HG idx Hi) as (a & _ & EA & ->). apply HF. exact EA.
  - intros idx Hi. destruct (HG idx Hi) as (v & Hv & EV & G). exists v. split; [exact Hv|]. split; [exact EV|]. unfold item_at. cbn [n_buf n_arr]. rewrite map_get by assumption. rewrite G. reflexivity.
Qed.

(* one element of floor, ..., sign *)
Definition unary_out (k : kind) (op : uop) (v : scalar) : scalar :=
  match v with
  | SFlt x => SFlt (float_kernel k op x)
  | SInt z => SInt (match k with Bool => match op with UNeg => 1 - z | _ => z end | _ => match int_of k with Some t => int_unary t op z | None => z end end)
  | SCpx x y => SCpx (float_kernel k op x) (float_kernel k op y)
  end.
Lemma unary_elem_out k op v : numeric k = true -> element k v -> (is_complex_kind k = true -> op <> UAbs /\ op <> USign) -> unary_elem k op v = Ok (unary_out k op v) /\ element k (unary_out k op v).
Proof.
  intros N EV HC. assert (is_integer k = true \/ k = Bool \/ is_float_kind k = true) as K by (destruct k; try discriminate N; auto).
  destruct K as [K|[-> |K]].
  - destruct (element_int k v (or_introl K) EV) as (a & -> & _). pose proof EV as EA. apply (int_element k a (or_introl K)) in EA.
    destruct (int_of_integer k K) as (t & E & HT & _ & HS & HL & HU). cbn [unary_elem unary_out]. rewrite E. replace (match k with Bool => _ | _ => Ok (SInt (int_unary t op a)) end) with (Ok (SInt (int_unary t op a))) by (destruct k; try discriminate K; reflexivity).
    replace (match k with Bool => _ | _ => int_unary t op a end) with (int_unary t op a) by (destruct k; try discriminate K; reflexivity). split; [reflexivity|].
    apply int_element; [left; exact K|]. rewrite <- HL, <- HU in *. destruct op; cbn [int_unary]; try exact EA; try (apply (wrap_rep t); exact HT).
    assert (i_min t <= 0 <= i_max t /\ (i_min t = 0 \/ i_min t < 0) /\ 1 <= i_max t) as HR by (rewrite HL, HU; destruct k; try discriminate K; cbn [int_range fst snd]; lia). lia.
  - destruct (element_int Bool v (or_intror eq_refl) EV) as (a & -> & _). pose proof EV as EA. apply (int_element Bool a (or_intror eq_refl)) in EA. cbn [int_range fst snd] in EA. cbn [unary_elem unary_out]. split; [reflexivity|].
    apply int_element; [right; reflexivity|]. cbn [int_range fst snd]. destruct op; lia.
  - destruct v as [z|a|a b]; [destruct k; try discriminate K; contradiction| |].
    + cbn [unary_elem unary_out]. split; [reflexivity|]. destruct k; try discriminate K; try contradiction; first [exact (proj2 (kernel_value Float16 op a eq_refl EV))|exact (proj2 (kernel_value Float32 op a eq_refl EV))|exact (proj2 (kernel_value Float64 op a eq_refl EV))].
    + cbn [unary_elem unary_out]. assert (is_complex_kind k = true) as C by (destruct k; try discriminate K; try contradiction; reflexivity). destruct (HC C) as [N1 N2].
      split; [destruct op; congruence|]. destruct k; try discriminate C; try contradiction; destruct EV as [E1 E2]; split.
      * exact (proj2 (kernel_value Complex64 op a eq_refl E1)).
      * exact (proj2 (kernel_value Complex64 op b eq_refl E2)).
      * exact (proj2 (kernel_value Complex128 op a eq_refl E1)).
      * exact (proj2 (kernel_value Complex128 op b eq_refl E2)).
Qed.

Lemma unary_spec op x : good x -> (is_complex_kind (n_kind x) = true -> op <> UAbs /\ op <> USign /\ op <> UFloor /\ op <> UCeil) ->
  exists z, unary op x = Ok z /\ good z /\ n_kind z = n_kind x /\ shape_of z = shape_of x /\
    forall idx, inb idx (shape_of x) -> exists v, item_at x idx = Some v /\ element (n_kind x) v /\ item_at z idx = Some (unary_out (n_kind x) op v).
Proof.
  intros GX HC. set (k := n_kind x).
  destruct (map_good k (unary_elem k op) (unary_out k op) x (if dispatched k op then dispatch_map (unary_elem k op) (n_buf x) (n_arr x) else trait_map (unary_elem k op) (n_buf x) (n_arr x)) GX (proj1 GX)) as (z & E & EZ & GZ & HZ).
  - intros v EV. apply unary_elem_out; [apply GX|exact EV|]. intros C. destruct (HC C) as (A & B & _). auto.
  - pose proof (proj1 (proj2 GX)) as W. destruct (dispatched k op); [apply dispatch_map_spec|apply trait_map_spec]; exact W.
  - exists z. split; [|split; [exact GZ|split; [rewrite EZ; reflexivity|split; [rewrite EZ; reflexivity|exact HZ]]]].
    unfold unary. fold k. destruct (is_complex_kind k) eqn:C.
    + destruct (HC C) as (_ & _ & N1 & N2). rewrite E. destruct op; try congruence; cbn [bind]; f_equal; symmetry; exact EZ.
    + rewrite E. cbn [bind]. f_equal. symmetry. exact EZ.
Qed.

(* the value of the element *)
Lemma unary_out_value k op v : real k = true -> element k v -> is_rounding op = true \/ is_float_kind k = true ->
  unary_value op (real_value v) (real_value (unary_out k op v)).
Proof.
  intros R EV H. destruct v as [z|a|a b].
  - assert (is_rounding op = true) as HO by (destruct H as [H|H]; [exact H|destruct k; try discriminate H; contradiction]).
    assert (real_value (unary_out k op (SInt z)) = real_value (SInt z)) as ->.
    { cbn [unary_out]. do 2 f_equal. destruct k; try discriminate R; destruct op; try discriminate HO; reflexivity. }
    assert (on_finite (rounds op) (Fin (z * one)) (Fin (z * one))) as HR by (exists (z * one); split; [reflexivity|apply rounds_whole; [exact HO|exists z; reflexivity]]).
    unfold real_value. cbn [value fst]. destruct op; try discriminate HO; exact HR.
  - unfold real_value. cbn [unary_out value fst]. apply kernel_value; destruct k; try discriminate R; try contradiction; try reflexivity; exact EV.
  - destruct k; try discriminate R; contradiction.
Qed.

(* ---- clip ---------------------------------------------------------------------- *)
Definition clip_ext (lo hi : option ext) (e : ext) : ext :=
  let e1 := match lo with Some l => if says CLt (ext_compare e l) then l else e | None => e end in
  match hi with Some h => if says CGt (ext_compare e1 h) then h else e1 | None => e1 end.
Definition not_nan (o : option ext) : Prop := o <> Some NaN.
Ltac cmp_cases := repeat match goal with
  | |- context[?a ?= ?b] => destruct (Z.compare_spec a b)
  | H : context[?a ?= ?b] |- _ => destruct (Z.compare_spec a b)
  end.
Ltac split_ext := repeat match goal with
  | e : ext |- _ => destruct e as [|[|]|?]
  end.
Ltac refl_nan := match goal with H : not_nan (Some NaN) |- _ => exfalso; apply H; reflexivity | _ => idtac end.
Ltac ext_simp := cbn [clip_ext limited ext_le ext_lt says ext_compare]; unfold ext_le, ext_lt; cbn [says ext_compare]; rewrite ?Z.compare_refl.
Lemma ext_le_refl e : e <> NaN -> ext_le e e.
Proof. intros H. unfold ext_le. destruct e as [|s|x]; [congruence|destruct s; exact I|]. cbn. rewrite Z.compare_refl. exact I. Qed.
Lemma ext_lt_le e f : ext_lt e f -> ext_le e f. Proof. unfold ext_lt, ext_le. intros ->. exact I. Qed.
Lemma ext_total e f : e <> NaN -> f <> NaN -> ext_lt e f \/ e = f \/ ext_lt f e.
Proof.
  intros HE HF. unfold ext_lt. rewrite (ext_antisym e f). destruct e as [|s|x], f as [|t|y]; try congruence; cbn.
  - destruct s, t; cbn; auto.
  - destruct s; cbn; auto.
  - destruct t; cbn; auto.
  - destruct (Z.compare_spec x y) as [-> |H|H]; auto.
Qed.
Lemma ext_lt_trans e f g : ext_lt e f -> ext_lt f g -> ext_lt e g.
Proof.
  unfold ext_lt. destruct e as [|s|x], f as [|t|y], g as [|u|z]; cbn; try discriminate; try (destruct s; try discriminate); try (destruct t; try discriminate); try (destruct u; try discriminate); intros H1 H2; try reflexivity; try discriminate H1; try discriminate H2.
  injection H1 as H1. injection H2 as H2. f_equal. rewrite Z.compare_lt_iff in *. lia.
Qed.
Lemma ext_lt_irrefl e : ~ ext_lt e e.
Proof. unfold ext_lt. destruct e as [|s|x]; cbn; [discriminate|destruct s; discriminate|rewrite Z.compare_refl; discriminate]. Qed.
Lemma ext_le_iff e f : e <> NaN -> f <> NaN -> (ext_le e f <-> ~ ext_lt f e).
Proof.
  intros HE HF. unfold ext_le, ext_lt. rewrite (ext_antisym e f). destruct (ext_compare e f) as [[]|] eqn:E; cbn; split; intros H; try exact I; try discriminate; try contradiction.
  all: first [apply H; reflexivity|destruct e, f; try discriminate E; congruence].
Qed.
Lemma ext_lt_not_nan e f : ext_lt e f -> e <> NaN /\ f <> NaN.
Proof. unfold ext_lt. destruct e, f; cbn; try discriminate; intros _; split; discriminate. Qed.
Lemma says_lt e f : says CLt (ext_compare e f) = true <-> ext_lt e f.
Proof. unfold ext_lt. destruct (ext_compare e f) as [[]|]; cbn; split; congruence. Qed.
Lemma says_gt e f : says CGt (ext_compare e f) = true <-> ext_lt f e.
Proof. unfold ext_lt. rewrite (ext_antisym e f). destruct (ext_compare e f) as [[]|]; cbn; split; congruence. Qed.

Theorem clip_ext_limited lo hi e : not_nan lo -> not_nan hi -> limited lo hi e (clip_ext lo hi e).
Proof.
  intros NL NH. unfold limited, clip_ext. cbv zeta.
  assert (e = NaN \/ e <> NaN) as [-> | NE] by (destruct e; auto; right; discriminate).
  { destruct lo as [l|]; [change (says CLt (ext_compare NaN l)) with false; cbv iota|]; (destruct hi as [h|]; [|reflexivity]); reflexivity. }
  set (e1 := match lo with Some l => if says CLt (ext_compare e l) then l else e | None => e end).
  assert (e1 = e /\ match lo with Some l => ~ ext_lt e l | None => True end \/ lo = Some e1 /\ ext_lt e e1) as H1.
  { unfold e1. destruct lo as [l|]; [|left; split; [reflexivity|exact I]]. destruct (says CLt (ext_compare e l)) eqn:E.
    - right. split; [reflexivity|]. apply says_lt. exact E.
    - left. split; [reflexivity|]. intros H. apply says_lt in H. congruence. }
  assert (e1 <> NaN) as NE1 by (destruct H1 as [[-> _]|[H _]]; [exact NE|intros X; apply NL; rewrite H; f_equal; exact X]). clearbody e1.
  assert (forall l, lo = Some l -> l <> NaN) as NL' by (intros l -> X; apply NL; f_equal; exact X).
  assert (forall h, hi = Some h -> h <> NaN) as NH' by (intros h -> X; apply NH; f_equal; exact X). clear NL NH.
  assert (match e with NaN => NaN = NaN | _ => True end) as _ by (destruct e; exact I || reflexivity).
  set (r := match hi with Some h => if says CGt (ext_compare e1 h) then h else e1 | None => e1 end).
  cut (match hi with Some h => ext_le r h | None => True end /\
       (r = e \/ lo = Some r /\ ext_lt e r \/ hi = Some r /\ (ext_lt r e \/ match lo with Some l => ext_lt r l | None => False end)) /\
       (match lo, hi with Some l, Some h => ext_le l h | _, _ => True end -> match lo with Some l => ext_le l r | None => True end)).
  { intros H. destruct e; [congruence|exact H|exact H]. }
  unfold r. destruct hi as [h|].
  - pose proof (NH' h eq_refl) as NH. destruct (says CGt (ext_compare e1 h)) eqn:E.
    + apply says_gt in E. split; [apply ext_le_refl; exact NH|]. split.
      * right. right. split; [reflexivity|]. destruct H1 as [[-> _]|[-> H]]; [left; exact E|right; exact E].
      * intros H. destruct lo; [exact H|exact I].
    + assert (~ ext_lt h e1) as HN by (intros X; apply says_gt in X; congruence). split; [apply ext_le_iff; assumption|]. split.
      * destruct H1 as [[-> _]|[HL HS]]; [left; reflexivity|right; left; split; [exact HL|exact HS]].
      * intros _. destruct lo as [l|]; [|exact I]. pose proof (NL' l eq_refl) as NL. destruct H1 as [[-> H]|[H _]]; [apply ext_le_iff; assumption|injection H as ->; apply ext_le_refl; exact NE1].
  - split; [exact I|]. split.
    + destruct H1 as [[-> _]|[HL HS]]; [left; reflexivity|right; left; split; [exact HL|exact HS]].
    + intros _. destruct lo as [l|]; [|exact I]. pose proof (NL' l eq_refl) as NL. destruct H1 as [[-> H]|[H _]]; [apply ext_le_iff; assumption|injection H as ->; apply ext_le_refl; exact NE1].
Qed.

(* a bound that is a number of the dtype *)
Definition bound (k : kind) (b : option spec_float) : Prop :=
  match b with Some m => valid_in Float64 m /\ float_value m <> NaN /\ holds_value k (float_value m, Fin 0) | None => True end.
Definition bound_value (b : option spec_float) : option ext := option_map float_value b.
Lemma bound_not_nan k b : bound k b -> not_nan (bound_value b).
Proof. unfold not_nan. destruct b as [m|]; cbn; [|discriminate]. intros (_ & H & _) E. injection E as E. exact (H E). Qed.

Lemma clip_elem_value k lo hi v : real k = true -> element k v -> bound k lo -> bound k hi ->
  real_value (clip_elem k lo hi v) = clip_ext (bound_value lo) (bound_value hi) (real_value v) /\ element k (clip_elem k lo hi v).
Proof.
  intros R EV BL BH. assert (numeric k = true) as N by (apply real_numeric; exact R). unfold clip_elem, clip_ext. cbv zeta.
  set (v1 := match lo with Some m => if cmp_elem k CLt v (write_f64 k m) then write_f64 k m else v | None => v end).
  set (e1 := match bound_value lo with Some l => if says CLt (ext_compare (real_value v) l) then l else real_value v | None => real_value v end).
  assert (real_value v1 = e1 /\ element k v1) as [E1 EV1].
  { unfold v1, e1. destruct lo as [m|]; [|split; [reflexivity|exact EV]]. cbn [bound_value option_map]. destruct BL as (V & _ & HH). destruct (write_exact k m N V HH) as [A B].
    assert (real_value (write_f64 k m) = float_value m) as C by (unfold real_value; rewrite A; reflexivity).
    rewrite (cmp_elem_real k CLt v _ R EV B), C. destruct (says CLt _); [split; [exact C|exact B]|split; [reflexivity|exact EV]]. }
  clearbody v1 e1. subst e1. destruct hi as [m|]; [|split; [reflexivity|exact EV1]]. cbn [bound_value option_map]. destruct BH as (V & _ & HH). destruct (write_exact k m N V HH) as [A B].
  assert (real_value (write_f64 k m) = float_value m) as C by (unfold real_value; rewrite A; reflexivity).
  rewrite (cmp_elem_real k CGt v1 _ R EV1 B), C. destruct (says CGt _); [split; [exact C|exact B]|split; [reflexivity|exact EV1]].
Qed.

Lemma clip_f64_value lo hi x : valid_binary 53 1024 x = true -> bound Float64 lo -> bound Float64 hi ->
  float_value (clip_f64 lo hi x) = clip_ext (bound_value lo) (bound_value hi) (float_value x) /\ valid_binary 53 1024 (clip_f64 lo hi x) = true /\
  (clip_f64 lo hi x = x \/ lo = Some (clip_f64 lo hi x) \/ hi = Some (clip_f64 lo hi x)).
Proof.
  intros V BL BH. unfold clip_f64, clip_ext. cbv zeta.
  set (v1 := match lo with Some m => if SFltb x m then m else x | None => x end).
  set (e1 := match bound_value lo with Some l => if says CLt (ext_compare (float_value x) l) then l else float_value x | None => float_value x end).
  assert (float_value v1 = e1 /\ valid_binary 53 1024 v1 = true /\ (v1 = x \/ lo = Some v1)) as (E1 & EV1 & C1).
  { unfold v1, e1. destruct lo as [m|]; [|auto]. cbn [bound_value option_map]. destruct BL as (VM & _ & HH). change (SFltb x m) with (float_cmp CLt x m).
    rewrite (float_cmp_value 53 1024 CLt x m ltac:(lia) ltac:(vm_compute; discriminate) V VM). destruct (says CLt _); auto. }
  clearbody v1 e1. subst e1. destruct hi as [m|]; [|split; [reflexivity|split; [exact EV1|tauto]]]. cbn [bound_value option_map]. destruct BH as (VM & _ & HH). change (SFltb m v1) with (float_cmp CGt v1 m).
  rewrite (float_cmp_value 53 1024 CGt v1 m ltac:(lia) ltac:(vm_compute; discriminate) EV1 VM). destruct (says CGt _); [auto|split; [reflexivity|split; [exact EV1|tauto]]].
Qed.

Definition clip_out (k : kind) (lo hi : option spec_float) (v : scalar) : scalar :=
  if clip_typed k then clip_elem k lo hi v else write_f64 k (clip_f64 lo hi (as_f64 v)).
Lemma bound_f64 k b : bound k b -> bound Float64 b.
Proof.
  destruct b as [m|]; [|exact (fun x => x)]. intros (V & NN & HH). split; [exact V|]. split; [exact NN|]. split; [|reflexivity].
  apply (valid_holds 53 1024 m ltac:(lia) V). unfold SpecFloat.emin. lia.
Qed.
Lemma clip_out_value k lo hi v : real k = true -> element k v -> bound k lo -> bound k hi ->
  real_value (clip_out k lo hi v) = clip_ext (bound_value lo) (bound_value hi) (real_value v) /\ element k (clip_out k lo hi v).
Proof.
  intros R EV BL BH. unfold clip_out. destruct (clip_typed k) eqn:T; [apply clip_elem_value; assumption|].
  assert (numeric k = true) as N by (apply real_numeric; exact R).
  assert (fits v) as FV by (apply (narrow_fits k v R); [destruct k; try discriminate T; try discriminate R; reflexivity|exact EV]).
  destruct (as_f64_value k v R EV FV) as [A B].
  destruct (clip_f64_value lo hi (as_f64 v) B (bound_f64 k lo BL) (bound_f64 k hi BH)) as (C & D & HC).
  assert (holds_value k (float_value (clip_f64 lo hi (as_f64 v)), Fin 0)) as HH.
  { destruct HC as [HC|[HC|HC]].
    - rewrite HC, A. pose proof (element_holds k v N EV) as H. rewrite (element_value k v R EV) in H. exact H.
    - rewrite HC in BL. apply BL.
    - rewrite HC in BH. apply BH. }
  destruct (write_exact k _ N D HH) as [E F]. split; [|exact F]. unfold real_value at 1. rewrite E. cbn [fst]. rewrite C, A. reflexivity.
Qed.
