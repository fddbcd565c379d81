(* Claims C146 (floor, ceil, trunc, rint), C147 (round), C148 (clip), C149 (negative,
   absolute, sign). *)
From Coq Require Import SpecFloat.
From Verif Require Import Base Lists Int_Model Int_Proofs F64_Model Arr_Spec Arr_Model Arr_Wf Arr_Proofs Wf_Check Bcast_Model Bcast_Proofs Copy_Model Copy_Proofs Idx_Model Idx_Assign
  Elem_Model Elem_Proofs Rng_Model Date_Model New_Model Promo_Spec Promo_Model Promo_Proofs Promo_Props SF_Proofs SF_Arith SF_Cmp Cast_Spec Cast_Model Cast_SF Cast_Proofs Cast_Laws Cast_Props
  Close_Proofs Bitw_Spec Bitw_Model Bitw_Proofs Rnd_Spec Rnd_Model Rnd_Proofs Rnd_Round.
Local Open Scope Z_scope.

(* z has the dtype and shape of x, and its elements are related to those of x by R *)
Definition each (R : ext -> ext -> Prop) (x z : narr) : Prop :=
  n_kind z = n_kind x /\ shape_of z = shape_of x /\
  forall idx, inb idx (shape_of x) -> exists v w, item_at x idx = Some v /\ item_at z idx = Some w /\ R (real_value v) (real_value w).
Definition fl (n d : Z) : scalar := SFlt (fdiv (f64_int n) (f64_int d)).

(* ---- C146 ------------------------------------------------------------------- *)
Lemma rounding_each op x : good x -> real (n_kind x) = true -> is_rounding op = true ->
  exists z, unary op x = Ok z /\ good z /\ each (unary_value op) x z.
Proof.
  intros G R HO. destruct (unary_spec op x G) as (z & E & GZ & K & HS & HZ).
  { intros C. unfold real in R. rewrite C in R. rewrite andb_false_r in R. discriminate R. }
  exists z. split; [exact E|]. split; [exact GZ|]. split; [exact K|]. split; [exact HS|].
  intros idx Hi. destruct (HZ idx Hi) as (v & Hv & EV & Hz). exists v, (unary_out (n_kind x) op v). split; [exact Hv|]. split; [exact Hz|].
  apply unary_out_value; [exact R|exact EV|left; exact HO].
Qed.
(* floor(a): every element rounded down, whatever the real dtype *)
Theorem C146_floor : forall x, good x -> real (n_kind x) = true ->
  exists z, unary UFloor x = Ok z /\ each (on_finite floor_of) x z.
Proof. intros x G R. destruct (rounding_each UFloor x G R eq_refl) as (z & E & _ & H). exists z. auto. Qed.
Theorem C146_ceil : forall x, good x -> real (n_kind x) = true ->
  exists z, unary UCeil x = Ok z /\ each (on_finite ceil_of) x z.
Proof. intros x G R. destruct (rounding_each UCeil x G R eq_refl) as (z & E & _ & H). exists z. auto. Qed.
Theorem C146_trunc : forall x, good x -> real (n_kind x) = true ->
  exists z, unary UTrunc x = Ok z /\ each (on_finite trunc_of) x z.
Proof. intros x G R. destruct (rounding_each UTrunc x G R eq_refl) as (z & E & _ & H). exists z. auto. Qed.
(* rint(a): a nearest whole number.  _partial: of two equally near NumPy takes the even
   one; C146_ties_refuted *)
Theorem C146_rint_partial : forall x, good x -> real (n_kind x) = true ->
  exists z, unary URint x = Ok z /\ each (on_finite nearest_of) x z.
Proof. intros x G R. destruct (rounding_each URint x G R eq_refl) as (z & E & _ & H). exists z. auto. Qed.
Example C146_floor_nonvacuous :
  let x := row Float64 [fl 7 2; fl (-7) 2; fl 1 2; SFlt S754_nan; SFlt (S754_infinity true)] in
  good x /\ real (n_kind x) = true /\
  unary UFloor x = Ok (row Float64 [fl 3 1; fl (-4) 1; SFlt (S754_zero false); SFlt S754_nan; SFlt (S754_infinity true)]) /\
  unary UCeil x = Ok (row Float64 [fl 4 1; fl (-3) 1; fl 1 1; SFlt S754_nan; SFlt (S754_infinity true)]) /\
  unary UTrunc x = Ok (row Float64 [fl 3 1; fl (-3) 1; SFlt (S754_zero false); SFlt S754_nan; SFlt (S754_infinity true)]) /\
  unary URint (row Float64 [fl 13 4; fl (-15) 4]) = Ok (row Float64 [fl 3 1; fl (-4) 1]).
Proof. cbv zeta. split; [good_row|]. repeat (split; [vm_compute; reflexivity|]). vm_compute; reflexivity. Qed.

(* the sign bit of a float, zeros and infinities included *)
Definition minus_sign (v : scalar) : option bool :=
  match v with SFlt (S754_zero s) | SFlt (S754_infinity s) | SFlt (S754_finite s _ _) => Some s | _ => None end.
Definition each_sign (f : bool -> bool) (x z : narr) : Prop :=
  forall idx, inb idx (shape_of x) -> exists v w, item_at x idx = Some v /\ item_at z idx = Some w /\ minus_sign w = option_map f (minus_sign v).
Lemma round_signed prec emax s m e : minus_sign (SFlt (binary_round prec emax s m e)) = Some s \/ binary_round prec emax s m e = S754_nan.
Proof.
  unfold binary_round. destruct (shl_align m e _) as [mz ez]. unfold binary_round_aux.
  destruct (shr_fexp prec emax (Zpos mz) ez loc_Exact) as [mrs' e']. destruct (shr_fexp prec emax _ e' loc_Exact) as [mrs'' e'']. destruct (shr_m mrs'').
  - left. reflexivity.
  - left. destruct (e'' <=? emax - prec); reflexivity.
  - right. reflexivity.
Qed.
Lemma to_format_signed prec emax x : minus_sign (SFlt (to_format prec emax x)) = minus_sign (SFlt x) \/ to_format prec emax x = S754_nan.
Proof. destruct x as [s|s| |s m e]; try (left; reflexivity). cbn [to_format minus_sign]. apply round_signed. Qed.
Definition sign_rule (op : uop) (s : bool) : bool := match op with UNeg => negb s | UAbs => false | _ => s end.
Lemma unary_signed prec emax op x : op <> USign -> 
  minus_sign (SFlt (float_unary op prec emax x)) = option_map (sign_rule op) (minus_sign (SFlt x)) \/ float_unary op prec emax x = S754_nan.
Proof.
  intros NS. assert (forall op', minus_sign (SFlt (round_float prec emax op' x)) = minus_sign (SFlt x) \/ round_float prec emax op' x = S754_nan) as HR.
  { intros op'. destruct x as [s|s| |s m e]; try (left; reflexivity). cbn [round_float minus_sign]. destruct (0 <=? e); [left; reflexivity|].
    unfold float_whole. destruct (round_mag op' s (Zpos m) e); [left; reflexivity|apply round_signed|left; reflexivity]. }
  assert (forall o : option bool, option_map (fun s => s) o = o) as ID by (intros [?|]; reflexivity).
  destruct op; try contradiction; cbn [float_unary sign_rule]; try (rewrite ID; first [apply HR|left; reflexivity]); left; destruct x; reflexivity.
Qed.
Lemma sign_each op x : good x -> is_float_kind (n_kind x) = true -> real (n_kind x) = true -> op <> USign ->
  exists z, unary op x = Ok z /\ each_sign (sign_rule op) x z.
Proof.
  intros G KF R NS. assert (HC : is_complex_kind (n_kind x) = false) by (unfold real in R; destruct (is_complex_kind (n_kind x)); [rewrite andb_false_r in R; discriminate R|reflexivity]).
  destruct (unary_spec op x G) as (z & E & GZ & K & HS & HZ); [rewrite HC; discriminate|]. exists z. split; [exact E|]. intros idx Hi.
  destruct (HZ idx Hi) as (v & Hv & EV & Hz). exists v, (unary_out (n_kind x) op v). split; [exact Hv|]. split; [exact Hz|].
  pose proof (unary_out_value (n_kind x) op v R EV (or_intror KF)) as HV.
  destruct v as [a|a|a b]; [destruct (n_kind x); try discriminate KF; contradiction| |destruct (n_kind x); try discriminate HC; contradiction].
  cbn [unary_out] in *. 
  assert (minus_sign (SFlt (float_kernel (n_kind x) op a)) = option_map (sign_rule op) (minus_sign (SFlt a)) \/ float_kernel (n_kind x) op a = S754_nan) as H.
  { destruct (n_kind x); try discriminate KF; try discriminate HC; cbn [float_kernel]; try (apply unary_signed; exact NS).
    assert (minus_sign (SFlt (to_format 11 16 (float_unary op 24 128 (to_format 24 128 a)))) = option_map (sign_rule op) (minus_sign (SFlt a)) \/ to_format 11 16 (float_unary op 24 128 (to_format 24 128 a)) = S754_nan) as HH.
    { destruct (to_format_signed 11 16 (float_unary op 24 128 (to_format 24 128 a))) as [A|A]; [|right; exact A].
      destruct (unary_signed 24 128 op (to_format 24 128 a) NS) as [B|B]; [|right; rewrite B; reflexivity].
      destruct (to_format_signed 24 128 a) as [C|C]; [left; rewrite A, B, C; reflexivity|right; rewrite C; destruct op; try contradiction; reflexivity]. }
    destruct op; try exact HH. left. destruct a; reflexivity. }
  destruct H as [H|H]; [exact H|]. rewrite H in *. destruct a as [s|s| |s m e]; cbn [real_value float_value unary_value on_finite ext_opp ext_abs] in HV; destruct op; try contradiction;
    cbn [real_value float_value unary_value on_finite ext_opp ext_abs] in HV; try discriminate HV; try reflexivity; destruct HV as (? & HV & _); discriminate HV.
Qed.
(* rounding keeps the sign, also of a zero: ceil(-0.5) is -0.0 *)
Theorem C146_sign : forall op x, good x -> is_float_kind (n_kind x) = true -> real (n_kind x) = true -> is_rounding op = true ->
  exists z, unary op x = Ok z /\ each_sign (fun s => s) x z.
Proof. intros op x G KF R HO. destruct (sign_each op x G KF R) as (z & E & H); [intros ->; discriminate HO|]. exists z. split; [exact E|]. destruct op; try discriminate HO; exact H. Qed.
Example C146_sign_nonvacuous : unary UCeil (row Float64 [fl (-1) 2]) = Ok (row Float64 [SFlt (S754_zero true)]).
Proof. vm_compute. reflexivity. Qed.

(* two equally near: away from zero, so rint(0.5) = 1 and rint(2.5) = 3 are odd *)
Theorem C146_ties_refuted : exists x z v w, good x /\ n_kind x = Float64 /\ unary URint x = Ok z /\
  item_at x [0%nat] = Some v /\ item_at z [0%nat] = Some w /\
  forall a b, real_value v = Fin a -> real_value w = Fin b -> ~ nearest_even_multiple one a b.
Proof.
  exists (row Float64 [fl 5 2]), (row Float64 [fl 3 1]), (fl 5 2), (fl 3 1). split; [good_row|]. repeat (split; [vm_compute; reflexivity|]).
  intros a b HA HB (k & E & _ & EV). assert (real_value (fl 3 1) = Fin (3 * one)) as H3 by (vm_compute; reflexivity).
  assert (real_value (fl 5 2) = Fin (5 * 2 ^ 1073)) as H5 by (vm_compute; reflexivity). rewrite H3 in HB. apply fin_inj in HB. rewrite H5 in HA. apply fin_inj in HA.
  rewrite <- HB in E. apply Z.mul_cancel_r in E; [|apply one_nz]. rewrite <- E in EV. rewrite <- HA, <- HB in EV. specialize (EV ltac:(vm_compute; reflexivity)). discriminate EV.
Qed.
Theorem C146_half_refuted : exists x, good x /\ n_kind x = Float64 /\ x = row Float64 [fl 1 2; fl 3 2; fl (-1) 2] /\
  unary URint x = Ok (row Float64 [fl 1 1; fl 2 1; fl (-1) 1]).
Proof. exists (row Float64 [fl 1 2; fl 3 2; fl (-1) 2]). split; [good_row|]. split; [reflexivity|]. split; [reflexivity|]. vm_compute; reflexivity. Qed.

(* complex arrays have no floor and ceil *)
Theorem C146_complex : forall x, is_complex_kind (n_kind x) = true -> unary UFloor x = Err /\ unary UCeil x = Err.
Proof. intros x C. unfold unary. rewrite C. split; reflexivity. Qed.
Example C146_complex_nonvacuous : unary UFloor (row Complex128 [SCpx (f64_int 1) (f64_int 2)]) = Err.
Proof. reflexivity. Qed.

(* ceil(a) = -floor(-a) *)
Theorem C146_mirror : forall x, good x -> is_float_kind (n_kind x) = true -> real (n_kind x) = true ->
  exists n f g c, unary UNeg x = Ok n /\ unary UFloor n = Ok f /\ unary UNeg f = Ok g /\ unary UCeil x = Ok c /\
    forall idx, inb idx (shape_of x) -> exists v w, item_at g idx = Some v /\ item_at c idx = Some w /\ real_value v = real_value w.
Proof.
  intros x G KF R. assert (HC : is_complex_kind (n_kind x) = false) by (unfold real in R; destruct (is_complex_kind (n_kind x)); [rewrite andb_false_r in R; discriminate R|reflexivity]).
  assert (forall op x', good x' -> n_kind x' = n_kind x -> exists z, unary op x' = Ok z /\ good z /\ each (unary_value op) x' z) as ST.
  { intros op x' G' K'. destruct (unary_spec op x' G') as (z & E & GZ & K & HS & HZ); [rewrite K', HC; discriminate|].
    exists z. split; [exact E|]. split; [exact GZ|]. split; [exact K|]. split; [exact HS|]. intros idx Hi. destruct (HZ idx Hi) as (v & Hv & EV & Hz).
    exists v, (unary_out (n_kind x') op v). split; [exact Hv|]. split; [exact Hz|]. apply unary_out_value; [rewrite K'; exact R|exact EV|right; rewrite K'; exact KF]. }
  destruct (ST UNeg x G eq_refl) as (n & E1 & G1 & K1 & S1 & H1). destruct (ST UFloor n G1 K1) as (f & E2 & G2 & K2 & S2 & H2).
  destruct (ST UNeg f G2 ltac:(congruence)) as (g & E3 & G3 & K3 & S3 & H3). destruct (ST UCeil x G eq_refl) as (c & E4 & _ & K4 & S4 & H4).
  exists n, f, g, c. repeat (split; [assumption|]). intros idx Hi.
  destruct (H1 idx Hi) as (v1 & w1 & I1 & J1 & R1). destruct (H2 idx ltac:(congruence)) as (v2 & w2 & I2 & J2 & R2). rewrite S1 in S2.
  destruct (H3 idx ltac:(congruence)) as (v3 & w3 & I3 & J3 & R3). destruct (H4 idx Hi) as (v4 & w4 & I4 & J4 & R4).
  assert (v2 = w1) as -> by congruence. assert (v3 = w2) as -> by congruence. assert (v4 = v1) as -> by congruence.
  exists w3, w4. split; [exact J3|]. split; [exact J4|]. cbn [unary_value] in *. rewrite R3. rewrite R1 in R2.
  destruct (real_value v1) as [|s|a]; cbn [ext_opp on_finite] in *.
  - rewrite R2, R4. reflexivity.
  - rewrite R2, R4. cbn [ext_opp]. rewrite negb_involutive. reflexivity.
  - destruct R2 as (r & -> & R2). destruct R4 as (r' & -> & R4). cbn [ext_opp]. f_equal. apply floor_ceil in R2. rewrite Z.opp_involutive in R2. eapply ceil_unique; eassumption.
Qed.
Example C146_mirror_nonvacuous : let x := row Float32 [SFlt (SFdiv 24 128 (binary_normalize 24 128 7 0 false) (binary_normalize 24 128 2 0 false))] in
  good x /\ is_float_kind (n_kind x) = true /\ real (n_kind x) = true.
Proof. cbv zeta. split; [good_row|]. split; reflexivity. Qed.

(* floor <= trunc, rint <= ceil; and rounding a second time changes nothing *)
Theorem C146_order : forall op x, good x -> real (n_kind x) = true -> is_rounding op = true ->
  exists f z c, unary UFloor x = Ok f /\ unary op x = Ok z /\ unary UCeil x = Ok c /\
    forall idx, inb idx (shape_of x) -> exists u v w, item_at f idx = Some u /\ item_at z idx = Some v /\ item_at c idx = Some w /\
      (real_value u = NaN /\ real_value v = NaN /\ real_value w = NaN \/ ext_le (real_value u) (real_value v) /\ ext_le (real_value v) (real_value w)).
Proof.
  intros op x G R HO. destruct (rounding_each UFloor x G R eq_refl) as (f & E1 & _ & _ & _ & H1). destruct (rounding_each op x G R HO) as (z & E2 & _ & _ & _ & H2).
  destruct (rounding_each UCeil x G R eq_refl) as (c & E3 & _ & _ & _ & H3). exists f, z, c. repeat (split; [assumption|]). intros idx Hi.
  destruct (H1 idx Hi) as (v1 & w1 & I1 & J1 & R1). destruct (H2 idx Hi) as (v2 & w2 & I2 & J2 & R2). destruct (H3 idx Hi) as (v3 & w3 & I3 & J3 & R3).
  assert (v2 = v1) as -> by congruence. assert (v3 = v1) as -> by congruence. exists w1, w2, w3. repeat (split; [assumption|]).
  assert (on_finite (rounds op) (real_value v1) (real_value w2)) as R2' by (destruct op; try discriminate HO; exact R2). clear R2. cbn [unary_value] in *.
  destruct (real_value v1) as [|s|a]; cbn [on_finite] in *.
  - left. rewrite R1, R2', R3. auto.
  - right. rewrite R1, R2', R3. destruct s; split; exact I.
  - right. destruct R1 as (r1 & -> & R1). destruct R2' as (r2 & -> & R2). destruct R3 as (r3 & -> & R3). unfold ext_le. cbn [ext_compare].
    pose proof (floor_le_rounds op a r1 r2 HO R1 R2). pose proof (rounds_le_ceil op a r3 r2 HO R3 R2). split; [destruct (Z.compare_spec r1 r2)|destruct (Z.compare_spec r2 r3)]; try exact I; lia.
Qed.
Theorem C146_idempotent : forall op x, good x -> real (n_kind x) = true -> is_rounding op = true ->
  exists y z, unary op x = Ok y /\ unary op y = Ok z /\ each eq y z.
Proof.
  intros op x G R HO. destruct (rounding_each op x G R HO) as (y & E1 & GY & K1 & S1 & H1).
  destruct (rounding_each op y GY ltac:(rewrite K1; exact R) HO) as (z & E2 & _ & K2 & S2 & H2). exists y, z. split; [exact E1|]. split; [exact E2|].
  split; [exact K2|]. split; [exact S2|]. intros idx Hi. destruct (H2 idx Hi) as (v2 & w2 & I2 & J2 & R2). destruct (H1 idx ltac:(congruence)) as (v1 & w1 & I1 & J1 & R1).
  assert (v2 = w1) as -> by congruence. exists w1, w2. split; [exact I2|]. split; [exact J2|].
  assert (forall e e', unary_value op e e' -> on_finite (rounds op) e e') as HV by (intros e e' H; destruct op; try discriminate HO; exact H). apply HV in R1, R2.
  destruct (real_value v1) as [|s|a]; cbn [on_finite] in R1; [rewrite R1 in *; symmetry; exact R2|rewrite R1 in *; symmetry; exact R2|].
  destruct R1 as (r & E & R1). rewrite E in *. cbn [on_finite] in R2. destruct R2 as (r' & -> & R2). f_equal. symmetry. eapply rounds_of_whole; [exact HO| |exact R2]. apply (rounds_near op a r HO R1).
Qed.
(* floor and ceil keep the order of the elements *)
Theorem C146_monotone : forall op x i j, good x -> real (n_kind x) = true -> op = UFloor \/ op = UCeil \/ op = UTrunc -> inb i (shape_of x) -> inb j (shape_of x) ->
  exists z vi vj wi wj, unary op x = Ok z /\ item_at x i = Some vi /\ item_at x j = Some vj /\ item_at z i = Some wi /\ item_at z j = Some wj /\
    (ext_le (real_value vi) (real_value vj) -> ext_le (real_value wi) (real_value wj)).
Proof.
  intros op x i j G R HO Hi Hj. assert (is_rounding op = true) as HR by (destruct HO as [->|[->| ->]]; reflexivity).
  destruct (rounding_each op x G R HR) as (z & E & _ & _ & _ & H). destruct (H i Hi) as (vi & wi & I1 & J1 & R1). destruct (H j Hj) as (vj & wj & I2 & J2 & R2).
  exists z, vi, vj, wi, wj. repeat (split; [assumption|]). intros L.
  assert (forall e e', unary_value op e e' -> on_finite (rounds op) e e') as HV by (intros e e' X; destruct op; try discriminate HR; exact X). apply HV in R1, R2.
  destruct (real_value vi) as [|s|a], (real_value vj) as [|t|b]; cbn [on_finite] in R1, R2.
  all: try (rewrite R1 in *); try (rewrite R2 in *); try exact L.
  - destruct R2 as (r & -> & _). destruct s; [exact I|contradiction].
  - contradiction.
  - destruct R1 as (r & -> & _). destruct t; [contradiction|exact I].
  - destruct R1 as (r & -> & R1). destruct R2 as (r' & -> & R2). unfold ext_le in *. cbn [ext_compare] in *.
    assert (a <= b) by (destruct (Z.compare_spec a b); try contradiction; lia).
    assert (r <= r') by (destruct HO as [->|[->| ->]]; [eapply floor_mono|eapply ceil_mono|eapply trunc_mono]; eassumption).
    destruct (Z.compare_spec r r'); try exact I; lia.
Qed.
Example C146_order_nonvacuous : let x := row Int32 [SInt 5; SInt (-3)] in
  good x /\ real (n_kind x) = true /\ is_rounding UTrunc = true /\ inb [1%nat] (shape_of x) /\ unary UTrunc x = Ok x.
Proof. cbv zeta. split; [good_row|]. split; [reflexivity|]. split; [reflexivity|]. split; [|vm_compute; reflexivity]. cbn. repeat constructor. Qed.

(* ---- C147 ------------------------------------------------------------------- *)

(* round(a): a nearest whole number, for every real dtype; dtype and shape kept.
   _partial: ties go away from zero (C146_ties_refuted holds of it too, C147_tie_refuted) *)
Theorem C147_round_partial : forall x, good x -> real (n_kind x) = true ->
  exists m z, round x 0 = Ok (m, z) /\ each (on_finite nearest_of) x z.
Proof.
  intros x G R. destruct (int_typed (n_kind x)) eqn:T.
  - exists Shared, x. split; [unfold round; destruct (n_kind x); try discriminate T; reflexivity|]. split; [reflexivity|]. split; [reflexivity|].
    intros idx Hi. destruct (good_item x idx G Hi) as (v & Hv & EV). exists v, v. split; [exact Hv|]. split; [exact Hv|].
    assert (is_integer (n_kind x) = true) as KI by (destruct (n_kind x); try discriminate T; reflexivity).
    destruct (element_int _ v (or_introl KI) EV) as (z & -> & _). exists (z * one). split; [reflexivity|]. apply (rounds_whole URint); [reflexivity|exists z; reflexivity].
  - destruct (round_spec 0 x G T) as (z & E & _ & K & HS & HZ); [intros v EV; apply round_out_value; assumption|]. exists Own, z. split; [exact E|]. split; [exact K|]. split; [exact HS|].
    intros idx Hi. destruct (HZ idx Hi) as (v & Hv & EV & Hz). exists v, (round_out (n_kind x) 0 v). split; [exact Hv|]. split; [exact Hz|]. apply round_out_value; assumption.
Qed.
Example C147_round_nonvacuous : let x := row Float64 [fl 13 4; fl (-15) 4] in
  good x /\ real (n_kind x) = true /\ round x 0 = Ok (Own, row Float64 [fl 3 1; fl (-4) 1]) /\
  round (row Int8 [SInt 7]) 0 = Ok (Own, row Int8 [SInt 7]).
Proof. cbv zeta. split; [good_row|]. repeat (split; [vm_compute; reflexivity|]). vm_compute; reflexivity. Qed.
Theorem C147_tie_refuted : exists x, good x /\ x = row Float64 [fl 1 2; fl 5 2] /\ round x 0 = Ok (Own, row Float64 [fl 1 1; fl 3 1]).
Proof. exists (row Float64 [fl 1 2; fl 5 2]). split; [good_row|]. split; [reflexivity|]. vm_compute; reflexivity. Qed.

(* integers have no decimals to lose *)
Theorem C147_integers : forall x d, good x -> is_integer (n_kind x) = true -> n_kind x <> Int8 -> 0 <= d ->
  exists m z, round x d = Ok (m, z) /\ each eq x z.
Proof.
  intros x d G K N D. exists Shared, x. split.
  - unfold round. assert ((0 <=? d) = true) as -> by (apply Z.leb_le; exact D). destruct (n_kind x); try discriminate K; try reflexivity. exfalso. apply N. reflexivity.
  - split; [reflexivity|]. split; [reflexivity|]. intros idx Hi. destruct (good_item x idx G Hi) as (v & Hv & _). exists v, v. auto.
Qed.
(* but then the result is the argument itself: writing to one writes to the other *)
Theorem C147_own_memory_refuted : exists x, good x /\ n_kind x = Int64 /\ round x 0 = Ok (Shared, x).
Proof. exists (row Int64 [SInt 1; SInt 2]). split; [good_row|]. split; reflexivity. Qed.

(* a float64 with at most d decimals, d <= 15 (that is, a k / 10^d), is a fixed point *)
Theorem C147_decimals_fixed : forall x d, good x -> n_kind x = Float64 -> 0 <= d <= 15 ->
  (forall idx v, inb idx (shape_of x) -> item_at x idx = Some v -> exists k, Z.abs k < 2 ^ 50 /\ v = SFlt (fdiv (f64_int k) (f64_int (10 ^ d)))) ->
  exists z, round x d = Ok (Own, z) /\ n_kind z = Float64 /\ shape_of z = shape_of x /\
    forall idx, inb idx (shape_of x) -> item_at z idx = item_at x idx.
Proof.
  intros x d G K D H. pose proof (proj1 (proj2 G)) as W.
  assert (FX : forall v, (exists k, Z.abs k < 2 ^ 50 /\ v = SFlt (fdiv (f64_int k) (f64_int (10 ^ d)))) -> round_out Float64 d v = v).
  { intros v (k & HK & ->). cbn [round_out]. f_equal. assert (0 < 10 ^ d < 2 ^ 53) as HT by (split; [apply Z.pow_pos_nonneg; lia|apply Z.le_lt_trans with (10 ^ 15); [apply Z.pow_le_mono_r; lia|reflexivity]]).
    destruct k as [|p|p].
    - unfold round_scaled. rewrite powi10_int by exact D. destruct (10 ^ d) as [|t|t]; try lia. rewrite f64_int_pos by lia. reflexivity.
    - rewrite (f64_int_pos p) by lia. apply decimals_fixed; [exact D|exact HK].
    - rewrite (f64_int_neg p) by lia. apply decimals_fixed; [exact D|exact HK]. }
  set (f := fun v => match v with SFlt f => Ok (SFlt (round_scaled 53 1024 d f)) | _ => Fault end).
  set (h := fun idx => match item_at x idx with Some v => v | None => SInt 0 end).
  assert (HG : forall idx, inb idx (shape_of x) -> exists v, item_at x idx = Some v /\ h idx = v /\ f v = Ok v).
  { intros idx Hi. destruct (good_item x idx G Hi) as (v & Hv & _). exists v. split; [exact Hv|]. split; [unfold h; rewrite Hv; reflexivity|].
    destruct (H idx v Hi Hv) as (k & HK & EK). pose proof (FX v (ex_intro _ k (conj HK EK))) as F. rewrite EK in *. unfold f. f_equal. exact F. }
  exists (mkN Float64 (map h (all_idx (shape_of x))) (fresh (shape_of x) (itemsize Float64))). split; [|split; [reflexivity|split; [reflexivity|]]].
  - unfold round. rewrite K. fold f. rewrite (slice_map_spec f) by exact W. fold (shape_of x). rewrite (mapM_total _ h); [reflexivity|].
    intros idx Hi. apply in_all_idx in Hi. destruct (HG idx Hi) as (v & Hv & -> & F). unfold lift1. unfold item_at in Hv. rewrite Hv. cbn [of_load bind]. exact F.
  - intros idx Hi. destruct (HG idx Hi) as (v & Hv & HH & _). unfold item_at at 1. cbn [n_buf n_arr]. rewrite map_get; [rewrite HH; symmetry; exact Hv|reflexivity|exact Hi].
Qed.
Example C147_decimals_nonvacuous : let x := row Float64 [fl 314 100; fl (-1) 100; fl 0 100] in
  good x /\ n_kind x = Float64 /\ (forall idx v, inb idx (shape_of x) -> item_at x idx = Some v -> exists k, Z.abs k < 2 ^ 50 /\ v = SFlt (fdiv (f64_int k) (f64_int (10 ^ 2)))) /\
  round x 2 = Ok (Own, x).
Proof.
  cbv zeta. split; [good_row|]. split; [reflexivity|]. split; [|vm_compute; reflexivity]. intros idx v Hi Hv.
  assert (In v [fl 314 100; fl (-1) 100; fl 0 100]) as [<-|[<-|[<-|[]]]] by (unfold item_at, get in Hv; apply load_in in Hv; exact Hv).
  - exists 314. split; reflexivity.
  - exists (-1). split; reflexivity.
  - exists 0. split; reflexivity.
Qed.
(* negative decimals divide by an inexact 10^d: round(1e5, -5) is 99999.99999999999 *)
Theorem C147_tens_refuted : exists x z v w, good x /\ x = row Float64 [v] /\ real_value v = Fin (100000 * one) /\
  round x (-5) = Ok (Own, z) /\ item_at z [0%nat] = Some w /\ says CLt (ext_compare (real_value w) (real_value v)) = true.
Proof.
  exists (row Float64 [SFlt (f64_int 100000)]), (row Float64 [SFlt (round_scaled 53 1024 (-5) (f64_int 100000))]), (SFlt (f64_int 100000)), (SFlt (round_scaled 53 1024 (-5) (f64_int 100000))).
  split; [good_row|]. repeat (split; [vm_compute; reflexivity|]). vm_compute; reflexivity.
Qed.

(* negative decimals of integers: a multiple of the power of ten, within one of them and
   on the side of zero; multiples stay.  _partial: not the nearest one (C147_toward_zero_refuted),
   and only powers that the dtype has (C147_wide_refuted) *)
Theorem C147_int_tens_partial : forall x d, good x -> is_integer (n_kind x) = true -> n_kind x <> Int8 -> d < 0 ->
  10 ^ (- d) <= snd (int_range (n_kind x)) -> 10 ^ (- d) < 2 ^ 63 ->
  exists z, round x d = Ok (Own, z) /\ n_kind z = n_kind x /\ shape_of z = shape_of x /\
    forall idx, inb idx (shape_of x) -> exists a r, item_at x idx = Some (SInt a) /\ item_at z idx = Some (SInt r) /\
      (exists q, r = q * 10 ^ (- d)) /\ Z.abs r <= Z.abs a < Z.abs r + 10 ^ (- d) /\ 0 <= a * r /\ ((exists q, a = q * 10 ^ (- d)) -> r = a).
Proof.
  intros x d G K N D H1 H2. destruct (round_int_spec d x G) as (z & E & _ & HK & HS & HZ); try assumption; [destruct (n_kind x); try discriminate K; try reflexivity; exfalso; apply N; reflexivity|].
  exists z. split; [exact E|]. split; [exact HK|]. split; [exact HS|]. intros idx Hi. destruct (HZ idx Hi) as (a & HA & HR). eexists a, _. split; [exact HA|]. split; [exact HR|].
  assert (0 < 10 ^ (- d)) as HP by (apply Z.pow_pos_nonneg; lia). split; [eexists; reflexivity|]. split; [apply quot_toward; exact HP|]. split; [apply quot_toward; exact HP|].
  intros (q & ->). rewrite Z.quot_mul by lia. reflexivity.
Qed.
Example C147_int_tens_nonvacuous : let x := row Int16 [SInt 1234; SInt (-1267)] in
  good x /\ is_integer (n_kind x) = true /\ n_kind x <> Int8 /\ 10 ^ (- (-2)) <= snd (int_range (n_kind x)) /\
  round x (-2) = Ok (Own, row Int16 [SInt 1200; SInt (-1200)]).
Proof. cbv zeta. split; [good_row|]. split; [reflexivity|]. split; [discriminate|]. split; [vm_compute; discriminate|vm_compute; reflexivity]. Qed.
Theorem C147_toward_zero_refuted : exists x, good x /\ x = row Int64 [SInt 19] /\ round x (-1) = Ok (Own, row Int64 [SInt 10]).
Proof. exists (row Int64 [SInt 19]). split; [good_row|]. split; reflexivity. Qed.
(* a power of ten the dtype does not have wraps: 1000 is 232 for uint8, and 10^8 is 0 *)
Theorem C147_wide_refuted : exists x, good x /\ x = row Uint8 [SInt 250] /\
  round x (-3) = Ok (Own, row Uint8 [SInt 232]) /\ round x (-8) = Panic.
Proof. exists (row Uint8 [SInt 250]). split; [good_row|]. split; [reflexivity|]. split; vm_compute; reflexivity. Qed.

(* ---- C148 ------------------------------------------------------------------- *)

(* clip(a, lo, hi): every element limited to the bounds, the upper bound winning; NaN stays.
   _partial: bounds that the dtype has (fractions on integers, NaN: refuted below) *)
Theorem C148_clip_partial : forall x lo hi, good x -> real (n_kind x) = true -> bound (n_kind x) lo -> bound (n_kind x) hi ->
  exists z, clip x lo hi = Ok z /\ each (limited (option_map float_value lo) (option_map float_value hi)) x z.
Proof.
  intros x lo hi G R BL BH. destruct (clip_spec lo hi x G R BL BH) as (z & E & _ & K & HS & HZ). exists z. split; [exact E|]. split; [exact K|]. split; [exact HS|].
  intros idx Hi. destruct (HZ idx Hi) as (v & w & Hv & _ & Hw & VW). exists v, w. split; [exact Hv|]. split; [exact Hw|]. rewrite VW. apply clip_ext_limited; eapply bound_not_nan; eassumption.
Qed.
(* no bounds: the values themselves; twice is once; the order of the elements is kept *)
Theorem C148_unbounded : forall x, good x -> real (n_kind x) = true -> exists z, clip x None None = Ok z /\ each eq x z.
Proof.
  intros x G R. destruct (clip_spec None None x G R I I) as (z & E & _ & K & HS & HZ). exists z. split; [exact E|]. split; [exact K|]. split; [exact HS|].
  intros idx Hi. destruct (HZ idx Hi) as (v & w & Hv & _ & Hw & VW). exists v, w. split; [exact Hv|]. split; [exact Hw|]. symmetry. exact VW.
Qed.
Theorem C148_idempotent : forall x lo hi, good x -> real (n_kind x) = true -> bound (n_kind x) lo -> bound (n_kind x) hi ->
  exists y z, clip x lo hi = Ok y /\ clip y lo hi = Ok z /\ each eq y z.
Proof.
  intros x lo hi G R BL BH. destruct (clip_spec lo hi x G R BL BH) as (y & E & GY & K & HS & HZ).
  destruct (clip_spec lo hi y GY ltac:(rewrite K; exact R) ltac:(rewrite K; exact BL) ltac:(rewrite K; exact BH)) as (z & E2 & _ & K2 & HS2 & HZ2).
  exists y, z. split; [exact E|]. split; [exact E2|]. split; [exact K2|]. split; [exact HS2|]. intros idx Hi.
  destruct (HZ2 idx Hi) as (v2 & w2 & I2 & _ & J2 & R2). destruct (HZ idx ltac:(congruence)) as (v1 & w1 & I1 & _ & J1 & R1). assert (v2 = w1) as -> by congruence.
  exists w1, w2. split; [exact I2|]. split; [exact J2|]. rewrite R2, R1. symmetry. apply clip_ext_idem; eapply bound_not_nan; eassumption.
Qed.
Theorem C148_monotone : forall x lo hi i j, good x -> real (n_kind x) = true -> bound (n_kind x) lo -> bound (n_kind x) hi -> inb i (shape_of x) -> inb j (shape_of x) ->
  exists z vi vj wi wj, clip x lo hi = Ok z /\ item_at x i = Some vi /\ item_at x j = Some vj /\ item_at z i = Some wi /\ item_at z j = Some wj /\
    (ext_le (real_value vi) (real_value vj) -> ext_le (real_value wi) (real_value wj)).
Proof.
  intros x lo hi i j G R BL BH Hi Hj. destruct (clip_spec lo hi x G R BL BH) as (z & E & _ & _ & _ & HZ).
  destruct (HZ i Hi) as (vi & wi & I1 & _ & J1 & R1). destruct (HZ j Hj) as (vj & wj & I2 & _ & J2 & R2). exists z, vi, vj, wi, wj. repeat (split; [assumption|]).
  intros L. rewrite R1, R2. apply clip_ext_mono; [eapply bound_not_nan; eassumption|eapply bound_not_nan; eassumption|exact L].
Qed.
Example C148_clip_nonvacuous : let x := row Int16 [SInt 5; SInt (-3); SInt 2] in
  good x /\ real (n_kind x) = true /\ bound (n_kind x) (Some (f64_int 0)) /\ bound (n_kind x) (Some (f64_int 3)) /\
  clip x (Some (f64_int 0)) (Some (f64_int 3)) = Ok (row Int16 [SInt 3; SInt 0; SInt 2]).
Proof.
  cbv zeta. split; [good_row|]. split; [reflexivity|].
  assert (forall n, 0 <= n <= 3 -> float_value (f64_int n) = Fin (n * one) -> valid_in Float64 (f64_int n) -> bound Int16 (Some (f64_int n))) as HB.
  { intros n Hn HV V. split; [exact V|]. rewrite HV. split; [discriminate|]. exists (n * one). split; [reflexivity|]. split; [apply int_int; lia|reflexivity]. }
  split; [apply HB; [lia|vm_compute; reflexivity|vm_compute; reflexivity]|]. split; [apply HB; [lia|vm_compute; reflexivity|vm_compute; reflexivity]|]. vm_compute; reflexivity.
Qed.
(* a fraction becomes a whole number first: clip(int 2 .. , lo = 2.5) leaves 2 *)
Theorem C148_fraction_refuted : exists x lo z v, good x /\ n_kind x = Int64 /\ float_value lo = Fin (5 * 2 ^ 1073) /\ clip x (Some lo) None = Ok z /\
  item_at z [0%nat] = Some v /\ says CLt (ext_compare (real_value v) (float_value lo)) = true.
Proof.
  exists (row Int64 [SInt 2]), (fdiv (f64_int 5) (f64_int 2)), (row Int64 [SInt 2]), (SInt 2). split; [good_row|]. repeat (split; [vm_compute; reflexivity|]). vm_compute; reflexivity.
Qed.
(* NaN as a bound is ignored, not passed on; and on integers it is 0 *)
Theorem C148_nan_refuted : exists x y, good x /\ good y /\ x = row Float64 [SFlt (f64_int 5)] /\ clip x (Some S754_nan) None = Ok x /\
  y = row Int64 [SInt (-5)] /\ clip y (Some S754_nan) None = Ok (row Int64 [SInt 0]).
Proof. exists (row Float64 [SFlt (f64_int 5)]), (row Int64 [SInt (-5)]). split; [good_row|]. split; [good_row|]. repeat (split; [vm_compute; reflexivity|]). vm_compute; reflexivity. Qed.
(* complex elements are lost: they become 0, then limited *)
Theorem C148_complex_refuted : exists x, good x /\ x = row Complex128 [SCpx (f64_int 5) (f64_int 7)] /\
  clip x (Some (f64_int 1)) (Some (f64_int 9)) = Ok (row Complex128 [SCpx (f64_int 1) (S754_zero false)]).
Proof. exists (row Complex128 [SCpx (f64_int 5) (f64_int 7)]). split; [good_row|]. split; [reflexivity|]. vm_compute; reflexivity. Qed.

(* ---- C149 ------------------------------------------------------------------- *)
Lemma exact_each op x : good x -> real (n_kind x) = true -> is_rounding op = false -> (op = UNeg -> n_kind x <> Bool) ->
  (forall idx v, inb idx (shape_of x) -> item_at x idx = Some v -> holds_value (n_kind x) (exact_op op (real_value v), Fin 0)) ->
  exists z, unary op x = Ok z /\ each (fun e e' => e' = exact_op op e) x z.
Proof.
  intros G R HO HB HH. destruct (unary_spec op x G) as (z & E & _ & K & HS & HZ).
  { intros C. unfold real in R. rewrite C in R. rewrite andb_false_r in R. discriminate R. }
  exists z. split; [exact E|]. split; [exact K|]. split; [exact HS|]. intros idx Hi. destruct (HZ idx Hi) as (v & Hv & EV & Hz). exists v, (unary_out (n_kind x) op v).
  split; [exact Hv|]. split; [exact Hz|]. apply exact_out; auto. eapply HH; eassumption.
Qed.
Lemma float_holds_op k op v : is_float_kind k = true -> real k = true -> is_rounding op = false -> element k v -> holds_value k (exact_op op (real_value v), Fin 0).
Proof.
  intros KF R HO EV. assert (unary_value op (real_value v) (exact_op op (real_value v))) as UV by (destruct op; try discriminate HO; reflexivity).
  destruct k; try discriminate KF; try discriminate R; destruct v as [z|x|x y]; try contradiction; (split; [|reflexivity]); unfold real_value in *; cbn [value fst] in *.
  - exact (unary_fits 11 16 op x _ f16_format EV UV).
  - exact (unary_fits 24 128 op x _ f32_format EV UV).
  - exact (unary_fits 53 1024 op x _ f64_format EV UV).
Qed.
(* on floats all three are exact, infinities and NaN included *)
Theorem C149_floats : forall x, good x -> real (n_kind x) = true -> is_float_kind (n_kind x) = true ->
  exists n a s, unary UNeg x = Ok n /\ unary UAbs x = Ok a /\ unary USign x = Ok s /\
    each (fun e e' => e' = ext_opp e) x n /\ each (fun e e' => e' = ext_abs e) x a /\ each (fun e e' => e' = ext_sgn e) x s.
Proof.
  intros x G R KF. assert (forall op, is_rounding op = false -> exists z, unary op x = Ok z /\ each (fun e e' => e' = exact_op op e) x z) as H.
  { intros op HO. apply exact_each; try assumption; [intros _ KB; rewrite KB in KF; discriminate KF|]. intros idx v Hi Hv. apply float_holds_op; try assumption. eapply good_element; eassumption. }
  destruct (H UNeg eq_refl) as (n & E1 & H1). destruct (H UAbs eq_refl) as (a & E2 & H2). destruct (H USign eq_refl) as (s & E3 & H3). exists n, a, s. auto 10.
Qed.
(* negative flips the sign bit, also of a zero or an infinity; absolute clears it *)
Theorem C149_signs : forall x, good x -> is_float_kind (n_kind x) = true -> real (n_kind x) = true ->
  exists n a, unary UNeg x = Ok n /\ each_sign negb x n /\ unary UAbs x = Ok a /\ each_sign (fun _ => false) x a.
Proof. intros x G KF R. destruct (sign_each UNeg x G KF R) as (n & E & H); [discriminate|]. destruct (sign_each UAbs x G KF R) as (a & E' & H'); [discriminate|]. exists n, a. auto. Qed.
Example C149_signs_nonvacuous : let x := row Float64 [SFlt (S754_zero false); SFlt (S754_zero true)] in good x /\
  unary UNeg x = Ok (row Float64 [SFlt (S754_zero true); SFlt (S754_zero false)]) /\ unary UAbs x = Ok (row Float64 [SFlt (S754_zero false); SFlt (S754_zero false)]).
Proof. split; [good_row|split; vm_compute; reflexivity]. Qed.
Example C149_floats_nonvacuous : let x := row Float64 [fl (-7) 2; SFlt (S754_infinity true); SFlt S754_nan; SFlt (S754_zero true)] in
  good x /\ real (n_kind x) = true /\ is_float_kind (n_kind x) = true /\
  unary UAbs x = Ok (row Float64 [fl 7 2; SFlt (S754_infinity false); SFlt S754_nan; SFlt (S754_zero false)]) /\
  unary USign x = Ok (row Float64 [fl (-1) 1; fl (-1) 1; SFlt S754_nan; SFlt (S754_zero false)]).
Proof. cbv zeta. split; [good_row|]. repeat (split; [vm_compute; reflexivity|]). vm_compute; reflexivity. Qed.
(* on any real dtype but bool: exact when the dtype has the result.
   _partial: for others the result wraps around (C149_least_refuted) *)
Theorem C149_negative_partial : forall x, good x -> real (n_kind x) = true -> n_kind x <> Bool ->
  (forall idx v, inb idx (shape_of x) -> item_at x idx = Some v -> holds_value (n_kind x) (ext_opp (real_value v), Fin 0)) ->
  exists z, unary UNeg x = Ok z /\ each (fun e e' => e' = ext_opp e) x z.
Proof. intros x G R B H. apply (exact_each UNeg); auto. Qed.
Theorem C149_absolute_partial : forall x, good x -> real (n_kind x) = true ->
  (forall idx v, inb idx (shape_of x) -> item_at x idx = Some v -> holds_value (n_kind x) (ext_abs (real_value v), Fin 0)) ->
  exists z, unary UAbs x = Ok z /\ each (fun e e' => e' = ext_abs e) x z.
Proof. intros x G R H. apply (exact_each UAbs); auto. discriminate. Qed.
Theorem C149_sign : forall x, good x -> real (n_kind x) = true ->
  exists z, unary USign x = Ok z /\ each (fun e e' => e' = ext_sgn e) x z.
Proof.
  intros x G R. apply (exact_each USign); auto; [discriminate|]. intros idx v Hi Hv. pose proof (good_element x idx v G Hv) as EV.
  destruct (real_cases _ R) as [KB|[KI|KF]]; [| |apply float_holds_op; auto].
  - rewrite KB in *. destruct (element_int Bool v (or_intror eq_refl) EV) as (z & -> & HZ). cbn [int_range fst snd] in HZ. exists (Z.sgn (z * one) * one). split; [reflexivity|].
    split; [apply int_int; rewrite Z.sgn_mul, (Z.sgn_pos one), Z.mul_1_r by apply one_pos; lia|reflexivity].
  - destruct (element_int _ v (or_introl KI) EV) as (z & -> & HZ). change (exact_op USign (real_value (SInt z))) with (Fin (Z.sgn (z * one) * one)).
    assert (element (n_kind x) (SInt (Z.sgn z))) as ES by (apply int_element; [left; exact KI|]; destruct (n_kind x); try discriminate KI; cbn [int_range fst snd] in *; lia).
    pose proof (element_holds _ _ (proj1 G) ES) as H. cbn [value] in H. rewrite Z.sgn_mul, (Z.sgn_pos one), Z.mul_1_r by apply one_pos. exact H.
Qed.
Example C149_negative_nonvacuous : let x := row Int8 [SInt 127; SInt (-5)] in
  good x /\ real (n_kind x) = true /\ n_kind x <> Bool /\
  (forall idx v, inb idx (shape_of x) -> item_at x idx = Some v -> holds_value (n_kind x) (ext_opp (real_value v), Fin 0)) /\
  unary UNeg x = Ok (row Int8 [SInt (-127); SInt 5]) /\ unary USign x = Ok (row Int8 [SInt 1; SInt (-1)]).
Proof.
  cbv zeta. split; [good_row|]. split; [reflexivity|]. split; [discriminate|]. split; [|split; vm_compute; reflexivity]. intros idx v Hi Hv.
  assert (In v [SInt 127; SInt (-5)]) as [<-|[<-|[]]] by (unfold item_at, get in Hv; apply load_in in Hv; exact Hv).
  - exists (- 127 * one). split; [unfold real_value; cbn [value fst ext_opp]; rewrite <- Z.mul_opp_l; reflexivity|]. split; [apply int_int; lia|reflexivity].
  - exists (5 * one). split; [unfold real_value; cbn [value fst ext_opp]; rewrite <- Z.mul_opp_l; reflexivity|]. split; [apply int_int; lia|reflexivity].
Qed.
(* -(-a) = a, for every numeric dtype, wrapping or not *)
Theorem C149_involution : forall x, good x ->
  exists y z, unary UNeg x = Ok y /\ unary UNeg y = Ok z /\ n_kind z = n_kind x /\ shape_of z = shape_of x /\
    forall idx, inb idx (shape_of x) -> exists v w, item_at x idx = Some v /\ item_at z idx = Some w /\ value w = value v.
Proof.
  intros x G. assert (HN : forall x', is_complex_kind (n_kind x') = true -> UNeg <> UAbs /\ UNeg <> USign /\ UNeg <> UFloor /\ UNeg <> UCeil) by (intros; repeat split; discriminate).
  destruct (unary_spec UNeg x G (HN x)) as (y & E1 & GY & K1 & S1 & H1). destruct (unary_spec UNeg y GY (HN y)) as (z & E2 & _ & K2 & S2 & H2).
  exists y, z. split; [exact E1|]. split; [exact E2|]. split; [congruence|]. split; [congruence|]. intros idx Hi. destruct (H1 idx Hi) as (v & Hv & EV & Hy).
  destruct (H2 idx ltac:(congruence)) as (v' & Hv' & _ & Hz). assert (v' = unary_out (n_kind x) UNeg v) as -> by congruence. rewrite K1 in Hz.
  eexists v, _. split; [exact Hv|]. split; [exact Hz|]. apply double_neg; [apply G|exact EV].
Qed.
Example C149_involution_nonvacuous : let x := row Int8 [SInt (-128); SInt 3] in good x /\ unary UNeg x = Ok (row Int8 [SInt (-128); SInt (-3)]).
Proof. cbv zeta. split; [good_row|]. vm_compute; reflexivity. Qed.
(* the least integer has no opposite: its absolute value is negative *)
Theorem C149_least_refuted : exists x z v, good x /\ n_kind x = Int8 /\ unary UAbs x = Ok z /\ item_at z [0%nat] = Some v /\ ext_lt (real_value v) (Fin 0).
Proof. exists (row Int8 [SInt (-128)]), (row Int8 [SInt (-128)]), (SInt (-128)). split; [good_row|]. repeat (split; [vm_compute; reflexivity|]). vm_compute; reflexivity. Qed.
(* negative of a bool is its logical opposite, not an error as in NumPy, and not the
   number with the other sign: -False is True *)
Theorem C149_bool_refuted : exists x, good x /\ x = row Bool [SInt 0; SInt 1] /\ unary UNeg x = Ok (row Bool [SInt 1; SInt 0]).
Proof. exists (row Bool [SInt 0; SInt 1]). split; [good_row|]. split; [reflexivity|]. vm_compute; reflexivity. Qed.

Print Assumptions C146_floor.
Print Assumptions C146_ceil.
Print Assumptions C146_trunc.
Print Assumptions C146_rint_partial.
Print Assumptions C146_ties_refuted.
Print Assumptions C146_half_refuted.
Print Assumptions C146_complex.
Print Assumptions C146_mirror.
Print Assumptions C146_order.
Print Assumptions C146_idempotent.
Print Assumptions C146_monotone.
Print Assumptions C147_round_partial.
Print Assumptions C147_tie_refuted.
Print Assumptions C147_integers.
Print Assumptions C147_own_memory_refuted.
Print Assumptions C147_decimals_fixed.
Print Assumptions C147_tens_refuted.
Print Assumptions C147_int_tens_partial.
Print Assumptions C147_toward_zero_refuted.
Print Assumptions C147_wide_refuted.
Print Assumptions C148_clip_partial.
Print Assumptions C148_unbounded.
Print Assumptions C148_idempotent.
Print Assumptions C148_monotone.
Print Assumptions C148_fraction_refuted.
Print Assumptions C148_nan_refuted.
Print Assumptions C148_complex_refuted.
Print Assumptions C149_floats.
Print Assumptions C149_negative_partial.
Print Assumptions C149_absolute_partial.
Print Assumptions C149_sign.
Print Assumptions C149_involution.
Print Assumptions C149_least_refuted.
Print Assumptions C149_bool_refuted.
Print Assumptions C146_sign.
Print Assumptions C149_signs.
