(* PCG64 and bounded draws. *)
From Coq Require Import SpecFloat.
From Verif Require Import Base Int_Model F64_Model F64_Proofs Rng_Spec Rng_Model Rng_Lcg SF_Proofs.
Local Open Scope Z_scope.

Definition u64 (z : Z) : Prop := 0 <= z < 2 ^ 64.
Definition u128 (z : Z) : Prop := 0 <= z < 2 ^ 128.

(* ---- the state --------------------------------------------------------------- *)
Lemma mult_mod4 : multiplier mod 4 = 1.  Proof. reflexivity. Qed.
Lemma pow128 : 2 ^ 128 = 2 ^ Z.of_nat 128.  Proof. reflexivity. Qed.
Lemma pow64 : 2 ^ 64 = 2 ^ Z.of_nat 64.  Proof. reflexivity. Qed.

Definition upd_state (c x : Z) : Z := ((x * multiplier) mod 2 ^ 128 + c) mod 2 ^ 128.
Lemma iter_succ {A} (f : A -> A) k x : Nat.iter (S k) f x = f (Nat.iter k f x).
Proof. reflexivity. Qed.
Lemma iter_succ_r {A} (f : A -> A) k : forall x, Nat.iter (S k) f x = Nat.iter k f (f x).
Proof. induction k as [|k IH]; intro x; [reflexivity|]. rewrite iter_succ, IH. reflexivity. Qed.
Lemma iter_step k s c : Nat.iter k step (mkPcg s c) = mkPcg (Nat.iter k (upd_state c) s) c.
Proof. induction k as [|k IH]; [reflexivity|]. rewrite !iter_succ, IH. reflexivity. Qed.
Lemma iter_range k s c : u128 s -> u128 (Nat.iter k (upd_state c) s).
Proof.
  intro Hs. destruct k as [|k]; [exact Hs|]. rewrite iter_succ. unfold upd_state at 1. apply Z.mod_pos_bound. reflexivity.
Qed.
Lemma iter_state k s c t : u128 s -> u128 t ->
  (Nat.iter k (upd_state c) s = t <-> (2 ^ 128 | lcg multiplier c s k - t)).
Proof.
  intros Hs Ht. pose proof (iter_lcg multiplier c 128 (upd_state c) (fun x => eq_refl) ltac:(lia) k s) as E.
  pose proof (iter_range k s c Hs) as Hr. unfold u128 in *.
  rewrite Z.mod_small in E by exact Hr. rewrite E. rewrite <- (Z.mod_small t (2 ^ 128)) at 1 by exact Ht.
  apply mod_eq_divide. discriminate.
Qed.
Lemma period k s c : u128 s -> Z.odd c = true -> (Nat.iter k (upd_state c) s = s <-> (2 ^ 128 | Z.of_nat k)).
Proof.
  intros Hs Hc. rewrite (iter_state k s c s Hs Hs), pow128. apply lcg_return; [exact mult_mod4 | exact Hc].
Qed.
Lemma reach s c t : u128 s -> u128 t -> Z.odd c = true -> exists k, Z.of_nat k < 2 ^ 128 /\ Nat.iter k (upd_state c) s = t.
Proof.
  intros Hs Ht Hc. destruct (lcg_reach multiplier c mult_mod4 Hc 128 s t) as (k & Hk & D).
  exists k. rewrite pow128. split; [exact Hk|]. apply iter_state; [exact Hs | exact Ht|]. rewrite pow128. exact D.
Qed.

(* ---- multiplication by an odd number, xorshift ------------------------------------ *)
Lemma mul_odd_bij n a y : Z.odd a = true -> 0 <= y < 2 ^ Z.of_nat n ->
  exists! x, 0 <= x < 2 ^ Z.of_nat n /\ (x * a) mod 2 ^ Z.of_nat n = y.
Proof.
  intros Ha Hy. destruct (odd_inverse n a Ha) as (b & Hb & E).
  assert (0 < 2 ^ Z.of_nat n) as Hp by (apply Z.pow_pos_nonneg; lia). set (P := 2 ^ Z.of_nat n) in *.
  exists ((y * b) mod P). split.
  - split; [apply Z.mod_pos_bound; lia|]. rewrite Z.mul_mod_idemp_l by lia.
    replace (y * b * a) with (y * (a * b)) by ring. rewrite <- Z.mul_mod_idemp_r, E, Z.mul_mod_idemp_r by lia.
    rewrite Z.mul_1_r. now apply Z.mod_small.
  - intros x (Hx & Ex). subst y. rewrite Z.mul_mod_idemp_l by lia.
    replace (x * a * b) with (x * (a * b)) by ring. rewrite <- Z.mul_mod_idemp_r, E, Z.mul_mod_idemp_r by lia.
    rewrite Z.mul_1_r. now apply Z.mod_small.
Qed.
Definition xs (s x : Z) : Z := Z.lxor x (Z.shiftr x s).
Lemma shiftr_range s x : 0 <= s -> u64 x -> u64 (Z.shiftr x s).
Proof.
  intros Hs [H1 H2]. split; [now apply Z.shiftr_nonneg|]. rewrite Z.shiftr_div_pow2 by lia.
  assert (0 < 2 ^ s) by (apply Z.pow_pos_nonneg; lia).
  apply Z.le_lt_trans with x; [|exact H2]. apply Z.div_le_upper_bound; nia.
Qed.
Lemma lxor_range x y : u64 x -> u64 y -> u64 (Z.lxor x y).
Proof.
  intros [H1 H2] [H3 H4]. split; [apply Z.lxor_nonneg; tauto|].
  assert (0 <= Z.lxor x y) by (apply Z.lxor_nonneg; tauto).
  destruct (Z.eq_dec (Z.lxor x y) 0) as [E|E]; [rewrite E; reflexivity|].
  apply Z.log2_lt_pow2; [lia|]. pose proof (Z.log2_lxor x y H1 H3).
  assert (forall z, 0 <= z < 2 ^ 64 -> Z.log2 z < 64) as L.
  { intros z Hz. destruct (Z.eq_dec z 0) as [->|]; [reflexivity|]. apply Z.log2_lt_pow2; lia. }
  pose proof (L x (conj H1 H2)). pose proof (L y (conj H3 H4)). lia.
Qed.
Lemma xs_range s x : 0 <= s -> u64 x -> u64 (xs s x).
Proof. intros Hs Hx. apply lxor_range; [exact Hx | now apply shiftr_range]. Qed.
Lemma xs_invol s x : 32 <= s -> u64 x -> xs s (xs s x) = x.
Proof.
  intros Hs [H1 H2]. unfold xs. rewrite Z.shiftr_lxor, Z.shiftr_shiftr by lia.
  assert (Z.shiftr x (s + s) = 0) as ->.
  { destruct (Z.eq_dec x 0) as [->|]; [apply Z.shiftr_0_l|]. apply Z.shiftr_eq_0; [exact H1|].
    assert (Z.log2 x < 64) by (apply Z.log2_lt_pow2; lia). lia. }
  rewrite Z.lxor_0_r, Z.lxor_assoc, Z.lxor_nilpotent. apply Z.lxor_0_r.
Qed.
Lemma lor1_odd z : Z.odd (Z.lor z 1) = true.
Proof. rewrite <- !Z.bit0_odd, Z.lor_spec. cbn. apply orb_true_r. Qed.
Lemma mult_odd : Z.odd multiplier = true.  Proof. reflexivity. Qed.

Definition dxsm (hi lo : Z) : Z :=
  (xs 48 ((xs 32 hi * multiplier) mod 2 ^ 64) * Z.lor lo 1) mod 2 ^ 64.
Lemma output_dxsm hi lo : u64 hi -> u64 lo -> output (hi * 2 ^ 64 + lo) = dxsm hi lo.
Proof.
  intros Hh Hl. unfold output, dxsm, xs.
  assert (Z.shiftr (hi * 2 ^ 64 + lo) 64 = hi) as ->.
  { rewrite Z.shiftr_div_pow2 by lia. rewrite Z.div_add_l by discriminate. unfold u64 in *. rewrite Z.div_small by lia. lia. }
  assert ((hi * 2 ^ 64 + lo) mod 2 ^ 64 = lo) as ->.
  { rewrite Z.add_comm, Z.mod_add by discriminate. now apply Z.mod_small. }
  reflexivity.
Qed.
Lemma output_range s : u64 (output s).
Proof. unfold output. apply Z.mod_pos_bound. reflexivity. Qed.
Lemma dxsm_bij lo y : u64 y -> exists! hi, u64 hi /\ dxsm hi lo = y.
Proof.
  intro Hy. unfold dxsm.
  destruct (mul_odd_bij 64 (Z.lor lo 1) y (lor1_odd lo) Hy) as (z & (Hz & Ez) & Uz). rewrite <- pow64 in *.
  destruct (mul_odd_bij 64 multiplier (xs 48 z) mult_odd) as (w & (Hw & Ew) & Uw).
  { rewrite <- pow64. apply xs_range; [lia | exact Hz]. }
  rewrite <- pow64 in *.
  exists (xs 32 w). split.
  - split; [apply xs_range; [lia | exact Hw]|]. rewrite xs_invol by (try lia; exact Hw). rewrite Ew.
    rewrite xs_invol by (try lia; exact Hz). exact Ez.
  - intros hi (Hh & Eh).
    assert (u64 ((xs 32 hi * multiplier) mod 2 ^ 64)) as Hr by (apply Z.mod_pos_bound; reflexivity).
    assert (z = xs 48 ((xs 32 hi * multiplier) mod 2 ^ 64)) as Hzz.
    { apply Uz. split; [apply xs_range; [lia | exact Hr] | exact Eh]. }
    assert (w = xs 32 hi) as Hww.
    { apply Uw. split; [apply xs_range; [lia | exact Hh]|]. rewrite Hzz, xs_invol by (try lia; exact Hr). reflexivity. }
    rewrite Hww. apply xs_invol; [lia | exact Hh].
Qed.

(* ---- Lemire's bounded draw --------------------------------------------------------- *)
Lemma ceil_le r A x : 0 < r -> (A <= x * r <-> (A + r - 1) / r <= x).
Proof.
  intro Hr. pose proof (Z.div_mod (A + r - 1) r) as E. pose proof (Z.mod_pos_bound (A + r - 1) r Hr).
  specialize (E ltac:(lia)). set (q := (A + r - 1) / r) in *. nia.
Qed.
Lemma lemire M r v : 0 < r < M -> 0 <= v < r ->
  exists lo, 0 <= lo /\ lo + M / r <= M /\
    forall x, (M mod r <= (x * r) mod M /\ (x * r) / M = v) <-> lo <= x < lo + M / r.
Proof.
  intros Hr Hv. set (t := M mod r). set (q := M / r). set (lo := (v * M + t + r - 1) / r).
  assert (M = q * r + t) as EM by (unfold q, t; pose proof (Z.div_mod M r); lia).
  pose proof (Z.mod_pos_bound M r ltac:(lia)) as Ht. fold t in Ht.
  assert (forall x, v * M + t <= x * r <-> lo <= x) as C1 by (intro x; apply ceil_le; lia).
  assert (forall x, x * r < (v + 1) * M <-> x < lo + q) as C2.
  { intro x. specialize (C1 (x - q)). split; intro H.
    - destruct (Z_lt_le_dec x (lo + q)) as [|G]; [assumption|]. exfalso.
      assert (v * M + t <= (x - q) * r) by (apply C1; lia). nia.
    - destruct (Z_lt_le_dec (x * r) ((v + 1) * M)) as [|G]; [assumption|]. exfalso.
      assert (lo <= x - q) by (apply C1; nia). lia. }
  exists lo. assert (0 <= v * M) as HvM by (apply Z.mul_nonneg_nonneg; lia). clearbody t q.
  split; [unfold lo; apply Z.div_pos; lia|]. clearbody lo. split.
  - destruct (Z_le_gt_dec (lo + q) M) as [|G]; [assumption|]. exfalso.
    assert (M * r < (v + 1) * M) as HX by (apply C2; lia). rewrite Z.mul_comm in HX. apply Z.mul_lt_mono_pos_r in HX; lia.
  - intro x. rewrite <- C1, <- C2.
    pose proof (Z.div_mod (x * r) M ltac:(lia)) as E. pose proof (Z.mod_pos_bound (x * r) M ltac:(lia)) as B.
    split; [intros (H1 & H2); rewrite H2 in E; lia|]. intros (H1 & H2).
    assert ((x * r) / M = v) as EV by (symmetry; apply Z.div_unique with (x * r - v * M); lia).
    split; [|exact EV]. rewrite EV in E. lia.
Qed.
Lemma neg_mod r : 0 < r < 2 ^ 64 -> ((- r) mod 2 ^ 64) mod r = 2 ^ 64 mod r.
Proof.
  intro Hr. assert ((- r) mod 2 ^ 64 = 2 ^ 64 - r) as ->.
  { symmetry. apply Z.mod_unique_pos with (-1); lia. }
  rewrite <- (Z.mod_add (2 ^ 64 - r) 1 r) by lia. f_equal. ring.
Qed.

Section Bounded.
Context {G : Type}.
Variable next : G -> Z * G.

Lemma bounded_accept fuel r g x g1 : next g = (x, g1) -> 0 < r < 2 ^ 64 ->
  2 ^ 64 mod r <= (x * r) mod 2 ^ 64 -> bounded next fuel r g = Ok ((x * r) / 2 ^ 64, g1).
Proof using Type.
  intros En Hr Ha. unfold bounded. destruct (Z.eqb_spec r 0) as [|_]; [lia|]. rewrite En, neg_mod by exact Hr.
  rewrite <- Z.shiftr_div_pow2 by lia.
  destruct (Z.ltb_spec ((x * r) mod 2 ^ 64) r); [|reflexivity].
  destruct fuel; cbn [redraw]; (destruct (Z.ltb_spec ((x * r) mod 2 ^ 64) (2 ^ 64 mod r)); [lia | reflexivity]).
Qed.
Lemma bounded_reject fuel r g x g1 : next g = (x, g1) -> 0 < r < 2 ^ 64 ->
  (x * r) mod 2 ^ 64 < 2 ^ 64 mod r ->
  bounded next fuel r g = match fuel with O => Err | S f => bounded next f r g1 end.
Proof using Type.
  intros En Hr Ha. pose proof (Z.mod_pos_bound (2 ^ 64) r ltac:(lia)) as Hb.
  unfold bounded. destruct (Z.eqb_spec r 0) as [|_]; [lia|]. rewrite En, neg_mod by exact Hr.
  destruct (Z.ltb_spec ((x * r) mod 2 ^ 64) r) as [_|]; [|lia].
  destruct fuel as [|f]; cbn [redraw]; (destruct (Z.ltb_spec ((x * r) mod 2 ^ 64) (2 ^ 64 mod r)) as [_|]; [|lia]); [reflexivity|].
  destruct (next g1) as [y g2].
  destruct (Z.ltb_spec ((y * r) mod 2 ^ 64) r) as [L|L]; [reflexivity|].
  destruct f; cbn [redraw]; (destruct (Z.ltb_spec ((y * r) mod 2 ^ 64) (2 ^ 64 mod r)); [lia | reflexivity]).
Qed.
Lemma bounded_range fuel r : (forall g, u64 (fst (next g))) -> 0 < r < 2 ^ 64 ->
  forall g v g', bounded next fuel r g = Ok (v, g') -> 0 <= v < r.
Proof using Type.
  intros Hn Hr. induction fuel as [|f IH]; intros g v g' H; pose proof (Hn g) as Hx; destruct (next g) as [x g1] eqn:En; cbn [fst] in Hx;
    (destruct (Z_le_gt_dec (2 ^ 64 mod r) ((x * r) mod 2 ^ 64)) as [A|A];
     [rewrite (bounded_accept _ r g x g1 En Hr A) in H | rewrite (bounded_reject _ r g x g1 En Hr ltac:(lia)) in H]).
  1,3: injection H as <- <-; unfold u64 in Hx; split; [apply Z.div_pos; nia | apply Z.div_lt_upper_bound; nia].
  - discriminate.
  - exact (IH g1 v g' H).
Qed.
End Bounded.

Lemma accepted_exists r : 0 < r < 2 ^ 64 -> exists x, u64 x /\ 2 ^ 64 mod r <= (x * r) mod 2 ^ 64.
Proof.
  intro Hr. destruct (lemire (2 ^ 64) r 0 Hr ltac:(lia)) as (lo & H0 & H1 & H).
  assert (0 < 2 ^ 64 / r) by (apply Z.div_str_pos; lia).
  exists lo. split; [unfold u64; lia|]. apply H. lia.
Qed.
Lemma bounded_stops k : forall g r, 0 < r < 2 ^ 64 ->
  2 ^ 64 mod r <= (output (g_state (Nat.iter k step g)) * r) mod 2 ^ 64 ->
  exists fuel v g', bounded next_u64 fuel r g = Ok (v, g').
Proof.
  induction k as [|k IH]; intros g r Hr Ha.
  - exists O. eexists. eexists. apply bounded_accept; [reflexivity | exact Hr | exact Ha].
  - destruct (Z_le_gt_dec (2 ^ 64 mod r) ((output (g_state g) * r) mod 2 ^ 64)) as [A|A].
    + exists O. eexists. eexists. apply bounded_accept; [reflexivity | exact Hr | exact A].
    + rewrite iter_succ_r in Ha. destruct (IH (step g) r Hr Ha) as (f & v & g' & E).
      exists (S f), v, g'. rewrite (bounded_reject next_u64 (S f) r g (output (g_state g)) (step g) eq_refl Hr ltac:(lia)). exact E.
Qed.
Lemma bounded_mono {G} (next : G -> Z * G) f : forall r g v g', 0 < r < 2 ^ 64 -> bounded next f r g = Ok (v, g') ->
  forall f', (f <= f')%nat -> bounded next f' r g = Ok (v, g').
Proof.
  induction f as [|f IH]; intros r g v g' Hr H f' Hf; destruct (next g) as [x g1] eqn:En;
    (destruct (Z_le_gt_dec (2 ^ 64 mod r) ((x * r) mod 2 ^ 64)) as [A|A];
     [rewrite (bounded_accept next _ r g x g1 En Hr A) in H; rewrite (bounded_accept next _ r g x g1 En Hr A); exact H
     |rewrite (bounded_reject next _ r g x g1 En Hr ltac:(lia)) in H; rewrite (bounded_reject next _ r g x g1 En Hr ltac:(lia))]).
  - discriminate.
  - destruct f' as [|f']; [lia|]. apply (IH r g1 v g' Hr H). lia.
Qed.

(* ---- random() ----------------------------------------------------------------------- *)
Lemma scale_value : scale = S754_finite false 4503599627370496 (-105).
Proof. vm_compute. reflexivity. Qed.
Lemma unit_value u : u64 u -> sf_is (unit_f64 u) (u / 2 ^ 11) (-53).
Proof.
  intros [H0 H1]. unfold unit_f64. rewrite Z.shiftr_div_pow2 by lia. set (k := u / 2 ^ 11).
  assert (0 <= k < 2 ^ 53) as Hk by (unfold k; split; [apply Z.div_pos; lia | apply Z.div_lt_upper_bound; lia]).
  destruct (Z.eq_dec k 0) as [->|Hne]; [rewrite scale_value; cbn; reflexivity|].
  unfold f64_int, f64_prec, f64_emax. destruct (normalize_exact k ltac:(lia)) as (m & d & E & Hd & Em & Hm).
  rewrite E, scale_value. cbn [SFmul xorb].
  assert (Zpos (m * 4503599627370496) = Zpos m * 2 ^ 52) as E2 by (rewrite Pos2Z.inj_mul; reflexivity).
  rewrite (round_aux_exact 53 1024 false (m * 4503599627370496) m (d - 53 + -105) 52 E2); [|lia| |lia].
  - cbn [sf_is]. replace (d - 53 + -105 + 52) with (d - 106) by lia. rewrite Em.
    replace (Z.min (-53) (d - 106)) with (d - 106) by lia. rewrite Z.sub_diag. change (2 ^ 0) with 1.
    replace (-53 - (d - 106)) with (53 - d) by lia. ring.
  - rewrite (dlen_mul_pow m _ 52 E2) by lia. rewrite Hm. unfold fexp, emin. lia.
Qed.
