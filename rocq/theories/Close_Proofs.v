(* Signs of sums and products, differences of equal numbers, truth values. *)
From Coq Require Import SpecFloat.
From Verif Require Import Base Lists Int_Model F64_Model Arr_Spec Arr_Model Arr_Wf Arr_Proofs Bcast_Model Bcast_Proofs Copy_Model Copy_Proofs Idx_Model Idx_Assign
  Elem_Model Elem_Proofs Rng_Model Date_Model Promo_Spec Promo_Model Promo_Proofs Promo_Props SF_Proofs SF_Arith SF_Cmp Cast_Spec Cast_Model Cast_SF Cast_Proofs Cast_Laws.
Local Open Scope Z_scope.

Lemma iter_inv {A} (P : A -> Prop) (f : A -> A) n x : P x -> (forall y, P y -> P (f y)) -> P (Nat.iter n f x).
Proof. intros HX HF. induction n as [|n IH]; [exact HX|]. exact (HF _ IH). Qed.
Lemma shr_1_nonneg r : 0 <= shr_m r -> 0 <= shr_m (shr_1 r).
Proof. destruct r as [m a b]. cbn [shr_m]. intros H. destruct m as [|p|p]; [reflexivity| |lia]. destruct p; cbn; lia. Qed.
Lemma shr_nonneg r e n : 0 <= shr_m r -> 0 <= shr_m (fst (shr r e n)).
Proof.
  intros H. unfold shr. destruct n as [|p|p]; try exact H. cbn [fst]. rewrite iter_pos_nat. apply iter_inv; [exact H|apply shr_1_nonneg].
Qed.
Lemma loc_nonneg m l : shr_m (shr_record_of_loc m l) = m.
Proof. destruct l as [|[]]; reflexivity. Qed.
Lemma fexp_nonneg prec emax m e l : 0 <= m -> 0 <= shr_m (fst (shr_fexp prec emax m e l)).
Proof. intros H. unfold shr_fexp. apply shr_nonneg. rewrite loc_nonneg. exact H. Qed.
Lemma rne_nonneg m l : 0 <= m -> 0 <= round_nearest_even m l.
Proof. intros H. destruct l as [|[]]; cbn [round_nearest_even]; try lia. destruct (Z.even m); lia. Qed.

(* a float that is not NaN and not below zero *)
Definition nonneg (x : spec_float) : bool :=
  match x with S754_zero _ | S754_infinity false | S754_finite false _ _ => true | _ => false end.

Lemma round_aux_nonneg prec emax m e l : nonneg (binary_round_aux prec emax false (Zpos m) e l) = true.
Proof.
  unfold binary_round_aux. destruct (shr_fexp prec emax (Zpos m) e l) as [r e1] eqn:E1. pose proof (fexp_nonneg prec emax (Zpos m) e l ltac:(lia)) as H1. rewrite E1 in H1. cbn [fst] in H1.
  destruct (shr_fexp prec emax (round_nearest_even (shr_m r) (loc_of_shr_record r)) e1 loc_Exact) as [r2 e2] eqn:E2.
  pose proof (fexp_nonneg prec emax (round_nearest_even (shr_m r) (loc_of_shr_record r)) e1 loc_Exact (rne_nonneg _ _ H1)) as H2. rewrite E2 in H2. cbn [fst] in H2.
  destruct (shr_m r2) as [|p|p]; [reflexivity| |lia]. destruct (e2 <=? emax - prec); reflexivity.
Qed.
Lemma round_nonneg prec emax m e : nonneg (binary_round prec emax false m e) = true.
Proof. unfold binary_round. destruct (shl_align m e _) as [m' e']. apply round_aux_nonneg. Qed.

Lemma add_nonneg prec emax x y : nonneg x = true -> nonneg y = true -> nonneg (SFadd prec emax x y) = true.
Proof.
  destruct x as [s|[]| |[] m e]; try discriminate; destruct y as [t|[]| |[] m' e']; try discriminate; intros _ _; try reflexivity.
  - destruct s, t; reflexivity.
  - cbn [SFadd cond_Zopp]. destruct (shl_align m e (Z.min e e')) as [a a']. destruct (shl_align m' e' (Z.min e e')) as [b b']. cbn [fst].
    change (Zpos a + Zpos b) with (Zpos (a + b)). cbn [binary_normalize]. apply round_nonneg.
Qed.
Lemma mul_nonneg prec emax x y : nonneg x = true -> is_inf x = false -> nonneg y = true -> is_inf y = false -> nonneg (SFmul prec emax x y) = true.
Proof.
  destruct x as [s|[]| |[] m e]; try discriminate; destruct y as [t|[]| |[] m' e']; try discriminate; intros _ _ _ _; try reflexivity.
  cbn [SFmul xorb]. change (Zpos m * Zpos m') with (Zpos (m * m')). apply round_aux_nonneg.
Qed.
Lemma abs_nonneg x : is_nan x = false -> nonneg (SFabs x) = true.
Proof. destruct x; try discriminate; reflexivity. Qed.
Lemma abs_inf x : is_inf (SFabs x) = is_inf x.
Proof. destruct x; reflexivity. Qed.
Lemma zero_leb x : nonneg x = true -> SFleb (S754_zero false) x = true.
Proof. destruct x as [s|[]| |[] m e]; try discriminate; reflexivity. Qed.

Lemma compare_eq_inv x y : SFcompare x y = Some Eq -> is_inf x = false -> SFabs (SFsub 53 1024 x y) = S754_zero false.
Proof.
  destruct x as [s|s| |s m e], y as [t|t| |t m' e']; cbn [SFcompare]; try discriminate; try (destruct s; discriminate); try (destruct t; discriminate).
  - intros _ _. destruct s, t; reflexivity.
  - intros H _. assert (s = t /\ e = e' /\ m = m') as (-> & -> & ->).
    { destruct s, t; try discriminate H; destruct (Z.compare_spec e e') as [->|L|L]; try discriminate H; (split; [reflexivity|]; split; [reflexivity|]).
      - injection H as H. destruct (Pos.compare_cont Eq m m') eqn:EM; try discriminate H. apply Pos.compare_eq. exact EM.
      - injection H as H. apply Pos.compare_eq. exact H. }
    cbn [SFsub]. rewrite Z.sub_diag. reflexivity.
Qed.

(* classification of a valid float by its value *)
Lemma nan_value x : is_nan x = match float_value x with NaN => true | _ => false end.
Proof. destruct x; reflexivity. Qed.
Lemma inf_value x : is_inf x = match float_value x with Inf _ => true | _ => false end.
Proof. destruct x; reflexivity. Qed.

Lemma close_equal rtol atol en x y : valid_binary 53 1024 x = true -> valid_binary 53 1024 y = true ->
  nonneg rtol = true -> is_inf rtol = false -> nonneg atol = true ->
  ext_compare (float_value x) (float_value y) = Some Eq -> close rtol atol en x y = true.
Proof.
  intros VX VY R1 R2 A E. rewrite <- (compare_value 53 1024 x y ltac:(lia) ltac:(vm_compute; discriminate) VX VY) in E. unfold close.
  assert (NX : is_nan x = false) by (destruct x; try reflexivity; discriminate E). assert (NY : is_nan y = false) by (destruct y; try reflexivity; destruct x; discriminate E).
  rewrite NX, NY. cbn [andb orb]. assert (HI : is_inf x = is_inf y).
  { destruct x as [s|s| |s m e], y as [t|t| |t m' e']; try reflexivity; cbn [SFcompare] in E; try (destruct s; discriminate E); try (destruct t; discriminate E). }
  rewrite <- HI. destruct (is_inf x) eqn:IX; cbn [orb].
  - unfold SFeqb. rewrite E. reflexivity.
  - rewrite (compare_eq_inv x y E IX). apply zero_leb, add_nonneg; [exact A|]. apply mul_nonneg; [exact R1|exact R2|apply abs_nonneg; exact NY|rewrite abs_inf; congruence].
Qed.
Lemma close_nan rtol atol en x y : float_value x = NaN \/ float_value y = NaN ->
  close rtol atol en x y = match float_value x, float_value y with NaN, NaN => en | _, _ => false end.
Proof.
  intros H. unfold close. rewrite !nan_value. destruct (float_value x), (float_value y); destruct H as [H|H]; try discriminate H; reflexivity.
Qed.
Lemma close_inf rtol atol en x y : valid_binary 53 1024 x = true -> valid_binary 53 1024 y = true ->
  (exists s, float_value x = Inf s) \/ (exists s, float_value y = Inf s) ->
  close rtol atol en x y = says CEq (ext_compare (float_value x) (float_value y)).
Proof.
  intros VX VY H. unfold close. change (SFeqb x y) with (float_cmp CEq x y). rewrite (float_cmp_value 53 1024 CEq x y ltac:(lia) ltac:(vm_compute; discriminate) VX VY).
  rewrite !nan_value, !inf_value. destruct (float_value x) as [|s|a], (float_value y) as [|t|b]; try reflexivity; destruct H as [[u H]|[u H]]; try discriminate H; reflexivity.
Qed.
(* whole numbers: the comparison is exact *)
Lemma SFabs_int a : Z.abs a < 2 ^ 53 -> SFabs (f64_int a) = f64_int (Z.abs a).
Proof.
  intros H. destruct a as [|p|p]; [reflexivity| |].
  - cbn [Z.abs]. rewrite f64_int_pos by exact H. reflexivity.
  - cbn [Z.abs] in *. rewrite f64_int_neg, f64_int_pos by exact H. reflexivity.
Qed.
Lemma fmul_int0 a b : Z.abs a < 2 ^ 53 -> Z.abs b < 2 ^ 53 -> Z.abs (a * b) < 2 ^ 53 -> 0 <= a -> 0 <= b ->
  SFmul 53 1024 (f64_int a) (f64_int b) = f64_int (a * b).
Proof.
  intros Ha Hb Hc PA PB. destruct (Z.eq_dec (a * b) 0) as [Z0|NZ]; [|exact (fmul_int a b Ha Hb Hc NZ)].
  assert (HF : forall p, Zpos p < 2 ^ 53 -> exists m e, f64_int (Zpos p) = S754_finite false m e) by (intros p Hp; rewrite f64_int_pos by exact Hp; unfold canon; eauto).
  rewrite Z0. destruct a as [|p|p], b as [|q|q]; try lia; try reflexivity.
  - destruct (HF q Hb) as (m & e & ->). reflexivity.
  - destruct (HF p Ha) as (m & e & ->). reflexivity.
Qed.
Lemma close_int en r t a b : 0 <= r -> 0 <= t -> r < 2 ^ 53 -> t < 2 ^ 53 -> Z.abs a < 2 ^ 52 -> Z.abs b < 2 ^ 52 -> t + r * Z.abs b < 2 ^ 53 ->
  close (f64_int r) (f64_int t) en (f64_int a) (f64_int b) = (Z.abs (a - b) <=? t + r * Z.abs b).
Proof.
  intros Hr Ht Hr' Ht' Ha Hb HS. assert (0 <= r * Z.abs b) by nia.
  assert (HF : forall z, Z.abs z < 2 ^ 53 -> is_nan (f64_int z) = false /\ is_inf (f64_int z) = false).
  { intros z Hz. destruct z as [|p|p]; [split; reflexivity| |]; rewrite ?f64_int_pos, ?f64_int_neg by exact Hz; split; reflexivity. }
  unfold close. destruct (HF a ltac:(lia)) as [-> ->]. destruct (HF b ltac:(lia)) as [-> ->]. cbn [andb orb].
  change (SFsub 53 1024 (f64_int a) (f64_int b)) with (fsub (f64_int a) (f64_int b)). rewrite fsub_int, SFabs_int, SFabs_int by lia.
  rewrite fmul_int0 by (rewrite ?Z.abs_involutive; lia || nia). 
  change (SFadd 53 1024 (f64_int t) (f64_int (r * Z.abs b))) with (fadd (f64_int t) (f64_int (r * Z.abs b))).
  rewrite fadd_int by lia. apply fleb_int; lia.
Qed.

(* ---- truth values --------------------------------------------------------- *)
Lemma SFeqb_zero k x : valid_in k x -> SFeqb x (S754_zero false) = match float_value x with Fin 0 => true | _ => false end.
Proof.
  intros V. destruct x as [s|s| |s m e]; try (destruct s; reflexivity); try reflexivity.
  unfold SFeqb. cbn [SFcompare float_value]. assert (HE : -1074 <= e).
  { unfold valid_in in V. destruct k; cbn [format fst snd] in V; apply valid_inv in V as (_ & [V _] & _); try lia; (eapply Z.le_trans; [|exact V]; vm_compute; discriminate). }
  pose proof (pow_pos (e + 1074) ltac:(lia)). destruct s; cbn [cond_Zopp].
  - destruct (- Zpos m * 2 ^ (e + 1074)) eqn:E; [nia|reflexivity|reflexivity].
  - destruct (Zpos m * 2 ^ (e + 1074)) eqn:E; [nia|reflexivity|reflexivity].
Qed.
Lemma truthy_value k v : numeric k = true -> element k v -> (truthy v = false <-> value v = (Fin 0, Fin 0)).
Proof.
  intros N E. destruct k; try discriminate N; destruct v as [z|x|x y]; try contradiction; cbn [element truthy value] in *.
  1-3: match type of E with valid_in ?K _ => rewrite (SFeqb_zero K x E) end; destruct (float_value x) as [|s|[| |]]; split; intros H; try discriminate H; try reflexivity; injection H as H; discriminate H.
  10-11: destruct E as [E1 E2]; match type of E1 with valid_in ?K _ => rewrite (SFeqb_zero K x E1), (SFeqb_zero K y E2) end;
    destruct (float_value x) as [|s|[| |]], (float_value y) as [|t|[| |]]; split; intros H; try discriminate H; reflexivity.
  all: clear E; split; [intros H; apply negb_false_iff, Z.eqb_eq in H; subst z; reflexivity|].
  all: intros H; apply (f_equal fst) in H; apply (real_value_inj z 0) in H; subst z; reflexivity.
Qed.
