(* Complex arithmetic: sums, products, quotients and the order, element by element. *)
From Coq Require Import SpecFloat.
From Verif Require Import Base Lists Int_Model Int_Proofs F64_Model Arr_Spec Arr_Model Arr_Wf Arr_Proofs Wf_Check Bcast_Model Bcast_Proofs Copy_Model Copy_Proofs Idx_Model Idx_Assign
  Elem_Model Elem_Proofs Rng_Model Date_Model New_Model Promo_Spec Promo_Model Promo_Proofs Promo_Props SF_Proofs SF_Arith SF_Cmp Cast_Spec Cast_Model Cast_SF Cast_Proofs Cast_Laws Cast_Props
  Close_Proofs Bitw_Spec Bitw_Model Bitw_Proofs Rnd_Spec Rnd_Model Rnd_Proofs Rnd_Round Rnd_Props Ari_Spec SF_Round Ari_Model Ari_Proofs Ari_Ord Ari_Next Ari_Props Cpx_Spec Cpx_Model Cpx_Proofs CpxA_Spec.
Local Open Scope Z_scope.

(* ---- one rounding has one result ------------------------------------------------ *)
Lemma nearest_unique (P : Z -> Prop) N D r s : 0 < D -> nearest P N D r -> nearest P N D s -> r = s.
Proof.
  intros HD [PR HR] [PS HS]. destruct (HR s PS) as [A B]. destruct (HS r PR) as [A' B']. assert (Z.abs (N - r * D) = Z.abs (N - s * D)) as E by lia.
  destruct (B E) as [H|[k Hk]]; [congruence|]. destruct (B' (eq_sym E)) as [H|[l Hl]]; [congruence|]. destruct (Z.eq_dec r s) as [|NE]; [assumption|]. exfalso.
  assert (r - s = (r - s) * (2 * (k + l))) as H by (transitivity (k * (2 * (r - s)) - l * (2 * (s - r))); [lia|ring]).
  assert (2 * (k + l) = 1) as H1; [|lia]. apply (Z.mul_reg_l _ _ (r - s)); lia.
Qed.
Lemma fmt_rounded_unique prec emax N D e f : 0 < D -> fmt_rounded prec emax N D e -> fmt_rounded prec emax N D f -> e = f.
Proof.
  intros HD H H'. destruct e as [|s|r], f as [|t|q]; cbn [fmt_rounded] in *; try contradiction; try tauto.
  - destruct H as [_ H], H' as [_ H']. f_equal. apply eq_true_iff_eq. tauto.
  - destruct H as [_ H], H' as [_ H']. f_equal. exact (nearest_unique _ _ _ _ _ HD H H').
Qed.
Lemma fmt_rounded_opp prec emax N D e : a_format prec emax -> 0 < D -> fmt_rounded prec emax N D e -> fmt_rounded prec emax (- N) D (ext_opp e).
Proof.
  intros HF HD H. destruct e as [|s|r]; cbn [fmt_rounded ext_opp] in *; [exact H| |].
  - destruct H as [A B]. unfold fmt_range in *. rewrite Z.abs_opp. split; [exact A|]. assert (N <> 0) as N0.
    { intros ->. apply A. cbn [Z.abs]. rewrite Z.mul_0_r. destruct HF as (H1 & H2 & H3). assert (0 < 2 ^ (emax - prec + 1074)) by (apply Z.pow_pos_nonneg; lia). assert (1 < 2 ^ (prec + 1)) by (apply Z.pow_gt_1; lia). repeat apply Z.mul_pos_pos; lia. }
    destruct s; cbn [negb]; [assert (N < 0) by tauto|assert (~ N < 0) by (intros X; apply B in X; discriminate)]; split; intros; try lia; try discriminate; reflexivity.
  - destruct H as [A B]. split; [unfold fmt_range in *; rewrite Z.abs_opp; exact A|]. apply nearest_opp; [|exact B]. intros x (m & e & HM & HE & ->). exists (- m), e. split; [lia|]. split; [exact HE|ring].
Qed.
Lemma sum_unique prec emax e f r s : sum_of (fmt_rounded prec emax) e f r -> sum_of (fmt_rounded prec emax) e f s -> r = s.
Proof. destruct e, f; cbn [sum_of]; try congruence. apply fmt_rounded_unique. lia. Qed.
Lemma product_unique prec emax e f r s : product_of (fmt_rounded prec emax) e f r -> product_of (fmt_rounded prec emax) e f s -> r = s.
Proof. destruct e, f; cbn [product_of]; try congruence. apply fmt_rounded_unique. exact one_pos. Qed.
Lemma sum_opp prec emax e f r : a_format prec emax -> sum_of (fmt_rounded prec emax) e f r -> sum_of (fmt_rounded prec emax) (ext_opp e) (ext_opp f) (ext_opp r).
Proof.
  intros HF. destruct e as [|s|x], f as [|t|y]; cbn [sum_of ext_opp]; intros H; subst; try reflexivity.
  - destruct s, t; reflexivity.
  - replace (- x + - y) with (- (x + y)) by ring. apply fmt_rounded_opp; [exact HF|lia|exact H].
Qed.
Lemma product_opp prec emax e f r : a_format prec emax -> product_of (fmt_rounded prec emax) e f r -> product_of (fmt_rounded prec emax) e (ext_opp f) (ext_opp r).
Proof.
  intros HF. destruct e as [|s|x], f as [|t|y]; cbn [product_of ext_opp]; intros H; subst; try reflexivity.
  - destruct s, t; reflexivity.
  - replace (- y =? 0) with (y =? 0) by (destruct (Z.eqb_spec y 0), (Z.eqb_spec (- y) 0); lia || reflexivity). destruct (Z.eqb_spec y 0); [reflexivity|]. cbn [ext_opp]. f_equal. unfold negative.
    destruct s, (Z.ltb_spec y 0), (Z.ltb_spec (- y) 0); try lia; reflexivity.
  - destruct (x =? 0); [reflexivity|]. cbn [ext_opp]. f_equal. destruct t, (negative x); reflexivity.
  - replace (x * - y) with (- (x * y)) by ring. apply fmt_rounded_opp; [exact HF|exact one_pos|exact H].
Qed.
Lemma product_comm R e f r : product_of R e f r -> product_of R f e r.
Proof. destruct e as [|s|x], f as [|t|y]; cbn [product_of]; try tauto. - rewrite xorb_comm. tauto. - rewrite Z.mul_comm. tauto. Qed.
Lemma product_opp_l prec emax e f r : a_format prec emax -> product_of (fmt_rounded prec emax) e f r -> product_of (fmt_rounded prec emax) (ext_opp e) f (ext_opp r).
Proof. intros HF H. apply product_comm. apply product_opp; [exact HF|]. apply product_comm. exact H. Qed.

(* ---- floats ---------------------------------------------------------------------- *)
Section Fmt.
Variables (prec emax : Z).
Hypothesis HF : a_format prec emax.
Let ok (x : spec_float) : Prop := valid_binary prec emax x = true.
Definition cok (a : cpx) : Prop := valid_binary prec emax (fst a) = true /\ valid_binary prec emax (snd a) = true.
Definition cvalue (a : cpx) : number := (float_value (fst a), float_value (snd a)).
Let AV x y (X : ok x) (Y : ok y) : ok (SFadd prec emax x y) := proj2 (add_rounded prec emax x y HF X Y).
Let SV x y (X : ok x) (Y : ok y) : ok (SFsub prec emax x y) := proj2 (sub_rounded prec emax x y HF X Y).
Let MV x y (X : ok x) (Y : ok y) : ok (SFmul prec emax x y) := proj2 (mul_rounded prec emax x y HF X Y).
Let DV x y (X : ok x) (Y : ok y) : ok (SFdiv prec emax x y) := proj2 (div_rounded prec emax x y HF X Y).

Lemma nan_ok : cok nan_cpx. Proof. split; reflexivity. Qed.
Lemma bin_ok op a b : cok a -> cok b -> cok (cpx_bin op prec emax a b).
Proof.
  intros A B. pose proof A as [A1 A2]. pose proof B as [B1 B2]. pose proof nan_ok as NK.
  destruct op; cbn [cpx_bin]; try exact NK; try exact B; try (split; cbn [fst snd]; first [apply AV|apply SV]; assumption).
  - split; cbn [cpx_mul fst snd]; [apply SV|apply AV]; apply MV; assumption.
  - unfold cpx_div, norm_sqr. split; cbn [fst snd]; apply DV; first [apply AV|apply SV]; apply MV; assumption.
  - destruct (cpx_nan a || cpx_nan b); [exact NK|]. destruct (lex_ge a b); assumption.
  - destruct (cpx_nan a || cpx_nan b); [exact NK|]. destruct (cpx_le a b); assumption.
  - destruct (cpx_nan a && cpx_nan b); [exact NK|]. destruct (cpx_nan a); [exact B|]. destruct (cpx_nan b); [exact A|]. destruct (lex_ge a b); assumption.
  - destruct (cpx_nan a && cpx_nan b); [exact NK|]. destruct (cpx_nan a); [exact B|]. destruct (cpx_nan b); [exact A|]. destruct (cpx_le a b); assumption.
  - split; cbn [fst snd]; apply copysign_valid; assumption.
Qed.
Lemma add_value a b : cok a -> cok b -> csum (fmt_rounded prec emax) (cvalue a) (cvalue b) (cvalue (cpx_bin AAdd prec emax a b)).
Proof. intros [A1 A2] [B1 B2]. split; cbn [cvalue cpx_bin fst snd]; apply add_rounded; assumption. Qed.
Lemma sub_value a b : cok a -> cok b -> cdifference (fmt_rounded prec emax) (cvalue a) (cvalue b) (cvalue (cpx_bin ASub prec emax a b)).
Proof. intros [A1 A2] [B1 B2]. split; cbn [cvalue cpx_bin fst snd]; apply sub_rounded; assumption. Qed.

(* a product (sum, difference, quotient) that is a number of the format is exact *)
Lemma mul_is x y a b p : ok x -> ok y -> float_value x = Fin a -> float_value y = Fin b -> fmt_holds prec emax p -> p * one = a * b -> float_value (SFmul prec emax x y) = Fin p.
Proof.
  intros X Y A B HP E. pose proof (proj1 (mul_rounded prec emax x y HF X Y)) as H. rewrite A, B in H. cbn [product_of] in H. pose proof one_pos as H1. exact (fmt_rounded_exact prec emax _ one _ p H1 H HF HP (eq_sym E)).
Qed.
Lemma add_is x y a b p : ok x -> ok y -> float_value x = Fin a -> float_value y = Fin b -> fmt_holds prec emax p -> p = a + b -> float_value (SFadd prec emax x y) = Fin p.
Proof.
  intros X Y A B HP E. pose proof (proj1 (add_rounded prec emax x y HF X Y)) as H. rewrite A, B in H. cbn [sum_of] in H. apply (fmt_rounded_exact prec emax (a + b) 1 _ p); try assumption; lia.
Qed.
Lemma sub_is x y a b p : ok x -> ok y -> float_value x = Fin a -> float_value y = Fin b -> fmt_holds prec emax p -> p = a - b -> float_value (SFsub prec emax x y) = Fin p.
Proof.
  intros X Y A B HP E. rewrite sub_add. apply (add_is x (SFopp y) a (- b)); try assumption; [unfold ok; rewrite opp_valid; exact Y|rewrite opp_value, B; reflexivity].
Qed.
Lemma div_is x y a b p : ok x -> ok y -> float_value x = Fin a -> float_value y = Fin b -> fmt_holds prec emax p -> b <> 0 -> p * b = a * one -> float_value (SFdiv prec emax x y) = Fin p.
Proof.
  intros X Y A B HP B0 E. pose proof (proj1 (div_rounded prec emax x y HF X Y)) as H. rewrite A, B in H. cbn [quotient_of] in H. destruct (Z.eqb_spec b 0) as [|_]; [contradiction|].
  apply (fmt_rounded_exact prec emax (a * one * Z.sgn b) (Z.abs b) _ p); try assumption; [lia|]. rewrite <- E. rewrite <- Z.mul_assoc. f_equal. destruct b; cbn; lia.
Qed.
Lemma mul_exact u v a b c d re im : cok u -> cok v -> cvalue u = (Fin a, Fin b) -> cvalue v = (Fin c, Fin d) ->
  exact_cproduct a b c d re im -> product_steps (fmt_holds prec emax) a b c d -> fmt_holds prec emax re -> fmt_holds prec emax im -> cvalue (cpx_bin AMul prec emax u v) = (Fin re, Fin im).
Proof.
  intros [U1 U2] [V1 V2] EU EV [E1 E2] ((p & Hp & Ep) & (q & Hq & Eq) & (s & Hs & Es) & (t & Ht & Et)) HR HI. unfold exact_product in *. injection EU as EU1 EU2. injection EV as EV1 EV2.
  assert (re = p - q) as -> by (apply one_cancel; lia). assert (im = s + t) as -> by (apply one_cancel; lia).
  cbn [cpx_bin cpx_mul]. unfold cvalue. cbn [fst snd]. f_equal.
  - apply (sub_is _ _ p q); auto; [apply (mul_is _ _ a c); assumption|apply (mul_is _ _ b d); assumption].
  - apply (add_is _ _ s t); auto; [apply (mul_is _ _ a d); assumption|apply (mul_is _ _ b c); assumption].
Qed.
Lemma div_exact u v a b c d re im : cok u -> cok v -> cvalue u = (Fin a, Fin b) -> cvalue v = (Fin c, Fin d) ->
  exact_cquotient a b c d re im -> quotient_steps (fmt_holds prec emax) a b c d -> fmt_holds prec emax re -> fmt_holds prec emax im -> cvalue (cpx_bin ADiv prec emax u v) = (Fin re, Fin im).
Proof.
  intros [U1 U2] [V1 V2] EU EV (N0 & E1 & E2) (((p & Hp & Ep) & (q & Hq & Eq) & (s & Hs & Es) & (t & Ht & Et)) & (cc & Hc & Ec) & (dd & Hd & Ed) & (n & Hn & En) & (g & Hg & Eg) & (h & Hh & Eh)) HR HI. unfold exact_product in *. injection EU as EU1 EU2. injection EV as EV1 EV2.
  pose proof one_pos as H1. assert (n = cc + dd) as Hn' by (apply one_cancel; lia). assert (g = p + q) as Hg' by (apply one_cancel; lia). assert (h = t - s) as Hh' by (apply one_cancel; lia).
  assert (0 < c * c + d * d) as CP by (destruct N0; nia). assert (n <> 0) as NZ by (intros ->; rewrite Z.mul_0_l in En; lia).
  assert (float_value (norm_sqr prec emax v) = Fin n /\ ok (norm_sqr prec emax v)) as [NV NO].
  { unfold norm_sqr. split; [|apply AV; apply MV; assumption]. apply (add_is _ _ cc dd); auto; [apply (mul_is _ _ c c); assumption|apply (mul_is _ _ d d); assumption]. }
  assert (re * n = g * one) as Q1 by (apply one_cancel; transitivity (re * (c * c + d * d)); [rewrite <- En; ring|]; transitivity ((a * one) * c + (b * one) * d); [rewrite <- E1, <- E2; ring|]; transitivity ((a * c + b * d) * one); [ring|rewrite <- Eg; ring]).
  assert (im * n = h * one) as Q2 by (apply one_cancel; transitivity (im * (c * c + d * d)); [rewrite <- En; ring|]; transitivity ((b * one) * c - (a * one) * d); [rewrite <- E1, <- E2; ring|]; transitivity ((b * c - a * d) * one); [ring|rewrite <- Eh; ring]).
  cbn [cpx_bin]. unfold cpx_div, cvalue. cbv zeta. cbn [fst snd]. f_equal.
  - apply (div_is _ _ g n); auto. apply (add_is _ _ p q); auto; [apply (mul_is _ _ a c); assumption|apply (mul_is _ _ b d); assumption].
  - apply (div_is _ _ h n); auto. apply (sub_is _ _ t s); auto; [apply (mul_is _ _ b c); assumption|apply (mul_is _ _ a d); assumption].
Qed.

(* ---- laws ------------------------------------------------------------------------ *)
Lemma bin_comm op a b : op = AAdd \/ op = AMul -> cpx_bin op prec emax a b = cpx_bin op prec emax b a.
Proof.
  assert (forall x y, SFadd prec emax x y = SFadd prec emax y x) as CA by (intros; apply normalize_comm). assert (forall x y, SFmul prec emax x y = SFmul prec emax y x) as CM by (intros; apply normalize_comm).
  intros [-> | ->]; cbn [cpx_bin]; unfold cpx_mul.
  - f_equal; apply CA.
  - f_equal; [f_equal; apply CM|]. rewrite CA. f_equal; apply CM.
Qed.
Definition cconj (a : cpx) : cpx := (fst a, SFopp (snd a)).
Lemma conj_ok a : cok a -> cok (cconj a). Proof. intros [A B]. split; [exact A|]. cbn. rewrite opp_valid. exact B. Qed.
Lemma conj_value a : cvalue (cconj a) = conjugate (cvalue a). Proof. unfold cvalue, cconj, conjugate. cbn. rewrite opp_value. reflexivity. Qed.
Lemma mul_opp_r x y : ok x -> ok y -> float_value (SFmul prec emax x (SFopp y)) = ext_opp (float_value (SFmul prec emax x y)).
Proof.
  intros X Y. assert (ok (SFopp y)) as Y' by (unfold ok; rewrite opp_valid; exact Y). apply (product_unique prec emax (float_value x) (float_value (SFopp y))); [apply mul_rounded; assumption|].
  rewrite opp_value. apply product_opp; [exact HF|]. apply mul_rounded; assumption.
Qed.
Lemma mul_opp_l x y : ok x -> ok y -> float_value (SFmul prec emax (SFopp x) y) = ext_opp (float_value (SFmul prec emax x y)).
Proof.
  intros X Y. assert (ok (SFopp x)) as X' by (unfold ok; rewrite opp_valid; exact X). apply (product_unique prec emax (float_value (SFopp x)) (float_value y)); [apply mul_rounded; assumption|].
  rewrite opp_value. apply product_opp_l; [exact HF|]. apply mul_rounded; assumption.
Qed.
(* a sum depends only on the values *)
Lemma add_values x y x' y' : ok x -> ok y -> ok x' -> ok y' -> float_value x = float_value x' -> float_value y = float_value y' -> float_value (SFadd prec emax x y) = float_value (SFadd prec emax x' y').
Proof.
  intros X Y X' Y' E E'. apply (sum_unique prec emax (float_value x) (float_value y)); [apply add_rounded; assumption|]. rewrite E, E'. apply add_rounded; assumption.
Qed.
Lemma add_opps x y x' y' : ok x -> ok y -> ok x' -> ok y' -> float_value x' = ext_opp (float_value x) -> float_value y' = ext_opp (float_value y) -> float_value (SFadd prec emax x' y') = ext_opp (float_value (SFadd prec emax x y)).
Proof.
  intros X Y X' Y' E E'. apply (sum_unique prec emax (float_value x') (float_value y')); [apply add_rounded; assumption|]. rewrite E, E'. apply sum_opp; [exact HF|]. apply add_rounded; assumption.
Qed.
Lemma conj_add a b : cok a -> cok b -> cvalue (cpx_bin AAdd prec emax (cconj a) (cconj b)) = conjugate (cvalue (cpx_bin AAdd prec emax a b)).
Proof.
  intros [A1 A2] [B1 B2]. unfold cvalue, conjugate. cbn [cpx_bin cconj fst snd]. f_equal. apply add_opps; try assumption; try (unfold ok; rewrite opp_valid; assumption); apply opp_value.
Qed.
Lemma conj_mul a b : cok a -> cok b -> cvalue (cpx_bin AMul prec emax (cconj a) (cconj b)) = conjugate (cvalue (cpx_bin AMul prec emax a b)).
Proof.
  intros [A1 A2] [B1 B2]. assert (ok (SFopp (snd a))) as A2' by (unfold ok; rewrite opp_valid; exact A2). assert (ok (SFopp (snd b))) as B2' by (unfold ok; rewrite opp_valid; exact B2).
  unfold cvalue, conjugate. cbn [cpx_bin cpx_mul cconj fst snd]. f_equal.
  - rewrite !sub_add. apply add_values; try (apply MV; assumption); try (unfold ok; rewrite opp_valid; apply MV; assumption); [reflexivity|]. rewrite !opp_value. f_equal. rewrite mul_opp_l by assumption. rewrite mul_opp_r by assumption. apply ext_opp_opp.
  - apply add_opps; try (apply MV; assumption); [apply mul_opp_r; assumption|apply mul_opp_l; assumption].
Qed.

Lemma mul_values x y x' y' : ok x -> ok y -> ok x' -> ok y' -> float_value x = float_value x' -> float_value y = float_value y' -> float_value (SFmul prec emax x y) = float_value (SFmul prec emax x' y').
Proof.
  intros X Y X' Y' E E'. apply (product_unique prec emax (float_value x) (float_value y)); [apply mul_rounded; assumption|]. rewrite E, E'. apply mul_rounded; assumption.
Qed.
Lemma bin_values op a b a' b' : op = AAdd \/ op = AMul -> cok a -> cok b -> cok a' -> cok b' -> cvalue a = cvalue a' -> cvalue b = cvalue b' -> cvalue (cpx_bin op prec emax a b) = cvalue (cpx_bin op prec emax a' b').
Proof.
  intros HO [A1 A2] [B1 B2] [A1' A2'] [B1' B2'] E E'. injection E as E1 E2. injection E' as E1' E2'. destruct HO as [-> | ->]; unfold cvalue; cbn [cpx_bin cpx_mul fst snd]; f_equal.
  - apply add_values; assumption. - apply add_values; assumption.
  - rewrite !sub_add. apply add_values; try (apply MV; assumption); try (unfold ok; rewrite opp_valid; apply MV; assumption); [apply mul_values; assumption|rewrite !opp_value; f_equal; apply mul_values; assumption].
  - apply add_values; try (apply MV; assumption); apply mul_values; assumption.
Qed.

(* ---- order ----------------------------------------------------------------------- *)
Lemma cpx_nan_value a : cpx_nan a = true <-> has_nan (cvalue a).
Proof. unfold cpx_nan, has_nan, cvalue. cbn [fst snd]. rewrite orb_true_iff, !is_nan_value. tauto. Qed.
Lemma compare_eq e f : ext_compare e f = Some Eq <-> e = f /\ e <> NaN.
Proof.
  destruct e as [|s|x], f as [|t|y]; cbn; try (split; [discriminate|intros [H H']; first [discriminate H|contradiction]]); try (split; [destruct s; discriminate|intros [H _]; discriminate H]); try (split; [destruct t; discriminate|intros [H _]; discriminate H]).
  - split; [destruct s, t; try discriminate; intros _; (split; [reflexivity|discriminate])|intros [H _]; injection H as <-; destruct s; reflexivity].
  - split; [intros H; injection H as H; apply Z.compare_eq in H; subst; split; [reflexivity|discriminate]|intros [H _]; injection H as <-; rewrite Z.compare_refl; reflexivity].
Qed.
Lemma leb_value x y : ok x -> ok y -> (SFleb x y = true <-> ext_le (float_value x) (float_value y)).
Proof.
  intros X Y. pose proof HF as (P1 & P2 & _). pose proof (float_cmp_value prec emax CLe x y ltac:(lia) P2 X Y) as E. cbn [float_cmp] in E. rewrite E. unfold ext_le. destruct (ext_compare _ _) as [[]|]; cbn; split; try discriminate; try contradiction; auto.
Qed.
Lemma lex_value x y : cok x -> cok y -> ~ has_nan (cvalue x) ->
  ((SFltb (fst x) (fst y) || SFeqb (fst x) (fst y) && SFleb (snd x) (snd y)) = true <-> lex_le (cvalue x) (cvalue y)).
Proof.
  intros [X1 X2] [Y1 Y2] NN. unfold lex_le, cvalue. cbn [fst snd]. rewrite orb_true_iff, andb_true_iff. rewrite (sfltb_value prec emax), (eqb_value prec emax), leb_value by assumption. rewrite compare_eq.
  assert (float_value (fst x) <> NaN) by (intros H; apply NN; left; exact H). tauto.
Qed.
Lemma eqb_sym x y : ok x -> ok y -> SFeqb x y = SFeqb y x.
Proof.
  intros X Y. apply eq_true_iff_eq. rewrite !(eqb_value prec emax) by assumption. rewrite !compare_eq. split; intros [E N]; split; congruence.
Qed.
Lemma lex_total p q : ~ has_nan p -> ~ has_nan q -> lex_le p q \/ lex_le q p.
Proof.
  intros NP NQ. unfold lex_le, has_nan in *. destruct (ext_compare (fst p) (fst q)) as [[]|] eqn:E.
  - apply compare_eq in E as [E _]. assert (ext_le (snd p) (snd q) \/ ext_le (snd q) (snd p)) as [H|H]; [|left; right; auto|right; right; auto].
    assert (snd p <> NaN) by tauto. assert (snd q <> NaN) by tauto. unfold ext_le. destruct (snd p) as [|[]|x], (snd q) as [|[]|y]; cbn; try contradiction; auto.
    rewrite (Z.compare_antisym x y). destruct (x ?= y); cbn; auto.
  - left. left. exact E.
  - right. left. unfold ext_lt. revert E. destruct (fst p) as [|[]|x], (fst q) as [|[]|y]; cbn; try discriminate; try reflexivity. intros E. injection E as E. rewrite Z.compare_antisym, E. reflexivity.
  - exfalso. assert (fst p <> NaN) by tauto. assert (fst q <> NaN) by tauto. destruct (fst p) as [|[]|x], (fst q) as [|[]|y]; try contradiction; discriminate E.
Qed.
Lemma lex_refl p : ~ has_nan p -> lex_le p p.
Proof. intros N. destruct (lex_total p p N N); assumption. Qed.
Lemma pick_greater a b : cok a -> cok b -> ~ has_nan (cvalue a) -> ~ has_nan (cvalue b) -> cgreater (cvalue a) (cvalue b) (cvalue (if lex_ge a b then a else b)).
Proof.
  intros A B NA NB. pose proof A as [A1 _]. pose proof B as [B1 _]. pose proof (lex_value b a B A NB) as H. rewrite (eqb_sym (fst b) (fst a) B1 A1) in H. change (lex_ge a b = true <-> lex_le (cvalue b) (cvalue a)) in H.
  unfold cgreater. destruct (lex_ge a b) eqn:E.
  - split; [left; reflexivity|]. split; [apply lex_refl; exact NA|apply H; reflexivity].
  - split; [right; reflexivity|]. split; [|apply lex_refl; exact NB]. destruct (lex_total _ _ NA NB) as [L|L]; [exact L|]. apply H in L. discriminate.
Qed.
Lemma pick_less a b : cok a -> cok b -> ~ has_nan (cvalue a) -> ~ has_nan (cvalue b) -> cless (cvalue a) (cvalue b) (cvalue (if cpx_le a b then a else b)).
Proof.
  intros A B NA NB. pose proof (lex_value a b A B NA) as H. change (cpx_le a b = true <-> lex_le (cvalue a) (cvalue b)) in H.
  unfold cless. destruct (cpx_le a b) eqn:E.
  - split; [left; reflexivity|]. split; [apply lex_refl; exact NA|apply H; reflexivity].
  - split; [right; reflexivity|]. split; [|apply lex_refl; exact NB]. destruct (lex_total _ _ NA NB) as [L|L]; [|exact L]. apply H in L. discriminate.
Qed.
Lemma extrema_value a b : cok a -> cok b ->
  cnan_wins cgreater (cvalue a) (cvalue b) (cvalue (cpx_bin AMaximum prec emax a b)) /\ cnan_wins cless (cvalue a) (cvalue b) (cvalue (cpx_bin AMinimum prec emax a b)) /\
  cnan_loses cgreater (cvalue a) (cvalue b) (cvalue (cpx_bin AFMax prec emax a b)) /\ cnan_loses cless (cvalue a) (cvalue b) (cvalue (cpx_bin AFMin prec emax a b)).
Proof.
  intros A B. pose proof (cpx_nan_value a) as NA. pose proof (cpx_nan_value b) as NB. cbn [cpx_bin]. unfold cnan_wins, cnan_loses.
  pose proof (pick_greater a b A B) as PG. pose proof (pick_less a b A B) as PL.
  assert (has_nan (cvalue a) /\ cpx_nan a = true \/ ~ has_nan (cvalue a) /\ cpx_nan a = false) as [[HA ->]|[HA ->]] by (destruct (cpx_nan a); [left; split; [apply NA|]; reflexivity|right; split; [intros X; apply NA in X; discriminate|reflexivity]]);
  assert (has_nan (cvalue b) /\ cpx_nan b = true \/ ~ has_nan (cvalue b) /\ cpx_nan b = false) as [[HB ->]|[HB ->]] by (destruct (cpx_nan b); [left; split; [apply NB|]; reflexivity|right; split; [intros X; apply NB in X; discriminate|reflexivity]]);
  clear NA NB; cbn [orb andb]; (split; [|split; [|split]]); repeat (match goal with |- (_ -> _) /\ _ => split end); intros; try reflexivity; try contradiction; try exact (PG HA HB); try exact (PL HA HB); try (exfalso; tauto); try (match goal with H : _ \/ _ |- _ => destruct H; contradiction end).
Qed.
End Fmt.

(* ---- elements -------------------------------------------------------------------- *)
Definition celem (op : aop) (kx ky : kind) (v w : scalar) : res scalar :=
  if kind_eqb kx ky then any_same kx op v w else any_mixed (promote kx ky) op v w.
(* the result is computed in the format of its own parts, from the operands' exact values *)
Definition one_format (kx ky : kind) (v w : scalar) : Prop := kx = ky \/ promote kx ky = Complex128 /\ fits v /\ fits w.
Lemma complex_part k : is_complex_kind k = true -> part_kind k = Float32 \/ part_kind k = Float64.
Proof. destruct k; try discriminate; auto. Qed.
Lemma part_fmt k : is_complex_kind k = true -> format (part_kind k) = part k /\ format k = part k.
Proof. destruct k; try discriminate; auto. Qed.
Lemma complex_promote kx ky : numeric kx = true -> numeric ky = true -> is_complex_kind (promote kx ky) = true -> kx = ky \/ is_complex_kind kx = true \/ is_complex_kind ky = true.
Proof. destruct kx, ky; try discriminate; auto. Qed.
Lemma read_valid k v : numeric k = true -> element k v -> cok 53 1024 (read_complex v).
Proof.
  intros N E. destruct v as [z|x|x y]; cbn [read_complex].
  - assert (real k = true) as R by (destruct k; try discriminate N; try reflexivity; contradiction). split; cbn [fst snd]; [apply (as_f64_rounded k _ R E)|reflexivity].
  - assert (real k = true) as R by (destruct k; try discriminate N; try reflexivity; contradiction). split; cbn [fst snd]; [apply (as_f64_rounded k _ R E)|reflexivity].
  - assert (is_complex_kind k = true) as C by (destruct k; try discriminate N; try reflexivity; contradiction). destruct (element_cpx k _ C E) as (x' & y' & Q & V1 & V2). injection Q as <- <-. split; cbn [fst snd]; [apply (widen k x V1)|apply (widen k y V2)].
Qed.
Lemma read_value k v : numeric k = true -> element k v -> fits v -> cvalue (read_complex v) = value v.
Proof.
  intros N E F. destruct v as [z|x|x y]; unfold cvalue; cbn [read_complex fst snd].
  - assert (real k = true) as R by (destruct k; try discriminate N; try reflexivity; contradiction). rewrite (proj1 (as_f64_value k _ R E F)). reflexivity.
  - assert (real k = true) as R by (destruct k; try discriminate N; try reflexivity; contradiction). rewrite (proj1 (as_f64_value k _ R E F)). reflexivity.
  - assert (is_complex_kind k = true) as C by (destruct k; try discriminate N; try reflexivity; contradiction). destruct (element_cpx k _ C E) as (x' & y' & Q & V1 & V2). injection Q as <- <-.
    rewrite (proj1 (widen k x V1)), (proj1 (widen k y V2)). reflexivity.
Qed.
Lemma store_valid k x : is_complex_kind k = true -> valid_binary 53 1024 x = true -> valid_in k (store k x).
Proof.
  intros C V. destruct k; try discriminate C; [|exact V]. apply (to_format_rounded 53 1024 24 128); [exact f64_format|exact f32_format|exact V].
Qed.
Lemma celem_ok op kx ky v w : numeric kx = true -> numeric ky = true -> is_complex_kind (promote kx ky) = true -> element kx v -> element ky w ->
  exists r, celem op kx ky v w = Ok r /\ element (promote kx ky) r.
Proof.
  intros NX NY C EV EW. unfold celem. destruct (kind_eqb kx ky) eqn:Q.
  - apply kind_eqb_eq in Q. subst ky. assert (is_complex_kind kx = true /\ promote kx kx = kx) as [CX PX] by (destruct kx; try discriminate NX; try discriminate C; auto). rewrite PX.
    destruct (element_cpx kx v CX EV) as (a & b & -> & VA & VB). destruct (element_cpx kx w CX EW) as (c & d & -> & VC & VD). cbn [any_same].
    destruct (cpx_bin op (fst (part kx)) (snd (part kx)) (a, b) (c, d)) as [r i] eqn:EB. exists (SCpx r i). split; [reflexivity|].
    destruct (part_fmt kx CX) as [_ PF]. unfold valid_in in *. rewrite PF in *. pose proof (bin_ok _ _ (part_format kx) op (a, b) (c, d) (Logic.conj VA VB) (Logic.conj VC VD)) as [O1 O2]. rewrite EB in O1, O2.
    apply cpx_element; [exact CX| |]; unfold valid_in; rewrite PF; assumption.
  - unfold any_mixed. rewrite C. destruct (cpx_mixed op (read_complex v) (read_complex w)) as [r i] eqn:EB. exists (SCpx (store (promote kx ky) r) (store (promote kx ky) i)). split; [reflexivity|].
    pose proof (read_valid kx v NX EV) as RV. pose proof (read_valid ky w NY EW) as RW.
    assert (cok 53 1024 (cpx_mixed op (read_complex v) (read_complex w))) as [O1 O2].
    { unfold cpx_mixed. pose proof (bin_ok 53 1024 f64_format op _ _ RV RW) as H. destruct op; try exact H. destruct (SFeqb _ _); [apply nan_ok|exact H]. }
    rewrite EB in O1, O2. apply cpx_element; [exact C| |]; apply store_valid; assumption.
Qed.
(* the floats an element of the result comes from *)
Lemma celem_floats op kx ky v w : numeric kx = true -> numeric ky = true -> is_complex_kind (promote kx ky) = true -> element kx v -> element ky w -> one_format kx ky v w -> op <> ADiv \/ kx = ky ->
  let k := promote kx ky in let p := fst (part k) in let m := snd (part k) in
  exists a b, cok p m a /\ cok p m b /\ cvalue a = value v /\ cvalue b = value w /\ celem op kx ky v w = Ok (SCpx (fst (cpx_bin op p m a b)) (snd (cpx_bin op p m a b))).
Proof.
  intros NX NY C EV EW HO ND. cbv zeta. unfold celem. destruct (kind_eqb kx ky) eqn:Q.
  - apply kind_eqb_eq in Q. subst ky. assert (is_complex_kind kx = true /\ promote kx kx = kx) as [CX PX] by (destruct kx; try discriminate NX; try discriminate C; auto). rewrite PX.
    destruct (element_cpx kx v CX EV) as (a & b & -> & VA & VB). destruct (element_cpx kx w CX EW) as (c & d & -> & VC & VD). destruct (part_fmt kx CX) as [_ PF]. unfold valid_in in *. rewrite PF in *.
    exists (a, b), (c, d). split; [split; assumption|]. split; [split; assumption|]. split; [reflexivity|]. split; [reflexivity|]. cbn [any_same]. destruct (cpx_bin _ _ _ _ _); reflexivity.
  - destruct HO as [-> |(P & FV & FW)]; [rewrite kind_eqb_refl in Q; discriminate|]. destruct ND as [ND| ->]; [|rewrite kind_eqb_refl in Q; discriminate]. rewrite P in *. cbn [part fst snd].
    exists (read_complex v), (read_complex w). split; [exact (read_valid kx v NX EV)|]. split; [exact (read_valid ky w NY EW)|]. split; [exact (read_value kx v NX EV FV)|]. split; [exact (read_value ky w NY EW FW)|].
    unfold any_mixed. cbn [is_complex_kind store]. assert (cpx_mixed op (read_complex v) (read_complex w) = cpx_bin op 53 1024 (read_complex v) (read_complex w)) as -> by (destruct op; reflexivity || contradiction). destruct (cpx_bin _ _ _ _ _); reflexivity.
Qed.

(* ---- arrays ---------------------------------------------------------------------- *)
Lemma cplain op x y : op <> ADiv \/ is_complex_kind (n_kind x) = true /\ is_complex_kind (n_kind y) = true -> cbinary op x y = cbinary_plain op x y.
Proof. intros [H|[H H']]; destruct op; try reflexivity; try contradiction. cbn [cbinary]. destruct (n_kind x); try discriminate H; destruct (n_kind y); try discriminate H'; reflexivity. Qed.
Lemma cbinary_good op x y sh : good x -> good y -> is_complex_kind (promote (n_kind x) (n_kind y)) = true -> op <> ADiv \/ is_complex_kind (n_kind x) = true /\ is_complex_kind (n_kind y) = true ->
  broadcast_shapes (shape_of x) (shape_of y) = Some sh -> in_memory sh ->
  exists z, cbinary op x y = Ok z /\ good z /\ n_kind z = promote (n_kind x) (n_kind y) /\ shape_of z = sh /\
    forall idx, inb idx sh -> exists v w r, bc_at x idx = Some v /\ bc_at y idx = Some w /\ item_at z idx = Some r /\
      element (n_kind x) v /\ element (n_kind y) w /\ element (n_kind z) r /\ celem op (n_kind x) (n_kind y) v w = Ok r.
Proof.
  intros GX GY C ND E HS. rewrite (cplain op x y ND). assert (numeric (promote (n_kind x) (n_kind y)) = true) as N by (destruct (promote _ _); try discriminate C; reflexivity).
  destruct (zip_good (promote (n_kind x) (n_kind y)) (celem op (n_kind x) (n_kind y)) (if kind_eqb (n_kind x) (n_kind y) && has_kernel (n_kind x) op then PKernel else PTrait) x y sh
              (fun v w r => celem op (n_kind x) (n_kind y) v w = Ok r) GX GY N E HS) as (z & EZ & GZ & KZ & SZ & HZ).
  { intros idx v w Hi _ _ EV EW. destruct (celem_ok op _ _ v w (proj1 GX) (proj1 GY) C EV EW) as (r & ER & EK). exists r. auto. }
  exists z. split; [|split; [exact GZ|split; [exact KZ|split; [exact SZ|rewrite KZ; exact HZ]]]].
  rewrite <- EZ. unfold cbinary_plain, zip_with, celem. cbv zeta. destruct (kind_eqb (n_kind x) (n_kind y)); reflexivity.
Qed.
Lemma cbinary_err op x y : good x -> good y -> op <> ADiv \/ is_complex_kind (n_kind x) = true /\ is_complex_kind (n_kind y) = true ->
  broadcast_shapes (shape_of x) (shape_of y) = None -> cbinary op x y = Err.
Proof.
  intros GX GY ND E. rewrite (cplain op x y ND). unfold cbinary_plain.
  pose proof (zip_err (promote (n_kind x) (n_kind y)) (if kind_eqb (n_kind x) (n_kind y) then any_same (n_kind x) op else any_mixed (promote (n_kind x) (n_kind y)) op) (if kind_eqb (n_kind x) (n_kind y) && has_kernel (n_kind x) op then PKernel else PTrait) x y GX GY E) as H.
  exact H.
Qed.
