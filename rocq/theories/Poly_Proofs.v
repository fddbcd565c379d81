(* Proofs about polynomial evaluation, derivative and integral. *)
From Coq Require Import Ring_theory Ring Field_theory Field.
From Verif Require Import Base Lists Conv_Spec Conv_Proofs Conv_Model Poly_Spec Poly_Model.
Local Open Scope nat_scope.

Section Der1.
Context {R : Type}.
Variables (mul : R -> R -> R) (nat_f : nat -> R).

Lemma der1_length p : length (der1 mul nat_f p) = length p - 1.
Proof. unfold der1. rewrite map_length, combine_length, seq_length, firstn_length. lia. Qed.

Variable zero : R.
Lemma der1_nth p i : i < length p - 1 -> nth_error (der1 mul nat_f p) i = Some (mul (nth i p zero) (nat_f (length p - 1 - i))).
Proof.
  intros H. unfold der1. rewrite nth_error_map'.
  assert (N : nth_error p i = Some (nth i p zero)) by (apply nth_error_nth'; lia).
  assert (E : nth_error (combine (seq 0 (length p - 1)) (firstn (length p - 1) p)) i = Some (i, nth i p zero)).
  { rewrite (nth_error_nth' _ (0, zero)) by (rewrite combine_length, seq_length, firstn_length; lia).
    rewrite combine_nth by (rewrite seq_length, firstn_length; lia). rewrite seq_nth by lia. f_equal. f_equal.
    transitivity (nth i (firstn (length p - 1) p ++ skipn (length p - 1) p) zero); [|rewrite firstn_skipn; reflexivity].
    rewrite app_nth1 by (rewrite firstn_length; lia). reflexivity. }
  rewrite E. reflexivity.
Qed.

End Der1.

Section RingPart.
Context {R : Type}.
Variables (zero one : R) (add mul sub : R -> R -> R) (opp : R -> R).
Hypothesis RT : ring_theory zero one add mul sub opp eq.
Add Ring Rr : RT.
Local Notation big := (big zero add).
Local Notation power := (power one mul).
Local Notation value := (value zero one add mul).
Local Notation bext := (big_ext zero add).

Lemma power_add x a b : power x (a + b) = mul (power x a) (power x b).
Proof. induction a as [|a IH]; cbn; [ring|]. rewrite IH. ring. Qed.

Lemma value_nil x : value [] x = zero.
Proof. reflexivity. Qed.

Lemma value_snoc p c x : value (p ++ [c]) x = add (mul (value p x) x) c.
Proof.
  unfold Poly_Spec.value. rewrite app_length. cbn [length]. replace (length p + 1) with (S (length p)) by lia. cbn [Conv_Spec.big].
  rewrite nth_middle. replace (S (length p) - 1 - length p) with 0 by lia. cbn [Poly_Spec.power].
  rewrite (bext (length p) _ (fun i => mul x (mul (nth i p zero) (power x (length p - 1 - i))))).
  - rewrite (big_scale zero one add mul sub opp RT). ring.
  - intros i Hi. rewrite app_nth1 by lia. replace (S (length p) - 1 - i) with (S (length p - 1 - i)) by lia. cbn [Poly_Spec.power]. ring.
Qed.

Lemma horner_value p x : horner zero add mul p x = value p x.
Proof.
  destruct p as [|c0 cs]; [reflexivity|]. cbn [horner]. induction cs as [|c cs IH] using rev_ind.
  - cbn. ring.
  - rewrite fold_left_app. cbn [fold_left]. rewrite IH. symmetry. exact (value_snoc (c0 :: cs) c x).
Qed.

(* product of polynomials = full convolution of the coefficients *)
Lemma value_conv p q x : p <> [] -> q <> [] -> value (conv_full zero add mul p q) x = mul (value p x) (value q x).
Proof.
  intros Hp Hq. assert (P : 0 < length p) by (destruct p; [congruence|cbn; lia]). assert (Q : 0 < length q) by (destruct q; [congruence|cbn; lia]).
  unfold Poly_Spec.value at 1. assert (L : length (conv_full zero add mul p q) = length p + length q - 1) by (unfold conv_full; rewrite map_length, seq_length; reflexivity).
  rewrite L. set (n := length p) in *. set (m := length q) in *.
  rewrite (bext _ _ (fun k => big n (fun i => big m (fun j => if k =? i + j then mul (mul (nth i p zero) (power x (n - 1 - i))) (mul (nth j q zero) (power x (m - 1 - j))) else zero)))).
  2:{ intros k Hk. unfold conv_full. rewrite (nth_indep _ _ (conv_at zero add mul p q 0)) by (rewrite map_length, seq_length; fold n m; lia).
      rewrite map_nth, seq_nth by (fold n m; lia). cbn [Nat.add]. unfold conv_at. fold n m.
      replace (mul (big n (fun i => big m (fun j => if i + j =? k then mul (nth i p zero) (nth j q zero) else zero))) (power x (n + m - 1 - 1 - k)))
        with (mul (power x (n + m - 1 - 1 - k)) (big n (fun i => big m (fun j => if i + j =? k then mul (nth i p zero) (nth j q zero) else zero)))) by ring.
      rewrite <- (big_scale zero one add mul sub opp RT). apply bext. intros i Hi.
      rewrite <- (big_scale zero one add mul sub opp RT). apply bext. intros j Hj. rewrite (Nat.eqb_sym k).
      destruct (Nat.eqb_spec (i + j) k) as [<-|]; [|ring].
      replace (n + m - 1 - 1 - (i + j)) with ((n - 1 - i) + (m - 1 - j)) by lia. rewrite power_add. ring. }
  rewrite (big_swap zero one add mul sub opp RT). unfold Poly_Spec.value. fold n m.
  replace (mul (big n (fun i => mul (nth i p zero) (power x (n - 1 - i)))) (big m (fun j => mul (nth j q zero) (power x (m - 1 - j)))))
    with (mul (big m (fun j => mul (nth j q zero) (power x (m - 1 - j)))) (big n (fun i => mul (nth i p zero) (power x (n - 1 - i))))) by ring.
  rewrite <- (big_scale zero one add mul sub opp RT). apply bext. intros i Hi.
  rewrite (big_swap zero one add mul sub opp RT).
  replace (mul (big m (fun j => mul (nth j q zero) (power x (m - 1 - j)))) (mul (nth i p zero) (power x (n - 1 - i))))
    with (mul (mul (nth i p zero) (power x (n - 1 - i))) (big m (fun j => mul (nth j q zero) (power x (m - 1 - j))))) by ring.
  rewrite <- (big_scale zero one add mul sub opp RT). apply bext. intros j Hj.
  rewrite (big_single zero one add mul sub opp RT (n + m - 1) (i + j) (fun _ => mul (mul (nth i p zero) (power x (n - 1 - i))) (mul (nth j q zero) (power x (m - 1 - j))))).
  destruct (Nat.ltb_spec (i + j) (n + m - 1)); [reflexivity|lia].
Qed.

Lemma value_lin c p q x : length p = length q ->
  value (lin add mul c p q) x = add (mul c (value p x)) (value q x).
Proof.
  intros L. unfold Poly_Spec.value. rewrite (lin_length add mul c p q L), <- L.
  rewrite <- (big_scale zero one add mul sub opp RT), <- (big_add zero one add mul sub opp RT). apply bext. intros i Hi.
  rewrite (nth_lin zero one add mul sub opp RT c p q i L). ring.
Qed.
Variable nat_f : nat -> R.
Hypothesis nat_f_ok : forall n, nat_f n = times_one zero one add n.
Local Notation der1 := (der1 mul nat_f).

Lemma value_der p x : value (der1 p) x =
  big (length p) (fun i => mul (mul (nth i p zero) (nat_f (length p - 1 - i))) (power x (length p - 2 - i))).
Proof.
  unfold Poly_Spec.value. rewrite der1_length. destruct (length p) as [|n] eqn:L; [reflexivity|].
  cbn [Conv_Spec.big]. replace (S n - 1) with n by lia. rewrite Nat.sub_diag, nat_f_ok. cbn [times_one].
  rewrite (bext n _ (fun i => mul (mul (nth i p zero) (nat_f (n - i))) (power x (S n - 2 - i)))); [ring|].
  intros i Hi. rewrite (nth_error_nth _ _ zero (der1_nth mul nat_f zero p i ltac:(lia))). rewrite L. replace (S n - 1 - i) with (n - i) by lia.
  replace (n - 1 - i) with (S n - 2 - i) by lia. reflexivity.
Qed.

Lemma value_der_snoc p c x : value (der1 (p ++ [c])) x = add (value p x) (mul x (value (der1 p) x)).
Proof.
  rewrite !value_der. unfold Poly_Spec.value. rewrite app_length. cbn [length]. replace (length p + 1) with (S (length p)) by lia.
  cbn [Conv_Spec.big]. replace (S (length p) - 1 - length p) with 0 by lia. rewrite (nat_f_ok 0). cbn [times_one].
  rewrite <- (big_scale zero one add mul sub opp RT), <- (big_add zero one add mul sub opp RT).
  match goal with |- add (big _ ?f) _ = big _ ?g => rewrite (bext (length p) f g); [ring|] end.
  intros i Hi. cbv beta. rewrite app_nth1 by lia. replace (S (length p) - 1 - i) with (S (length p - 1 - i)) by lia.
  replace (S (length p) - 2 - i) with (length p - 1 - i) by lia.
  rewrite !nat_f_ok. destruct (length p - 1 - i) as [|q] eqn:Q.
  - cbn [times_one Poly_Spec.power]. ring.
  - replace (length p - 2 - i) with q by lia. cbn [times_one Poly_Spec.power]. ring.
Qed.

(* first-order Taylor expansion: the derivative is what multiplies h when h*h = 0 *)
Lemma value_shift p x h : mul h h = zero -> value p (add x h) = add (value p x) (mul h (value (der1 p) x)).
Proof.
  intros Hh. induction p as [|c p IH] using rev_ind.
  - rewrite value_der. cbn. ring.
  - rewrite !value_snoc, IH, value_der_snoc.
    set (v := value p x). set (d := value (der1 p) x).
    transitivity (add (add (add (mul v x) c) (mul h (add v (mul x d)))) (mul (mul h h) d)); [ring|rewrite Hh; ring].
Qed.

End RingPart.

(* the ring R[e]/(e*e): pairs a + b e *)
Section Dual.
Context {R : Type}.
Variables (zero one : R) (add mul sub : R -> R -> R) (opp : R -> R).
Hypothesis RT : ring_theory zero one add mul sub opp eq.
Add Ring Rd : RT.
Variable nat_f : nat -> R.
Hypothesis nat_f_ok : forall n, nat_f n = times_one zero one add n.

Definition dadd (a b : R * R) := (add (fst a) (fst b), add (snd a) (snd b)).
Definition dsub (a b : R * R) := (sub (fst a) (fst b), sub (snd a) (snd b)).
Definition dopp (a : R * R) := (opp (fst a), opp (snd a)).
Definition dmul (a b : R * R) := (mul (fst a) (fst b), add (mul (fst a) (snd b)) (mul (snd a) (fst b))).
Definition inj (a : R) : R * R := (a, zero).

Lemma dual_ring : ring_theory (inj zero) (inj one) dadd dmul dsub dopp eq.
Proof.
  constructor; intros; repeat match goal with p : R * R |- _ => destruct p end;
    unfold dadd, dmul, dsub, dopp, inj; cbn [fst snd]; f_equal; ring.
Qed.

Lemma inj_add a b : inj (add a b) = dadd (inj a) (inj b).
Proof. unfold inj, dadd. cbn [fst snd]. f_equal. ring. Qed.
Lemma inj_mul a b : inj (mul a b) = dmul (inj a) (inj b).
Proof. unfold inj, dmul. cbn [fst snd]. f_equal. ring. Qed.
Lemma inj_big n f : inj (big zero add n f) = big (inj zero) dadd n (fun i => inj (f i)).
Proof. induction n as [|n IH]; cbn [big]; [reflexivity|]. rewrite inj_add, IH. reflexivity. Qed.

Lemma inj_conv p q : map inj (conv_full zero add mul p q) = conv_full (inj zero) dadd dmul (map inj p) (map inj q).
Proof.
  unfold conv_full. rewrite map_map, !map_length. apply map_ext. intros k. unfold conv_at. rewrite inj_big, !map_length.
  apply big_ext. intros i Hi. rewrite inj_big. apply big_ext. intros j Hj. rewrite !map_nth.
  destruct (i + j =? k); [apply inj_mul|reflexivity].
Qed.

Lemma dual_value p x : value (inj zero) (inj one) dadd dmul (map inj p) (x, one) =
  (value zero one add mul p x, value zero one add mul (der1 mul nat_f p) x).
Proof.
  induction p as [|c p IH] using rev_ind.
  - reflexivity.
  - rewrite map_app. cbn [map]. rewrite (value_snoc _ _ _ _ _ _ dual_ring), IH, (value_snoc _ _ _ _ _ _ RT), (value_der_snoc _ _ _ _ _ _ RT nat_f nat_f_ok).
    unfold dadd, dmul, inj. cbn [fst snd]. f_equal; ring.
Qed.

Lemma product_rule p q x : p <> [] -> q <> [] ->
  value zero one add mul (der1 mul nat_f (conv_full zero add mul p q)) x =
  add (mul (value zero one add mul (der1 mul nat_f p) x) (value zero one add mul q x))
      (mul (value zero one add mul p x) (value zero one add mul (der1 mul nat_f q) x)).
Proof.
  intros Hp Hq. pose proof (dual_value (conv_full zero add mul p q) x) as E. rewrite inj_conv in E.
  assert (MN : forall l : list R, l <> [] -> map inj l <> []) by (intros [|? ?]; [congruence|discriminate]).
  rewrite (value_conv _ _ _ _ _ _ dual_ring _ _ _ (MN p Hp) (MN q Hq)), !dual_value in E.
  unfold dmul in E. cbn [fst snd] in E. apply (f_equal snd) in E. cbn [snd] in E. rewrite <- E. ring.
Qed.
End Dual.

Section Loops.
Context {R : Type}.
Variables (div : R -> R -> R) (nat_f : nat -> R).

Lemma int1_length k (p : list R) : length (int1 div nat_f k p) = S (length p).
Proof. unfold int1. rewrite app_length, map_length, combine_length, seq_length. cbn. lia. Qed.

Lemma int1_last k (p : list R) : nth_error (int1 div nat_f k p) (length p) = Some k.
Proof.
  unfold int1. rewrite nth_error_app2 by (rewrite map_length, combine_length, seq_length; lia).
  rewrite map_length, combine_length, seq_length, Nat.min_id, Nat.sub_diag. reflexivity.
Qed.

Definition ints (ks : list R) (p : list R) : list R := fold_left (fun cs k => int1 div nat_f k cs) ks p.

Lemma ints_length ks p : length (ints ks p) = length ks + length p.
Proof. revert p. induction ks as [|k ks IH]; intros p; [reflexivity|]. cbn [ints fold_left]. fold (ints ks (int1 div nat_f k p)). rewrite IH, int1_length. cbn. lia. Qed.

Lemma ints_snoc ks k p : ints (ks ++ [k]) p = int1 div nat_f k (ints ks p).
Proof. unfold ints. rewrite fold_left_app. reflexivity. Qed.

Variable zero : R.
Lemma int1_nth k (p : list R) i : i < length p -> nth_error (int1 div nat_f k p) i = Some (div (nth i p zero) (nat_f (length p - i))).
Proof.
  intros H. unfold int1. rewrite nth_error_app1 by (rewrite map_length, combine_length, seq_length; lia). rewrite nth_error_map'.
  assert (E : nth_error (combine (seq 0 (length p)) p) i = Some (i, nth i p zero)).
  { rewrite (nth_error_nth' _ (0, zero)) by (rewrite combine_length, seq_length; lia).
    rewrite combine_nth by (rewrite seq_length; lia). rewrite seq_nth by lia. reflexivity. }
  rewrite E. reflexivity.
Qed.

(* the constants in the order in which they are used *)
Lemma int_loop_ints ks m p : int_loop zero div nat_f ks m p = ints (map (fun r => nth r ks zero) (rev (seq 0 m))) p.
Proof.
  revert p. induction m as [|m IH]; intros p; [reflexivity|]. cbn [int_loop]. rewrite IH, seq_S, rev_app_distr. reflexivity.
Qed.

Variable mul : R -> R -> R.
Hypothesis cancel : forall c n, mul (div c (nat_f (S n))) (nat_f (S n)) = c.

Lemma der1_int1 k p : der1 mul nat_f (int1 div nat_f k p) = p.
Proof using zero cancel.
  apply nth_error_ext. intros i. destruct (Nat.lt_ge_cases i (length p)) as [H|H].
  - rewrite (der1_nth mul nat_f zero) by (rewrite int1_length; lia).
    rewrite (nth_error_nth _ _ zero (int1_nth k p i H)), int1_length.
    replace (S (length p) - 1 - i) with (S (length p - S i)) by lia. replace (length p - i) with (S (length p - S i)) by lia.
    rewrite cancel. symmetry. apply nth_error_nth'. exact H.
  - rewrite !(proj2 (nth_error_None _ _)); [reflexivity|lia|]. rewrite der1_length, int1_length. lia.
Qed.

(* j derivatives undo the last j integrals *)
Lemma der_loop_ints ks1 ks2 p : der_loop mul nat_f (length ks2) (ints (ks1 ++ ks2) p) = ints ks1 p.
Proof using zero cancel.
  induction ks2 as [|k ks2 IH] using rev_ind; [rewrite app_nil_r; reflexivity|].
  rewrite app_length, Nat.add_1_r. cbn [der_loop]. rewrite app_assoc, ints_snoc, int1_length.
  destruct (Nat.leb_spec (S (length (ints (ks1 ++ ks2) p))) 1) as [L|L].
  - rewrite ints_length, app_length in L. symmetry. apply length_zero_iff_nil. rewrite ints_length. lia.
  - rewrite der1_int1. exact IH.
Qed.

End Loops.
