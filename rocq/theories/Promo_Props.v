(* Type promotion and casting (C58, C76). *)
From Verif Require Import Base Date_Spec Date_Model Date_Units Promo_Spec Promo_Model Promo_Proofs.
Local Open Scope Z_scope.

(* ==== C58 promotion =================================================================== *)
Theorem C58_idempotent : forall k, promote k k = k.
Proof.
  intro k. unfold promote. assert (kind_eqb k k = true) as ->; [|reflexivity].
  destruct k; try reflexivity; cbn [kind_eqb]; try (now apply unit_eqb_spec); apply Nat.eqb_refl.
Qed.
(* _partial: numeric dtypes (refuted for the others below) *)
Theorem C58_commutative_partial : forall a b, numeric a = true -> numeric b = true -> promote a b = promote b a.
Proof. intros a b Na Nb. destruct a; try discriminate Na; destruct b; try discriminate Nb; reflexivity. Qed.
Theorem C58_numeric : forall a b, numeric a = true -> numeric b = true -> numeric (promote a b) = true.
Proof. intros a b Na Nb. destruct a; try discriminate Na; destruct b; try discriminate Nb; reflexivity. Qed.
(* every value of either operand is a value of the result ... *)
Theorem C58_represents_partial : forall a b, numeric a = true -> numeric b = true -> wide_int a = false ->
  forall v, holds a v -> holds (promote a b) v.
Proof.
  intros a b Na Nb W. destruct a; try discriminate Na; try discriminate W; destruct b; try discriminate Nb;
    cbn [promote kind_eqb]; (apply safe_holds; [reflexivity | reflexivity | reflexivity | reflexivity]).
Qed.
(* ... and a 64-bit integer is, up to one part in 2^52 *)
Theorem C58_close : forall a b, numeric a = true -> numeric b = true -> forall x y, holds a (x, y) ->
  exists x', holds (promote a b) (x', y) /\ Z.abs (x' - x) * 2 ^ 52 <= Z.abs x.
Proof.
  intros a b Na Nb x y H. destruct (wide_int a) eqn:W.
  - assert (holds (promote a b) (x, y) \/ ((promote a b = Float64 \/ promote a b = Complex128) /\ y = 0 /\ exists z, - 2 ^ 64 <= z <= 2 ^ 64 /\ x = z * one)) as [K|(K & Hy & z & Hz & Ex)].
    { destruct a; try discriminate W; destruct H as ((z & Hz & Ez) & Hy); destruct b; try discriminate Nb;
        first [left; split; [exists z; split; [lia | exact Ez] | exact Hy]
              | right; split; [first [left; reflexivity | right; reflexivity] | split; [exact Hy | exists z; split; [lia | exact Ez]]]]. }
    + exists x. split; [exact K|]. rewrite Z.sub_diag. cbn [Z.abs]. lia.
    + subst x y. destruct (f64_near z Hz) as (x' & Hx' & HE). exists x'. split; [|exact HE].
      destruct K as [-> | ->]; (split; [exact Hx' | first [reflexivity | apply float_zero; lia]]).
  - exists x. split; [now apply C58_represents_partial|]. rewrite Z.sub_diag. cbn [Z.abs]. lia.
Qed.
(* among the integer dtypes it is the smallest such dtype *)
Theorem C58_least_partial : forall a b c, integer a = true -> integer b = true -> integer (promote a b) = true -> integer c = true ->
  (forall v, holds a v -> holds c v) -> (forall v, holds b v -> holds c v) -> forall v, holds (promote a b) v -> holds c v.
Proof.
  intros a b c Ia Ib Ip Ic Ha Hb.
  assert (forall k, integer k = true -> numeric k = true) as IN by (now intros []).
  assert (can_cast_safe a c = true) as Sa.
  { destruct (can_cast_safe a c) eqn:E; [reflexivity|]. destruct (unsafe_missing a c (IN a Ia) (IN c Ic) E) as (v & V1 & V2). elim V2. now apply Ha. }
  assert (can_cast_safe b c = true) as Sb.
  { destruct (can_cast_safe b c) eqn:E; [reflexivity|]. destruct (unsafe_missing b c (IN b Ib) (IN c Ic) E) as (v & V1 & V2). elim V2. now apply Hb. }
  clear Ha Hb. apply safe_holds; [now apply IN | now apply IN | |].
  - destruct (promote a b); try discriminate Ip; destruct c; try discriminate Ic; reflexivity.
  - destruct a; try discriminate Ia; destruct b; try discriminate Ib; destruct c; try discriminate Ic;
      try discriminate Sa; try discriminate Sb; try discriminate Ip; reflexivity.
Qed.
(* result_type of any number of dtypes holds the values of each of them: exactly, and
   64-bit integers up to one part in 2^52 *)
Definition covers (j r : kind) : bool :=
  (can_cast_safe j r && negb (int_to_complex j r)) || (wide_int j && match r with Float64 | Complex128 => true | _ => false end).
Lemma covers_step j r k : numeric j = true -> numeric r = true -> numeric k = true -> covers j r = true -> covers j (promote r k) = true /\ covers j (promote k j) = true.
Proof.
  intros Nj Nr Nk. destruct j; try discriminate Nj; destruct r; try discriminate Nr; intro H; try discriminate H; clear H; destruct k; try discriminate Nk; split; reflexivity.
Qed.
Lemma covers_self j : numeric j = true -> covers j j = true.
Proof. now destruct j. Qed.
Lemma covers_fold ks : forall k, numeric k = true -> Forall (fun k => numeric k = true) ks ->
  numeric (fold_left promote ks k) = true /\ (forall j, numeric j = true -> covers j k = true -> covers j (fold_left promote ks k) = true) /\ (forall j, In j ks -> covers j (fold_left promote ks k) = true).
Proof.
  induction ks as [|k' ks IH]; intros k Nk F; cbn [fold_left]; [easy|]. inversion F as [|? ? F1 F2]; subst.
  destruct (IH (promote k k') (C58_numeric k k' Nk F1) F2) as (N & C1 & C2). split; [exact N|]. split.
  - intros j Nj Cj. apply C1; [exact Nj|]. now apply (covers_step j k k').
  - intros j [<-|Hj]; [|now apply C2]. apply C1; [exact F1|]. apply (covers_step k' k' k); try assumption. now apply covers_self.
Qed.
Lemma covers_close j r : numeric j = true -> numeric r = true -> covers j r = true -> forall x y, holds j (x, y) ->
  exists x', holds r (x', y) /\ Z.abs (x' - x) * 2 ^ 52 <= Z.abs x /\ (wide_int j = false -> x' = x).
Proof.
  intros Nj Nr C x y H. unfold covers in C. apply orb_true_iff in C as [C|C]; apply andb_true_iff in C as (C1 & C2).
  - exists x. rewrite Z.sub_diag. cbn [Z.abs]. split; [|split; [lia | easy]]. apply negb_true_iff in C2. now apply (safe_holds j r).
  - assert (y = 0 /\ exists z, - 2 ^ 64 <= z <= 2 ^ 64 /\ x = z * one) as (-> & z & Hz & ->).
    { destruct j; try discriminate C1; destruct H as ((z & Hz & Ez) & Hy); (split; [exact Hy|]); exists z; (split; [lia | exact Ez]). }
    destruct (f64_near z Hz) as (x' & Hx' & HE). exists x'. split; [|split; [exact HE | congruence]].
    destruct r; try discriminate C2; (split; [exact Hx' | first [reflexivity | apply float_zero; lia]]).
Qed.
Theorem C58_result_type : forall ks r, result_type ks = Some r -> Forall (fun k => numeric k = true) ks ->
  forall k, In k ks -> forall x y, holds k (x, y) ->
  exists x', holds r (x', y) /\ Z.abs (x' - x) * 2 ^ 52 <= Z.abs x /\ (wide_int k = false -> x' = x).
Proof.
  intros ks r H F k Hk. destruct ks as [|k0 ks]; [discriminate|]. injection H as <-. inversion F as [|? ? F0 F1]; subst.
  destruct (covers_fold ks k0 F0 F1) as (N & C1 & C2).
  assert (numeric k = true) as Nk by (rewrite Forall_forall in F; now apply F).
  apply covers_close; [exact Nk | exact N|]. destruct Hk as [<-|Hk]; [apply C1; [exact F0 | now apply covers_self] | now apply C2].
Qed.
(* but the dtype depends on the order of three or more *)
Theorem C58_grouping_refuted : result_type [Int8; Uint8; Float16] = Some Float32 /\ result_type [Int8; Float16; Uint8] = Some Float16.
Proof. split; reflexivity. Qed.
(* datetimes and strings: the first operand's dtype, whatever the second *)
Theorem C58_datetime_refuted : forall u, promote (DateTime64 u) Int64 <> promote Int64 (DateTime64 u) /\
  promote (TimeDelta64 u) Int8 <> promote Int8 (TimeDelta64 u) /\ (forall u', u <> u' -> promote (TimeDelta64 u) (TimeDelta64 u') <> promote (TimeDelta64 u') (TimeDelta64 u)).
Proof.
  intro u. split; [discriminate|]. split; [discriminate|]. intros u' H E. apply H.
  unfold promote in E. cbn [kind_eqb] in E. destruct (unit_eqb u u') eqn:X; [now apply unit_eqb_spec in X|].
  destruct (unit_eqb u' u) eqn:X'; [now apply unit_eqb_spec in X' as ->|]. cbn in E. now injection E.
Qed.
Theorem C58_string_refuted : forall n m, (n < m)%nat -> promote (Str n) (Str m) = Str n /\ ~ holds_text (promote (Str n) (Str m)) m /\ promote (Str m) (Str n) = Str m.
Proof.
  intros n m H. assert (promote (Str n) (Str m) = Str n) as E by (unfold promote; cbn [kind_eqb]; destruct (Nat.eqb_spec n m); [lia | reflexivity]).
  split; [exact E|]. split; [rewrite E; cbn; lia|]. unfold promote; cbn [kind_eqb]. destruct (Nat.eqb_spec m n); [lia | reflexivity].
Qed.
Example C58_nonvacuous : promote Int32 Float32 = Float64 /\ promote Uint32 Int16 = Int64 /\ promote Uint64 Int8 = Float64 /\ promote Float16 Uint16 = Float32 /\
  promote Complex64 Int32 = Complex128 /\ holds Int32 (7 * one, 0) /\ holds Float32 (3 * 2 ^ 1073, 0) /\ result_type [Bool; Uint8; Int8; Float16] = Some Float32.
Proof.
  repeat split; try reflexivity; [exists 7; split; [lia | reflexivity] | exists 3, (-1); split; [lia|]; split; [lia | reflexivity]].
Qed.

(* ==== C76 casting ========================================================================= *)
(* can_cast(a, b, 'safe') holds iff every value of a is a value of b.  _partial: not for
   32- and 64-bit integers to complex, refuted below. *)
Theorem C76_safe_partial : forall f t, numeric f = true -> numeric t = true -> int_to_complex f t = false ->
  (can_cast_safe f t = true <-> forall v, holds f v -> holds t v).
Proof.
  intros f t Nf Nt Nc. split; [now apply safe_holds|]. intro H. destruct (can_cast_safe f t) eqn:E; [reflexivity|].
  destruct (unsafe_missing f t Nf Nt E) as (v & V1 & V2). elim V2. now apply H.
Qed.
Theorem C76_preorder : (forall a, can_cast_safe a a = true) /\
  (forall a b c, can_cast_safe a b = true -> can_cast_safe b c = true -> can_cast_safe a c = true).
Proof.
  assert (forall a, kind_eqb a a = true) as R by (intro a; destruct a; try reflexivity; cbn [kind_eqb]; try (now apply unit_eqb_spec); apply Nat.eqb_refl).
  assert (forall a b, kind_eqb a b = true -> a = b) as Q.
  { intros a b H. destruct a, b; try discriminate H; try reflexivity; cbn [kind_eqb] in H; try (apply unit_eqb_spec in H; congruence); apply Nat.eqb_eq in H; congruence. }
  split; [intro a; unfold can_cast_safe; now rewrite R|]. intros a b c H1 H2.
  destruct (kind_eqb a b) eqn:E1; [apply Q in E1 as ->; exact H2|]. destruct (kind_eqb b c) eqn:E2; [apply Q in E2 as <-; exact H1|].
  unfold can_cast_safe in H1, H2. rewrite E1 in H1. rewrite E2 in H2. clear E1 E2.
  destruct a, b; try discriminate H1; destruct c; try discriminate H2; reflexivity.
Qed.
(* the promoted dtype is a safe target for both operands, 64-bit integers apart *)
Theorem C76_promote : forall a b, numeric a = true -> numeric b = true -> wide_int a = false ->
  can_cast_safe a (promote a b) = true /\ can_cast_safe a (promote b a) = true.
Proof. intros a b Na Nb W. destruct a; try discriminate Na; try discriminate W; destruct b; try discriminate Nb; split; reflexivity. Qed.
Theorem C76_same_kind : forall a b, can_cast_safe a b = true -> can_cast_same_kind a b = true.
Proof. intros a b H. unfold can_cast_same_kind. now rewrite H. Qed.
(* 'same_kind' allows every cast within one class and none to a lower one *)
Theorem C76_same_kind_class : forall a b, numeric a = true -> numeric b = true ->
  (class a = class b -> can_cast_same_kind a b = true) /\ (class b < class a -> can_cast_same_kind a b = false)%nat.
Proof.
  intros a b Na Nb. destruct a; try discriminate Na; destruct b; try discriminate Nb; split; intro H; try reflexivity;
    cbn [class] in H; first [discriminate H | lia].
Qed.
(* but not, as NumPy does, every cast to a higher class *)
Theorem C76_same_kind_up_refuted : exists a b, (class a < class b)%nat /\ numeric a = true /\ numeric b = true /\ can_cast_same_kind a b = false.
Proof. exists Int64, Float32. repeat split. cbn. lia. Qed.
Theorem C76_complex_refuted : forall f t, int_to_complex f t = true -> can_cast_safe f t = true /\ exists v, holds f v /\ ~ holds t v.
Proof.
  intros f t H. destruct f; try discriminate H; destruct t; try discriminate H; (split; [reflexivity|]);
    first [missing (2 ^ 24 + 1) | missing (2 ^ 53 + 1)].
Qed.
Example C76_nonvacuous : can_cast_safe Uint8 Int16 = true /\ can_cast_safe Uint8 Int8 = false /\ can_cast_safe Int32 Float64 = true /\ can_cast_safe Int32 Float32 = false.
Proof. repeat split. Qed.

Print Assumptions C58_idempotent.
Print Assumptions C58_commutative_partial.
Print Assumptions C58_numeric.
Print Assumptions C58_represents_partial.
Print Assumptions C58_close.
Print Assumptions C58_least_partial.
Print Assumptions C58_result_type.
Print Assumptions C58_grouping_refuted.
Print Assumptions C58_datetime_refuted.
Print Assumptions C58_string_refuted.
Print Assumptions C76_safe_partial.
Print Assumptions C76_preorder.
Print Assumptions C76_promote.
Print Assumptions C76_same_kind.
Print Assumptions C76_same_kind_class.
Print Assumptions C76_same_kind_up_refuted.
Print Assumptions C76_complex_refuted.
