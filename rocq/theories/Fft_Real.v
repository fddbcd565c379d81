(* Real transforms: rfft, irfft, rfftn, irfftn, hfft, ihfft. *)
From Coq Require Import Ring.
From Verif Require Import Base Lists Arr_Spec Arr_Model Arr_Wf Arr_Proofs Copy_Model Copy_Proofs Elem_Model Elem_Proofs Red_Spec Red_Model Red_Proofs Red_Scan
  Man_Proofs Gu_Model Gu_Proofs Lay_Copy Msk_Proofs Fft_Spec Fft_Model Fft_Proofs Fft_Lanes Fft_Trans.
Local Open Scope nat_scope.

Lemma firstn_map_seq {A} (f : nat -> A) m n : m <= n -> firstn m (map f (seq 0 n)) = map f (seq 0 m).
Proof.
  intros H. replace n with (m + (n - m)) by lia. rewrite seq_app, map_app.
  rewrite firstn_app, map_length, seq_length, Nat.sub_diag, firstn_O, app_nil_r.
  rewrite <- (seq_length m 0) at 1. rewrite <- (map_length f). apply firstn_all.
Qed.
Lemma list_nth_seq {A} (z : A) l : l = map (fun i => nth i l z) (seq 0 (length l)).
Proof.
  apply nth_error_ext. intros k. rewrite nth_error_map', nth_error_seq. destruct (Nat.ltb_spec k (length l)) as [H|H].
  - apply nth_error_nth', H.
  - apply nth_error_None. exact H.
Qed.

Section Expand.
Context {C : Type}.
Variables (zero : C) (conj : C -> C).

(* backward writes at n - k *)
Lemma back_fold (g : nat -> C) n : forall m s b, length b = n -> 0 < s -> s + m <= n ->
  let r := fold_left (fun b k => upd b (n - k) (g k)) (seq s m) b in
  length r = n /\ forall j, j < n -> nth j r zero = if (s <=? n - j) && (n - j <? s + m) then g (n - j) else nth j b zero.
Proof.
  induction m as [|m IH]; intros s b HL Hs Hm; cbn [seq fold_left].
  - split; [exact HL|]. intros j Hj. destruct (Nat.leb_spec s (n - j)), (Nat.ltb_spec (n - j) (s + 0)); try lia; reflexivity.
  - destruct (IH (S s) (upd b (n - s) (g s))) as (H1 & H2); [rewrite upd_length; exact HL|lia|lia|].
    split; [exact H1|]. intros j Hj. rewrite H2 by exact Hj.
    destruct (Nat.eq_dec (n - j) s) as [E|E].
    + rewrite E. destruct (Nat.leb_spec (S s) s), (Nat.leb_spec s s), (Nat.ltb_spec s (s + S m)); try lia. cbn [andb].
      replace (n - s) with j by lia. apply nth_error_nth. apply nth_error_upd_eq. lia.
    + replace (nth j (upd b (n - s) (g s)) zero) with (nth j b zero).
      2:{ symmetry. destruct (nth_error b j) eqn:EJ.
          - rewrite (nth_error_nth b j zero EJ). apply nth_error_nth. rewrite nth_error_upd_neq by lia. exact EJ.
          - apply nth_error_None in EJ. lia. }
      destruct (Nat.leb_spec (S s) (n - j)), (Nat.ltb_spec (n - j) (S s + m)), (Nat.leb_spec s (n - j)), (Nat.ltb_spec (n - j) (s + S m)); try lia; reflexivity.
Qed.

Lemma nth_padded (l : list C) m j : nth j (l ++ repeat zero m) zero = if j <? length l then nth j l zero else zero.
Proof.
  destruct (Nat.ltb_spec j (length l)) as [H|H]; [apply app_nth1, H|]. rewrite app_nth2 by exact H. apply nth_repeat.
Qed.

(* the spectrum that expand builds *)
Lemma expand_spec n input : 0 < length input -> length input <= n ->
  expand zero conj n input = Ok (map (fun j =>
    if (1 <=? n - j) && (n - j <? length input - 1) then conj (nth (n - j) input zero)
    else if j <? length input then nth j input zero else zero) (seq 0 n)).
Proof.
  intros H1 H2. unfold expand. destruct input as [|x l] eqn:EI; [cbn in H1; lia|]. rewrite <- EI in *. clear EI.
  destruct (Nat.ltb_spec n (length input)); [lia|]. f_equal.
  destruct (back_fold (fun k => conj (nth k input zero)) n (length input - 2) 1 (input ++ repeat zero (n - length input))) as (L & N);
    [rewrite app_length, repeat_length; lia|lia|lia|].
  rewrite (list_nth_seq zero (fold_left _ _ _)). rewrite L. apply map_ext_in. intros j Hj. apply in_seq in Hj. rewrite N by lia.
  rewrite nth_padded.
  destruct (Nat.leb_spec 1 (n - j)), (Nat.ltb_spec (n - j) (1 + (length input - 2))), (Nat.ltb_spec (n - j) (length input - 1)); try lia; reflexivity.
Qed.
Lemma expand_short n input : n < length input -> expand zero conj n input = Panic.
Proof.
  intros H. unfold expand. destruct input; [reflexivity|]. destruct (Nat.ltb_spec n (length (c :: input))); [reflexivity|lia].
Qed.
Lemma expand_hext h (F : nat -> C) : 0 < h ->
  expand zero conj (2 * h) (map F (seq 0 (h + 1))) = Ok (map (hext conj (2 * h) (h + 1) F) (seq 0 (2 * h))).
Proof.
  intros Hh. rewrite expand_spec; rewrite map_length, seq_length; [|lia|lia]. f_equal. apply map_ext_in. intros j Hj. apply in_seq in Hj. unfold hext.
  destruct (Nat.leb_spec 1 (2 * h - j)), (Nat.ltb_spec (2 * h - j) (h + 1 - 1)), (Nat.ltb_spec j (h + 1)); try lia; cbn [andb].
  - rewrite nth_map_seq by lia. reflexivity.
  - apply nth_map_seq. lia.
Qed.
End Expand.

Section Real.
Context {C : Type}.
Variables (zero one : C) (add mul sub : C -> C -> C) (opp : C -> C).
Hypothesis RT : ring_theory zero one add mul sub opp (@eq C).
Add Ring CRing2 : RT.
Variable conj : C -> C.
Hypothesis conj_add : forall x y, conj (add x y) = add (conj x) (conj y).
Hypothesis conj_mul : forall x y, conj (mul x y) = mul (conj x) (conj y).
Hypothesis conj_one : conj one = one.
Hypothesis conj_zero : conj zero = zero.
Local Notation "x + y" := (add x y).
Local Notation "x * y" := (mul x y).
Local Notation csum := (csum zero add).
Local Notation cpow := (cpow one mul).
Local Notation cnat := (cnat zero one add).
Local Notation dft_at := (dft_at zero one add mul).
Local Notation dft_axis := (dft_axis zero one add mul).
Local Notation dft_axes := (dft_axes zero one add mul).
Local Notation roots := (roots zero one add mul).
Local Notation plan := (plan zero one add mul).

Lemma conj_csum n f : conj (csum n f) = csum n (fun j => conj (f j)).
Proof. induction n as [|n IH]; cbn [Fft_Spec.csum]; [exact conj_zero|]. rewrite conj_add, IH. reflexivity. Qed.
Lemma conj_cpow x k : conj (cpow x k) = cpow (conj x) k.
Proof. induction k as [|k IH]; cbn [Fft_Spec.cpow]; [exact conj_one|]. rewrite conj_mul, IH. reflexivity. Qed.
Lemma conj_cnat n : conj (cnat n) = cnat n.
Proof. unfold Fft_Spec.cnat. rewrite conj_csum. apply csum_ext'. intros; exact conj_one. Qed.
Lemma conj_inverse x y : x * y = one -> conj y = y -> conj x = x.
Proof.
  intros H Hy. transitivity (conj x * (x * y)); [rewrite H; ring|]. transitivity (x * (conj x * y)); [ring|].
  rewrite <- Hy. rewrite <- conj_mul, H, conj_one. ring.
Qed.
Lemma conj_dft r n f k : conj (dft_at r n f k) = dft_at (conj r) n (fun j => conj (f j)) k.
Proof. unfold Fft_Spec.dft_at. rewrite conj_csum. apply csum_ext'. intros j _. rewrite conj_mul, conj_cpow. reflexivity. Qed.

Lemma cpow_neg n r r' j k : roots n r r' -> k <= n -> cpow r (j * (n - k)) = cpow r' (j * k).
Proof.
  intros (HI & HN & _) Hk.
  assert (E1 : cpow r (j * (n - k)) * cpow r (j * k) = one).
  { rewrite <- (cpow_add zero one add mul sub opp RT). replace (j * (n - k) + j * k)%nat with (n * j)%nat by nia.
    rewrite (cpow_mul zero one add mul sub opp RT), HN. apply (cpow_one zero one add mul sub opp RT). }
  transitivity (cpow r (j * (n - k)) * (cpow r (j * k) * cpow r' (j * k))).
  - rewrite (cpow_cancel zero one add mul sub opp RT) by exact HI. ring.
  - transitivity ((cpow r (j * (n - k)) * cpow r (j * k)) * cpow r' (j * k)); [ring|]. rewrite E1. ring.
Qed.
(* the spectrum of real data is Hermitian *)
Lemma hermitian n r f k : roots n r (conj r) -> k <= n -> (forall j, j < n -> conj (f j) = f j) ->
  dft_at r n f (n - k) = conj (dft_at r n f k).
Proof.
  intros HR Hk Hf. rewrite conj_dft. apply csum_ext'. intros j Hj. rewrite Hf by exact Hj.
  rewrite (cpow_neg n r (conj r)) by assumption. reflexivity.
Qed.

(* extending half of the spectrum of real data gives all of it *)
Lemma hext_full h r f c j : roots (2 * h) r (conj r) -> (forall i, i < 2 * h -> conj (f i) = f i) -> conj c = c -> j < 2 * h ->
  hext conj (2 * h) (h + 1) (fun k => c * dft_at r (2 * h) f k) j = c * dft_at r (2 * h) f j.
Proof.
  intros HR Hf Hc Hj. unfold hext. destruct (Nat.ltb_spec j (h + 1)) as [H|H]; [reflexivity|].
  rewrite conj_mul, Hc. f_equal. rewrite <- (hermitian (2 * h) r f (2 * h - j)) by (assumption || lia). f_equal. lia.
Qed.
Lemma half_inverse h r r' f c j : roots (2 * h) r r' -> conj r = r' -> (forall i, i < 2 * h -> conj (f i) = f i) -> conj c = c -> j < 2 * h ->
  dft_at r' (2 * h) (hext conj (2 * h) (h + 1) (fun k => c * dft_at r (2 * h) f k)) j = c * (cnat (2 * h) * f j).
Proof.
  intros HR HC Hf Hc Hj. subst r'.
  rewrite (dft_ext' zero one add mul _ _ _ (fun k => c * dft_at r (2 * h) f k)) by (intros i Hi; apply hext_full; assumption).
  rewrite (dft_scale zero one add mul sub opp RT). f_equal. apply (dft_inverse zero one add mul sub opp RT); assumption.
Qed.

End Real.

Section Order.
Context {C : Type}.
Variables (zero one : C) (add mul sub : C -> C -> C) (opp : C -> C).
Hypothesis RT : ring_theory zero one add mul sub opp (@eq C).
Variable w : nat -> C.
Local Notation dft_axis := (dft_axis zero one add mul).
Local Notation dft_axes := (dft_axes zero one add mul).

(* transforms of listed axes in another order *)
Lemma dft_axes_move_same sh a axes : (forall b, In b axes -> b < length sh) -> a < length sh -> forall f,
  feq sh (dft_axis (w (nth a sh 0)) (nth a sh 0) a (dft_axes w sh axes f)) (dft_axes w sh axes (dft_axis (w (nth a sh 0)) (nth a sh 0) a f)).
Proof.
  intros HB HA. unfold Fft_Spec.dft_axes. induction axes as [|b axes IH]; intros f; cbn [fold_left]; [intros idx _; reflexivity|].
  intros idx Hi. rewrite (IH ltac:(intros; apply HB; right; assumption) _ idx Hi). revert idx Hi.
  apply (dft_axes_feq zero one add mul w sh axes); [intros; apply HB; right; assumption|]. intros idx Hi.
  destruct (Nat.eq_dec a b) as [->|E]; [reflexivity|]. apply (dft_axis_comm zero one add mul sub opp RT). exact E.
Qed.
Lemma dft_axes_app v sh l1 l2 f : dft_axes v sh (l1 ++ l2) f = dft_axes v sh l2 (dft_axes v sh l1 f).
Proof. unfold Fft_Spec.dft_axes. apply fold_left_app. Qed.
Lemma dft_axes_rev sh axes : (forall b, In b axes -> b < length sh) -> forall f, feq sh (dft_axes w sh (rev axes) f) (dft_axes w sh axes f).
Proof.
  induction axes as [|a axes IH]; intros HB f idx Hi; [reflexivity|]. cbn [rev]. rewrite dft_axes_app.
  assert (Ha : a < length sh) by (apply HB; left; reflexivity). assert (HB' : forall b, In b axes -> b < length sh) by (intros; apply HB; right; assumption).
  change (dft_axis (w (nth a sh 0)) (nth a sh 0) a (dft_axes w sh (rev axes) f) idx = dft_axes w sh axes (dft_axis (w (nth a sh 0)) (nth a sh 0) a f) idx).
  rewrite <- (dft_axes_move_same sh a axes HB' Ha f idx Hi).
  apply (dft_axis_feq zero one add mul sh a); [apply nth_error_nth', Ha| |exact Hi]. apply IH, HB'.
Qed.
End Order.

(* shapes that differ only at one axis *)
Lemma nth_upd_shape (sh : list nat) a b m : a <> b -> nth b (upd sh a m) 0 = nth b sh 0.
Proof. revert a b; induction sh as [|x sh IH]; intros [|a] [|b] H; cbn; try reflexivity; try contradiction. apply IH. lia. Qed.
Section Cut.
Context {C : Type}.
Variables (zero one : C) (add mul : C -> C -> C) (w : nat -> C).
Lemma dft_axes_cut sh last m axes : ~ In last axes -> forall f,
  dft_axes zero one add mul w (upd sh last m) axes f = dft_axes zero one add mul w sh axes f.
Proof.
  unfold Fft_Spec.dft_axes. induction axes as [|a axes IH]; intros H f; cbn [fold_left]; [reflexivity|].
  rewrite nth_upd_shape by (intros ->; apply H; left; reflexivity). apply IH. intros Hin. apply H. right. exact Hin.
Qed.
End Cut.
