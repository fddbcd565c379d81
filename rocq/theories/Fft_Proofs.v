(* Lemmas about the transforms of src/ops/fft.rs. *)
From Coq Require Import Ring.
From Verif Require Import Base Lists Arr_Spec Arr_Model Arr_Wf Arr_Proofs Copy_Model Copy_Proofs Elem_Model Red_Spec Red_Model Red_Proofs Red_Scan
  Man_Proofs Gu_Model Gu_Proofs Lay_Copy Fft_Spec Fft_Model.
Local Open Scope nat_scope.

(* ---------- index lists ---------- *)
Lemma upd_same (idx : list nat) axis : upd idx axis (nth axis idx 0) = idx.
Proof. revert axis; induction idx as [|i idx IH]; intros [|axis]; cbn; f_equal; auto. Qed.
Lemma upd_twice (idx : list nat) axis i j : upd (upd idx axis i) axis j = upd idx axis j.
Proof. revert axis; induction idx as [|x idx IH]; intros [|axis]; cbn; f_equal; auto. Qed.
Lemma upd_swap (idx : list nat) a b i j : a <> b -> upd (upd idx a i) b j = upd (upd idx b j) a i.
Proof. revert a b; induction idx as [|x idx IH]; intros [|a] [|b] H; cbn; try reflexivity; try contradiction. f_equal. apply IH. lia. Qed.
Lemma nth_upd_ne (idx : list nat) a b i : a <> b -> nth b (upd idx a i) 0 = nth b idx 0.
Proof. revert a b; induction idx as [|x idx IH]; intros [|a] [|b] H; cbn; try reflexivity; try contradiction. apply IH. lia. Qed.
Lemma nth_upd_eq (idx : list nat) a i : a < length idx -> nth a (upd idx a i) 0 = i.
Proof. revert a; induction idx as [|x idx IH]; intros [|a] H; cbn in *; try lia. apply IH. lia. Qed.
Lemma inb_upd_axis idx sh axis n j : inb idx sh -> nth_error sh axis = Some n -> j < n -> inb (upd idx axis j) sh.
Proof.
  intros H Hn Hj. pose proof (inb_upd idx sh axis j n H Hj) as U. replace (upd sh axis n) with sh in U; [exact U|].
  symmetry. clear -Hn. revert axis Hn. induction sh as [|x sh IH]; intros [|axis] Hn; try discriminate; cbn in *; [congruence|]. f_equal. apply IH, Hn.
Qed.
Lemma inb_nth idx sh axis n : inb idx sh -> nth_error sh axis = Some n -> nth axis idx 0 < n.
Proof.
  intros H. revert axis. induction H as [|i s idx sh Hi H IH]; intros [|axis] Hn; try discriminate; cbn in *; [congruence|]. apply IH, Hn.
Qed.

(* ---------- sums, powers, roots ---------- *)
Section Ring.
Context {C : Type}.
Variables (zero one : C) (add mul sub : C -> C -> C) (opp : C -> C).
Hypothesis RT : ring_theory zero one add mul sub opp (@eq C).
Add Ring CRing : RT.
Local Notation "x + y" := (add x y).
Local Notation "x * y" := (mul x y).
Local Notation csum := (csum zero add).
Local Notation cpow := (cpow one mul).
Local Notation cnat := (cnat zero one add).
Local Notation dft_at := (dft_at zero one add mul).
Local Notation dft_axis := (dft_axis zero one add mul).
Local Notation dft_axes := (dft_axes zero one add mul).
Local Notation roots := (roots zero one add mul).

Lemma csum_ext n f g : (forall j, j < n -> f j = g j) -> csum n f = csum n g.
Proof. induction n as [|n IH]; intros H; cbn [Fft_Spec.csum]; [reflexivity|]. rewrite IH, H by (intros; try apply H; lia). reflexivity. Qed.
Lemma csum_add n f g : csum n (fun j => f j + g j) = csum n f + csum n g.
Proof. induction n as [|n IH]; cbn [Fft_Spec.csum]; [ring|]. rewrite IH. ring. Qed.
Lemma csum_mul_r n f c : csum n (fun j => f j * c) = csum n f * c.
Proof. induction n as [|n IH]; cbn [Fft_Spec.csum]; [ring|]. rewrite IH. ring. Qed.
Lemma csum_mul_l n f c : csum n (fun j => c * f j) = c * csum n f.
Proof. induction n as [|n IH]; cbn [Fft_Spec.csum]; [ring|]. rewrite IH. ring. Qed.
Lemma csum_zero n : csum n (fun _ => zero) = zero.
Proof. induction n as [|n IH]; cbn [Fft_Spec.csum]; [ring|]. rewrite IH. ring. Qed.
Lemma csum_swap m n (f : nat -> nat -> C) : csum m (fun i => csum n (f i)) = csum n (fun j => csum m (fun i => f i j)).
Proof.
  induction m as [|m IH]; cbn [Fft_Spec.csum]; [rewrite csum_zero; reflexivity|]. rewrite IH, <- csum_add. reflexivity.
Qed.
Lemma csum_one n k f : k < n -> csum n (fun j => if j =? k then f j else zero) = f k.
Proof.
  intros H. induction n as [|n IH]; [lia|]. cbn [Fft_Spec.csum]. destruct (Nat.eqb_spec n k) as [->|E].
  - rewrite (csum_ext _ _ (fun _ => zero)), csum_zero; [ring|]. intros j Hj. destruct (Nat.eqb_spec j k); [lia|reflexivity].
  - rewrite IH by lia. ring.
Qed.

Lemma cpow_add x a b : cpow x (a + b) = cpow x a * cpow x b.
Proof. induction a as [|a IH]; cbn [Nat.add Fft_Spec.cpow]; [ring|]. rewrite IH. ring. Qed.
Lemma cpow_one k : cpow one k = one.
Proof. induction k as [|k IH]; cbn [Fft_Spec.cpow]; [reflexivity|]. rewrite IH. ring. Qed.
Lemma cpow_mul x a b : cpow x (a * b) = cpow (cpow x a) b.
Proof.
  induction b as [|b IH]; [rewrite Nat.mul_0_r; reflexivity|]. rewrite Nat.mul_succ_r, cpow_add, IH. cbn [Fft_Spec.cpow]. ring.
Qed.
Lemma cpow_cancel r r' k : r * r' = one -> cpow r k * cpow r' k = one.
Proof.
  intros H. induction k as [|k IH]; cbn [Fft_Spec.cpow]; [ring|].
  transitivity ((r * r') * (cpow r k * cpow r' k)); [ring|]. rewrite H, IH. ring.
Qed.

Lemma orthogonal n r r' j l : roots n r r' -> j < n -> l < n ->
  csum n (fun k => cpow r (j * k) * cpow r' (k * l)) = if j =? l then cnat n else zero.
Proof.
  intros (HI & HN & HS) Hj Hl. destruct (Nat.eqb_spec j l) as [->|E].
  - unfold Fft_Spec.cnat. apply csum_ext. intros k _. rewrite (Nat.mul_comm k l). apply cpow_cancel, HI.
  - destruct (Nat.lt_ge_cases l j) as [H|H].
    + refine (eq_trans _ (HS (j - l)%nat ltac:(lia))). apply csum_ext. intros k _.
      replace (j * k)%nat with (k * (j - l) + k * l)%nat by nia. rewrite cpow_add.
      transitivity (cpow r (k * (j - l)) * (cpow r (k * l) * cpow r' (k * l))); [ring|]. rewrite cpow_cancel by exact HI. ring.
    + refine (eq_trans _ (HS (n - (l - j))%nat ltac:(lia))). apply csum_ext. intros k _.
      replace (k * l)%nat with (j * k + k * (l - j))%nat by nia. rewrite cpow_add.
      transitivity ((cpow r (j * k) * cpow r' (j * k)) * cpow r' (k * (l - j))); [ring|]. rewrite cpow_cancel by exact HI.
      assert (E1 : cpow r (k * (n - (l - j))) * cpow r (k * (l - j)) = one).
      { rewrite <- cpow_add. replace (k * (n - (l - j)) + k * (l - j))%nat with (n * k)%nat by nia. rewrite cpow_mul, HN. apply cpow_one. }
      transitivity (cpow r' (k * (l - j)) * (cpow r (k * (n - (l - j))) * cpow r (k * (l - j)))); [rewrite E1; ring|].
      transitivity (cpow r (k * (n - (l - j))) * (cpow r (k * (l - j)) * cpow r' (k * (l - j)))); [ring|].
      rewrite cpow_cancel by exact HI. ring.
Qed.

Lemma roots_sym n r r' : roots n r r' -> roots n r' r.
Proof.
  intros HR. pose proof HR as (HI & HN & HS). assert (HI' : r' * r = one) by (rewrite <- HI; ring).
  assert (HN' : cpow r' n = one). { refine (eq_trans _ (cpow_cancel r r' n HI)). rewrite HN. ring. }
  split; [exact HI'|]. split; [exact HN'|]. intros m Hm.
  pose proof (orthogonal n r r' 0 m HR ltac:(lia) ltac:(lia)) as O. destruct (Nat.eqb_spec 0 m); [lia|]. refine (eq_trans _ O).
  apply csum_ext. intros k _. cbn [Nat.mul Fft_Spec.cpow]. ring.
Qed.

Lemma dft_inverse n r r' f l : roots n r r' -> l < n -> dft_at r' n (dft_at r n f) l = cnat n * f l.
Proof.
  intros HR Hl. unfold Fft_Spec.dft_at.
  rewrite (csum_ext n _ (fun k => csum n (fun j => f j * (cpow r (j * k) * cpow r' (k * l))))).
  2:{ intros k _. rewrite <- csum_mul_r. apply csum_ext. intros j _. ring. }
  rewrite csum_swap. rewrite (csum_ext n _ (fun j => if j =? l then cnat n * f l else zero)).
  - apply (csum_one n l (fun _ => cnat n * f l) Hl).
  - intros j Hj. rewrite csum_mul_l, (orthogonal n r r' j l HR Hj Hl). destruct (Nat.eqb_spec j l) as [->|]; ring.
Qed.
Lemma dft_ext r n f g k : (forall j, j < n -> f j = g j) -> dft_at r n f k = dft_at r n g k.
Proof. intros H. apply csum_ext. intros j Hj. rewrite H by exact Hj. reflexivity. Qed.
Lemma dft_scale r n f c k : dft_at r n (fun j => c * f j) k = c * dft_at r n f k.
Proof. unfold Fft_Spec.dft_at. rewrite <- csum_mul_l. apply csum_ext. intros; ring. Qed.

Lemma csum_const n (c : C) : csum n (fun _ => c) = cnat n * c.
Proof. unfold Fft_Spec.cnat. rewrite <- csum_mul_r. apply csum_ext. intros; ring. Qed.
Lemma cnat_add m n : cnat (m + n) = cnat m + cnat n.
Proof.
  unfold Fft_Spec.cnat. induction m as [|m IH]; cbn [Nat.add Fft_Spec.csum]; [ring|]. rewrite IH. ring.
Qed.
Lemma cnat_mul m n : cnat (m * n) = cnat m * cnat n.
Proof.
  induction m as [|m IH]; [cbn; ring|]. cbn [Nat.mul]. rewrite cnat_add, IH. unfold Fft_Spec.cnat at 4. cbn [Fft_Spec.csum]. fold (cnat m).
  change (Fft_Spec.csum zero add m (fun _ => one)) with (cnat m). ring.
Qed.

(* ---------- transforms along axes, as functions of the index ---------- *)
Definition feq (sh : list nat) (f g : list nat -> C) : Prop := forall idx, inb idx sh -> f idx = g idx.

Lemma dft_axis_feq sh axis n r f g : nth_error sh axis = Some n -> feq sh f g -> feq sh (dft_axis r n axis f) (dft_axis r n axis g).
Proof. intros Hn H idx Hi. apply dft_ext. intros j Hj. apply H. apply (inb_upd_axis idx sh axis n); assumption. Qed.
Lemma dft_axis_scale r n axis f c idx : dft_axis r n axis (fun i => c * f i) idx = c * dft_axis r n axis f idx.
Proof. apply dft_scale. Qed.

Lemma dft_axis_comm r n a s m b f idx : a <> b ->
  dft_axis r n a (dft_axis s m b f) idx = dft_axis s m b (dft_axis r n a f) idx.
Proof.
  intros H. unfold Fft_Spec.dft_axis, Fft_Spec.dft_at.
  rewrite (csum_ext n _ (fun j => csum m (fun i => f (upd (upd idx a j) b i) * cpow s (i * nth b idx 0) * cpow r (j * nth a idx 0)))).
  2:{ intros j _. rewrite <- csum_mul_r. apply csum_ext. intros i _. rewrite nth_upd_ne by exact H. reflexivity. }
  rewrite csum_swap. apply csum_ext. intros i _. rewrite <- csum_mul_r. apply csum_ext. intros j _.
  rewrite (nth_upd_ne idx b a) by congruence. rewrite (upd_swap idx a b) by exact H. ring.
Qed.
Lemma dft_axis_inverse sh axis n r r' f : nth_error sh axis = Some n -> roots n r r' ->
  feq sh (dft_axis r' n axis (dft_axis r n axis f)) (fun idx => cnat n * f idx).
Proof.
  intros Hn HR idx Hi. unfold Fft_Spec.dft_axis at 1.
  assert (HA : axis < length idx) by (apply inb_length in Hi; rewrite Hi; apply nth_error_Some; congruence).
  rewrite (dft_ext r' n _ (dft_at r n (fun j => f (upd idx axis j)))).
  - rewrite (dft_inverse n r r' _ _ HR) by (apply (inb_nth idx sh axis n); assumption). rewrite upd_same. reflexivity.
  - intros j Hj. unfold Fft_Spec.dft_axis. rewrite nth_upd_eq by exact HA. apply dft_ext. intros i _. rewrite upd_twice. reflexivity.
Qed.

Lemma dft_axes_feq w sh axes : (forall a, In a axes -> a < length sh) -> forall f g, feq sh f g -> feq sh (dft_axes w sh axes f) (dft_axes w sh axes g).
Proof.
  unfold Fft_Spec.dft_axes. induction axes as [|a axes IH]; intros HA f g H; cbn [fold_left]; [exact H|].
  apply IH; [intros; apply HA; right; assumption|]. apply dft_axis_feq; [|exact H]. apply nth_error_nth', HA. left; reflexivity.
Qed.
Lemma dft_axes_move w sh a r' axes : (forall b, In b axes -> b < length sh) -> a < length sh ->
  (forall n, In n sh -> roots n (w n) (r' n)) ->
  forall f, feq sh (dft_axis (r' (nth a sh 0)) (nth a sh 0) a (dft_axes w sh axes f))
                   (dft_axes w sh axes (dft_axis (r' (nth a sh 0)) (nth a sh 0) a f)).
Proof.
  intros HB HA HR. unfold Fft_Spec.dft_axes. induction axes as [|b axes IH]; intros f; cbn [fold_left]; [intros idx _; reflexivity|].
  assert (HBB : b < length sh) by (apply HB; left; reflexivity).
  intros idx Hi. rewrite (IH ltac:(intros; apply HB; right; assumption) _ idx Hi). revert idx Hi.
  apply dft_axes_feq; [intros; apply HB; right; assumption|]. intros idx Hi.
  destruct (Nat.eq_dec a b) as [->|E]; [|apply dft_axis_comm; exact E].
  set (n := nth b sh 0). assert (Hn : nth_error sh b = Some n) by (apply nth_error_nth'; exact HBB).
  assert (HRn : roots n (w n) (r' n)) by (apply HR; apply nth_error_In with b; exact Hn).
  rewrite (dft_axis_inverse sh b n (w n) (r' n) f Hn HRn idx Hi).
  rewrite (dft_axis_inverse sh b n (r' n) (w n) f Hn (roots_sym _ _ _ HRn) idx Hi). reflexivity.
Qed.

Lemma dft_axes_ext w sh axes : forall f g, (forall i, f i = g i) -> forall idx, dft_axes w sh axes f idx = dft_axes w sh axes g idx.
Proof.
  unfold Fft_Spec.dft_axes. induction axes as [|a axes IH]; intros f g H idx; cbn [fold_left]; [apply H|].
  apply IH. intros i. apply dft_ext. intros j _. apply H.
Qed.
Lemma dft_axes_scale w sh axes c : forall f idx, dft_axes w sh axes (fun i => c * f i) idx = c * dft_axes w sh axes f idx.
Proof.
  induction axes as [|a axes IH]; intros f idx; [reflexivity|].
  change (dft_axes w sh axes (dft_axis (w (nth a sh 0)) (nth a sh 0) a (fun i => c * f i)) idx =
          c * dft_axes w sh axes (dft_axis (w (nth a sh 0)) (nth a sh 0) a f) idx).
  rewrite <- IH. apply dft_axes_ext. intros i. apply dft_axis_scale.
Qed.

Lemma dft_axes_inverse w wi sh : (forall n, In n sh -> roots n (w n) (wi n)) ->
  forall axes, (forall a, In a axes -> a < length sh) -> forall f,
  feq sh (dft_axes wi sh axes (dft_axes w sh axes f)) (fun idx => cnat (prod (map (fun a => nth a sh 0) axes)) * f idx).
Proof.
  intros HR. induction axes as [|a axes IH]; intros HA f idx Hi.
  - cbn. unfold Fft_Spec.cnat. cbn. ring.
  - assert (HA' : forall b, In b axes -> b < length sh) by (intros; apply HA; right; assumption).
    assert (Ha : a < length sh) by (apply HA; left; reflexivity).
    change (dft_axes wi sh axes (dft_axis (wi (nth a sh 0)) (nth a sh 0) a (dft_axes w sh axes (dft_axis (w (nth a sh 0)) (nth a sh 0) a f))) idx =
            cnat (prod (map (fun a => nth a sh 0) (a :: axes))) * f idx).
    set (n := nth a sh 0). assert (Hn : nth_error sh a = Some n) by (apply nth_error_nth'; exact Ha).
    rewrite (dft_axes_feq wi sh axes HA' _ (dft_axes w sh axes (dft_axis (wi n) n a (dft_axis (w n) n a f)))); [|apply (dft_axes_move w sh a wi axes HA' Ha HR)|exact Hi].
    rewrite (IH HA' _ idx Hi). rewrite (dft_axis_inverse sh a n (w n) (wi n) f Hn); [|apply HR; apply nth_error_In with a; exact Hn|exact Hi].
    cbn [map prod]. fold n. rewrite cnat_mul. ring.
Qed.
End Ring.
