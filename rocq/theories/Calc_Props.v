(* C81 (trapezoid) and C82 (gradient). *)
From Verif Require Import Base Lists Arr_Spec Arr_Model Arr_Wf Arr_Proofs Copy_Model Copy_Proofs Elem_Proofs Red_Spec Red_Proofs Man_Props Conv_Spec Conv_Proofs Num_Spec Num_Model Num_Calc.
From Coq Require Import Ring QArith Lqa Field.
Local Open Scope nat_scope.

(* ======================= C81: trapezoid ======================= *)

(* With coordinates x: every entry of the result is the trapezoidal sum over its own lane,
   for every layout of y and of x, every axis (negative ones count from the end), every
   element type and every arithmetic. *)
Theorem C81_coordinates : forall R V X (zero half : R) (add sub mul : R -> R -> R) (rd : V -> R) (rdx : X -> R)
    (y : list V) a bx xa xs dx axis ax n,
  wf y a -> norm_axis axis (ndim a) ax -> nth_error (a_shape a) ax = Some n ->
  vector (bx, xa) xs -> length xs = n ->
  exists out, trapezoid zero half add sub mul rd rdx (y, a) (Some (bx, xa)) dx axis = Ok (reduced_shape ax (a_shape a), out) /\
    length out = prod (reduced_shape ax (a_shape a)) /\
    forall idx lv, inb idx (reduced_shape ax (a_shape a)) -> lane y a ax (outer_of (a_shape a) idx) = map Some lv ->
      get out (fresh (reduced_shape ax (a_shape a)) 8) idx =
      Some (trapezoids zero half add sub mul n (fun j => nth j (map rdx xs) zero) (fun j => nth j (map rd lv) zero)).
Proof.
  intros R V X zero half add sub mul rd rdx y a bx xa xs dx axis ax n W HA Hn VX HL.
  destruct (trapezoid_spec zero half add sub mul rd rdx y a (Some (bx, xa)) dx axis ax n (Some (map rdx xs)) W HA Hn) as (out & E & HLen & HG).
  { intros p [= <-]. exists xs. auto. } { discriminate. }
  exists out. split; [exact E|]. split; [exact HLen|]. intros idx lv Hi Hlv. rewrite (HG idx lv Hi Hlv).
  assert (HLV : length lv = n).
  { apply (f_equal (@length _)) in Hlv. rewrite lane_length, map_length, (nth_error_nth _ _ 0 Hn) in Hlv. lia. }
  rewrite trap_lane_big; [rewrite map_length, HLV; reflexivity|]. intros q [= <-]. rewrite !map_length. lia.
Qed.

(* With a constant step dx: the same sum with every interval of width dx. *)
Theorem C81_spacing : forall R V X (zero half : R) (add sub mul : R -> R -> R) (rd : V -> R) (rdx : X -> R)
    (y : list V) a dx axis ax n,
  wf y a -> norm_axis axis (ndim a) ax -> nth_error (a_shape a) ax = Some n ->
  exists out, trapezoid zero half add sub mul rd rdx (y, a) None dx axis = Ok (reduced_shape ax (a_shape a), out) /\
    length out = prod (reduced_shape ax (a_shape a)) /\
    forall idx lv, inb idx (reduced_shape ax (a_shape a)) -> lane y a ax (outer_of (a_shape a) idx) = map Some lv ->
      get out (fresh (reduced_shape ax (a_shape a)) 8) idx =
      Some (big zero add (n - 1) (fun j => mul (mul (add (nth j (map rd lv) zero) (nth (S j) (map rd lv) zero)) dx) half)).
Proof.
  intros R V X zero half add sub mul rd rdx y a dx axis ax n W HA Hn.
  destruct (trapezoid_spec zero half add sub mul rd rdx y a None dx axis ax n None W HA Hn) as (out & E & HLen & HG); [discriminate|reflexivity|].
  exists out. split; [exact E|]. split; [exact HLen|]. intros idx lv Hi Hlv. rewrite (HG idx lv Hi Hlv).
  assert (HLV : length lv = n).
  { apply (f_equal (@length _)) in Hlv. rewrite lane_length, map_length, (nth_error_nth _ _ 0 Hn) in Hlv. lia. }
  rewrite trap_lane_big by discriminate. rewrite map_length, HLV. reflexivity.
Qed.

Theorem C81_bad_axis : forall R V X (zero half : R) (add sub mul : R -> R -> R) (rd : V -> R) (rdx : X -> R) (y : list V * arr) x dx axis,
  0 < ndim (snd y) -> (axis < - Z.of_nat (ndim (snd y)) \/ Z.of_nat (ndim (snd y)) <= axis)%Z ->
  trapezoid zero half add sub mul rd rdx y x dx axis = Err.
Proof.
  intros R V X zero half add sub mul rd rdx [y a] x dx axis H0 H. unfold trapezoid. cbn [snd] in *.
  destruct (Nat.eqb_spec (ndim a) 0); [lia|].
  destruct (Z.ltb_spec axis 0).
  - destruct (Z.ltb_spec (Z.of_nat (ndim a) + axis) 0); [reflexivity|lia].
  - destruct (Z.ltb_spec axis 0); [lia|]. destruct (Z.leb_spec (Z.of_nat (ndim a)) axis); [reflexivity|lia].
Qed.

Section Laws.
Variables (R : Type) (zero one : R) (add mul sub : R -> R -> R) (opp : R -> R) (half : R).
Hypothesis Rth : ring_theory zero one add mul sub opp (@eq R).
Hypothesis Rhalf : add half half = one.
Add Ring RR81 : Rth.
Notation lane_of dx xs ys := (trap_lane zero half add sub mul dx xs ys).

Lemma big_split m k f : big zero add (m + k) f = add (big zero add m f) (big zero add k (fun j => f (m + j))).
Proof.
  induction k as [|k IH]; [rewrite Nat.add_0_r; cbn [big]; ring|].
  rewrite Nat.add_succ_r. cbn [big]. rewrite IH. ring.
Qed.
Lemma big_rev n f : big zero add n f = big zero add n (fun j => f (n - 1 - j)).
Proof.
  revert f; induction n as [|n IH]; intros f; [reflexivity|].
  change (S n) with (1 + n) at 2. rewrite big_split. cbn [big]. replace (S n - 1 - 0) with n by lia.
  rewrite IH. assert (E : big zero add n (fun j => f (n - 1 - j)) = big zero add n (fun j => f (S n - 1 - (1 + j)))).
  { clear IH. apply (Conv_Proofs.big_ext zero add). intros i Hi. f_equal. lia. }
  rewrite E. ring.
Qed.
Lemma big_tele n g : big zero add n (fun j => sub (g (S j)) (g j)) = sub (g n) (g 0).
Proof. induction n as [|n IH]; cbn [big]; [ring|]. rewrite IH. ring. Qed.
Lemma big_opp n f : big zero add n (fun j => opp (f j)) = opp (big zero add n f).
Proof. induction n as [|n IH]; cbn [big]; [ring|]. rewrite IH. ring. Qed.
Lemma big_lin n c d f g : big zero add n (fun j => add (mul c (f j)) (mul d (g j))) = add (mul c (big zero add n f)) (mul d (big zero add n g)).
Proof. induction n as [|n IH]; cbn [big]; [ring|]. rewrite IH. ring. Qed.

(* exact for affine integrands: the integral of c*t + d from the first to the last point *)
Theorem C81_affine : forall dx c d xs, xs <> [] ->
  let F := fun t => add (mul (mul c half) (mul t t)) (mul d t) in
  lane_of dx (Some xs) (map (fun t => add (mul c t) d) xs) = sub (F (nth (length xs - 1) xs zero)) (F (nth 0 xs zero)).
Proof.
  intros dx c d xs HX F. rewrite trap_lane_big by (intros q [= <-]; rewrite map_length; reflexivity). rewrite map_length.
  rewrite <- (big_tele (length xs - 1) (fun j => F (nth j xs zero))).
  apply (Conv_Proofs.big_ext zero add). intros j Hj.
  assert (EN : forall i, i < length xs -> nth i (map (fun t => add (mul c t) d) xs) zero = add (mul c (nth i xs zero)) d).
  { intros i Hi. rewrite (nth_indep _ zero (add (mul c zero) d)) by (rewrite map_length; exact Hi). apply (map_nth (fun t => add (mul c t) d)). }
  rewrite !EN by lia. unfold F. set (u := nth j xs zero). set (v := nth (S j) xs zero).
  transitivity (add (mul (mul c half) (sub (mul v v) (mul u u))) (mul (mul d (add half half)) (sub v u))); [ring|].
  rewrite Rhalf. ring.
Qed.

(* linear in the integrand *)
Theorem C81_linear : forall dx xs c d ys zs, length ys = length zs -> (forall x, xs = Some x -> length x = length ys) ->
  lane_of dx xs (map (fun p => add (mul c (fst p)) (mul d (snd p))) (combine ys zs)) =
  add (mul c (lane_of dx xs ys)) (mul d (lane_of dx xs zs)).
Proof.
  intros dx xs c d ys zs HL HX.
  assert (HC : length (combine ys zs) = length ys) by (rewrite combine_length; lia).
  rewrite !trap_lane_big by (intros q Hq; rewrite ?map_length, ?HC; specialize (HX q Hq); lia).
  rewrite map_length, HC, <- HL, <- big_lin. apply (Conv_Proofs.big_ext zero add). intros j Hj.
  assert (EN : forall i, i < length ys -> nth i (map (fun p => add (mul c (fst p)) (mul d (snd p))) (combine ys zs)) zero = add (mul c (nth i ys zero)) (mul d (nth i zs zero))).
  { intros i Hi. rewrite (nth_indep _ zero (add (mul c (fst (zero, zero))) (mul d (snd (zero, zero))))) by (rewrite map_length, HC; exact Hi).
    rewrite (map_nth (fun p => add (mul c (fst p)) (mul d (snd p)))), combine_nth by exact HL. reflexivity. }
  rewrite !EN by lia. ring.
Qed.

(* additive over adjoining ranges *)
Theorem C81_split : forall dx xs p xs' ys q ys', length xs = length ys -> length xs' = length ys' ->
  lane_of dx (Some (xs ++ p :: xs')) (ys ++ q :: ys') =
  add (lane_of dx (Some (xs ++ [p])) (ys ++ [q])) (lane_of dx (Some (p :: xs')) (q :: ys')).
Proof.
  intros dx xs p xs' ys q ys' H1 H2.
  rewrite !trap_lane_big by (intros z [= <-]; rewrite ?app_length; cbn [length]; lia).
  rewrite !app_length. cbn [length]. replace (length ys + S (length ys') - 1) with (length ys + length ys') by lia.
  replace (length ys + 1 - 1) with (length ys) by lia. replace (S (length ys') - 1) with (length ys') by lia.
  rewrite big_split. f_equal.
  - apply (Conv_Proofs.big_ext zero add). intros j Hj.
    assert (EN : forall A (l : list A) (v : A) m i z, i <= length l -> nth i (l ++ v :: m) z = nth i (l ++ [v]) z).
    { intros A l v m i z Hi. destruct (Nat.eq_dec i (length l)) as [->|]; [rewrite !nth_middle; reflexivity|rewrite !app_nth1 by lia; reflexivity]. }
    rewrite !(EN _ ys q ys'), !(EN _ xs p xs') by lia. reflexivity.
  - apply (Conv_Proofs.big_ext zero add). intros j Hj.
    assert (EN : forall A (l m : list A) i z, nth (length l + i) (l ++ m) z = nth i m z).
    { intros A l m i z. rewrite app_nth2 by lia. f_equal. lia. }
    rewrite <- Nat.add_succ_r. rewrite !(EN _ ys). rewrite <- H1, !(EN _ xs). reflexivity.
Qed.

(* integrating backwards changes the sign *)
Theorem C81_reverse : forall dx xs ys, length xs = length ys ->
  lane_of dx (Some (rev xs)) (rev ys) = opp (lane_of dx (Some xs) ys).
Proof.
  intros dx xs ys HL. rewrite !trap_lane_big by (intros z [= <-]; rewrite ?rev_length; lia).
  rewrite rev_length, <- big_opp, big_rev. apply (Conv_Proofs.big_ext zero add). intros j Hj.
  rewrite !rev_nth by lia. rewrite HL.
  replace (length ys - S (length ys - 1 - 1 - j)) with (S j) by lia.
  replace (length ys - S (S (length ys - 1 - 1 - j))) with j by lia. ring.
Qed.
(* a constant step dx is the same as the coordinates 0, dx, 2 dx, ... *)
Fixpoint times (n : nat) (v : R) : R := match n with O => zero | S n' => add (times n' v) v end.
Theorem C81_uniform : forall dx ys, lane_of dx None ys = lane_of dx (Some (map (fun j => times j dx) (seq 0 (length ys)))) ys.
Proof.
  intros dx ys. rewrite !trap_lane_big by (intros z [=]; subst; rewrite map_length, seq_length; reflexivity).
  apply (Conv_Proofs.big_ext zero add). intros j Hj.
  assert (EN : forall i, i < length ys -> nth i (map (fun j => times j dx) (seq 0 (length ys))) zero = times i dx).
  { intros i Hi. rewrite (nth_indep _ zero (times 0 dx)) by (rewrite map_length, seq_length; exact Hi).
    rewrite (map_nth (fun j => times j dx)), seq_nth by exact Hi. reflexivity. }
  rewrite !EN by lia. cbn [times]. ring.
Qed.
End Laws.

(* coordinates of the wrong length are ignored instead of refused: the result is the one for dx *)
Theorem C81_wrong_length_refuted : forall R V X (zero half : R) (add sub mul : R -> R -> R) (rd : V -> R) (rdx : X -> R)
    (y : list V) a bx xa xs dx axis ax n,
  norm_axis axis (ndim a) ax -> nth_error (a_shape a) ax = Some n -> vector (bx, xa) xs -> length xs <> n ->
  trapezoid zero half add sub mul rd rdx (y, a) (Some (bx, xa)) dx axis = trapezoid zero half add sub mul rd rdx (y, a) None dx axis.
Proof.
  intros R V X zero half add sub mul rd rdx y a bx xa xs dx axis ax n [HA HN] Hn VX HL. unfold trapezoid. cbn [fst snd].
  destruct (Nat.eqb_spec (ndim a) 0); [reflexivity|].
  assert (EA : (if (axis <? 0)%Z then (Z.of_nat (ndim a) + axis)%Z else axis) = Z.of_nat ax) by (destruct (Z.ltb_spec axis 0); lia).
  rewrite EA, Nat2Z.id. destruct ((Z.of_nat ax <? 0) || (Z.of_nat (ndim a) <=? Z.of_nat ax))%Z; [reflexivity|].
  rewrite (at_ok _ _ _ Hn). cbn [bind]. destruct (n <=? 1); [reflexivity|].
  pose proof (vector_size (bx, xa) xs VX) as SZ. cbn [snd] in SZ. rewrite SZ.
  destruct (Nat.eqb_spec (length xs) n); [contradiction|]. rewrite Bool.orb_true_r. reflexivity.
Qed.
(* the integral of a vector has shape (1,), not () *)
Theorem C81_vector_shape_refuted : exists out,
  trapezoid 0%Q (1#2)%Q Qplus Qminus Qmult (fun v => v) (fun v : Q => v) ([1; 2; 4]%Q, fresh [3] 8) None 1%Q (-1) = Ok ([1], out).
Proof. eexists. vm_compute. reflexivity. Qed.

Example C81_nonvacuous :
  (* int32 values of a transposed 2x3 matrix, along both axes, with coordinates 0, 1, 3 read backwards from a strided vector *)
  trapezoid 0%Q (1#2)%Q Qplus Qminus Qmult inject_Z inject_Z ([1; 2; 3; 4; 5; 6]%Z, mkArr 0 [3; 2] [4; 12]%Z 4 false true)
    (Some ([3; 9; 1; 9; 0]%Z, mkArr 32 [3] [-16]%Z 8 false false)) 1%Q 0 = Ok ([2], [26#4; 62#4]%Q) /\
  map Qred [26#4; 62#4]%Q = [13#2; 31#2]%Q /\ wf [3; 9; 1; 9; 0]%Z (mkArr 32 [3] [-16]%Z 8 false false).
Proof.
  split; [|split; [vm_compute; reflexivity|]].
  - vm_compute. reflexivity.
  - apply Wf_Check.wf_check_sound. vm_compute. reflexivity.
Qed.

(* ======================= C82: gradient ======================= *)

(* One-sided at the ends, central inside: the entry at position j of a lane, for spacing h. *)
Definition difference {R} (zero two : R) (sub mul div : R -> R -> R) (h : R) (n : nat) (y : nat -> R) (j : nat) : R :=
  if j =? 0 then div (sub (y 1) (y 0)) h
  else if j =? n - 1 then div (sub (y (n - 1)) (y (n - 2))) h
  else div (sub (y (j + 1)) (y (j - 1))) (mul two h).

Lemma grad_val_uniform R (zero two : R) sub mul div h ys j : 1 < length ys -> j < length ys ->
  grad_val zero sub div ys (den_uniform two mul h) j = difference zero two sub mul div h (length ys) (fun i => nth i ys zero) j.
Proof.
  intros H1 Hj. unfold grad_val, difference, den_uniform, before, after.
  destruct (Nat.eqb_spec j 0) as [->|N0].
  - replace (Nat.min (0 + 1) (length ys - 1)) with 1 by lia. reflexivity.
  - destruct (Nat.eqb_spec j (length ys - 1)) as [->|N1].
    + replace (Nat.min (length ys - 1 + 1) (length ys - 1)) with (length ys - 1) by lia.
      replace (length ys - 1 - (length ys - 1 - 1)) with 1 by lia. cbn [Nat.eqb]. replace (length ys - 1 - 1) with (length ys - 2) by lia. reflexivity.
    + replace (Nat.min (j + 1) (length ys - 1)) with (j + 1) by lia. replace (j + 1 - (j - 1)) with 2 by lia. reflexivity.
Qed.

(* what gradient along an axis should be: same shape, and in every lane the differences *)
Definition differentiates {R V} (zero : R) (rd : V -> R) (f : list V) (a : arr) (axis : nat) (D : nat -> list R -> nat -> R) (g : list nat * list R) : Prop :=
  fst g = a_shape a /\ length (snd g) = prod (a_shape a) /\
  forall oi j lv, inb oi (remove_at axis (a_shape a)) -> j < nth axis (a_shape a) 0 -> lane f a axis oi = map Some lv ->
    get (snd g) (fresh (a_shape a) 8) (insert_at axis j oi) = Some (D (length lv) (map rd lv) j).

Section Grad.
Context {R V X : Type}.
Variables (zero one two : R) (sub mul div : R -> R -> R) (rd : V -> R) (rdx : X -> R).
Notation uniform h := (fun n ys => difference zero two sub mul div h n (fun i => nth i ys zero)).

Lemma lanes_uniform (f : list V) a h axis : wf f a -> axis < ndim a -> (forall d, In d (a_shape a) -> 2 <= d) -> same_bases a axis ->
  exists g, gradient_lanes zero sub div rd (f, a) (den_uniform two mul h) axis = Ok g /\ differentiates zero rd f a axis (uniform h) g.
Proof.
  intros W HA H2 SB. destruct (nth_error (a_shape a) axis) as [n|] eqn:Hn; [|apply nth_error_None in Hn; unfold ndim in HA; lia].
  assert (1 < n) by (apply H2; eapply nth_error_In; exact Hn).
  destruct (gradient_lanes_spec zero sub div rd f a (den_uniform two mul h) axis n W Hn ltac:(lia) SB) as (out & E & HL & HG).
  eexists. split; [exact E|]. split; [reflexivity|]. split; [exact HL|]. cbn [snd]. rewrite (nth_error_nth _ _ 0 Hn).
  intros oi j lv Hoi Hj Hlv. rewrite (HG oi j lv Hoi Hj Hlv).
  assert (HLV : length lv = n).
  { apply (f_equal (@length _)) in Hlv. rewrite lane_length, map_length, (nth_error_nth _ _ 0 Hn) in Hlv. lia. }
  rewrite grad_val_uniform by (rewrite map_length; lia). rewrite map_length. reflexivity.
Qed.

Lemma usable (a : arr) : (forall d, In d (a_shape a) -> 2 <= d) -> (size a =? 0) || existsb (fun d => d <? 2) (a_shape a) = false.
Proof.
  intros H. apply Bool.orb_false_iff. split.
  - apply Nat.eqb_neq. unfold size. induction (a_shape a) as [|d sh IH]; cbn [prod]; [lia|].
    specialize (IH (fun x Hx => H x (or_intror Hx))). specialize (H d (or_introl eq_refl)). nia.
  - destruct (existsb _ (a_shape a)) eqn:E; [|reflexivity]. apply existsb_exists in E as (d & Hd & E). apply Nat.ltb_lt in E. specialize (H d Hd). lia.
Qed.

(* Vectors of any layout and element type. *)
Theorem C82_vector : forall (f : list V) a h axis, wf f a -> ndim a = 1 -> 2 <= size a -> axis = None \/ axis = Some 0 ->
  exists g, gradient zero one two sub mul div rd (f, a) (Some h) axis = Ok [g] /\ differentiates zero rd f a 0 (uniform h) g.
Proof.
  intros f a h axis W N1 HS HA. pose proof W as (_ & _ & _ & HL & _).
  assert (H2 : forall d, In d (a_shape a) -> 2 <= d).
  { unfold ndim, size in *. destruct (a_shape a) as [|s [|]]; try discriminate. cbn [prod] in HS. intros d [<-|[]]. lia. }
  destruct (lanes_uniform f a h 0 W ltac:(lia) H2) as (g & E & HG).
  { apply same_bases_1d; [exact N1|]. rewrite HL. exact N1. }
  exists g. split; [|exact HG]. unfold gradient. cbn [snd]. rewrite (usable a H2).
  destruct HA as [-> | ->]; rewrite N1; cbn [Nat.ltb Nat.leb seq mapM]; rewrite E; reflexivity.
Qed.

(* Row-major arrays of 8-byte items, any rank and axis; axis=None gives one array per axis.
   Missing: other element widths and other layouts, see the refutations below. *)
Theorem C82_row_major_partial : forall (f : list V) a h, wf f a -> (forall d, In d (a_shape a) -> 2 <= d) ->
  is_c_contiguous (a_shape a) (a_strides a) 8 = true ->
  (forall axis, axis < ndim a -> exists g,
     gradient zero one two sub mul div rd (f, a) (Some h) (Some axis) = Ok [g] /\ differentiates zero rd f a axis (uniform h) g) /\
  exists gs, gradient zero one two sub mul div rd (f, a) (Some h) None = Ok gs /\ length gs = ndim a /\
    forall axis g, nth_error gs axis = Some g -> differentiates zero rd f a axis (uniform h) g.
Proof.
  intros f a h W H2 HC. pose proof W as (_ & _ & _ & HL & _).
  assert (LN : forall axis, axis < ndim a -> exists g, gradient_lanes zero sub div rd (f, a) (den_uniform two mul h) axis = Ok g /\ differentiates zero rd f a axis (uniform h) g).
  { intros axis HA. apply lanes_uniform; try assumption.
    destruct (nth_error (a_shape a) axis) as [n|] eqn:Hn; [|apply nth_error_None in Hn; unfold ndim in HA; lia].
    apply (same_bases_c a axis n); try assumption. assert (2 <= n) by (apply H2; eapply nth_error_In; exact Hn). lia. }
  split.
  - intros axis HA. destruct (LN axis HA) as (g & E & HG). exists g. split; [|exact HG].
    unfold gradient. cbn [snd]. rewrite (usable a H2). destruct (Nat.ltb_spec axis (ndim a)); [|lia]. rewrite E. reflexivity.
  - unfold gradient. cbn [snd]. rewrite (usable a H2).
    assert (G : forall k m, k + m <= ndim a -> exists gs, mapM (gradient_lanes zero sub div rd (f, a) (den_uniform two mul h)) (seq k m) = Ok gs /\
       length gs = m /\ forall i g, nth_error gs i = Some g -> differentiates zero rd f a (k + i) (uniform h) g).
    { intros k m; revert k; induction m as [|m IH]; intros k Hk.
      - exists []. split; [reflexivity|]. split; [reflexivity|]. intros [|] g; discriminate.
      - destruct (LN k ltac:(lia)) as (g & E & HG). destruct (IH (S k) ltac:(lia)) as (gs & E' & HL' & HG').
        exists (g :: gs). cbn [seq mapM]. rewrite E. cbn [bind]. rewrite E'. split; [reflexivity|]. split; [cbn; lia|].
        intros [|i] g' Hg; cbn [nth_error] in Hg.
        + injection Hg as <-. rewrite Nat.add_0_r. exact HG.
        + rewrite Nat.add_succ_r. apply (HG' i g' Hg). }
    destruct (G 0 (ndim a) ltac:(lia)) as (gs & E & HL' & HG). exists gs. auto.
Qed.
(* no spacing argument means spacing 1 *)
Theorem C82_default_spacing : forall (f : list V * arr) axis,
  gradient zero one two sub mul div rd f None axis = gradient zero one two sub mul div rd f (Some one) axis.
Proof. reflexivity. Qed.

(* With coordinates: difference quotients against the coordinates, for vectors of any layout and row-major arrays of 8-byte items. *)
Theorem C82_coordinates_partial : forall (f : list V) a bx xa xs axis n, wf f a -> nth_error (a_shape a) axis = Some n -> 2 <= n ->
  vector (bx, xa) xs -> length xs = n ->
  ndim a = 1 \/ is_c_contiguous (a_shape a) (a_strides a) 8 = true ->
  exists g, gradient_with_coords zero sub div rd rdx (f, a) (bx, xa) axis = Ok g /\
    differentiates zero rd f a axis (fun n ys => quotient sub div n (fun i => nth i (map rdx xs) zero) (fun i => nth i ys zero)) g.
Proof.
  intros f a bx xa xs axis n W Hn H2 VX HLX HC. pose proof W as (_ & _ & _ & HL & _).
  assert (SB : same_bases a axis).
  { destruct HC as [N1|HC]; [|apply (same_bases_c a axis n); try assumption; lia].
    assert (axis < length (a_shape a)) by (apply nth_error_Some; congruence). unfold ndim in N1. assert (axis = 0) as -> by lia.
    apply same_bases_1d; [exact N1|lia]. }
  destruct (gradient_lanes_spec zero sub div rd f a (den_coords zero sub (map rdx xs)) axis n W Hn ltac:(lia) SB) as (out & E & HLo & HG).
  eexists. split.
  - unfold gradient_with_coords. cbn [fst snd]. rewrite Hn. pose proof (vector_size (bx, xa) xs VX) as SZ.
    destruct VX as (WX & SX & EX). cbn [fst snd] in *. unfold ndim. rewrite SX, SZ, HLX. rewrite !Nat.eqb_refl. cbn [length]. rewrite ?Nat.eqb_refl. cbn [Nat.eqb negb orb].
    rewrite (read_offsets bx xa xs WX EX). cbn [bind]. exact E.
  - split; [reflexivity|]. split; [exact HLo|]. cbn [snd]. rewrite (nth_error_nth _ _ 0 Hn).
    intros oi j lv Hoi Hj Hlv. rewrite (HG oi j lv Hoi Hj Hlv). unfold grad_val, quotient, den_coords. rewrite map_length. reflexivity.
Qed.

(* too short, or an axis or coordinate vector that does not fit: refused *)
Theorem C82_rejects : forall (f : list V * arr) h axis (x : list X * arr) ax,
  ((exists d, In d (a_shape (snd f)) /\ d < 2) -> gradient zero one two sub mul div rd f h axis = Err) /\
  (ndim (snd f) <= ax -> gradient zero one two sub mul div rd f h (Some ax) = Err /\ gradient_with_coords zero sub div rd rdx f x ax = Err) /\
  (ndim (snd x) <> 1 \/ nth_error (a_shape (snd f)) ax <> Some (size (snd x)) -> gradient_with_coords zero sub div rd rdx f x ax = Err).
Proof.
  intros f h axis x ax. split; [|split].
  - intros (d & Hd & Hlt). unfold gradient. replace (existsb (fun d => d <? 2) (a_shape (snd f))) with true.
    + rewrite Bool.orb_true_r. reflexivity.
    + symmetry. apply existsb_exists. exists d. split; [exact Hd|]. apply Nat.ltb_lt. exact Hlt.
  - intros H. unfold gradient, gradient_with_coords. rewrite (proj2 (nth_error_None _ _)) by exact H.
    destruct (Nat.ltb_spec ax (ndim (snd f))); [lia|]. destruct (_ || _); auto.
  - intros H. unfold gradient_with_coords. destruct (nth_error (a_shape (snd f)) ax) as [n|]; [|reflexivity].
    destruct (Nat.eqb_spec (ndim (snd x)) 1), (Nat.eqb_spec (size (snd x)) n); try reflexivity. subst. exfalso. destruct H; auto.
Qed.
End Grad.

(* The differences are the derivative: exact for straight lines everywhere and for
   parabolas at interior points, over the rationals. *)
Local Open Scope Q_scope.
Notation qdiff h n y j := (difference 0 2 Qminus Qmult Qdiv h n y j).
Definition at_step (h : Q) (i : nat) : Q := inject_Z (Z.of_nat i) * h.
Lemma at_step_S h i : at_step h (S i) == at_step h i + h.
Proof. unfold at_step. rewrite Nat2Z.inj_succ. unfold Z.succ. rewrite inject_Z_plus. change (inject_Z 1) with 1. ring. Qed.

Theorem C82_affine : forall h c d n j, ~ h == 0 -> (2 <= n)%nat -> (j < n)%nat ->
  qdiff h n (fun i => c * at_step h i + d) j == c.
Proof.
  intros h c d n j HH Hn Hj. unfold difference.
  destruct (Nat.eqb_spec j 0); [|destruct (Nat.eqb_spec j (n - 1))].
  - rewrite !at_step_S. field. exact HH.
  - replace (n - 1)%nat with (S (n - 2)) by lia. rewrite !at_step_S. field. exact HH.
  - replace (j + 1)%nat with (S (S (j - 1))) by lia. rewrite !at_step_S. field. exact HH.
Qed.
Theorem C82_parabola : forall h b c d n j, ~ h == 0 -> (0 < j)%nat -> (j < n - 1)%nat ->
  qdiff h n (fun i => b * (at_step h i * at_step h i) + c * at_step h i + d) j == 2 * b * at_step h j + c.
Proof.
  intros h b c d n j HH H0 Hj. unfold difference.
  destruct (Nat.eqb_spec j 0); [lia|]. destruct (Nat.eqb_spec j (n - 1)); [lia|].
  replace (j + 1)%nat with (S (S (j - 1))) by lia. replace (at_step h j) with (at_step h (S (j - 1))) by (f_equal; lia).
  rewrite !at_step_S. field. exact HH.
Qed.
(* against coordinates: exact for straight lines on any strictly increasing coordinates *)
Theorem C82_affine_coordinates : forall (x : nat -> Q) c d n j, (forall i k, (i < k < n)%nat -> x i < x k) -> (2 <= n)%nat -> (j < n)%nat ->
  quotient Qminus Qdiv n x (fun i => c * x i + d) j == c.
Proof.
  intros x c d n j HX Hn Hj. unfold quotient, before, after.
  assert (L : x (j - 1)%nat < x (Nat.min (j + 1) (n - 1))) by (apply HX; lia).
  field. lra.
Qed.
(* linear in the values *)
Theorem C82_linear : forall h c d n y z j, qdiff h n (fun i => c * y i + d * z i) j == c * qdiff h n y j + d * qdiff h n z j.
Proof. intros. unfold difference. unfold Qdiv. destruct (_ =? _)%nat; [ring|]. destruct (_ =? _)%nat; ring. Qed.

(* On unevenly spaced coordinates parabolas are not differentiated exactly at interior
   points: numpy's second-order formula gives 2 at x = 1 for x^2 on 0, 1, 3; this gives 3. *)
Theorem C82_uneven_refuted : exists g,
  gradient_with_coords 0 Qminus Qdiv (fun v => v) (fun v => v) ([0; 1; 9], fresh [3]%nat 8) ([0; 1; 3], fresh [3]%nat 8) 0%nat = Ok ([3%nat], g) /\
  nth 1 g 0 == 3 /\ ~ nth 1 g 0 == 2 * 1.
Proof. eexists. split; [vm_compute; reflexivity|]. split; [reflexivity|]. intros H; vm_compute in H; discriminate H. Qed.

Notation qgrad f axis := (gradient 0 1 2 Qminus Qmult Qdiv inject_Z f (Some 1) (Some axis)).
(* Lanes are written at the byte offsets of the source.  A 2x2 int32 matrix: along axis 1
   the second lane overwrites the first and the last cell stays 0; along axis 0 the write is
   to a misaligned address. *)
Theorem C82_narrow_refuted :
  map (fun r => map Qred (snd r)) (match qgrad ([1; 2; 4; 9]%Z, fresh [2; 2]%nat 4) 1%nat with Ok l => l | _ => [] end) = [[1; 5; 5; 0]] /\
  qgrad ([1; 2; 4; 9]%Z, fresh [2; 2]%nat 4) 0%nat = Fault.
Proof. split; vm_compute; reflexivity. Qed.
(* a float64 matrix with its rows reversed (negative stride) is written before the start of the buffer *)
Theorem C82_reversed_refuted : wf [1; 2; 4; 9]%Z (mkArr 16 [2; 2]%nat [-16; 8]%Z 8 false false) /\
  qgrad ([1; 2; 4; 9]%Z, mkArr 16 [2; 2]%nat [-16; 8]%Z 8 false false) 1%nat = Fault.
Proof. split; [apply Wf_Check.wf_check_sound|]; vm_compute; reflexivity. Qed.
(* a transposed float64 matrix gets the wrong values *)
Theorem C82_transposed_refuted :
  map (fun r => map Qred (snd r)) (match qgrad ([1; 2; 4; 9; 16; 25]%Z, transpose (fresh [2; 3]%nat 8)) 1%nat with Ok l => l | _ => [] end)
  = [[8; 14; 21; 21; 0; 0]].
Proof. vm_compute. reflexivity. Qed.

Example C82_nonvacuous :
  map (fun r => map Qred (snd r)) (match qgrad ([1; 2; 4; 9; 16; 25]%Z, fresh [2; 3]%nat 8) 1%nat with Ok l => l | _ => [] end) = [[1; 3#2; 2; 7; 8; 9]] /\
  map (fun r => map Qred (snd r)) (match qgrad ([1; 2; 4; 9; 16; 25]%Z, mkArr 20 [3]%nat [-8]%Z 4 false false) 0%nat with Ok l => l | _ => [] end) = [[-16; -23#2; -7]].
Proof. split; vm_compute; reflexivity. Qed.

Print Assumptions C81_coordinates.
Print Assumptions C81_spacing.
Print Assumptions C81_bad_axis.
Print Assumptions C81_affine.
Print Assumptions C81_linear.
Print Assumptions C81_split.
Print Assumptions C81_reverse.
Print Assumptions C81_uniform.
Print Assumptions C81_wrong_length_refuted.
Print Assumptions C81_vector_shape_refuted.
Print Assumptions C82_vector.
Print Assumptions C82_row_major_partial.
Print Assumptions C82_default_spacing.
Print Assumptions C82_coordinates_partial.
Print Assumptions C82_rejects.
Print Assumptions C82_affine.
Print Assumptions C82_parabola.
Print Assumptions C82_affine_coordinates.
Print Assumptions C82_linear.
Print Assumptions C82_uneven_refuted.
Print Assumptions C82_narrow_refuted.
Print Assumptions C82_reversed_refuted.
Print Assumptions C82_transposed_refuted.
