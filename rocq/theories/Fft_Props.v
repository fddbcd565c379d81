(* C124-C126: Fourier transforms, their real forms, shifts and frequencies. *)
From Coq Require Import Ring Permutation.
From Verif Require Import Base Lists Arr_Spec Arr_Model Arr_Wf Arr_Proofs Copy_Model Copy_Proofs Elem_Model Gu_Model Wf_Check Msk_Proofs
  Fft_Spec Fft_Model Fft_Proofs Fft_Lanes Fft_Trans Fft_Real Fft_Multi Fft_Shift Fft_Complex.
Local Open Scope nat_scope.

Section Def.
Context {V C : Type}.
Variables (zero one : C) (add mul : C -> C -> C).
Variables (w wi scale : nat -> C).
Local Notation fftn := (fftn zero one add mul w).
Local Notation ifftn := (ifftn zero one add mul wi scale).
Local Notation dft_axes := (dft_axes zero one add mul).

(* C124.  fftn returns an array of the same shape whose elements are the transform along
   every listed axis, whatever the memory layout of its argument and whichever read path
   is taken. *)
Theorem C124_fftn (rdc : V -> C) (fast : bool) axes buf a :
  wf buf a -> 0 < ndim a -> valid_axes axes (ndim a) ->
  fftn rdc fast axes buf a =
  Ok (a_shape a, map (dft_axes w (a_shape a) (axes_of axes (ndim a)) (cvalue zero rdc buf a)) (all_idx (a_shape a))).
Proof.
  intros W Hd HA. destruct (fftn_dft zero one add mul w rdc fast axes buf a W Hd HA) as (b & -> & H).
  rewrite (holds_eq _ _ _ H). reflexivity.
Qed.
(* ifftn likewise, with the conjugate roots, divided by the product of the lengths *)
Theorem C124_ifftn (rdc : V -> C) (fast : bool) axes buf a :
  wf buf a -> 0 < ndim a -> valid_axes axes (ndim a) ->
  ifftn rdc fast axes buf a =
  Ok (a_shape a, map (fun idx => mul (dft_axes wi (a_shape a) (axes_of axes (ndim a)) (cvalue zero rdc buf a) idx)
                                     (scale (prod (map (fun x => nth x (a_shape a) 0) (axes_of axes (ndim a))))))
                     (all_idx (a_shape a))).
Proof.
  intros W Hd HA. destruct (ifftn_dft zero one add mul wi scale rdc fast axes buf a W Hd HA) as (b & -> & H).
  rewrite (holds_eq _ _ _ H). reflexivity.
Qed.
(* a 0-d array, an empty axis list or an axis out of range is an error *)
Theorem C124_errors (rdc : V -> C) (fast : bool) axes buf a : ndim a = 0 \/ ~ valid_axes axes (ndim a) ->
  fftn rdc fast axes buf a = Err /\ ifftn rdc fast axes buf a = Err.
Proof.
  intros H. unfold Fft_Model.fftn, Fft_Model.ifftn. destruct (Nat.eqb_spec (ndim a) 0); [split; reflexivity|].
  destruct H as [H|H]; [contradiction|]. rewrite (validate_err _ _ H). split; reflexivity.
Qed.
(* the 1-D and 2-D entry points are the same transforms over all axes *)
Theorem C124_one_two_d (rdc : V -> C) (fast : bool) buf a : wf buf a ->
  (ndim a = 1 -> fft zero one add mul w rdc fast buf a = fftn rdc fast None buf a /\
                 ifft zero one add mul wi scale rdc fast buf a = ifftn rdc fast None buf a) /\
  (ndim a = 2 -> fft2 zero one add mul w rdc fast buf a = fftn rdc fast None buf a /\
                 ifft2 zero one add mul wi scale rdc fast buf a = ifftn rdc fast None buf a).
Proof.
  intros W. split; intros Hd.
  - destruct (shape_1 a Hd) as (n & HS & Hn). assert (HV : valid_axes None (ndim a)) by (rewrite Hd; split; [discriminate|intros x [<-|[]]; lia]).
    rewrite C124_fftn, C124_ifftn by (assumption || lia). unfold fft, ifft. rewrite Hd, Hn. cbn [Nat.eqb negb].
    rewrite (to_complex_1 zero rdc fast buf a n W HS). rewrite HS. cbn [bind axes_of seq].
    assert (EA : all_idx [n] = map (fun i => [i]) (seq 0 n)).
    { cbn [all_idx]. clear. induction (seq 0 n) as [|i l IH]; [reflexivity|]. cbn in *. congruence. }
    rewrite EA, !map_map. cbn [map nth]. replace (prod [n]) with n by (cbn; lia).
    destruct (Nat.eqb_spec n 0) as [->|N]; [split; reflexivity|].
    unfold forward, inverse. rewrite !plan_map, !map_map. split; reflexivity.
  - unfold fft2, ifft2. rewrite Hd. cbn [Nat.eqb]. unfold Fft_Model.fftn, Fft_Model.ifftn, validate_axes. rewrite Hd. split; reflexivity.
Qed.
(* arrays of other dimensions are rejected by the 1-D and 2-D forms instead of being
   transformed along their last axes *)
Theorem C124_last_axes_refuted (x : V) (rdc : V -> C) :
  wf [x; x] (fresh [1; 2] 8) /\ fft zero one add mul w rdc true [x; x] (fresh [1; 2] 8) = Err /\
  wf [x; x] (fresh [1; 1; 2] 8) /\ fft2 zero one add mul w rdc true [x; x] (fresh [1; 1; 2] 8) = Err.
Proof.
  split; [apply fresh_wf; [lia|cbn; lia|reflexivity]|]. split; [reflexivity|].
  split; [apply fresh_wf; [lia|cbn; lia|reflexivity]|reflexivity].
Qed.
End Def.

(* C125.  irfft of an array of h+1 >= 2 entries is the real part of the inverse transform
   of its conjugate extension. *)
Section Irfft.
Context {V C : Type}.
Variables (zero one : C) (add mul : C -> C -> C) (conj re : C -> C) (wi scale : nat -> C).
Theorem C125_irfft (rdc : V -> C) (fast : bool) buf a h : wf buf a -> a_shape a = [h + 1] -> 0 < h ->
  Fft_Model.irfft zero one add mul conj re wi scale rdc fast buf a =
  Ok ([2 * h], map (fun j => mul (re (dft_at zero one add mul (wi (2 * h)) (2 * h)
                     (hext conj (2 * h) (h + 1) (fun k => cvalue zero rdc buf a [k])) j)) (scale (2 * h))) (seq 0 (2 * h))).
Proof.
  intros W HS Hh. unfold irfft, ndim, size. rewrite HS. cbn [length prod Nat.eqb negb]. rewrite Nat.mul_1_r.
  destruct (Nat.eqb_spec (h + 1) 0); [lia|]. rewrite (to_complex_1 zero rdc fast buf a (h + 1) W HS). cbn [bind].
  replace (h + 1 - 1) with h by lia. rewrite expand_hext by exact Hh. cbn [bind]. unfold inverse. rewrite plan_map, map_map. reflexivity.
Qed.
End Irfft.

Section Ring.
Context {C : Type}.
Variables (zero one : C) (add mul sub : C -> C -> C) (opp : C -> C).
Hypothesis RT : ring_theory zero one add mul sub opp (@eq C).
Add Ring CRing4 : RT.
Variables (w wi scale : nat -> C).
Local Notation fftn := (fftn zero one add mul w).
Local Notation ifftn := (ifftn zero one add mul wi scale).
Local Notation dft_axes := (dft_axes zero one add mul).
Local Notation roots := (roots zero one add mul).
Local Notation cnat := (cnat zero one add).

(* C124.  Over any ring with the roots of unity of the lengths, ifftn undoes fftn and
   fftn undoes ifftn, for every axis list, also with repeated axes. *)
Theorem C124_inverse {V} (rdc : V -> C) (fast : bool) axes buf a :
  wf buf a -> 0 < ndim a -> valid_axes axes (ndim a) -> (Z.of_nat (size a) * 16 < 2 ^ 63)%Z ->
  (forall n, In n (a_shape a) -> roots n (w n) (wi n)) -> (forall n, 0 < n -> mul (scale n) (cnat n) = one) ->
  exists b c, fftn rdc fast axes buf a = Ok (a_shape a, b) /\ ifftn rdc fast axes buf a = Ok (a_shape a, c) /\
    ifftn (fun z => z) true axes b (fresh (a_shape a) 16) = Ok (a_shape a, map (cvalue zero rdc buf a) (all_idx (a_shape a))) /\
    fftn (fun z => z) true axes c (fresh (a_shape a) 16) = Ok (a_shape a, map (cvalue zero rdc buf a) (all_idx (a_shape a))).
Proof.
  intros W Hd HA HB HR HS. rewrite C124_fftn, C124_ifftn by assumption. eexists _, _. split; [reflexivity|]. split; [reflexivity|].
  set (ax := axes_of axes (ndim a)). set (f := cvalue zero rdc buf a). set (P := prod (map (fun x => nth x (a_shape a) 0) ax)).
  assert (HAX : forall x, In x ax -> x < length (a_shape a)) by (apply HA).
  assert (HP : forall idx, inb idx (a_shape a) -> mul (scale P) (cnat P) = one).
  { intros idx Hi. apply HS. apply inb_prod_pos in Hi. destruct (Nat.eq_dec P 0) as [E|E]; [|lia]. apply prod_axes_zero in E; [lia|exact HAX]. }
  rewrite C124_fftn, C124_ifftn by (try exact Hd; try exact HA; apply fresh_list_wf, HB).
  change (ndim (fresh (a_shape a) 16)) with (ndim a). cbn [a_shape fresh]. fold ax P. split; do 2 f_equal; apply map_feq; intros idx Hi.
  - rewrite (dft_axes_feq zero one add mul wi (a_shape a) ax HAX _ (dft_axes w (a_shape a) ax f) ltac:(intros i Hi'; apply cvalue_fresh, Hi') _ Hi).
    rewrite (dft_axes_inverse zero one add mul sub opp RT w wi (a_shape a) HR ax HAX f idx Hi). cbv beta. fold P. specialize (HP idx Hi).
    transitivity (mul (mul (scale P) (cnat P)) (f idx)); [ring|]. rewrite HP. ring.
  - rewrite (dft_axes_feq zero one add mul w (a_shape a) ax HAX _ (fun i => mul (scale P) (dft_axes wi (a_shape a) ax f i)));
      [|intros i Hi'; rewrite cvalue_fresh by exact Hi'; ring|exact Hi].
    rewrite (dft_axes_scale zero one add mul sub opp RT).
    rewrite (dft_axes_inverse zero one add mul sub opp RT wi w (a_shape a)); [|intros n Hn; apply (roots_sym zero one add mul sub opp RT), HR, Hn|exact HAX|exact Hi].
    cbv beta. fold P. specialize (HP idx Hi). transitivity (mul (mul (scale P) (cnat P)) (f idx)); [ring|]. rewrite HP. ring.
Qed.

(* the order in which the axes are listed does not matter *)
Lemma dft_axes_perm sh l l' : Permutation l l' -> (forall x, In x l -> x < length sh) -> forall f, feq sh (dft_axes w sh l f) (dft_axes w sh l' f).
Proof.
  induction 1 as [|x l l' _ IH|x y l|l l' l'' P1 IH1 P2 IH2]; intros HL f.
  - intros idx _. reflexivity.
  - apply (IH ltac:(intros; apply HL; right; assumption)).
  - apply (dft_axes_feq zero one add mul w sh l); [intros; apply HL; right; right; assumption|]. intros idx _.
    destruct (Nat.eq_dec x y) as [->|E]; [reflexivity|]. apply (dft_axis_comm zero one add mul sub opp RT). congruence.
  - intros idx Hi. rewrite (IH1 HL f idx Hi). apply IH2; [|exact Hi]. intros x Hx. apply HL. apply (Permutation_in _ (Permutation_sym P1)), Hx.
Qed.
Theorem C124_axis_order {V} (rdc : V -> C) (fast fast' : bool) l l' buf a :
  wf buf a -> 0 < ndim a -> valid_axes (Some l) (ndim a) -> Permutation l l' ->
  fftn rdc fast (Some l) buf a = fftn rdc fast' (Some l') buf a.
Proof.
  intros W Hd HA P. rewrite !C124_fftn; try assumption.
  - do 2 f_equal. apply map_feq. apply dft_axes_perm; [exact P|apply HA].
  - destruct HA as [H1 H2]. split; cbn [axes_of] in *.
    + intros E. subst l'. apply Permutation_sym, Permutation_nil in P. contradiction.
    + intros x Hx. apply H2. apply (Permutation_in _ (Permutation_sym P)), Hx.
Qed.

(* C125.  rfft keeps the first n/2+1 entries of fft; for real data the others are their
   conjugates. *)
Theorem C125_rfft {V} (rdc : V -> C) (fast : bool) buf a n : wf buf a -> a_shape a = [n] -> 0 < n ->
  exists b, fft zero one add mul w rdc fast buf a = Ok ([n], b) /\
    rfft zero one add mul w rdc fast buf a = Ok ([n / 2 + 1], firstn (n / 2 + 1) b).
Proof.
  intros W HS Hn. unfold fft, rfft, ndim, size. rewrite HS. cbn [length prod Nat.eqb negb]. rewrite Nat.mul_1_r.
  destruct (Nat.eqb_spec n 0); [lia|]. rewrite (to_complex_1 zero rdc fast buf a n W HS). cbn [bind]. eexists. split; reflexivity.
Qed.
Variables (conj re : C -> C).
Theorem C125_hermitian {V} (rdc : V -> C) (fast : bool) buf a n b : conjugation zero one add mul conj re -> wf buf a -> a_shape a = [n] -> 0 < n ->
  roots n (w n) (wi n) -> conj (w n) = wi n ->
  (forall j, j < n -> conj (cvalue zero rdc buf a [j]) = cvalue zero rdc buf a [j]) ->
  fft zero one add mul w rdc fast buf a = Ok ([n], b) ->
  forall k, 0 < k < n -> nth (n - k) b zero = conj (nth k b zero).
Proof.
  intros CJ W HS Hn HR HC Hreal E k Hk. revert E. unfold fft, ndim, size. rewrite HS. cbn [length prod Nat.eqb negb]. rewrite Nat.mul_1_r.
  destruct (Nat.eqb_spec n 0); [lia|]. rewrite (to_complex_1 zero rdc fast buf a n W HS). cbn [bind]. intros E. injection E as <-.
  unfold forward. rewrite !plan_lane by lia. apply (hermitian zero one add mul sub opp RT conj); try apply CJ; [rewrite HC; exact HR|lia|exact Hreal].
Qed.
(* irfft undoes rfft on real arrays of even length.  Missing: odd lengths *)
Theorem C125_irfft_rfft_partial {V} (rdc : V -> C) (fast : bool) buf a h : conjugation zero one add mul conj re -> wf buf a ->
  a_shape a = [2 * h] -> 0 < h -> (Z.of_nat (size a) * 16 < 2 ^ 63)%Z ->
  roots (2 * h) (w (2 * h)) (wi (2 * h)) -> conj (w (2 * h)) = wi (2 * h) -> mul (scale (2 * h)) (cnat (2 * h)) = one ->
  (forall j, j < 2 * h -> conj (cvalue zero rdc buf a [j]) = cvalue zero rdc buf a [j]) ->
  exists b, rfft zero one add mul w rdc fast buf a = Ok ([h + 1], b) /\
    irfft zero one add mul conj re wi scale (fun z => z) true b (fresh [h + 1] 16) = Ok ([2 * h], map (fun j => cvalue zero rdc buf a [j]) (seq 0 (2 * h))).
Proof.
  intros CJ W HS Hh HB HR HC HSc Hreal. set (f := fun j => cvalue zero rdc buf a [j]).
  set (g := dft_at zero one add mul (w (2 * h)) (2 * h) f). exists (map g (seq 0 (h + 1))). split.
  - unfold rfft, ndim, size. rewrite HS. cbn [length prod Nat.eqb negb]. rewrite Nat.mul_1_r. destruct (Nat.eqb_spec (2 * h) 0); [lia|].
    rewrite (to_complex_1 zero rdc fast buf a (2 * h) W HS). cbn [bind].
    replace (2 * h / 2 + 1) with (h + 1) by (rewrite (Nat.mul_comm 2 h), Nat.div_mul by lia; lia).
    unfold forward. rewrite plan_map, firstn_map_seq by lia. reflexivity.
  - replace (map g (seq 0 (h + 1))) with (map (fun idx => g (nth 0 idx 0)) (all_idx [h + 1])).
    2:{ rewrite (holds_1 (h + 1) _ _ (holds_list [h + 1] (fun idx => g (nth 0 idx 0)))). reflexivity. }
    unfold size in HB. rewrite HS in HB. cbn [prod] in HB.
    rewrite (C125_irfft zero one add mul conj re wi scale (fun z => z) true _ (fresh [h + 1] 16) h); [|apply fresh_list_wf; cbn [prod]; lia|reflexivity|exact Hh].
    do 2 f_equal. apply map_ext_in. intros j Hj. apply in_seq in Hj.
    rewrite (dft_ext' zero one add mul _ _ _ (hext conj (2 * h) (h + 1) (fun k => mul one (g k)))).
    + unfold g. rewrite (half_inverse zero one add mul sub opp RT conj) with (r := w (2 * h)); try apply CJ; try assumption; try lia.
      destruct CJ as (CA & CM & C1 & C0 & CR). rewrite CR.
      * transitivity (mul (mul (scale (2 * h)) (cnat (2 * h))) (f j)); [ring|]. rewrite HSc. unfold f. ring.
      * rewrite !CM, C1. rewrite (conj_cnat zero one add conj) by assumption. unfold f. rewrite Hreal by lia. reflexivity.
    + intros k Hk. apply hext_ext; [exact Hh|exact Hk|]. intros i Hi. rewrite cvalue_fresh by (constructor; [lia|constructor]). cbn [nth]. ring.
Qed.
End Ring.

Section Real.
Context {C : Type}.
Variables (zero one : C) (add mul sub : C -> C -> C) (opp : C -> C).
Hypothesis RT : ring_theory zero one add mul sub opp (@eq C).
Add Ring CRing5 : RT.
Variable w : nat -> C.
(* C125.  rfftn is fftn with the last listed axis cut to n/2+1 entries *)
Theorem C125_rfftn {V} (rdc : V -> C) (fast : bool) axes buf a : wf buf a -> 0 < size a -> 0 < ndim a -> valid_axes axes (ndim a) ->
  let ax := axes_of axes (ndim a) in let last := List.last ax 0 in
  let sh := upd (a_shape a) last (nth last (a_shape a) 0 / 2 + 1) in
  ~ In last (removelast ax) ->
  exists full half, Fft_Model.fftn zero one add mul w rdc fast axes buf a = Ok (a_shape a, full) /\ Fft_Model.rfftn zero one add mul w rdc fast axes buf a = Ok (sh, half) /\
    length half = prod sh /\
    forall idx, inb idx sh -> inb idx (a_shape a) /\ nth_error half (rm_rank sh idx) = nth_error full (rm_rank (a_shape a) idx).
Proof.
  intros W Hs Hd HA ax last sh Hnin. destruct (fftn_dft zero one add mul w rdc fast axes buf a W Hd HA) as (full & E1 & H1).
  destruct (rfftn_dft zero one add mul w rdc fast axes buf a W Hs Hd HA) as (half & E2 & H2).
  fold ax in E1, H1, E2, H2. fold last in E2, H2. fold sh in E2, H2. exists full, half. split; [exact E1|]. split; [exact E2|].
  split; [apply H2|]. intros idx Hi.
  assert (Hl : last < length (a_shape a)) by (apply (proj2 HA), last_in, (proj1 HA)).
  set (n := nth last (a_shape a) 0) in *. assert (Hn : nth_error (a_shape a) last = Some n) by (apply nth_error_nth', Hl).
  assert (Hn0 : 0 < n). { unfold size in Hs. rewrite (prod_remove_at last _ _ Hn) in Hs. nia. }
  assert (HI : inb idx (a_shape a)).
  { rewrite <- (upd_same_nth (a_shape a) last n Hn). rewrite <- (upd_same idx last).
    replace (upd (a_shape a) last n) with (upd sh last n) by (unfold sh; apply upd_upd).
    apply inb_upd; [exact Hi|]. pose proof (inb_nth idx sh last (n / 2 + 1) Hi ltac:(apply nth_error_upd_eq; exact Hl)). pose proof (half_bound n Hn0). lia. }
  split; [exact HI|]. change (nth_error half (rank sh idx) = nth_error full (rank (a_shape a) idx)).
  rewrite (proj2 H1 _ HI), (proj2 H2 _ Hi). f_equal. unfold sh. rewrite (dft_axes_cut zero one add mul) by (rewrite <- in_rev; exact Hnin).
  assert (HAx : ax = removelast ax ++ [last]) by (apply app_removelast_last, HA). rewrite HAx at 2.
  assert (HR : forall b, In b (removelast ax ++ [last]) -> b < length (a_shape a)).
  { intros b Hb. apply in_app_or in Hb as [Hb|[<-|[]]]; [apply (proj2 HA), removelast_in, Hb|exact Hl]. }
  rewrite <- (dft_axes_rev zero one add mul sub opp RT w (a_shape a) _ HR _ idx HI). rewrite rev_app_distr. reflexivity.
Qed.
Variables (conj re : C -> C) (wi scale : nat -> C).
Local Notation dft_axes := (dft_axes zero one add mul).
Local Notation dft_axis := (dft_axis zero one add mul).
Local Notation roots := (roots zero one add mul).
Local Notation cnat := (cnat zero one add).
Local Notation fft := (fft zero one add mul w).
Local Notation rfft := (rfft zero one add mul w).
Local Notation irfft := (irfft zero one add mul conj re wi scale).
Local Notation fftn := (fftn zero one add mul w).
Local Notation rfftn := (rfftn zero one add mul w).
Local Notation irfftn := (irfftn zero one add mul conj re wi scale).
Local Notation hfft := (hfft zero one add mul conj re wi).
Local Notation ihfft := (ihfft zero one add mul conj w scale).

(* on odd lengths the result of irfft is one entry too short, and on length 1 it panics *)
Theorem C125_irfft_rfft_refuted {V} (rdc : V -> C) (fast : bool) buf a h : wf buf a -> a_shape a = [2 * h + 1] -> (Z.of_nat (size a) * 16 < 2 ^ 63)%Z ->
  exists b, rfft rdc fast buf a = Ok ([h + 1], b) /\
    match irfft (fun z => z) true b (fresh [h + 1] 16) with
    | Ok (sh, out) => 0 < h /\ sh = [2 * h] /\ length out = 2 * h
    | r => h = 0 /\ r = Panic
    end.
Proof.
  clear RT. intros W HS HB. set (f := fun j => cvalue zero rdc buf a [j]).
  set (g := dft_at zero one add mul (w (2 * h + 1)) (2 * h + 1) f). exists (map g (seq 0 (h + 1))). split.
  - unfold Fft_Model.rfft, ndim, size. rewrite HS. cbn [length prod Nat.eqb negb]. rewrite Nat.mul_1_r. destruct (Nat.eqb_spec (2 * h + 1) 0); [lia|].
    rewrite (to_complex_1 zero rdc fast buf a (2 * h + 1) W HS). cbn [bind].
    replace ((2 * h + 1) / 2 + 1) with (h + 1) by (rewrite (Nat.mul_comm 2 h), Nat.div_add_l by lia; cbn; lia).
    unfold forward. rewrite plan_map, firstn_map_seq by lia. reflexivity.
  - replace (map g (seq 0 (h + 1))) with (map (fun idx => g (nth 0 idx 0)) (all_idx [h + 1])).
    2:{ rewrite (holds_1 (h + 1) _ _ (holds_list [h + 1] (fun idx => g (nth 0 idx 0)))). reflexivity. }
    unfold size in HB. rewrite HS in HB. cbn [prod] in HB. destruct (Nat.eq_dec h 0) as [->|Hh].
    + split; reflexivity.
    + rewrite C125_irfft with (h := h); [|apply fresh_list_wf; cbn [prod]; lia|reflexivity|lia].
      split; [lia|]. split; [reflexivity|]. rewrite map_length. apply seq_length.
Qed.

(* irfftn undoes rfftn on real arrays whose last transformed axis has even length, with no
   shape hint or the right one.  Missing: odd lengths *)
Theorem C125_irfftn_rfftn_partial {V} (rdc : V -> C) (fast : bool) s axes buf a h : conjugation zero one add mul conj re ->
  wf buf a -> 0 < size a -> 0 < ndim a -> valid_axes axes (ndim a) -> (Z.of_nat (size a) * 16 < 2 ^ 63)%Z ->
  let ax := axes_of axes (ndim a) in let last := List.last ax 0 in
  nth last (a_shape a) 0 = 2 * h -> ~ In last (removelast ax) ->
  (s = None \/ exists l, s = Some l /\ (nth_error l last = None \/ nth_error l last = Some (2 * h))) ->
  (forall n, In n (a_shape a) -> roots n (w n) (wi n)) -> conj (w (2 * h)) = wi (2 * h) ->
  (forall n, 0 < n -> mul (scale n) (cnat n) = one) ->
  (forall idx, inb idx (a_shape a) -> conj (cvalue zero rdc buf a idx) = cvalue zero rdc buf a idx) ->
  exists sh b, rfftn rdc fast axes buf a = Ok (sh, b) /\
    irfftn (fun z => z) true s axes b (fresh sh 16) = Ok (a_shape a, map (cvalue zero rdc buf a) (all_idx (a_shape a))).
Proof. intros CJ. intros. apply (irfftn_rfftn zero one add mul conj re w wi scale sub opp RT CJ rdc fast s axes buf a h); assumption. Qed.
(* hfft undoes ihfft on real arrays of even length.  Missing: odd lengths *)
Theorem C125_hfft_ihfft_partial {V} (rdc : V -> C) (fast : bool) n buf a h : conjugation zero one add mul conj re -> (forall x, conj (conj x) = x) ->
  wf buf a -> a_shape a = [2 * h] -> 0 < h -> n = None \/ n = Some (2 * h) -> (Z.of_nat (size a) * 16 < 2 ^ 63)%Z ->
  roots (2 * h) (w (2 * h)) (wi (2 * h)) -> conj (w (2 * h)) = wi (2 * h) -> mul (scale (2 * h)) (cnat (2 * h)) = one ->
  (forall j, j < 2 * h -> conj (cvalue zero rdc buf a [j]) = cvalue zero rdc buf a [j]) ->
  exists b, ihfft rdc fast buf a = Ok ([h + 1], b) /\
    hfft (fun z => z) true n b (fresh [h + 1] 16) = Ok ([2 * h], map (fun j => cvalue zero rdc buf a [j]) (seq 0 (2 * h))).
Proof. intros CJ. intros. apply (hfft_ihfft zero one add mul conj re w wi scale sub opp RT CJ); assumption. Qed.

(* with an odd length the top frequency is dropped: 1, 0, 0 does not come back, although
   the length is given *)
Theorem C125_odd_length_refuted : conjugation zero one add mul conj re -> one <> zero ->
  mul (scale 3) (cnat 3) = one ->
  rfftn (fun z => z) true None [one; zero; zero] (fresh [3] 16) = Ok ([2], [one; one]) /\
  (exists x l, irfftn (fun z => z) true (Some [3]) None [one; one] (fresh [2] 16) = Ok ([3], x :: l) /\ x <> one) /\
  ihfft (fun z => z) true [one; zero; zero] (fresh [3] 16) = Ok ([2], [scale 3; scale 3]) /\
  (exists x l, hfft (fun z => z) true (Some 3) [scale 3; scale 3] (fresh [2] 16) = Ok ([3], x :: l) /\ x <> one).
Proof.
  intros CJ H1 HS. destruct CJ as (CA & CM & C1 & C0 & CR).
  assert (Hreal : conj (scale 3) = scale 3).
  { apply (conj_inverse zero one add mul sub opp RT conj CM C1 _ _ HS). apply conj_cnat; assumption. }
  assert (H2 : mul (add one one) (scale 3) <> one).
  { intros E. apply H1. unfold Fft_Spec.cnat in HS. cbn [csum] in HS.
    assert (E3 : scale 3 = zero). { transitivity (sub (mul (scale 3) (add (add (add zero one) one) one)) (mul (add one one) (scale 3))); [ring|]. rewrite HS, E. ring. }
    rewrite <- HS, E3. ring. }
  split; [|split; [|split]].
  - vm_compute. match goal with |- Ok (_, [?x; ?y]) = _ => replace x with one by ring; replace y with one by ring end. reflexivity.
  - eexists _, _. split; [vm_compute; reflexivity|]. intros E. apply H2. refine (eq_trans _ E). f_equal.
    match goal with |- _ = re ?x => replace x with (add one one) by ring end. symmetry. apply CR. rewrite CA, C1. reflexivity.
  - vm_compute.
    match goal with |- Ok (_, [conj ?x; conj ?y]) = _ => replace x with (scale 3) by ring; replace y with (scale 3) by ring end. rewrite Hreal. reflexivity.
  - eexists _, _. split; [vm_compute; reflexivity|]. intros E. apply H2. refine (eq_trans _ E).
    rewrite Hreal. match goal with |- _ = re ?x => replace x with (mul (add one one) (scale 3)) by ring end. symmetry. apply CR.
    rewrite CM, CA, C1, Hreal. reflexivity.
Qed.
(* empty arrays, which fftn accepts, and a hint shorter than the spectrum panic *)
Theorem C125_panics_refuted (x : C) :
  fftn (fun z => z) true None [] (fresh [0; 4] 16) = Ok ([0; 4], []) /\
  rfftn (fun z => z) true None [] (fresh [0; 4] 16) = Panic /\
  rfftn (fun z => z) true None [] (fresh [0] 16) = Panic /\
  irfftn (fun z => z) true (Some [1]) None [x; x] (fresh [2] 16) = Panic /\
  irfft (fun z => z) true [x] (fresh [1] 16) = Panic.
Proof. repeat split; reflexivity. Qed.
End Real.

(* C126.  fftshift moves element i to (i + n/2) mod n along every axis, ifftshift reads it
   from there, and each undoes the other, for 1-D and 2-D arrays of any layout.
   Missing: more dimensions. *)
Theorem C126_fftshift_partial {V} (buf : list V) a item : wf buf a -> 1 <= ndim a <= 2 -> (0 < item)%Z ->
  exists out, fftshift buf a = Ok (a_shape a, out) /\ length out = size a /\
    forall idx, inb idx (a_shape a) ->
      get out (fresh (a_shape a) item) (rotate (fun n => n / 2) (a_shape a) idx) = get buf a idx.
Proof.
  intros W Hd Hi. destruct (fftshift_ok buf a W Hd) as (out & E & HL & H). exists out. split; [exact E|]. split; [exact HL|].
  intros idx Hx. rewrite fresh_get by exact Hi. apply H, Hx.
Qed.
Theorem C126_ifftshift_partial {V} (buf : list V) a item : wf buf a -> 1 <= ndim a <= 2 -> (0 < item)%Z ->
  exists out, ifftshift buf a = Ok (a_shape a, out) /\ length out = size a /\
    forall idx, inb idx (a_shape a) ->
      get out (fresh (a_shape a) item) idx = get buf a (rotate (fun n => n / 2) (a_shape a) idx).
Proof.
  intros W Hd Hi. destruct (ifftshift_ok buf a W Hd) as (out & E & HL & H). exists out. split; [exact E|]. split; [exact HL|].
  intros idx Hx. rewrite fresh_get by exact Hi. apply H, Hx.
Qed.
Theorem C126_inverse_partial {V} (buf : list V) a item : wf buf a -> 1 <= ndim a <= 2 -> (0 < item)%Z -> (Z.of_nat (size a) * item < 2 ^ 63)%Z ->
  exists vals s t, map (get buf a) (all_idx (a_shape a)) = map Some vals /\
    fftshift buf a = Ok (a_shape a, s) /\ ifftshift s (fresh (a_shape a) item) = Ok (a_shape a, vals) /\
    ifftshift buf a = Ok (a_shape a, t) /\ fftshift t (fresh (a_shape a) item) = Ok (a_shape a, vals).
Proof.
  intros W Hd Hi HB. destruct (wf_elems buf a W) as (vals & E & HL).
  destruct (fftshift_ok buf a W Hd) as (s & E1 & L1 & H1). destruct (ifftshift_ok buf a W Hd) as (t & E2 & L2 & H2).
  assert (HG : forall idx, inb idx (a_shape a) -> nth_error vals (rank (a_shape a) idx) = get buf a idx).
  { intros idx Hx. assert (G : nth_error (elems buf a) (rank (a_shape a) idx) = Some (get buf a idx)) by (unfold elems; rewrite nth_error_map', nth_error_all_idx_rank by exact Hx; reflexivity).
    rewrite E, nth_error_map' in G. destruct (nth_error vals (rank (a_shape a) idx)); cbn in G; congruence. }
  exists vals, s, t. split; [exact E|]. split; [exact E1|].
  assert (W1 : wf s (fresh (a_shape a) item)) by (apply fresh_wf; [exact Hi|rewrite L1; exact HB|exact L1]).
  assert (W2 : wf t (fresh (a_shape a) item)) by (apply fresh_wf; [exact Hi|rewrite L2; exact HB|exact L2]).
  split; [|split; [exact E2|]].
  - destruct (ifftshift_ok s _ W1 Hd) as (u & EU & LU & HU). rewrite EU. cbn [a_shape fresh] in *. do 2 f_equal.
    apply (list_by_rank (a_shape a)); [exact LU|exact HL|]. intros idx Hx. rewrite HU by exact Hx. rewrite fresh_get by exact Hi.
    rewrite H1, HG by exact Hx. reflexivity.
  - destruct (fftshift_ok t _ W2 Hd) as (u & EU & LU & HU). rewrite EU. cbn [a_shape fresh] in *. do 2 f_equal.
    apply (list_by_rank (a_shape a)); [exact LU|exact HL|]. intros idx Hx.
    rewrite <- (rotate_rotate (fun n => n / 2) (fun n => n - n / 2) (a_shape a) idx Hx) by (intros n; pose proof (half_le n); lia).
    assert (HR : inb (rotate (fun n => n - n / 2) (a_shape a) idx) (a_shape a)) by (apply rotate_inb, Hx).
    rewrite HU by exact HR. rewrite fresh_get by exact Hi. rewrite H2 by exact HR. symmetry. apply HG. apply rotate_inb, HR.
Qed.
Theorem C126_shift_dims_refuted {V} (x : V) : wf [x] (fresh [1; 1; 1] 8) /\
  fftshift [x] (fresh [1; 1; 1] 8) = Err /\ ifftshift [x] (fresh [1; 1; 1] 8) = Err.
Proof. split; [apply fresh_wf; [lia|cbn; lia|reflexivity]|split; reflexivity]. Qed.

(* entry k of fftfreq is z * (1/(n d)) for the integer z congruent to k modulo n with
   -n <= 2z < n; shifted, they increase by one from -(n/2); rfftfreq has 0 .. n/2. *)
Theorem C126_fftfreq {F} (ofZ : Z -> F) (fmul : F -> F -> F) (val : F) n :
  length (fftfreq ofZ fmul val n) = n /\
  (forall k, k < n -> exists z, nth_error (fftfreq ofZ fmul val n) k = Some (fmul (ofZ z) val) /\
     (- Z.of_nat n <= 2 * z < Z.of_nat n)%Z /\ (exists q, z = Z.of_nat k + q * Z.of_nat n)%Z) /\
  rfftfreq ofZ fmul val n = map (fun k => fmul (ofZ (Z.of_nat k)) val) (seq 0 (n / 2 + 1)).
Proof.
  split; [apply fftfreq_length|]. split; [|reflexivity]. intros k Hk. rewrite nth_error_fftfreq by exact Hk. eexists. split; [reflexivity|].
  destruct (Nat.ltb_spec (2 * k) n); (split; [lia|]); [exists 0%Z|exists (-1)%Z]; lia.
Qed.
Theorem C126_fftshift_fftfreq {F} (ofZ : Z -> F) (fmul : F -> F -> F) (val : F) n item : (0 < item)%Z -> (Z.of_nat n * item < 2 ^ 63)%Z ->
  fftshift (fftfreq ofZ fmul val n) (fresh [n] item) =
  Ok ([n], map (fun i => fmul (ofZ (Z.of_nat i - Z.of_nat (n / 2))%Z) val) (seq 0 n)).
Proof.
  intros Hi HB. set (b := fftfreq ofZ fmul val n). assert (HL : length b = n) by apply fftfreq_length.
  destruct (fftshift_ok b (fresh [n] item)) as (out & E & HLo & H); [apply fresh_wf; [exact Hi|rewrite HL; exact HB|rewrite HL; cbn; lia]|cbn; lia|].
  rewrite E. cbn [a_shape fresh] in *. unfold size in HLo. cbn [a_shape fresh prod] in HLo. do 2 f_equal.
  apply nth_error_ext. intros i. rewrite nth_error_map', nth_error_seq. destruct (Nat.ltb_spec i n) as [Hlt|Hge].
  2:{ apply nth_error_None. lia. }
  set (k := (i + (n - n / 2)) mod n). assert (Hk : k < n) by (apply Nat.mod_upper_bound; lia).
  pose proof (Nat.div_mod n 2 ltac:(lia)) as D. pose proof (Nat.mod_upper_bound n 2 ltac:(lia)) as M.
  assert (KV : k = if i <? n / 2 then i + (n - n / 2) else i - n / 2).
  { unfold k. destruct (Nat.ltb_spec i (n / 2)); [apply Nat.mod_small; lia|].
    replace (i + (n - n / 2)) with (i - n / 2 + 1 * n) by lia. rewrite Nat.mod_add by lia. apply Nat.mod_small. lia. }
  specialize (H [k] ltac:(constructor; [exact Hk|constructor])). rewrite fresh_get in H by exact Hi. cbn [rotate rank prod] in H.
  replace ((k + n / 2) mod n) with i in H.
  2:{ symmetry. rewrite KV. destruct (Nat.ltb_spec i (n / 2)).
      - replace (i + (n - n / 2) + n / 2) with (i + 1 * n) by lia. rewrite Nat.mod_add by lia. apply Nat.mod_small, Hlt.
      - replace (i - n / 2 + n / 2) with i by lia. apply Nat.mod_small, Hlt. }
  replace (i * 1 + 0) with i in H by lia. replace (k * 1 + 0) with k in H by lia. rewrite H. unfold b. rewrite nth_error_fftfreq by exact Hk.
  cbn [option_map Nat.add]. do 3 f_equal. rewrite KV. destruct (Nat.ltb_spec i (n / 2)).
  - destruct (Nat.ltb_spec (2 * (i + (n - n / 2))) n); lia.
  - destruct (Nat.ltb_spec (2 * (i - n / 2)) n); lia.
Qed.

(* ---------- the hypotheses are met ---------- *)
Lemma cvalue_list {C} (zero : C) (xs : list C) sh : length xs = prod sh ->
  map (cvalue zero (fun z => z) xs (fresh sh 16)) (all_idx sh) = xs.
Proof.
  intros HL. apply (list_by_rank sh); [rewrite map_length; apply all_idx_length|exact HL|]. intros idx Hi.
  rewrite nth_error_map', nth_error_all_idx_rank by exact Hi. cbn [option_map]. unfold cvalue. rewrite fresh_get by lia.
  destruct (nth_error xs (rank sh idx)) eqn:E; [reflexivity|]. apply nth_error_None in E. pose proof (rank_lt sh idx Hi). lia.
Qed.
(* over the complex numbers, with e^(-2 pi i / n) as root *)
Example C124_nonvacuous (xs : list Cx) : length xs = 12 ->
  exists b, fftn c0 c1 cadd cmul cw (fun z => z) true (Some [1; 0; 1]) xs (fresh [4; 3] 16) = Ok ([4; 3], b) /\
    ifftn c0 c1 cadd cmul cwi cscale (fun z => z) true (Some [1; 0; 1]) b (fresh [4; 3] 16) = Ok ([4; 3], xs).
Proof.
  intros HL. destruct (C124_inverse c0 c1 cadd cmul csub copp cx_ring cw cwi cscale (fun z => z) true (Some [1; 0; 1]) xs (fresh [4; 3] 16)) as (b & c & E1 & _ & E2 & _).
  - apply fresh_wf; [lia|rewrite HL; reflexivity|exact HL].
  - cbn. lia.
  - split; [discriminate|]. intros x [<-|[<-|[<-|[]]]]; cbn; lia.
  - reflexivity.
  - intros n Hn. apply cx_roots. destruct Hn as [<-|[<-|[]]]; lia.
  - apply cx_scale.
  - exists b. split; [exact E1|]. cbn [a_shape fresh] in E2. rewrite E2. do 2 f_equal. apply (cvalue_list c0 xs [4; 3]). exact HL.
Qed.
Example C125_nonvacuous (xs : list Cx) : length xs = 12 -> (forall x, In x xs -> cconj x = x) ->
  exists b, rfftn c0 c1 cadd cmul cw (fun z => z) true None xs (fresh [3; 4] 16) = Ok ([3; 3], b) /\
    irfftn c0 c1 cadd cmul cconj cre cwi cscale (fun z => z) true None None b (fresh [3; 3] 16) = Ok ([3; 4], xs).
Proof.
  intros HL Hreal.
  assert (W : wf xs (fresh [3; 4] 16)) by (apply fresh_wf; [lia|rewrite HL; reflexivity|exact HL]).
  destruct (C125_irfftn_rfftn_partial c0 c1 cadd cmul csub copp cx_ring cw cconj cre cwi cscale (fun z => z) true None None xs (fresh [3; 4] 16) 2) as (sh & b & E1 & E2).
  - exact cx_conjugation.
  - exact W.
  - cbn. lia.
  - cbn. lia.
  - split; [discriminate|]. intros x [<-|[<-|[]]]; cbn; lia.
  - reflexivity.
  - reflexivity.
  - cbn. intros [E|[]]; discriminate.
  - left. reflexivity.
  - intros n Hn. apply cx_roots. destruct Hn as [<-|[<-|[]]]; lia.
  - apply cx_conj_root.
  - apply cx_scale.
  - intros idx Hi. unfold cvalue. rewrite fresh_get by lia. destruct (nth_error xs (rank [3; 4] idx)) eqn:E; [|apply cx_conjugation].
    apply Hreal. apply nth_error_In in E. exact E.
  - destruct (rfftn_dft c0 c1 cadd cmul cw (fun z => z) true None xs (fresh [3; 4] 16) W ltac:(cbn; lia) ltac:(cbn; lia)) as (b' & E' & _).
    { split; [discriminate|]. intros x [<-|[<-|[]]]; cbn; lia. }
    rewrite E' in E1. injection E1 as <- <-. exists b'. split; [exact E'|].
    refine (eq_trans E2 _). do 2 f_equal. apply (cvalue_list c0 xs [3; 4]). exact HL.
Qed.
Example C125_odd_length_nonvacuous : exists x l,
  irfftn c0 c1 cadd cmul cconj cre cwi cscale (fun z => z) true (Some [3]) None [c1; c1] (fresh [2] 16) = Ok ([3], x :: l) /\ x <> c1.
Proof.
  assert (H : c1 <> c0). { unfold c1, c0. intros E. injection E as E. exact (Raxioms.R1_neq_R0 E). }
  destruct (C125_odd_length_refuted c0 c1 cadd cmul csub copp cx_ring cw cconj cre cwi cscale cx_conjugation H (cx_scale 3 ltac:(lia))) as (_ & H2 & _).
  exact H2.
Qed.
(* a transposed (F-ordered) 2 x 3 view, and both shifts of it *)
Example C126_nonvacuous : let a := mkArr 0 [2; 3] [8; 16]%Z 8 false true in
  wf [0; 1; 2; 3; 4; 5] a /\ fftshift [0; 1; 2; 3; 4; 5] a = Ok ([2; 3], [5; 1; 3; 4; 0; 2]) /\
  ifftshift [0; 1; 2; 3; 4; 5] a = Ok ([2; 3], [3; 5; 1; 2; 4; 0]) /\
  fftfreq (fun z => z) Z.mul 1%Z 5 = [0; 1; 2; -2; -1]%Z /\ fftfreq (fun z => z) Z.mul 1%Z 4 = [0; 1; -2; -1]%Z.
Proof. split; [apply wf_check_sound; vm_compute; reflexivity|]. repeat split; reflexivity. Qed.

Print Assumptions C124_fftn.
Print Assumptions C124_ifftn.
Print Assumptions C124_errors.
Print Assumptions C124_one_two_d.
Print Assumptions C124_last_axes_refuted.
Print Assumptions C124_inverse.
Print Assumptions C124_axis_order.
Print Assumptions C125_rfft.
Print Assumptions C125_hermitian.
Print Assumptions C125_irfft.
Print Assumptions C125_irfft_rfft_partial.
Print Assumptions C125_irfft_rfft_refuted.
Print Assumptions C125_rfftn.
Print Assumptions C125_irfftn_rfftn_partial.
Print Assumptions C125_hfft_ihfft_partial.
Print Assumptions C125_odd_length_refuted.
Print Assumptions C125_panics_refuted.
Print Assumptions C126_fftshift_partial.
Print Assumptions C126_ifftshift_partial.
Print Assumptions C126_inverse_partial.
Print Assumptions C126_shift_dims_refuted.
Print Assumptions C126_fftfreq.
Print Assumptions C126_fftshift_fftfreq.
Print Assumptions C124_nonvacuous.
