(* Real transforms of arrays and their round trips. *)
From Coq Require Import Ring.
From Verif Require Import Base Lists Arr_Spec Arr_Model Arr_Wf Arr_Proofs Copy_Model Copy_Proofs Elem_Model Elem_Proofs Red_Spec Red_Model Red_Proofs Red_Scan
  Man_Proofs Gu_Model Gu_Proofs Lay_Copy Msk_Proofs Fft_Spec Fft_Model Fft_Proofs Fft_Lanes Fft_Trans Fft_Real.
Local Open Scope nat_scope.

Lemma half_bound n : 0 < n -> n / 2 + 1 <= n.
Proof. intros H. pose proof (Nat.div_lt n 2 H ltac:(lia)). lia. Qed.
Lemma last_in (ax : list nat) : ax <> [] -> In (List.last ax 0) ax.
Proof. intros H. rewrite (app_removelast_last 0 H) at 2. apply in_or_app. right. left. reflexivity. Qed.
Lemma removelast_in (ax : list nat) x : In x (removelast ax) -> In x ax.
Proof.
  intros H. destruct ax as [|y ax]; [contradiction|]. rewrite (app_removelast_last 0) by discriminate. apply in_or_app. left. exact H.
Qed.
Lemma upd_upd (l : list nat) a x y : upd (upd l a x) a y = upd l a y.
Proof. apply upd_twice. Qed.
Lemma upd_same_nth (l : list nat) a n : nth_error l a = Some n -> upd l a n = l.
Proof. intros H. rewrite <- (upd_same l a) at 2. f_equal. symmetry. apply nth_error_nth, H. Qed.
Lemma prod_last (g : nat -> nat) ax : ax <> [] -> prod (map g ax) = prod (map g (removelast ax)) * g (List.last ax 0).
Proof. intros H. rewrite (app_removelast_last 0 H) at 1. rewrite map_app, prod_app. cbn. lia. Qed.
Lemma prod_map_cut sh last m l : ~ In last l -> prod (map (fun x => nth x (upd sh last m) 0) l) = prod (map (fun x => nth x sh 0) l).
Proof.
  intros H. f_equal. apply map_ext_in. intros x Hx. apply nth_upd_shape. intros ->. contradiction.
Qed.

Lemma hext_ext {C} (conj : C -> C) h (F G : nat -> C) j : 0 < h -> j < 2 * h -> (forall k, k < h + 1 -> F k = G k) ->
  hext conj (2 * h) (h + 1) F j = hext conj (2 * h) (h + 1) G j.
Proof.
  intros Hh Hj H. unfold hext. destruct (Nat.ltb_spec j (h + 1)) as [L|L]; [apply H, L|]. f_equal. apply H. lia.
Qed.

Section Rfftn.
Context {C : Type}.
Variables (zero one : C) (add mul : C -> C -> C) (w : nat -> C).
Local Notation dft_axis := (dft_axis zero one add mul).
Local Notation dft_axes := (dft_axes zero one add mul).
Local Notation plan := (plan zero one add mul).
Lemma rfftn_dft {V} (rdc : V -> C) fast axes buf a : wf buf a -> 0 < size a -> 0 < ndim a -> valid_axes axes (ndim a) ->
  let ax := axes_of axes (ndim a) in let last := List.last ax 0 in let n := nth last (a_shape a) 0 in
  let sh := upd (a_shape a) last (n / 2 + 1) in
  exists b, rfftn zero one add mul w rdc fast axes buf a = Ok (sh, b) /\
    holds sh b (dft_axes w sh (rev (removelast ax)) (dft_axis (w n) n last (cvalue zero rdc buf a))).
Proof.
  intros W Hs Hd HA ax last n sh. unfold rfftn. destruct (Nat.eqb_spec (ndim a) 0); [lia|]. rewrite (validate_ok _ _ HA). cbn [bind].
  fold ax. fold last. destruct HA as (HA1 & HA2). fold ax in HA1, HA2.
  assert (Hl : last < length (a_shape a)) by (apply HA2, last_in, HA1).
  assert (Hn : nth_error (a_shape a) last = Some n) by (apply nth_error_nth', Hl). unfold at_ at 1. rewrite Hn. cbn [bind].
  destruct (to_complex_ok zero rdc fast buf a W) as (b0 & -> & H0). cbn [bind]. fold sh.
  unfold size in Hs. rewrite (prod_remove_at last _ n Hn) in Hs.
  destruct (map_lanes_spec zero (fun work => Ok (forward zero one add mul w n work)) (plan (w n)) (a_shape a) last n (n / 2 + 1) b0 (cvalue zero rdc buf a) Hn ltac:(nia)) as (b1 & E1 & H1).
  - intros xs Hx. split; [reflexivity|]. rewrite plan_length, Hx. apply half_bound. nia.
  - exact H0.
  - fold sh in E1, H1. rewrite E1. cbn [bind].
    assert (H1' : holds sh b1 (dft_axis (w n) n last (cvalue zero rdc buf a))).
    { apply (holds_feq _ _ _ _ H1). intros idx Hi. apply plan_lane.
      pose proof (inb_nth idx sh last (n / 2 + 1) Hi ltac:(apply nth_error_upd_eq; exact Hl)). pose proof (half_bound n ltac:(nia)). lia. }
    destruct (fft_axes_dft zero one add mul w sh (rev (removelast ax))) with (b := b1) (f := dft_axis (w n) n last (cvalue zero rdc buf a)) as (b2 & E2 & H2).
    + intros x Hx. apply in_rev in Hx. unfold sh. rewrite upd_length. apply HA2, removelast_in, Hx.
    + exact H1'.
    + unfold forward. rewrite E2. cbn [bind]. exists b2. split; [reflexivity|exact H2].
Qed.

End Rfftn.

Section Multi.
Context {C : Type}.
Variables (zero one : C) (add mul : C -> C -> C).
Variables (conj re : C -> C).
Variables (w wi : nat -> C) (scale : nat -> C).
Local Notation dft_at := (dft_at zero one add mul).
Local Notation dft_axis := (dft_axis zero one add mul).
Local Notation dft_axes := (dft_axes zero one add mul).
Local Notation plan := (plan zero one add mul).
Local Notation cnat := (cnat zero one add).
Local Notation roots := (roots zero one add mul).

Lemma irfftn_dft {V} (rdc : V -> C) fast s axes buf a h : wf buf a -> 0 < size a -> 0 < ndim a -> valid_axes axes (ndim a) ->
  let ax := axes_of axes (ndim a) in let last := List.last ax 0 in
  nth last (a_shape a) 0 = h + 1 -> 0 < h ->
  (s = None \/ exists l, s = Some l /\ (nth_error l last = None \/ nth_error l last = Some (2 * h))) ->
  let sh := upd (a_shape a) last (2 * h) in
  exists b, irfftn zero one add mul conj re wi scale rdc fast s axes buf a = Ok (sh, b) /\
    holds sh b (fun idx => mul (re (dft_at (wi (2 * h)) (2 * h)
                  (hext conj (2 * h) (h + 1) (fun k => dft_axes wi (a_shape a) (removelast ax) (cvalue zero rdc buf a) (upd idx last k)))
                  (nth last idx 0)))
                  (scale (prod (map (fun x => nth x sh 0) ax)))).
Proof.
  intros W Hs Hd HA ax last Hlast Hh HS sh. unfold irfftn. destruct (Nat.eqb_spec (ndim a) 0); [lia|]. rewrite (validate_ok _ _ HA). cbn [bind].
  fold ax. fold last. destruct HA as (HA1 & HA2). fold ax in HA1, HA2.
  assert (Hl : last < length (a_shape a)) by (apply HA2, last_in, HA1).
  assert (Hn : nth_error (a_shape a) last = Some (h + 1)) by (rewrite <- Hlast; apply nth_error_nth', Hl). unfold at_ at 1. rewrite Hn. cbn [bind].
  match goal with |- context [bind ?m _] => replace m with (@Ok nat (2 * h)) end.
  2:{ destruct HS as [->|(l & -> & [->| ->])]; try reflexivity; rewrite Nat.add_comm; reflexivity. }
  cbn [bind].
  destruct (to_complex_ok zero rdc fast buf a W) as (b0 & -> & H0). cbn [bind].
  destruct (fft_axes_dft zero one add mul wi (a_shape a) (removelast ax)) with (b := b0) (f := cvalue zero rdc buf a) as (b1 & E1 & H1).
  { intros x Hx. apply HA2, removelast_in, Hx. }
  { exact H0. }
  unfold inverse. rewrite E1. cbn [bind]. fold sh.
  unfold size in Hs. rewrite (prod_remove_at last _ _ Hn) in Hs.
  destruct (map_lanes_spec zero (fun work => bind (expand zero conj (2 * h) work) (fun full => Ok (plan (wi (2 * h)) full)))
     (fun xs => plan (wi (2 * h)) (map (hext conj (2 * h) (h + 1) (fun i => nth i xs zero)) (seq 0 (2 * h)))) (a_shape a) last (h + 1) (2 * h) b1 (dft_axes wi (a_shape a) (removelast ax) (cvalue zero rdc buf a)) Hn ltac:(nia)) as (b2 & E2 & H2).
  - intros xs Hx. split; [|rewrite plan_length, map_length, seq_length; lia].
    rewrite (list_nth_seq zero xs) at 1. rewrite Hx, expand_hext by exact Hh. reflexivity.
  - exact H1.
  - fold sh in E2, H2. rewrite E2. cbn [bind].
    rewrite (mapM_ok _ (fun x => nth x sh 0)).
    2:{ intros x Hx. unfold at_. rewrite (nth_error_nth' _ 0) by (unfold sh; rewrite upd_length; apply HA2; exact Hx). reflexivity. }
    cbn [bind]. eexists. split; [reflexivity|].
    apply (holds_map sh b2 _ (fun c => mul (re c) (scale (prod (map (fun x => nth x sh 0) ax))))) in H2.
    apply (holds_feq _ _ _ _ H2). intros idx Hi. cbv beta. f_equal. f_equal.
    assert (HN : nth last idx 0 < 2 * h) by (apply (inb_nth idx sh last); [exact Hi|apply nth_error_upd_eq; exact Hl]).
    rewrite plan_lane by exact HN. apply dft_ext'. intros j Hj. apply hext_ext; [exact Hh|exact Hj|]. intros k Hk.
    apply (nth_map_seq zero (fun i => dft_axes wi (a_shape a) (removelast ax) (cvalue zero rdc buf a) (upd idx last i))), Hk.
Qed.

(* hfft.rs: puts at 0 .. plen-1 *)
Lemma put_prefix (vs : list C) m : length vs <= m ->
  foldM (fun b '(i, c) => put_at b i c) (combine (seq 0 (length vs)) vs) (repeat zero m) = Ok (vs ++ repeat zero (m - length vs)).
Proof.
  intros H. destruct (puts_spec (fun i => i) vs 0 (repeat zero m)) as (b & E & HL & HN & HO).
  - intros i Hi. rewrite repeat_length. cbn. lia.
  - intros i j _ _ E. exact E.
  - unfold puts in E. rewrite E. f_equal. rewrite repeat_length in HL. apply nth_error_ext. intros k. destruct (Nat.lt_ge_cases k (length vs)) as [Hk|Hk].
    + rewrite (HN k Hk : nth_error b k = nth_error vs k). symmetry. apply nth_error_app1, Hk.
    + rewrite HO by (cbn; lia). rewrite nth_error_app2 by exact Hk. destruct (Nat.lt_ge_cases k m) as [L|L].
      * rewrite !nth_error_repeat by lia. reflexivity.
      * rewrite (proj2 (nth_error_None _ _)), (proj2 (nth_error_None _ _)) by (rewrite repeat_length; lia). reflexivity.
Qed.

Lemma hfft_dft {V} (rdc : V -> C) fast n buf a h : wf buf a -> a_shape a = [h + 1] -> 0 < h -> n = None \/ n = Some (2 * h) ->
  hfft zero one add mul conj re wi rdc fast n buf a =
  Ok ([2 * h], map (fun j => re (dft_at (wi (2 * h)) (2 * h)
        (fun k => if k <? h + 1 then conj (cvalue zero rdc buf a [k]) else cvalue zero rdc buf a [2 * h - k]) j)) (seq 0 (2 * h))).
Proof.
  intros W HS Hh Hn. unfold hfft, ndim, size. rewrite HS. cbn [length prod Nat.eqb negb]. rewrite Nat.mul_1_r.
  destruct (Nat.eqb_spec (h + 1) 0); [lia|].
  replace (match n with Some m => m | None => 2 * (h + 1 - 1) end) with (2 * h) by (destruct Hn as [->| ->]; lia).
  destruct (Nat.eqb_spec (2 * h) 0); [lia|]. rewrite (to_complex_1 zero rdc fast buf a (h + 1) W HS). cbn [bind].
  set (input := map (fun i => cvalue zero rdc buf a [i]) (seq 0 (h + 1))). assert (HI : length input = h + 1) by (unfold input; rewrite map_length; apply seq_length).
  replace (2 * h / 2 + 1) with (h + 1) by (rewrite (Nat.mul_comm 2 h), Nat.div_mul by lia; lia).
  set (vs := map (fun i => if i <? length input then conj (nth i input zero) else zero) (seq 0 (h + 1))).
  assert (HV : length vs = h + 1) by (unfold vs; rewrite map_length; apply seq_length).
  rewrite <- HV at 1. rewrite put_prefix by lia. cbn [bind].
  destruct (back_fold zero conj (fun k => if k <? length input then nth k input zero else zero) (2 * h) (Nat.min (h + 1) (2 * h) - 1 - 1) 1 (vs ++ repeat zero (2 * h - length vs))) as (L & N);
    [rewrite app_length, repeat_length; lia|lia|lia|].
  unfold inverse. rewrite (list_nth_seq zero (fold_left _ _ _)), L. rewrite plan_map, map_map. f_equal. f_equal. apply map_ext. intros j. f_equal.
  apply dft_ext'. intros k Hk. rewrite N by exact Hk. rewrite nth_padded, HV. unfold vs, input.
  destruct (Nat.leb_spec 1 (2 * h - k)), (Nat.ltb_spec (2 * h - k) (1 + (Nat.min (h + 1) (2 * h) - 1 - 1))), (Nat.ltb_spec k (h + 1)); try lia; cbn [andb].
  - fold input. rewrite HI. destruct (Nat.ltb_spec (2 * h - k) (h + 1)); [|lia]. unfold input. rewrite nth_map_seq by lia. reflexivity.
  - rewrite nth_map_seq by lia. fold input. rewrite HI. destruct (Nat.ltb_spec k (h + 1)); [|lia]. unfold input. rewrite nth_map_seq by lia. reflexivity.
Qed.

(* ---------- round trips ---------- *)
Variables (sub : C -> C -> C) (opp : C -> C).
Hypothesis RT : ring_theory zero one add mul sub opp (@eq C).
Add Ring CRing3 : RT.
Hypothesis CJ : conjugation zero one add mul conj re.

Lemma cj_add : forall x y, conj (add x y) = add (conj x) (conj y). Proof. apply CJ. Qed.
Lemma cj_mul : forall x y, conj (mul x y) = mul (conj x) (conj y). Proof. apply CJ. Qed.
Lemma cj_one : conj one = one. Proof. apply CJ. Qed.
Lemma cj_zero : conj zero = zero. Proof. apply CJ. Qed.
Lemma cj_re : forall x, conj x = x -> re x = x. Proof. apply CJ. Qed.
Lemma cj_cnat n : conj (cnat n) = cnat n. Proof. apply conj_cnat; [apply cj_add|apply cj_one|apply cj_zero]. Qed.

Lemma irfftn_rfftn {V} (rdc : V -> C) fast s axes buf a h : wf buf a -> 0 < size a -> 0 < ndim a -> valid_axes axes (ndim a) ->
  (Z.of_nat (size a) * 16 < 2 ^ 63)%Z ->
  let ax := axes_of axes (ndim a) in let last := List.last ax 0 in
  nth last (a_shape a) 0 = 2 * h -> ~ In last (removelast ax) ->
  (s = None \/ exists l, s = Some l /\ (nth_error l last = None \/ nth_error l last = Some (2 * h))) ->
  (forall n, In n (a_shape a) -> roots n (w n) (wi n)) -> conj (w (2 * h)) = wi (2 * h) ->
  (forall n, 0 < n -> mul (scale n) (cnat n) = one) ->
  (forall idx, inb idx (a_shape a) -> conj (cvalue zero rdc buf a idx) = cvalue zero rdc buf a idx) ->
  exists sh b, rfftn zero one add mul w rdc fast axes buf a = Ok (sh, b) /\
    irfftn zero one add mul conj re wi scale (fun c => c) true s axes b (fresh sh 16) =
      Ok (a_shape a, map (cvalue zero rdc buf a) (all_idx (a_shape a))).
Proof.
  intros W Hs Hd HA HB ax last Hlast Hnin HS HR HC HSc Hreal.
  destruct (rfftn_dft zero one add mul w rdc fast axes buf a W Hs Hd HA) as (b & E & H). fold ax in E, H. fold last in E, H. rewrite Hlast in E, H.
  replace (2 * h / 2 + 1) with (h + 1) in E, H by (rewrite (Nat.mul_comm 2 h), Nat.div_mul by lia; lia).
  set (sh := upd (a_shape a) last (h + 1)) in *. set (f := cvalue zero rdc buf a) in *.
  exists sh, b. split; [exact E|]. clear E.
  assert (Hl : last < length (a_shape a)) by (apply (proj2 HA), last_in, (proj1 HA)).
  assert (Hn : nth_error (a_shape a) last = Some (2 * h)) by (rewrite <- Hlast; apply nth_error_nth', Hl).
  assert (Hh : 0 < h). { unfold size in Hs. rewrite (prod_remove_at last _ _ Hn) in Hs. nia. }
  assert (Hn' : nth_error sh last = Some (h + 1)) by (apply nth_error_upd_eq, Hl).
  assert (HP : prod sh <= prod (a_shape a) /\ 0 < prod sh).
  { unfold size in Hs. rewrite (prod_remove_at last _ _ Hn) in *. rewrite (prod_remove_at last _ _ Hn'). unfold sh.
    rewrite Man_Edit.remove_at_upd. nia. }
  rewrite (holds_eq _ _ _ H). set (g := dft_axes w sh (rev (removelast ax)) (dft_axis (w (2 * h)) (2 * h) last f)) in *.
  assert (HLs : length sh = length (a_shape a)) by (unfold sh; apply upd_length).
  assert (Hnd : ndim (fresh sh 16) = ndim a) by (unfold ndim; cbn [a_shape fresh]; exact HLs).
  destruct (irfftn_dft (fun c => c) true s axes (map g (all_idx sh)) (fresh sh 16) h) as (b' & E' & H').
  - apply fresh_list_wf. unfold size in HB. eapply Z.le_lt_trans; [|exact HB]. apply Z.mul_le_mono_nonneg_r; [discriminate|]. apply inj_le, HP.
  - unfold size. cbn [a_shape fresh]. apply HP.
  - rewrite Hnd. exact Hd.
  - rewrite Hnd. exact HA.
  - rewrite Hnd. fold ax. fold last. cbn [a_shape fresh]. apply nth_error_nth, Hn'.
  - exact Hh.
  - rewrite Hnd. fold ax. fold last. exact HS.
  - rewrite Hnd in E', H'. fold ax in E', H'. fold last in E', H'. cbn [a_shape fresh] in E', H'.
    assert (ES : upd sh last (2 * h) = a_shape a) by (unfold sh; rewrite upd_upd; apply upd_same_nth, Hn).
    rewrite ES in E', H'. rewrite E'. do 2 f_equal. rewrite (holds_eq _ _ _ H'). apply map_feq. intros idx Hi.
    set (c := cnat (prod (map (fun x => nth x (a_shape a) 0) (removelast ax)))).
    assert (HG : forall k, k < h + 1 ->
        dft_axes wi sh (removelast ax) (cvalue zero (fun c : C => c) (map g (all_idx sh)) (fresh sh 16)) (upd idx last k) =
        mul c (dft_at (w (2 * h)) (2 * h) (fun j => f (upd idx last j)) k)).
    { intros k Hk. assert (HX : inb (upd idx last k) sh).
      { unfold sh. apply inb_upd; assumption. }
      assert (HRL : forall x, In x (removelast ax) -> x < length sh) by (intros x Hx; rewrite HLs; apply (proj2 HA), removelast_in, Hx).
      rewrite (dft_axes_feq zero one add mul wi sh (removelast ax) HRL _ g ltac:(intros i Hi'; apply cvalue_fresh, Hi') _ HX).
      rewrite (dft_axes_feq zero one add mul wi sh (removelast ax) HRL g (dft_axes w sh (removelast ax) (dft_axis (w (2 * h)) (2 * h) last f))).
      2:{ intros i Hi'. unfold g. apply (dft_axes_rev zero one add mul sub opp RT); [exact HRL|exact Hi']. }
      2:{ exact HX. }
      rewrite !(dft_axes_cut zero one add mul _ (a_shape a) last (h + 1) (removelast ax) Hnin).
      assert (HRL' : forall x, In x (removelast ax) -> x < length (a_shape a)) by (intros x Hx; rewrite <- HLs; apply HRL, Hx).
      rewrite (dft_axes_inverse zero one add mul sub opp RT w wi (a_shape a) HR (removelast ax) HRL').
      2:{ apply (inb_upd_axis idx (a_shape a) last (2 * h)); [exact Hi|exact Hn|lia]. }
      fold c. f_equal. unfold Fft_Spec.dft_axis. rewrite nth_upd_eq by (rewrite (inb_length _ _ Hi); exact Hl).
      apply dft_ext'. intros j _. rewrite upd_twice. reflexivity. }
    assert (HN : nth last idx 0 < 2 * h) by (apply (inb_nth idx (a_shape a) last (2 * h) Hi Hn)).
    rewrite (dft_ext' zero one add mul (wi (2 * h)) (2 * h) _
      (hext conj (2 * h) (h + 1) (fun k => mul c (dft_at (w (2 * h)) (2 * h) (fun j => f (upd idx last j)) k))) (nth last idx 0))
      by (intros j Hj; apply hext_ext; [exact Hh|exact Hj|exact HG]).
    rewrite (half_inverse zero one add mul sub opp RT conj cj_add cj_mul cj_one cj_zero h (w (2 * h)) (wi (2 * h)) (fun j => f (upd idx last j)) c (nth last idx 0)).
    + rewrite upd_same. rewrite cj_re.
      * rewrite (prod_last _ ax (proj1 HA)). fold last. rewrite Hlast.
        assert (HPP : 0 < prod (map (fun x => nth x (a_shape a) 0) (removelast ax)) * (2 * h)).
        { rewrite <- Hlast. unfold last. rewrite <- (prod_last (fun x => nth x (a_shape a) 0) ax (proj1 HA)).
          destruct (Nat.eq_dec (prod (map (fun x => nth x (a_shape a) 0) ax)) 0) as [Z|Z]; [|lia].
          apply prod_axes_zero in Z; [unfold size in Hs; lia|apply (proj2 HA)]. }
        specialize (HSc _ HPP). rewrite (cnat_mul zero one add mul sub opp RT) in HSc. fold c in HSc.
        set (sc := scale _) in *. transitivity (mul (f idx) (mul sc (mul c (cnat (2 * h))))); [ring|]. rewrite HSc. ring.
      * rewrite !cj_mul. unfold c. rewrite !cj_cnat. rewrite Hreal by exact Hi. reflexivity.
    + apply HR. apply nth_error_In with last. exact Hn.
    + exact HC.
    + intros j Hj. apply Hreal. apply (inb_upd_axis idx (a_shape a) last (2 * h)); assumption.
    + apply cj_cnat.
    + exact HN.
Qed.

Lemma hfft_ihfft {V} (rdc : V -> C) fast n buf a h : wf buf a -> a_shape a = [2 * h] -> 0 < h -> n = None \/ n = Some (2 * h) ->
  roots (2 * h) (w (2 * h)) (wi (2 * h)) -> conj (w (2 * h)) = wi (2 * h) -> (forall x, conj (conj x) = x) ->
  mul (scale (2 * h)) (cnat (2 * h)) = one -> (Z.of_nat (size a) * 16 < 2 ^ 63)%Z ->
  (forall j, j < 2 * h -> conj (cvalue zero rdc buf a [j]) = cvalue zero rdc buf a [j]) ->
  exists b, ihfft zero one add mul conj w scale rdc fast buf a = Ok ([h + 1], b) /\
    hfft zero one add mul conj re wi (fun c => c) true n b (fresh [h + 1] 16) = Ok ([2 * h], map (fun j => cvalue zero rdc buf a [j]) (seq 0 (2 * h))).
Proof.
  intros W HS Hh Hn HR HC Hinv HSc HB Hreal. set (f := fun j => cvalue zero rdc buf a [j]) in *. set (s := scale (2 * h)) in *.
  assert (Hs : conj s = s) by (apply (conj_inverse zero one add mul sub opp RT conj cj_mul cj_one s (cnat (2 * h)) HSc), cj_cnat).
  set (g := fun k => conj (mul (dft_at (w (2 * h)) (2 * h) f k) s)).
  exists (map g (seq 0 (h + 1))). split.
  - unfold ihfft, ndim, size. rewrite HS. cbn [length prod Nat.eqb negb]. rewrite Nat.mul_1_r. destruct (Nat.eqb_spec (2 * h) 0); [lia|].
    rewrite (to_complex_1 zero rdc fast buf a (2 * h) W HS). cbn [bind].
    replace (2 * h / 2 + 1) with (h + 1) by (rewrite (Nat.mul_comm 2 h), Nat.div_mul by lia; lia).
    do 2 f_equal. unfold forward. rewrite plan_map, map_map, firstn_map_seq by lia. reflexivity.
  - assert (EG : map g (seq 0 (h + 1)) = map (fun idx => g (nth 0 idx 0)) (all_idx [h + 1])).
    { rewrite (holds_1 (h + 1) _ _ (holds_list [h + 1] (fun idx => g (nth 0 idx 0)))). reflexivity. }
    rewrite EG. unfold size in HB. rewrite HS in HB. cbn [prod] in HB.
    rewrite (hfft_dft (fun c => c) true n _ (fresh [h + 1] 16) h); [|apply fresh_list_wf; cbn [prod]; lia|reflexivity|exact Hh|exact Hn].
    do 2 f_equal. apply map_ext_in. intros j Hj. apply in_seq in Hj.
    rewrite (dft_ext' zero one add mul _ _ _ (fun k => mul s (dft_at (w (2 * h)) (2 * h) f k))).
    + rewrite (dft_scale zero one add mul sub opp RT), (dft_inverse zero one add mul sub opp RT _ _ _ _ _ HR) by lia.
      transitivity (re (mul (mul s (cnat (2 * h))) (f j))); [f_equal; ring|]. rewrite HSc.
      rewrite cj_re; [ring|]. rewrite cj_mul, cj_one. f_equal. apply Hreal. lia.
    + intros k Hk. destruct (Nat.ltb_spec k (h + 1)) as [L|L].
      * rewrite cvalue_fresh by (constructor; [lia|constructor]). cbn [nth]. unfold g. rewrite Hinv. ring.
      * rewrite cvalue_fresh by (constructor; [lia|constructor]). cbn [nth]. unfold g. rewrite cj_mul, Hs.
        rewrite <- (hermitian zero one add mul sub opp RT conj cj_add cj_mul cj_one cj_zero (2 * h) (w (2 * h)) f (2 * h - k)).
        -- replace (2 * h - (2 * h - k)) with k by lia. ring.
        -- rewrite HC. exact HR.
        -- lia.
        -- exact Hreal.
Qed.
End Multi.
