(* fftn, ifftn and their 1-D and 2-D forms. *)
From Coq Require Import Ring.
From Verif Require Import Base Lists Arr_Spec Arr_Model Arr_Wf Arr_Proofs Copy_Model Copy_Proofs Elem_Model Elem_Proofs Red_Spec Red_Model Red_Proofs Red_Scan
  Man_Proofs Gu_Model Gu_Proofs Lay_Copy Msk_Proofs Fft_Spec Fft_Model Fft_Proofs Fft_Lanes.
Local Open Scope nat_scope.

Lemma holds_eq {C} sh (b : list C) f : holds sh b f -> b = map f (all_idx sh).
Proof. intros H. apply (holds_unique sh _ _ f H), holds_list. Qed.

Lemma to_complex_ok {V C} (zero : C) (rdc : V -> C) fast buf a : wf buf a ->
  exists b, to_complex_buffer rdc fast buf a = Ok b /\ holds (a_shape a) b (cvalue zero rdc buf a).
Proof.
  intros W. destruct (wf_elems buf a W) as (vals & E & HL). exists (map rdc vals). split.
  - unfold to_complex_buffer. destruct (a_c a && fast) eqn:EC.
    + apply andb_prop in EC as [EC _].
      replace (read_run buf a 0 (a_item a) (size a)) with (@Ok (list V) vals); [reflexivity|]. symmetry. apply mapM_list.
      apply Forall2_of_nth; [rewrite seq_length; lia|]. intros k x v Hk Hv. rewrite nth_error_seq in Hk.
      destruct (Nat.ltb_spec k (size a)) as [H|H]; [|discriminate]. injection Hk as <-. cbn [Nat.add].
      destruct (elem_at buf a vals k W E H) as (v' & o & Hv' & _ & Hr & Ho & _). rewrite Hv in Hv'. injection Hv' as <-.
      rewrite (contig_offset buf a k W EC H) in Ho. rewrite Z.add_0_l, <- Ho. exact Hr.
    + rewrite (read_offsets buf a vals W E). reflexivity.
  - split; [rewrite map_length; exact HL|]. intros idx Hi. unfold cvalue.
    rewrite nth_error_map'.
    assert (G : nth_error (elems buf a) (rank (a_shape a) idx) = Some (get buf a idx)) by (unfold elems; rewrite nth_error_map', nth_error_all_idx_rank by exact Hi; reflexivity).
    rewrite E, nth_error_map' in G. destruct (nth_error vals (rank (a_shape a) idx)) as [v|]; [|discriminate].
    cbn in *. injection G as <-. reflexivity.
Qed.

Lemma validate_ok axes nd : valid_axes axes nd -> validate_axes axes nd = Ok (axes_of axes nd).
Proof.
  intros (H1 & H2). unfold validate_axes. fold (axes_of axes nd).
  replace ((length (axes_of axes nd) =? 0) || existsb (fun a => nd <=? a) (axes_of axes nd)) with false; [reflexivity|].
  symmetry. apply orb_false_intro.
  - apply Nat.eqb_neq. destruct (axes_of axes nd); [contradiction|discriminate].
  - destruct (existsb _ _) eqn:E; [|reflexivity]. apply existsb_exists in E as (x & Hx & Hle). apply Nat.leb_le in Hle. specialize (H2 x Hx). lia.
Qed.
Lemma validate_err axes nd : ~ valid_axes axes nd -> validate_axes axes nd = Err.
Proof.
  intros H. unfold validate_axes. fold (axes_of axes nd).
  destruct ((length (axes_of axes nd) =? 0) || existsb (fun a => nd <=? a) (axes_of axes nd)) eqn:E; [reflexivity|]. exfalso. apply H.
  apply orb_false_elim in E as [E1 E2]. split.
  - intros E. rewrite E in E1. discriminate.
  - intros x Hx. destruct (Nat.lt_ge_cases x nd) as [L|L]; [exact L|]. exfalso.
    assert (existsb (fun a => nd <=? a) (axes_of axes nd) = true); [|congruence]. apply existsb_exists. exists x. split; [exact Hx|]. apply Nat.leb_le, L.
Qed.

Lemma csum_ext' {C} (zero : C) add n (f g : nat -> C) : (forall j, j < n -> f j = g j) -> csum zero add n f = csum zero add n g.
Proof. intros H. induction n as [|n IH]; cbn [Fft_Spec.csum]; [reflexivity|]. rewrite IH, H by (intros; try apply H; lia). reflexivity. Qed.
Lemma nth_map_seq {C} (zero : C) (f : nat -> C) n j : j < n -> nth j (map f (seq 0 n)) zero = f j.
Proof. intros H. apply nth_error_nth. rewrite nth_error_map', nth_error_seq. destruct (Nat.ltb_spec j n); [reflexivity|lia]. Qed.

Lemma map_feq {C} sh (f g : list nat -> C) : feq sh f g -> map f (all_idx sh) = map g (all_idx sh).
Proof. intros H. apply map_ext_in. intros idx Hi. apply H, in_all_idx, Hi. Qed.
Lemma fresh_list_wf {C} sh (f : list nat -> C) : (Z.of_nat (prod sh) * 16 < 2 ^ 63)%Z -> wf (map f (all_idx sh)) (fresh sh 16).
Proof. intros H. apply fresh_wf; [lia| |]; rewrite map_length, all_idx_length; [exact H|reflexivity]. Qed.

(* 1-D *)
Lemma shape_1 (a : arr) : ndim a = 1 -> exists n, a_shape a = [n] /\ size a = n.
Proof.
  unfold ndim, size. destruct (a_shape a) as [|n [|m l]]; try discriminate. intros _. exists n. cbn. split; [reflexivity|lia].
Qed.
Lemma holds_1 {C} n (b : list C) f : holds [n] b f -> b = map (fun i => f [i]) (seq 0 n).
Proof.
  intros H. apply holds_eq in H. rewrite H. cbn [all_idx]. clear. induction (seq 0 n) as [|i l IH]; [reflexivity|]. cbn in *. f_equal. exact IH.
Qed.

Lemma prod_axes_zero sh axes : (forall a, In a axes -> a < length sh) -> prod (map (fun a => nth a sh 0) axes) = 0 -> prod sh = 0.
Proof.
  intros HA H. apply prod_zero_iff in H. apply in_map_iff in H as (a & E & Ha). apply prod_zero_iff. rewrite <- E. apply nth_In, HA, Ha.
Qed.

Lemma cvalue_fresh {C} (zero : C) sh (f : list nat -> C) idx : inb idx sh -> cvalue zero (fun c => c) (map f (all_idx sh)) (fresh sh 16) idx = f idx.
Proof.
  intros Hi. unfold cvalue. rewrite fresh_get by lia. destruct (holds_list sh f) as (_ & H). rewrite H by exact Hi. reflexivity.
Qed.

Section Trans.
Context {C : Type}.
Variables (zero one : C) (add mul : C -> C -> C).
Local Notation dft_at := (dft_at zero one add mul).
Local Notation dft_axis := (dft_axis zero one add mul).
Local Notation dft_axes := (dft_axes zero one add mul).
Local Notation plan := (plan zero one add mul).

Lemma plan_length r xs : length (plan r xs) = length xs.
Proof. unfold Fft_Model.plan. rewrite map_length. apply seq_length. Qed.
Lemma plan_nth r xs k : k < length xs -> nth k (plan r xs) zero = dft_at r (length xs) (fun j => nth j xs zero) k.
Proof.
  intros H. apply nth_error_nth. unfold Fft_Model.plan. rewrite nth_error_map', nth_error_seq.
  destruct (Nat.ltb_spec k (length xs)); [reflexivity|lia].
Qed.
Lemma dft_ext' r n (f g : nat -> C) k : (forall j, j < n -> f j = g j) -> dft_at r n f k = dft_at r n g k.
Proof. intros H. apply csum_ext'. intros j Hj. rewrite H by exact Hj. reflexivity. Qed.
Lemma plan_lane r (f : nat -> C) n k : k < n -> nth k (plan r (map f (seq 0 n))) zero = dft_at r n f k.
Proof.
  intros H. rewrite plan_nth by (rewrite map_length, seq_length; exact H). rewrite map_length, seq_length.
  apply dft_ext'. intros j Hj. apply nth_map_seq, Hj.
Qed.

Lemma along_axis_dft r sh axis n b f : nth_error sh axis = Some n -> holds sh b f ->
  exists out, fft_along_axis (plan r) b sh axis = Ok out /\ holds sh out (dft_axis r n axis f).
Proof.
  intros Hn Hb. destruct (along_axis_lanes zero (plan r) sh axis n b f Hn (plan_length r) Hb) as (out & E & H).
  exists out. split; [exact E|]. apply (holds_feq _ _ _ _ H). intros idx Hi. apply plan_lane, (inb_nth idx sh axis n Hi Hn).
Qed.

Lemma fft_axes_dft (r : nat -> C) sh axes : (forall a, In a axes -> a < length sh) -> forall b f, holds sh b f ->
  exists out, fft_axes (fun n => plan (r n)) sh axes b = Ok out /\ holds sh out (dft_axes r sh axes f).
Proof.
  unfold fft_axes. induction axes as [|a axes IH]; intros HA b f Hb; [exists b; split; [reflexivity|exact Hb]|].
  cbn [foldM]. assert (Hn : nth_error sh a = Some (nth a sh 0)) by (apply nth_error_nth', HA; left; reflexivity).
  unfold at_ at 1. rewrite Hn. cbn [bind].
  destruct (Nat.ltb_spec 0 (nth a sh 0)) as [H|H].
  - destruct (along_axis_dft (r (nth a sh 0)) sh a _ b f Hn Hb) as (b1 & E1 & H1). rewrite E1. cbn [bind].
    apply IH; [intros; apply HA; right; assumption|exact H1].
  - cbn [bind]. apply IH; [intros; apply HA; right; assumption|]. apply (holds_feq _ _ _ _ Hb). intros idx Hi.
    pose proof (inb_nth idx sh a _ Hi Hn). lia.
Qed.

Lemma to_complex_1 {V} (rdc : V -> C) fast buf a n : wf buf a -> a_shape a = [n] ->
  to_complex_buffer rdc fast buf a = Ok (map (fun i => cvalue zero rdc buf a [i]) (seq 0 n)).
Proof.
  intros W HS. destruct (to_complex_ok zero rdc fast buf a W) as (b & -> & H). rewrite HS in H. f_equal. apply holds_1, H.
Qed.
Lemma plan_map r (f : nat -> C) n : plan r (map f (seq 0 n)) = map (dft_at r n f) (seq 0 n).
Proof.
  unfold Fft_Model.plan. rewrite map_length, seq_length. apply map_ext_in. intros k Hk. apply dft_ext'. intros j Hj. apply nth_map_seq, Hj.
Qed.

Variables (w wi : nat -> C) (scale : nat -> C).
Lemma fftn_dft {V} (rdc : V -> C) fast axes buf a : wf buf a -> 0 < ndim a -> valid_axes axes (ndim a) ->
  exists b, fftn zero one add mul w rdc fast axes buf a = Ok (a_shape a, b) /\
    holds (a_shape a) b (dft_axes w (a_shape a) (axes_of axes (ndim a)) (cvalue zero rdc buf a)).
Proof.
  intros W Hd HA. unfold fftn. destruct (Nat.eqb_spec (ndim a) 0); [lia|]. rewrite (validate_ok _ _ HA). cbn [bind].
  destruct (to_complex_ok zero rdc fast buf a W) as (b0 & -> & H0). cbn [bind].
  destruct (fft_axes_dft w (a_shape a) (axes_of axes (ndim a)) ltac:(apply HA) b0 _ H0) as (b & E & H).
  unfold forward. rewrite E. cbn [bind]. exists b. split; [reflexivity|exact H].
Qed.
Lemma ifftn_dft {V} (rdc : V -> C) fast axes buf a : wf buf a -> 0 < ndim a -> valid_axes axes (ndim a) ->
  exists b, ifftn zero one add mul wi scale rdc fast axes buf a = Ok (a_shape a, b) /\
    holds (a_shape a) b (fun idx => mul (dft_axes wi (a_shape a) (axes_of axes (ndim a)) (cvalue zero rdc buf a) idx)
                                        (scale (prod (map (fun x => nth x (a_shape a) 0) (axes_of axes (ndim a)))))).
Proof.
  intros W Hd HA. unfold ifftn. destruct (Nat.eqb_spec (ndim a) 0); [lia|]. rewrite (validate_ok _ _ HA). cbn [bind].
  destruct (to_complex_ok zero rdc fast buf a W) as (b0 & -> & H0). cbn [bind].
  destruct (fft_axes_dft wi (a_shape a) (axes_of axes (ndim a)) ltac:(apply HA) b0 _ H0) as (b & E & H).
  unfold inverse. rewrite E. cbn [bind].
  rewrite (mapM_ok _ (fun x => nth x (a_shape a) 0)).
  2:{ intros x Hx. unfold at_. rewrite (nth_error_nth' _ 0) by (apply HA; exact Hx). reflexivity. }
  cbn [bind]. destruct (Nat.ltb_spec 0 (prod (map (fun x => nth x (a_shape a) 0) (axes_of axes (ndim a))))) as [HP|HP].
  - eexists. split; [reflexivity|]. apply (holds_map _ _ _ (fun c => mul c (scale _)) H).
  - eexists. split; [reflexivity|]. split; [apply H|]. intros idx Hi. apply inb_prod_pos in Hi.
    rewrite (prod_axes_zero (a_shape a) (axes_of axes (ndim a))) in Hi; [lia|apply HA|lia].
Qed.

End Trans.
