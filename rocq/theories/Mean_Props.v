(* mean, var, average: C129. *)
From Coq Require Import QArith Qcanon Lqa.
From Verif Require Import Base Lists Arr_Spec Arr_Model Arr_Wf Arr_Proofs Wf_Check Bcast_Model Bcast_Proofs Copy_Model Copy_Proofs Elem_Model Elem_Proofs
  Int_Model F64_Model Red_Spec Red_Model Red_Proofs Red_Props Stat_Spec Stat_Qc Mean_Spec Mean_Model Mean_Proofs.
Local Open Scope nat_scope.

Section Exact.
Variable nan : Qc.
Notation qmean_f x := (mean 0%Qc nan Qcplus Qcdiv qn x).
Notation qmean_axis x ax := (mean_axis 0%Qc Qcplus Qcdiv qn x ax).
Notation qvar_f x := (var 0%Qc nan Qcplus Qcminus Qcmult Qcdiv qn x).
Notation qvar_axis x ax := (var_axis 0%Qc Qcplus Qcminus Qcmult Qcdiv qn x ax).
Definition qzero (x : Qc) : bool := if Qc_eq_dec x 0 then true else false.
Notation qaverage_f x w := (average 0%Qc nan Qcplus Qcmult Qcdiv qn qzero x w).
Notation qaverage_axis x ax w := (average_axis 0%Qc Qcplus Qcmult Qcdiv qn x ax w).

(* ---- the mean ---- *)
Theorem C129_mean : forall x sh f, is_nda x sh f -> prod sh <> 0 -> qmean_f x = Ok (qmean (map f (all_idx sh))).
Proof.
  intros x sh f X P. pose proof X as (_ & SX & _). unfold mean. unfold size. rewrite SX. destruct (Nat.eqb_spec (prod sh) 0); [lia|].
  rewrite (sum_all_is x sh f X). cbn [bind]. unfold qmean. rewrite map_length, all_idx_length. reflexivity.
Qed.
Theorem C129_mean_axis : forall x sh f axis n, is_nda x sh f -> nth_error sh axis = Some n -> 0 < n -> small sh ->
  exists z, qmean_axis x axis = Ok z /\ is_nda z (reduced_shape axis sh) (fun idx => qmean (lane_of f sh axis n idx)).
Proof.
  intros x sh f axis n X Hn Hp S. unfold mean_axis. pose proof (small_reduced axis sh n Hn Hp S) as SR.
  destruct (sum_axis_is x sh f axis n X Hn SR) as (s & -> & HS). cbn [bind]. pose proof X as (_ & SX & _). unfold sh_of. rewrite SX. unfold at_. rewrite Hn. cbn [bind].
  destruct (binop_const Qcdiv s _ _ (qn n) HS (reduced_ne axis sh) SR) as (z & E & Z). exists z. split; [exact E|].
  eapply is_nda_ext; [|exact Z]. intros idx _. unfold qmean, lane_of. rewrite map_length, seq_length. reflexivity.
Qed.

(* ---- the variance ---- *)
Lemma fold_sq m l : fold_left (fun s v => s + (v - m) * (v - m))%Qc l 0%Qc = qsum (map (fun v => (v - m) * (v - m))%Qc l).
Proof.
  rewrite <- fold_qsum. generalize 0%Qc. induction l as [|x l IH]; intros z; [reflexivity|]. cbn [fold_left map]. apply IH.
Qed.
Lemma qvar_eq l : qvar l = (qsum (map (fun v => (v - qmean l) * (v - qmean l)) l) / qn (length l))%Qc.
Proof. unfold qvar. unfold qmean at 1. rewrite map_length. reflexivity. Qed.
Theorem C129_var : forall x sh f, is_nda x sh f -> prod sh <> 0 -> qvar_f x = Ok (qvar (map f (all_idx sh))).
Proof.
  intros x sh f X P. pose proof X as (W & SX & _). pose proof (is_nda_elems x sh f X) as E. unfold var. cbv zeta. unfold size. rewrite SX.
  destruct (Nat.eqb_spec (prod sh) 0); [lia|].
  assert (L : length (map f (all_idx sh)) = prod sh) by (rewrite map_length; apply all_idx_length).
  destruct (a_c (snd x)) eqn:HC.
  - replace (prod sh) with (size (snd x)) by (unfold size; rewrite SX; reflexivity). rewrite (read_contig (fst x) (snd x) _ W HC E). cbn [bind]. unfold variance_contig, sum_loop. cbv zeta.
    rewrite fold_qsum. fold (qmean (map f (all_idx sh))). rewrite fold_sq, <- qvar_eq. reflexivity.
  - rewrite (C129_mean x sh f X P). cbn [bind]. rewrite (read_offsets (fst x) (snd x) _ W E). cbn [bind]. rewrite fold_sq.
    rewrite qvar_eq, L. reflexivity.
Qed.
Theorem C129_var_axis_partial : forall x sh f axis n, is_nda x sh f -> 2 <= length sh -> nth_error sh axis = Some n -> 0 < n -> small sh ->
  exists z, qvar_axis x axis = Ok z /\ is_nda z (remove_at axis sh) (fun oi => qvar (map (fun k => f (insert_at axis k oi)) (seq 0 n))).
Proof.
  intros x sh f axis n X HD Hn Hp S. unfold var_axis. pose proof X as (_ & SX & _). unfold sh_of. rewrite SX. unfold at_. rewrite Hn. cbn [bind].
  destruct (Nat.eqb_spec n 0); [lia|]. pose proof (small_reduced axis sh n Hn Hp S) as SR.
  assert (AX : axis < length sh) by (apply nth_error_Some; congruence).
  pose proof (insert_remove_at axis n sh Hn) as IR.
  assert (LR : 1 + length (remove_at axis sh) = length sh) by (rewrite <- IR at 2; rewrite insert_at_length; reflexivity).
  assert (RS : reduced_shape axis sh = remove_at axis sh) by (unfold reduced_shape; destruct (remove_at axis sh); [cbn in LR; lia|reflexivity]).
  assert (OO : forall oi, outer_of sh oi = oi) by (intros; destruct sh as [|? [|]]; cbn in HD; try lia; reflexivity).
  destruct (C129_mean_axis x sh f axis n X Hn Hp S) as (m & -> & HM). cbn [bind]. rewrite RS in *.
  destruct (expand_is m _ _ axis HM) as (m' & -> & HM'); [lia|]. cbn [bind].
  destruct (binop_is Qcminus x (fst m, m') sh _ sh f _ X HM' (bshape_ones _ _ (insert_one_dims axis sh n Hn)) S) as (d & -> & HDD). cbn [bind].
  destruct (binop_same Qcmult d d sh _ _ HDD HDD S) as (p & -> & HP). cbn [bind].
  destruct (sum_axis_is p sh _ axis n HP Hn) as (s & -> & HS); [rewrite RS; exact SR|]. cbn [bind]. rewrite RS in HS.
  destruct (binop_const Qcdiv s _ _ (qn n) HS) as (z & E & Z); [destruct (remove_at axis sh); [cbn in LR; lia|discriminate]|exact SR|].
  exists z. split; [exact E|]. eapply is_nda_ext; [|exact Z]. intros oi Ho. cbv beta. rewrite qvar_eq, map_length, seq_length, map_map. unfold lane_of at 1. rewrite OO. f_equal. f_equal.
  apply map_ext_in. intros k Hk. apply in_seq in Hk. cbv beta.
  assert (I : inb (insert_at axis k oi) sh) by (apply (lane_inb _ _ _ _ n); [exact Hn|exact Ho|lia]).
  rewrite Lay_Copy.unbroadcast_same by exact I. rewrite (unbroadcast_one axis sh n _ Hn I).
  assert (LO : axis <= length oi) by (rewrite (inb_length _ _ Ho); lia). rewrite remove_insert_at by exact LO.
  unfold lane_of. rewrite OO. reflexivity.
Qed.
(* along the axis of a one-dimensional array: not the variance but its n summands *)
Theorem C129_var_1d_refuted : forall x n f, is_nda x [n] f -> 0 < n -> small [n] ->
  exists z, qvar_axis x 0 = Ok z /\
    is_nda z [n] (fun idx => (let m := qmean (map (fun k => f [k]) (seq 0 n)) in (f idx - m) * (f idx - m) / qn n)%Qc).
Proof.
  intros x n f X Hp S. unfold var_axis. pose proof X as (_ & SX & _). unfold sh_of. rewrite SX. cbn [at_ nth_error bind]. unfold at_. cbn [nth_error bind].
  destruct (Nat.eqb_spec n 0); [lia|]. destruct (C129_mean_axis x [n] f 0 n X eq_refl Hp S) as (m & -> & HM). cbn [bind].
  destruct (expand_is m _ _ 0 HM) as (m' & -> & HM'); [cbn; lia|]. cbn [bind]. change (reduced_shape 0 [n]) with [1] in *. cbn [insert_at] in HM'.
  assert (S2 : small [1; n]) by (unfold small in *; cbn [prod] in *; lia).
  assert (BS : broadcast_shapes [n] [1; 1] = Some [1; n]).
  { unfold broadcast_shapes. apply bshape_iff_all. split; [reflexivity|]. intros [|[|i]]; [| |rewrite !rdim_beyond by (cbn; lia); reflexivity]; unfold bdim, rdim; cbn.
    - destruct (Nat.eqb_spec n 1) as [->|]; reflexivity.
    - reflexivity. }
  destruct (binop_is Qcminus x (fst m, m') [n] [1; 1] [1; n] f _ X HM' BS S2) as (d & -> & HDD). cbn [bind].
  destruct (binop_same Qcmult d d _ _ _ HDD HDD S2) as (p & -> & HP). cbn [bind].
  destruct (sum_axis_is p [1; n] _ 0 1 HP eq_refl) as (s & -> & HS); [exact S|]. cbn [bind]. change (reduced_shape 0 [1; n]) with [n] in HS.
  destruct (binop_const Qcdiv s _ _ (qn n) HS) as (z & E & Z); [discriminate|exact S|].
  exists z. split; [exact E|]. eapply is_nda_ext; [|exact Z]. intros idx Ho. cbv beta zeta. unfold lane_of. cbn [seq map outer_of insert_at].
  assert (U : unbroadcast [n] (0 :: idx) = idx).
  { unfold unbroadcast. inversion Ho as [|i ? is ? H1 H2]; subst. inversion H2; subst. cbn [length Nat.sub skipn unstretch]. destruct (Nat.eqb_spec n 1); [f_equal; lia|reflexivity]. }
  rewrite U. unfold qsum at 1. cbn [fold_right]. f_equal. ring.
Qed.

(* the variance is not negative, and zero only for equal values *)
Lemma qsum_nonneg l : (forall x, In x l -> (0 <= x)%Qc) -> (0 <= qsum l)%Qc.
Proof.
  induction l as [|x l IH]; intros H; [apply Qcle_refl|]. cbn. replace 0%Qc with (0 + 0)%Qc by ring.
  apply Qcplus_le_compat; [apply H; left; reflexivity|]. apply IH. intros; apply H; right; assumption.
Qed.
Lemma qsq_nonneg x : (0 <= x * x)%Qc.
Proof. qnra. Qed.
Lemma qdiv_nonneg x n : (0 <= x)%Qc -> 0 < n -> (0 <= x / qn n)%Qc.
Proof.
  intros H Hp. assert (x / qn n * qn n = x)%Qc as E by (field; apply qn_nz; exact Hp). pose proof (qn_pos n Hp) as HN.
  remember (x / qn n)%Qc as r. remember (qn n) as m. clear Heqr Heqm. subst x. qnra.
Qed.
Lemma qsum_add l m : length l = length m -> qsum (map (fun p => fst p + snd p)%Qc (combine l m)) = (qsum l + qsum m)%Qc.
Proof.
  revert m. induction l as [|x l IH]; intros [|y m] H; try discriminate; [cbn; ring|]. injection H as H. cbn. fold qsum in *. unfold qsum in IH. rewrite (IH m H). ring.
Qed.
Theorem C129_var_nonneg : forall l, l <> [] -> (0 <= qvar l)%Qc.
Proof.
  intros l NE. unfold qvar. set (m := qmean l). unfold qmean. rewrite map_length. apply qdiv_nonneg; [|destruct l; [easy|cbn; lia]].
  apply qsum_nonneg. intros x Hx. apply in_map_iff in Hx as (y & <- & _). apply qsq_nonneg.
Qed.
Lemma qsum_zero l : (forall x, In x l -> (0 <= x)%Qc) -> qsum l = 0%Qc -> forall x, In x l -> x = 0%Qc.
Proof.
  induction l as [|y l IH]; intros H E x Hx; [easy|]. cbn in E. fold (qsum l) in E.
  assert (0 <= y)%Qc as Y by (apply H; left; reflexivity). assert (0 <= qsum l)%Qc as L by (apply qsum_nonneg; intros; apply H; right; assumption).
  assert (qsum l = - y)%Qc as E1. { replace (qsum l) with (y + qsum l - y)%Qc by ring. rewrite E. ring. }
  assert (y = 0)%Qc as Y0. { rewrite E1 in L. apply Qcle_antisym; [|exact Y]. qlra. }
  destruct Hx as [<-|Hx]; [exact Y0|]. apply IH; [intros; apply H; right; assumption| |exact Hx]. rewrite E1, Y0. ring.
Qed.
Theorem C129_var_zero : forall l, l <> [] -> qvar l = 0%Qc <-> forall x, In x l -> x = qmean l.
Proof.
  intros l NE. assert (0 < length l) as HL by (destruct l; [easy|cbn; lia]). split.
  - intros E x Hx. assert (qsum (map (fun x => (x - qmean l) * (x - qmean l))%Qc l) = 0%Qc) as Z.
    { unfold qvar in E. unfold qmean at 1 in E. rewrite map_length in E.
      replace (qsum (map (fun x => (x - qmean l) * (x - qmean l))%Qc l)) with (qsum (map (fun x => (x - qmean l) * (x - qmean l))%Qc l) / qn (length l) * qn (length l))%Qc by (field; apply qn_nz; exact HL).
      rewrite E. ring. }
    assert ((x - qmean l) * (x - qmean l) = 0)%Qc as Q.
    { apply (qsum_zero (map (fun x => (x - qmean l) * (x - qmean l))%Qc l)); [|exact Z|apply (in_map (fun x => (x - qmean l) * (x - qmean l))%Qc); exact Hx].
      intros y Hy. apply in_map_iff in Hy as (w & <- & _). apply qsq_nonneg. }
    apply Qcmult_integral in Q as [Q|Q]; (replace x with (x - qmean l + qmean l)%Qc by ring; rewrite Q; ring).
  - intros H. unfold qvar. unfold qmean at 1. rewrite (map_ext_in _ (fun _ => 0%Qc)).
    + rewrite map_length. assert (qsum (map (fun _ : Qc => 0%Qc) l) = 0%Qc) as ->; [|field; apply qn_nz; exact HL].
      clear. induction l as [|x l IH]; [reflexivity|]. cbn. fold (qsum (map (fun _ : Qc => 0%Qc) l)). rewrite IH. ring.
    + intros x Hx. rewrite <- (H x Hx). ring.
Qed.
(* adding c moves the mean by c and keeps the variance; scaling by c scales them by c and c^2 *)
Lemma qsum_affine a c l : qsum (map (fun x => a * x + c)%Qc l) = (a * qsum l + qn (length l) * c)%Qc.
Proof.
  induction l as [|x l IH]; [cbn; change (qn 0) with 0%Qc; ring|]. cbn [map length]. cbn [qsum fold_right]. fold (qsum (map (fun x => a * x + c)%Qc l)). fold (qsum l).
  rewrite IH, qn_S. ring.
Qed.
Lemma qmean_affine a c l : l <> [] -> qmean (map (fun x => a * x + c)%Qc l) = (a * qmean l + c)%Qc.
Proof.
  intros NE. unfold qmean. rewrite qsum_affine, map_length. field. apply qn_nz. destruct l; [easy|cbn; lia].
Qed.
Lemma qvar_affine a c l : l <> [] -> qvar (map (fun x => a * x + c)%Qc l) = (a * a * qvar l)%Qc.
Proof.
  intros NE. unfold qvar. rewrite (qmean_affine a c l NE), map_map. set (m := qmean l).
  rewrite (map_ext _ (fun x => (a * a) * ((x - m) * (x - m)) + 0)%Qc) by (intros; ring).
  rewrite <- (map_map (fun x => (x - m) * (x - m))%Qc (fun y => (a * a) * y + 0)%Qc). rewrite qmean_affine; [ring|]. destruct l; [easy|discriminate].
Qed.
Theorem C129_affine : forall x sh f a c y z, is_nda x sh f -> prod sh <> 0 -> sh <> [] -> small sh ->
  binop Qcmult x (const1 a) = Ok y -> binop Qcplus y (const1 c) = Ok z ->
  exists m v, qmean_f x = Ok m /\ qvar_f x = Ok v /\ qmean_f z = Ok (a * m + c)%Qc /\ qvar_f z = Ok (a * a * v)%Qc.
Proof.
  intros x sh f a c y z X P NE S EY EZ. destruct (binop_const Qcmult x sh f a X NE S) as (y' & EY' & Y). rewrite EY in EY'. injection EY' as <-.
  destruct (binop_const Qcplus y sh _ c Y NE S) as (z' & EZ' & Z). rewrite EZ in EZ'. injection EZ' as <-.
  exists (qmean (map f (all_idx sh))), (qvar (map f (all_idx sh))). split; [apply C129_mean; assumption|]. split; [apply C129_var; assumption|].
  assert (map f (all_idx sh) <> []) as NL. { intro E. apply (f_equal (@length _)) in E. rewrite map_length, all_idx_length in E. cbn in E. lia. }
  assert (map (fun idx => f idx * a + c)%Qc (all_idx sh) = map (fun v => a * v + c)%Qc (map f (all_idx sh))) as EM.
  { rewrite map_map. apply map_ext. intros. ring. }
  split.
  - rewrite (C129_mean z sh _ Z P), EM, qmean_affine by exact NL. reflexivity.
  - rewrite (C129_var z sh _ Z P), EM, qvar_affine by exact NL. reflexivity.
Qed.

(* ---- the weighted average ---- *)
Lemma combine_map {A B C} (f : A -> B) (g : A -> C) l : combine (map f l) (map g l) = map (fun x => (f x, g x)) l.
Proof. induction l; cbn; congruence. Qed.
Theorem C129_average_partial : forall x w sh f g, is_nda x sh f -> is_nda w sh g -> small sh -> qsum (map g (all_idx sh)) <> 0%Qc ->
  qaverage_f x (Some w) = Ok (qaverage (map f (all_idx sh)) (map g (all_idx sh))).
Proof.
  intros x w sh f g X W S NZ. unfold average. destruct (binop_same Qcmult x w sh f g X W S) as (p & -> & HP). cbn [bind].
  rewrite (sum_all_is p sh _ HP). cbn [bind]. rewrite (sum_all_is w sh g W). cbn [bind]. unfold qzero. destruct (Qc_eq_dec _ _); [contradiction|].
  unfold qaverage. rewrite combine_map, map_map. reflexivity.
Qed.
Theorem C129_average_axis_partial : forall x w sh f g axis n, is_nda x sh f -> is_nda w sh g -> small sh -> nth_error sh axis = Some n -> 0 < n ->
  exists z, qaverage_axis x axis (Some w) = Ok z /\ is_nda z (reduced_shape axis sh) (fun idx => qaverage (lane_of f sh axis n idx) (lane_of g sh axis n idx)).
Proof.
  intros x w sh f g axis n X W S Hn Hp. unfold average_axis. pose proof (small_reduced axis sh n Hn Hp S) as SR.
  destruct (binop_same Qcmult x w sh f g X W S) as (p & -> & HP). cbn [bind].
  destruct (sum_axis_is p sh _ axis n HP Hn SR) as (s & -> & HS). cbn [bind]. destruct (sum_axis_is w sh g axis n W Hn SR) as (t & -> & HT). cbn [bind].
  destruct (binop_same Qcdiv s t _ _ _ HS HT SR) as (z & E & Z). exists z. split; [exact E|]. eapply is_nda_ext; [|exact Z].
  intros idx _. unfold qaverage, lane_of. rewrite combine_map, map_map. reflexivity.
Qed.
End Exact.
(* equal weights give the mean *)
Theorem C129_average_mean : forall l c, l <> [] -> c <> 0%Qc -> qaverage l (map (fun _ => c) l) = qmean l.
Proof.
  intros l c NE NC. unfold qaverage. assert (combine l (map (fun _ => c) l) = map (fun x => (x, c)) l) as ->.
  { clear. induction l as [|x l IH]; cbn; congruence. }
  rewrite map_map. cbn [fst snd].
  rewrite (map_ext _ (fun x => c * x + 0)%Qc) by (intros; ring). rewrite qsum_affine.
  rewrite (map_ext (fun _ : Qc => c) (fun x => 0 * x + c)%Qc) by (intros; ring). rewrite qsum_affine. unfold qmean. field.
  split; [|exact NC]. apply qn_nz. destruct l; [easy|cbn; lia].
Qed.

Definition q12 : list Qc * arr := ([qn 1; qn 2; qn 3; qn 4; qn 5; qn 9], fresh [2; 3] 8).
Lemma q12_is : is_nda q12 [2; 3] (fun idx => nth (rank [2; 3] idx) (fst q12) 0%Qc).
Proof.
  apply fresh_of_get; [unfold small; cbn; lia|reflexivity|]. intros idx Hi. rewrite fresh_get by lia. apply rank_lt in Hi. cbn [prod Nat.mul Nat.add] in Hi.
  apply nth_error_nth'. exact Hi.
Qed.
Example C129_nonvacuous : exists m v, mean 0%Qc 0%Qc Qcplus Qcdiv qn q12 = Ok m /\ var 0%Qc 0%Qc Qcplus Qcminus Qcmult Qcdiv qn q12 = Ok v /\
  this m = 4%Q /\ this v = (20 # 3)%Q /\ exists z, var_axis 0%Qc Qcplus Qcminus Qcmult Qcdiv qn q12 1 = Ok z /\ map this (fst z) = [2 # 3; 14 # 3]%Q.
Proof.
  eexists _, _. split; [vm_compute; reflexivity|]. split; [vm_compute; reflexivity|]. split; [vm_compute; reflexivity|]. split; [vm_compute; reflexivity|].
  eexists. split; vm_compute; reflexivity.
Qed.
(* weights that are broadcast are summed before broadcasting: two equal rows count double *)
Theorem C129_average_broadcast_refuted : exists v, average 0%Qc 0%Qc Qcplus Qcmult Qcdiv qn qzero q12 (Some ([qn 1; qn 1; qn 1], fresh [3] 8)) = Ok v /\
  this v = 8%Q /\ qmean (fst q12) = qn 4.
Proof. eexists. split; [vm_compute; reflexivity|]. split; [vm_compute; reflexivity|]. apply Qc_is_canon. vm_compute. reflexivity. Qed.
(* one weight per row or column panics, or divides by the wrong total *)
Theorem C129_average_axis_refuted :
  average_axis 0%Qc Qcplus Qcmult Qcdiv qn q12 1 (Some ([qn 1; qn 1; qn 1], fresh [3] 8)) = Panic.
Proof. vm_compute. reflexivity. Qed.
(* reductions.rs:70-75 mean_axis of an integer array: the sum has the array's dtype, and so
   has the array that holds the length; the quotient is exact here *)
Definition int_mean_axis (t : ity) (buf : list Z) (a : arr) (axis : nat) : res (list nat * list Qc) :=
  bind (int_reduce_axis t RSum buf a axis) (fun '(sh, out) => bind (at_ (a_shape a) axis) (fun n =>
  Ok (sh, map (fun s => Q2Qc (inject_Z s) / Q2Qc (inject_Z (sat t (Z.of_nat n))))%Qc out))).
(* the mean of the bytes 200 and 100 along an axis is 22 *)
Theorem C129_int_mean_refuted : exists v, int_mean_axis (mkIty 8 false) [200; 100]%Z (fresh [2; 1] 1) 0 = Ok ([1], [v]) /\ this v = 22%Q.
Proof. eexists. split; vm_compute; reflexivity. Qed.

Print Assumptions C129_mean.
Print Assumptions C129_mean_axis.
Print Assumptions C129_var.
Print Assumptions C129_var_axis_partial.
Print Assumptions C129_var_1d_refuted.
Print Assumptions C129_var_nonneg.
Print Assumptions C129_var_zero.
Print Assumptions C129_affine.
Print Assumptions C129_average_partial.
Print Assumptions C129_average_axis_partial.
Print Assumptions C129_average_mean.
Print Assumptions C129_average_broadcast_refuted.
Print Assumptions C129_average_axis_refuted.
Print Assumptions C129_int_mean_refuted.
