(* Central moments and kurtosis (C129); the range along an axis (C130). *)
From Coq Require Import QArith Qcanon Lqa.
From Verif Require Import Base Lists Arr_Spec Arr_Model Arr_Wf Arr_Proofs Wf_Check Bcast_Model Bcast_Proofs Copy_Model Copy_Proofs Elem_Model Elem_Proofs
  Int_Model Int_Props F64_Model Red_Spec Red_Model Red_Proofs Red_Props Stat_Spec Stat_Qc Mean_Spec Mean_Model Mean_Proofs Mean_Props
  Man_Model Cast_Proofs Axes_Spec Axes_Model Axes_Proofs Axes_Props.
Local Open Scope nat_scope.

(* the mean of the k-th powers of the deviations from the mean *)
Fixpoint qpow (x : Qc) (k : nat) : Qc := match k with O => 1%Qc | S k => (x * qpow x k)%Qc end.
Definition qmoment (k : nat) (l : list Qc) : Qc := qmean (map (fun x => qpow (x - qmean l)%Qc k) l).
(* the fourth moment in units of the squared variance, less the value of a normal distribution *)
Definition qkurtosis (l : list Qc) : Qc := (qmoment 4 l / (qvar l * qvar l) - qn 3)%Qc.

Section Exact.
Variable nan : Qc.
Notation qmoment_f k x := (moment 0%Qc 1%Qc nan Qcplus Qcminus Qcmult Qcdiv qn k x).
Notation qkurtosis_f x := (kurtosis 0%Qc 1%Qc nan Qcplus Qcminus Qcmult Qcdiv qn qzero x).

Lemma powi_q x k : powi 1%Qc Qcmult x k = qpow x k.
Proof. induction k as [|k IH]; [reflexivity|]. cbn. rewrite IH. reflexivity. Qed.
Lemma fold_map_qsum (h : Qc -> Qc) l : fold_left (fun s v => s + h v)%Qc l 0%Qc = qsum (map h l).
Proof. rewrite <- fold_qsum. generalize 0%Qc. induction l as [|x l IH]; intros z; [reflexivity|]. cbn [fold_left map]. apply IH. Qed.
Theorem C129_moment : forall k x sh f, is_nda x sh f -> prod sh <> 0 -> qmoment_f k x = Ok (qmoment k (map f (all_idx sh))).
Proof.
  intros k x sh f X P. pose proof X as (W & SX & _). pose proof (is_nda_elems x sh f X) as E. unfold moment. cbv zeta. unfold size. rewrite SX.
  destruct (Nat.eqb_spec (prod sh) 0); [lia|]. rewrite (C129_mean nan x sh f X P). cbn [bind]. rewrite (read_offsets (fst x) (snd x) _ W E). cbn [bind].
  rewrite (fold_map_qsum (fun v => powi 1%Qc Qcmult (v - _)%Qc k)). unfold qmoment. unfold qmean at 2. rewrite !map_length, all_idx_length.
  do 3 f_equal.
Qed.
Lemma qmoment_2 l : qmoment 2 l = qvar l.
Proof. unfold qmoment, qvar. f_equal. apply map_ext. intros. cbn. ring. Qed.
Theorem C129_kurtosis : forall x sh f, is_nda x sh f -> prod sh <> 0 -> qvar (map f (all_idx sh)) <> 0%Qc ->
  qkurtosis_f x = Ok (qkurtosis (map f (all_idx sh))).
Proof.
  intros x sh f X P V. unfold kurtosis. rewrite !(C129_moment _ x sh f X P), qmoment_2. cbn [bind]. unfold qzero. destruct (Qc_eq_dec _ _); [contradiction|]. reflexivity.
Qed.
End Exact.

(* the first central moment is zero; scaling and shifting scale the moments and keep the kurtosis *)
Lemma qpow_mul a x k : qpow (a * x)%Qc k = (qpow a k * qpow x k)%Qc.
Proof. induction k as [|k IH]; [cbn; ring|]. cbn [qpow]. rewrite IH. ring. Qed.
Theorem C129_first_moment : forall l, l <> [] -> qmoment 1 l = 0%Qc.
Proof.
  intros l NE. unfold qmoment. rewrite (map_ext _ (fun x => 1 * x + (- qmean l))%Qc) by (intros; cbn; ring). rewrite qmean_affine by exact NE. ring.
Qed.
Theorem C129_moment_affine : forall k a c l, l <> [] -> qmoment k (map (fun x => a * x + c)%Qc l) = (qpow a k * qmoment k l)%Qc.
Proof.
  intros k a c l NE. unfold qmoment. rewrite (qmean_affine a c l NE), map_map. set (m := qmean l).
  rewrite (map_ext _ (fun x => qpow a k * qpow (x - m) k + 0)%Qc).
  - rewrite <- (map_map (fun x => qpow (x - m)%Qc k) (fun y => qpow a k * y + 0)%Qc), qmean_affine; [ring|]. destruct l; [easy|discriminate].
  - intros x. replace (a * x + c - (a * m + c))%Qc with (a * (x - m))%Qc by ring. rewrite qpow_mul. ring.
Qed.
Theorem C129_kurtosis_affine : forall a c l, l <> [] -> a <> 0%Qc -> qvar l <> 0%Qc -> qkurtosis (map (fun x => a * x + c)%Qc l) = qkurtosis l.
Proof.
  intros a c l NE NA NV. unfold qkurtosis. rewrite C129_moment_affine, qvar_affine by exact NE. cbn [qpow]. field. split; assumption.
Qed.
(* [1 2 3 4 5 9]: mean 4, variance 20/3, third moment 12, fourth 364/3 *)
Example C129_moment_nonvacuous : prod [2; 3] <> 0 /\ exists m3 m4 k, moment 0%Qc 1%Qc 0%Qc Qcplus Qcminus Qcmult Qcdiv qn 3 q12 = Ok m3 /\
  moment 0%Qc 1%Qc 0%Qc Qcplus Qcminus Qcmult Qcdiv qn 4 q12 = Ok m4 /\ kurtosis 0%Qc 1%Qc 0%Qc Qcplus Qcminus Qcmult Qcdiv qn qzero q12 = Ok k /\
  this m3 = 15%Q /\ this m4 = (362 # 3)%Q /\ this k = (-57 # 200)%Q.
Proof.
  split; [discriminate|]. eexists _, _, _. do 3 (split; [vm_compute; reflexivity|]). split; [vm_compute; reflexivity|]. split; vm_compute; reflexivity.
Qed.

Lemma keep1_at1 sh idx : inb idx (keep1 sh) -> exists oi, inb oi sh /\ idx = at1 oi.
Proof.
  destruct sh as [|d sh]; cbn [keep1]; intros H.
  - exists []. split; [constructor|]. inversion H as [|i ? is ? Hi His]; subst. inversion His; subst. cbn. f_equal. lia.
  - exists idx. split; [exact H|]. inversion H; reflexivity.
Qed.
Lemma at1_inb sh oi : inb oi sh -> inb (at1 oi) (keep1 sh).
Proof. intros H. destruct H; cbn; [repeat constructor|constructor; assumption]. Qed.
(* ptp along one axis: the largest less the smallest element of each lane, in the array's dtype *)
Theorem C130_ptp_axis : forall t (x : list Z * arr) sh f a n, int_dtype t -> stands_for (a_item (snd x)) x sh f ->
  (forall idx, inb idx sh -> representable t (f idx)) -> roomy (a_item (snd x)) sh -> nth_error sh a = Some n -> 0 < n ->
  exists z g, ptp_axis t x a = Ok z /\ stands_for (a_item (snd x)) z (remove_at a sh) g /\
    forall oi, inb oi (remove_at a sh) -> exists hi lo, is_max (map (fun k => f (insert_at a k oi)) (seq 0 n)) hi /\
      is_min (map (fun k => f (insert_at a k oi)) (seq 0 n)) lo /\ g oi = wrap t (hi - lo).
Proof.
  intros t x sh f a n HD X HR R Hn Hp. pose proof HD as [HT _]. assert (0 < a_item (snd x))%Z as HI by (destruct X as ((W & _) & _); exact W).
  destruct (axis_step_is (representable t) _ _ (int_laws t RMax HD) _ x sh f a n HI X Hn R HR) as (hi & EH & WH & SH & IH & GH).
  destruct (axis_step_is (representable t) _ _ (int_laws t RMin HD) _ x sh f a n HI X Hn R HR) as (lo & EL & WL & SL & IL & GL).
  unfold ptp_axis. rewrite EH. cbn [bind]. rewrite EL. cbn [bind].
  pose proof (elementwise2_spec (fun u v : Z => Ok (wrap t (u - v)%Z)) PKernel (fst hi) (snd hi) (fst lo) (snd lo) WH WL) as E.
  rewrite SH, SL, bshape_idem in E. set (sr := keep1 (remove_at a sh)) in *.
  set (mx := fun oi => fold_left (int_red_comb t RMax) (map (fun k => f (insert_at a k oi)) (seq 0 n)) (int_red_init t RMax)) in *.
  set (mn := fun oi => fold_left (int_red_comb t RMin) (map (fun k => f (insert_at a k oi)) (seq 0 n)) (int_red_init t RMin)) in *.
  set (back := fun idx : list nat => match remove_at a sh with [] => [] | _ => idx end).
  assert (forall oi, inb oi (remove_at a sh) -> back (at1 oi) = oi) as BK.
  { intros oi Ho. unfold back. destruct Ho; reflexivity. }
  assert (mapM (fun idx => bind (of_load (get (fst hi) (snd hi) (unbroadcast sr idx))) (fun x0 => bind (of_load (get (fst lo) (snd lo) (unbroadcast sr idx))) (fun y => Ok (wrap t (x0 - y)%Z)))) (all_idx sr)
    = Ok (map (fun idx => wrap t (mx (back idx) - mn (back idx))%Z) (all_idx sr))) as EM.
  { apply mapM_total. intros idx Hi. apply in_all_idx in Hi. rewrite !Lay_Copy.unbroadcast_same by exact Hi. destruct (keep1_at1 _ _ Hi) as (oi & Ho & ->).
    rewrite (GH oi Ho), (GL oi Ho), (BK oi Ho). reflexivity. }
  rewrite EM in E. cbn [bind] in E. rewrite E. cbn [bind].
  eexists _, (fun oi => wrap t (mx oi - mn oi)%Z). split; [reflexivity|]. split.
  - assert (PK : prod sr = prod (remove_at a sh)) by (unfold sr; destruct (remove_at a sh); reflexivity).
    assert (L : length (map (fun idx => wrap t (mx (back idx) - mn (back idx))%Z) (all_idx sr)) = prod sr) by (rewrite map_length; apply all_idx_length).
    split; [|split; [reflexivity|split; [reflexivity|]]]; cbn [fst snd].
    + apply fresh_wf; [exact HI| |exact L]. rewrite L, PK. pose proof (prod_max1 (remove_at a sh)). pose proof (roomy_remove _ a sh n Hn HI R). unfold roomy in *. nia.
    + intros oi Ho. rewrite fresh_get by exact HI. rewrite nth_error_map, nth_error_all_idx_rank by (apply at1_inb; exact Ho). cbn [option_map]. rewrite (BK oi Ho). reflexivity.
  - intros oi Ho. exists (mx oi), (mn oi).
    assert (map (fun k => f (insert_at a k oi)) (seq 0 n) <> []) as NE by (destruct n; [lia|discriminate]).
    assert (Forall (representable t) (map (fun k => f (insert_at a k oi)) (seq 0 n))) as FR.
    { apply Forall_forall. intros v Hv. apply in_map_iff in Hv as (k & <- & Hk). apply in_seq in Hk. apply HR. apply (lane_inb _ _ _ _ n); [exact Hn|exact Ho|lia]. }
    split; [apply (fold_init_max t); assumption|]. split; [apply (fold_init_min t); assumption|reflexivity].
Qed.
Example C130_ptp_axis_nonvacuous : nth_error [2; 3] 1 = Some 3 /\ ptp_axis int64 ([5; 1; 3; -4; 0; 2]%Z, fresh [2; 3] 8) 1 = Ok ([4; 6]%Z, fresh [2] 8).
Proof. split; vm_compute; reflexivity. Qed.

Print Assumptions C129_moment.
Print Assumptions C129_kurtosis.
Print Assumptions C129_first_moment.
Print Assumptions C129_moment_affine.
Print Assumptions C129_kurtosis_affine.
Print Assumptions C130_ptp_axis.
