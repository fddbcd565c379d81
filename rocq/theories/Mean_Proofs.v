(* Arrays as functions of the index, and what the array operations do to them. *)
From Coq Require Import QArith Qcanon.
From Verif Require Import Base Lists Arr_Spec Arr_Model Arr_Wf Arr_Proofs Bcast_Model Bcast_Proofs Copy_Model Copy_Proofs Elem_Model Elem_Proofs
  Red_Spec Red_Model Red_Proofs Red_Props Promo_Spec Promo_Model Mat_Spec Mat_Model Mat_Batch Mat_Laws Stat_Spec Mean_Spec Mean_Model.
From Verif Require Lay_Copy.
Local Open Scope nat_scope.

Lemma is_nda_ext {K} (x : list K * arr) sh f g : (forall idx, inb idx sh -> f idx = g idx) -> is_nda x sh f -> is_nda x sh g.
Proof. intros H (A & B & C & D). split; [exact A|]. split; [exact B|]. split; [exact C|]. intros idx Hi. rewrite (D idx Hi), (H idx Hi). reflexivity. Qed.
Lemma fresh_is {K} sh (f : list nat -> K) : small sh -> is_nda (map f (all_idx sh), fresh sh 8) sh f.
Proof.
  intros S. split; [|split; [reflexivity|split; [reflexivity|]]].
  - apply fresh_wf; cbn [fst]; [lia| |]; rewrite map_length, all_idx_length; [exact S|reflexivity].
  - intros idx Hi. cbn [fst snd]. rewrite fresh_get by lia. rewrite nth_error_map', nth_error_all_idx_rank by exact Hi. reflexivity.
Qed.
Lemma fresh_of_get {K} sh (out : list K) f : small sh -> length out = prod sh -> (forall idx, inb idx sh -> get out (fresh sh 8) idx = Some (f idx)) ->
  is_nda (out, fresh sh 8) sh f.
Proof.
  intros S L G. split; [|split; [reflexivity|split; [reflexivity|exact G]]]. cbn [fst snd]. apply fresh_wf; [lia| |exact L]. unfold small in S. rewrite L. exact S.
Qed.
Lemma is_nda_elems {K} (x : list K * arr) sh f : is_nda x sh f -> elems (fst x) (snd x) = map Some (map f (all_idx sh)).
Proof.
  intros (A & B & C & D). unfold elems. rewrite B, map_map. apply map_ext_in. intros idx Hi. apply D, in_all_idx, Hi.
Qed.
Lemma is_nda_lane {K} (x : list K * arr) sh f axis n oi : is_nda x sh f -> nth_error sh axis = Some n -> inb oi (remove_at axis sh) ->
  lane (fst x) (snd x) axis oi = map Some (map (fun k => f (insert_at axis k oi)) (seq 0 n)).
Proof.
  intros (A & B & C & D) Hn Ho. unfold lane. rewrite B, (nth_error_nth _ _ 0 Hn), map_map. apply map_ext_in. intros k Hk. apply in_seq in Hk.
  apply D. apply (lane_inb _ _ _ _ n); [exact Hn|exact Ho|lia].
Qed.
Lemma nda_operand {K} (x : list K * arr) sh f : is_nda x sh f <-> array_of (Float64, x) Float64 sh f.
Proof.
  unfold is_nda, array_of, o_kind, o_arr. cbn [fst snd itemsize]. split.
  - intros (A & B & C & D). repeat (split; [assumption || reflexivity|]). exact D.
  - intros (_ & A & B & C & D). repeat (split; [assumption|]). exact D.
Qed.

(* ---- broadcasting ---- *)
Lemma Forall2_skipn' {A B} (R : A -> B -> Prop) l r k : Forall2 R l r -> Forall2 R (skipn k l) (skipn k r).
Proof. intro H. revert k. induction H; intros [|k]; cbn [skipn]; auto. Qed.
Lemma broadcast_inb a b r idx : broadcast_shapes a b = Some r -> inb idx r -> inb (unbroadcast a idx) a /\ inb (unbroadcast b idx) b.
Proof.
  intros E Hi. destruct (bshape_upper _ _ _ E) as [UA UB].
  assert (G : forall s, broadcastable s r -> inb (unbroadcast s idx) s).
  { intros s [L S]. unfold unbroadcast. rewrite (inb_length _ _ Hi).
    assert (I : inb (skipn (length r - length s) idx) (skipn (length r - length s) r)) by (apply Forall2_skipn', Hi).
    revert S I. generalize (skipn (length r - length s) r) as r'. generalize (skipn (length r - length s) idx) as i'. clear.
    induction s as [|s ss IH]; intros i' r' S I; [constructor|]. inversion S; subst. inversion I; subst. cbn [unstretch]. constructor.
    - destruct (Nat.eqb_spec s 1); [lia|]. destruct H1; [subst; assumption|lia].
    - apply (IH _ _ H3 H5). }
  split; apply G; assumption.
Qed.
Lemma binop_is {K} (h : K -> K -> K) x y sx sy sh f g : is_nda x sx f -> is_nda y sy g -> broadcast_shapes sx sy = Some sh -> small sh ->
  exists z, binop h x y = Ok z /\ is_nda z sh (fun idx => h (f (unbroadcast sx idx)) (g (unbroadcast sy idx))).
Proof.
  intros (WX & SX & IX & GX) (WY & SY & IY & GY) E S. unfold binop.
  pose proof (elementwise2_spec (fun u v => Ok (h u v)) PKernel (fst x) (snd x) (fst y) (snd y) WX WY) as H. rewrite SX, SY, E in H. rewrite H.
  rewrite (mapM_ok _ (fun idx => h (f (unbroadcast sx idx)) (g (unbroadcast sy idx)))).
  - cbn [bind]. eexists. split; [reflexivity|]. apply fresh_is. exact S.
  - intros idx Hi. apply in_all_idx in Hi. destruct (broadcast_inb sx sy sh idx E Hi) as [I1 I2]. rewrite (GX _ I1), (GY _ I2). reflexivity.
Qed.
Lemma binop_same {K} (h : K -> K -> K) x y sh f g : is_nda x sh f -> is_nda y sh g -> small sh ->
  exists z, binop h x y = Ok z /\ is_nda z sh (fun idx => h (f idx) (g idx)).
Proof.
  intros X Y S. destruct (binop_is h x y sh sh sh f g X Y (bshape_idem sh) S) as (z & E & Z). exists z. split; [exact E|].
  eapply is_nda_ext; [|exact Z]. intros idx Hi. cbv beta. rewrite !Lay_Copy.unbroadcast_same by exact Hi. reflexivity.
Qed.
Lemma bshape_one sh : sh <> [] -> broadcast_shapes sh [1] = Some sh.
Proof.
  intros NE. apply bshape_iff_all. split; [destruct sh; [easy|cbn; lia]|]. intros i.
  assert (rdim [1] i = 1) as ->. { destruct i as [|i]; [reflexivity|]. apply rdim_beyond. cbn. lia. }
  unfold bdim. destruct (Nat.eqb_spec (rdim sh i) 1) as [->|]; [reflexivity|]. reflexivity.
Qed.
Lemma const1_is {K} (v : K) : is_nda (const1 v) [1] (fun _ => v).
Proof.
  unfold const1. apply fresh_of_get; [unfold small; cbn; lia|reflexivity|]. intros idx Hi. rewrite fresh_get by lia.
  apply rank_lt in Hi. cbn [prod Nat.mul] in Hi. replace (rank [1] idx) with 0 by lia. reflexivity.
Qed.
Lemma binop_const {K} (h : K -> K -> K) x sh f v : is_nda x sh f -> sh <> [] -> small sh ->
  exists z, binop h x (const1 v) = Ok z /\ is_nda z sh (fun idx => h (f idx) v).
Proof.
  intros X NE S. destruct (binop_is h x (const1 v) sh [1] sh f (fun _ => v) X (const1_is v) (bshape_one sh NE) S) as (z & E & Z). exists z. split; [exact E|].
  eapply is_nda_ext; [|exact Z]. intros idx Hi. cbv beta. rewrite Lay_Copy.unbroadcast_same by exact Hi. reflexivity.
Qed.
(* a against a copy of one of its slices along axis *)
Lemma nth_error_rdim sh i : i < length sh -> nth_error sh i = Some (rdim sh (length sh - 1 - i)).
Proof. intros H. unfold rdim. rewrite rev_nth by lia. replace (length sh - S (length sh - 1 - i)) with i by lia. apply nth_error_nth'. exact H. Qed.
Lemma bshape_ones sh sh' : Forall2 (fun s t => t = s \/ t = 1) sh sh' -> broadcast_shapes sh sh' = Some sh.
Proof.
  intros H. assert (L : length sh' = length sh) by (clear - H; induction H; cbn; congruence). apply bshape_iff_all. split; [lia|]. intros i.
  destruct (Nat.lt_ge_cases i (length sh)) as [HI|HI]; [|rewrite !rdim_beyond by lia; reflexivity].
  assert (rdim sh' i = rdim sh i \/ rdim sh' i = 1) as D.
  { unfold rdim. rewrite !rev_nth by lia. rewrite L. apply (proj1 (Forall2_nth_iff _ sh sh' 1 1) H). lia. }
  unfold bdim. destruct D as [-> | ->]; [rewrite Nat.eqb_refl; reflexivity|]. destruct (Nat.eqb_spec (rdim sh i) 1) as [->|]; reflexivity.
Qed.
Lemma insert_one_dims axis (sh : list nat) n : nth_error sh axis = Some n -> Forall2 (fun s t => t = s \/ t = 1) sh (insert_at axis 1 (remove_at axis sh)).
Proof.
  revert axis; induction sh as [|s sh IH]; intros [|axis] H; try discriminate; cbn [remove_at insert_at].
  - constructor; [right; reflexivity|]. clear. induction sh; constructor; auto.
  - constructor; [left; reflexivity|]. apply IH. exact H.
Qed.
Lemma unbroadcast_one axis sh n idx : nth_error sh axis = Some n -> inb idx sh ->
  remove_at axis (unbroadcast (insert_at axis 1 (remove_at axis sh)) idx) = remove_at axis idx.
Proof.
  intros Hn Hi. unfold unbroadcast.
  assert (L : length (insert_at axis 1 (remove_at axis sh)) = length sh).
  { pose proof (insert_one_dims axis sh n Hn) as F. clear - F. induction F; cbn; congruence. }
  rewrite L, (inb_length _ _ Hi), Nat.sub_diag. cbn [skipn]. clear L. revert axis idx Hn Hi.
  induction sh as [|s sh IH]; intros [|axis] idx Hn Hi; try discriminate; inversion Hi; subst; cbn [remove_at insert_at unstretch].
  - apply Lay_Copy.unstretch_same. assumption.
  - f_equal; [destruct (Nat.eqb_spec s 1); lia|]. apply IH; assumption.
Qed.

(* ---- sums ---- *)
Lemma qc_laws : kernel_laws (fun _ => True) (0%Qc) Qcplus.
Proof. unfold kernel_laws. repeat (split; [intros; try exact I; ring|]). intros; ring. Qed.
Lemma fold_qsum l : fold_left Qcplus l 0%Qc = qsum l.
Proof.
  unfold qsum. apply fold_symmetric; intros; ring.
Qed.
Lemma sum_all_is x sh f : is_nda x sh f -> sum_all 0%Qc Qcplus x = Ok (qsum (map f (all_idx sh))).
Proof.
  intros X. pose proof (is_nda_elems x sh f X) as E. destruct X as (W & _). unfold sum_all.
  rewrite (dispatch_reduce_spec 0%Qc Qcplus (fst x) (snd x) _ W E). cbn [bind].
  destruct (_ || _ || _).
  - rewrite (C23_lanes_invisible (fun _ => True) 0%Qc Qcplus _ qc_laws), fold_qsum; [reflexivity|]. apply Forall_forall. intros; exact I.
  - rewrite (trait_reduce_spec 0%Qc Qcplus (fst x) (snd x) _ W E), fold_qsum. reflexivity.
Qed.
Lemma small_reduced axis sh n : nth_error sh axis = Some n -> 0 < n -> small sh -> small (reduced_shape axis sh).
Proof.
  intros Hn Hp S. unfold small in *. rewrite prod_reduced. pose proof (prod_remove_at axis sh n Hn) as P. nia.
Qed.
Lemma reduced_ne axis sh : reduced_shape axis sh <> [].
Proof. unfold reduced_shape. destruct (remove_at axis sh); discriminate. Qed.
Lemma sum_axis_is x sh f axis n : is_nda x sh f -> nth_error sh axis = Some n -> small (reduced_shape axis sh) ->
  exists z, sum_axis 0%Qc Qcplus x axis = Ok z /\ is_nda z (reduced_shape axis sh) (fun idx => qsum (lane_of f sh axis n idx)).
Proof.
  intros X Hn S. pose proof X as (W & SX & IX & _). unfold sum_axis.
  destruct (C26_axis_fold (fun _ => True) 0%Qc Qcplus (fst x) (snd x) axis n qc_laws W) as (out & E & L & G).
  { rewrite SX. exact Hn. } { intros; exact I. }
  rewrite E. cbn [bind]. rewrite SX, IX in *. eexists. split; [reflexivity|]. apply fresh_of_get; [exact S|exact L|].
  intros idx Hi. destruct (outer_of_inb axis sh n idx Hn Hi) as [HO _].
  rewrite (G idx (lane_of f sh axis n idx) Hi (is_nda_lane x sh f axis n _ X Hn HO)), fold_qsum. reflexivity.
Qed.
Lemma expand_is {K} (x : list K * arr) sh f axis : is_nda x sh f -> axis <= length sh ->
  exists a', expand_dims (snd x) axis = Ok a' /\ is_nda (fst x, a') (insert_at axis 1 sh) (fun idx => f (remove_at axis idx)).
Proof.
  intros (W & SX & IX & G) HA. destruct (proj1 (expand_dims_is_view (fst x) (snd x) axis W)) as (a' & E & V).
  { unfold ndim. rewrite SX. exact HA. }
  exists a'. split; [exact E|]. destruct V as (S' & W' & G'). rewrite SX in *. split; [exact W'|]. split; [exact S'|]. split.
  - unfold expand_dims in E. destruct (_ <? _); [discriminate|]. injection E as <-. cbn [snd]. exact IX.
  - intros idx Hi. cbn [fst snd]. destruct (G' idx Hi) as [Hr ->]. apply G. exact Hr.
Qed.
