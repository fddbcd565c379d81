From Verif Require Import Base Lists Arr_Spec Bcast_Model.

(* the i-th length from the right, 1 when absent *)
Definition rdim (sh : list nat) (i : nat) : nat := nth i (rev sh) 1.

Lemma collect_spec f is r :
  collect f is = Some r <->
  length r = length is /\ forall k i, nth_error is k = Some i -> f i = nth_error r k.
Proof.
  revert r; induction is as [|i is IH]; intros r; simpl.
  - split.
    + intros H; injection H as <-. split; [reflexivity|]. intros [|k] i; discriminate.
    + intros [HL _]. destruct r; [reflexivity|discriminate].
  - split.
    + destruct (f i) as [d|] eqn:E; [|discriminate].
      destruct (collect f is) as [r'|] eqn:E2; simpl; [|discriminate].
      intros H; injection H as <-. destruct (IH r') as [IH1 _]. destruct (IH1 eq_refl) as [HL HN].
      split; [simpl; lia|]. intros [|k] j Hj; simpl in *; [congruence|apply HN; exact Hj].
    + intros [HL HN]. destruct r as [|d r]; [discriminate|].
      pose proof (HN 0 i eq_refl) as H0. simpl in H0. rewrite H0.
      destruct (IH r) as [_ IH2]. rewrite IH2; [reflexivity|].
      split; [simpl in HL; lia|]. intros k j Hj. apply (HN (S k) j Hj).
Qed.

Lemma bshape_iff a b r :
  broadcast_shapes a b = Some r <->
  length r = Nat.max (length a) (length b) /\
  forall i, i < length r -> bdim (rdim a i) (rdim b i) = Some (rdim r i).
Proof.
  unfold broadcast_shapes.
  assert (G : collect (fun i => bdim (nth i (rev a) 1) (nth i (rev b) 1))
                (seq 0 (Nat.max (length a) (length b))) = Some (rev r) <->
    length r = Nat.max (length a) (length b) /\
    forall i, i < length r -> bdim (rdim a i) (rdim b i) = Some (rdim r i)).
  { rewrite collect_spec, rev_length, seq_length. split; intros [HL HN]; (split; [exact HL|]).
    - intros i Hi. unfold rdim. rewrite (HN i i).
      + apply nth_error_nth'. rewrite rev_length; exact Hi.
      + rewrite nth_error_seq. destruct (Nat.ltb_spec i (Nat.max (length a) (length b))); [reflexivity|lia].
    - intros k i Hk. rewrite nth_error_seq in Hk.
      destruct (Nat.ltb_spec k (Nat.max (length a) (length b))); [|discriminate].
      injection Hk as <-. cbn [plus]. specialize (HN k ltac:(lia)). unfold rdim in HN. rewrite HN.
      symmetry. apply nth_error_nth'. rewrite rev_length; lia. }
  rewrite <- G. destruct (collect _ _) as [x|]; simpl.
  - split; intros H; injection H as H; f_equal; [rewrite <- H, rev_involutive; reflexivity|].
    rewrite H, rev_involutive. reflexivity.
  - split; discriminate.
Qed.

Lemma rdim_beyond sh i : length sh <= i -> rdim sh i = 1.
Proof. intros H. unfold rdim. apply nth_overflow. rewrite rev_length; exact H. Qed.

Lemma bshape_iff_all a b r :
  broadcast_shapes a b = Some r <->
  length r = Nat.max (length a) (length b) /\
  forall i, bdim (rdim a i) (rdim b i) = Some (rdim r i).
Proof.
  rewrite bshape_iff. split; intros [HL HN]; (split; [exact HL|]).
  - intros i. destruct (Nat.lt_ge_cases i (length r)) as [Hi|Hi]; [apply HN; exact Hi|].
    rewrite !rdim_beyond by lia. reflexivity.
  - intros i _. apply HN.
Qed.

Lemma shape_ext a b : length a = length b -> (forall i, rdim a i = rdim b i) -> a = b.
Proof.
  intros HL H. rewrite <- (rev_involutive a), <- (rev_involutive b). f_equal.
  apply nth_ext with (d := 1) (d' := 1); [rewrite !rev_length; exact HL|]. intros i _. apply H.
Qed.

Lemma bdim_comm x y : bdim x y = bdim y x.
Proof.
  unfold bdim.
  destruct (Nat.eqb_spec x y), (Nat.eqb_spec y x), (Nat.eqb_spec x 1), (Nat.eqb_spec y 1);
    subst; try reflexivity; try congruence; try lia.
Qed.

Lemma bshape_comm a b : broadcast_shapes a b = broadcast_shapes b a.
Proof.
  destruct (broadcast_shapes a b) as [r|] eqn:E.
  - symmetry. apply bshape_iff_all in E as [HL HN]. apply bshape_iff_all.
    split; [lia|]. intros i. rewrite bdim_comm; apply HN.
  - destruct (broadcast_shapes b a) as [r|] eqn:E2; [|reflexivity].
    apply bshape_iff_all in E2 as [HL HN].
    assert (broadcast_shapes a b = Some r); [|congruence].
    apply bshape_iff_all. split; [lia|]. intros i. rewrite bdim_comm; apply HN.
Qed.

(* existence, coordinate by coordinate *)
Lemma bshape_exists a b :
  (exists r, broadcast_shapes a b = Some r) <-> (forall i, exists d, bdim (rdim a i) (rdim b i) = Some d).
Proof.
  split.
  - intros (r & E) i. apply bshape_iff_all in E as [_ HN]. exists (rdim r i). apply HN.
  - intros H. unfold broadcast_shapes.
    assert (G : forall is, exists r, collect (fun i => bdim (nth i (rev a) 1) (nth i (rev b) 1)) is = Some r).
    { induction is as [|i is (r & IH)]; simpl; [eexists; reflexivity|].
      destruct (H i) as (d & Hd). unfold rdim in Hd. rewrite Hd, IH. eexists; reflexivity. }
    destruct (G (seq 0 (Nat.max (length a) (length b)))) as (r & ->). eexists; reflexivity.
Qed.

Definition obind {A B} (o : option A) (f : A -> option B) : option B :=
  match o with Some a => f a | None => None end.

Lemma bdim_assoc x y z :
  obind (bdim x y) (fun d => bdim d z) = obind (bdim y z) (fun d => bdim x d).
Proof.
  unfold bdim, obind.
  repeat match goal with
         | |- context [Nat.eqb ?u ?v] => destruct (Nat.eqb_spec u v); subst
         end; try reflexivity; try congruence; try lia.
Qed.

Lemma bshape_assoc a b c :
  obind (broadcast_shapes a b) (fun r => broadcast_shapes r c) =
  obind (broadcast_shapes b c) (fun r => broadcast_shapes a r).
Proof.
  assert (G : forall a b c s,
     obind (broadcast_shapes a b) (fun r => broadcast_shapes r c) = Some s ->
     obind (broadcast_shapes b c) (fun r => broadcast_shapes a r) = Some s).
  { clear. intros a b c s H. destruct (broadcast_shapes a b) as [r|] eqn:E1; [|discriminate].
    cbn [obind] in H. apply bshape_iff_all in E1 as [L1 N1]. apply bshape_iff_all in H as [L2 N2].
    assert (HE : exists t, broadcast_shapes b c = Some t).
    { apply bshape_exists. intros i. pose proof (bdim_assoc (rdim a i) (rdim b i) (rdim c i)) as HA.
      rewrite N1 in HA. cbn [obind] in HA. rewrite N2 in HA.
      destruct (bdim (rdim b i) (rdim c i)) as [d|]; [exists d; reflexivity|discriminate]. }
    destruct HE as (t & E3). rewrite E3. cbn [obind]. apply bshape_iff_all in E3 as [L3 N3].
    apply bshape_iff_all. split; [lia|]. intros i.
    pose proof (bdim_assoc (rdim a i) (rdim b i) (rdim c i)) as HA.
    rewrite N1, N3 in HA. cbn [obind] in HA. rewrite N2 in HA. symmetry. exact HA. }
  destruct (obind (broadcast_shapes a b) _) as [s|] eqn:E.
  - symmetry. apply G; exact E.
  - destruct (obind (broadcast_shapes b c) _) as [s|] eqn:E2; [|reflexivity].
    (* use commutativity to run the other direction *)
    assert (H2 : obind (broadcast_shapes c b) (fun r => broadcast_shapes r a) = Some s).
    { rewrite bshape_comm. destruct (broadcast_shapes b c); [|discriminate]. cbn [obind] in *.
      rewrite bshape_comm. exact E2. }
    apply G in H2. rewrite bshape_comm in H2.
    destruct (broadcast_shapes a b); [|discriminate]. cbn [obind] in *.
    rewrite bshape_comm in H2. congruence.
Qed.

Lemma bshape_idem a : broadcast_shapes a a = Some a.
Proof.
  apply bshape_iff_all. split; [lia|]. intros i. unfold bdim. rewrite Nat.eqb_refl. reflexivity.
Qed.
Lemma bshape_unit a : broadcast_shapes [] a = Some a.
Proof.
  apply bshape_iff_all. split; [reflexivity|]. intros i. unfold rdim at 1.
  replace (nth i (rev []) 1) with 1 by (destruct i; reflexivity).
  unfold bdim. destruct (Nat.eqb_spec 1 (rdim a i)) as [E|E]; [f_equal; exact E|reflexivity].
Qed.

(* relation with broadcastable *)
Lemma rdim_skipn sh n i : i < length sh - n -> rdim (skipn n sh) i = rdim sh i.
Proof.
  intros H. unfold rdim. rewrite <- (firstn_skipn n sh) at 2. rewrite rev_app_distr, app_nth1; [reflexivity|].
  rewrite rev_length, skipn_length. exact H.
Qed.

Lemma Forall2_rev' {A B} (R : A -> B -> Prop) l m : Forall2 R l m -> Forall2 R (rev l) (rev m).
Proof. induction 1; simpl; [constructor|]. apply Forall2_app; auto. Qed.

Lemma Forall2_nth_iff {A B} (R : A -> B -> Prop) (l : list A) (m : list B) d e :
  Forall2 R l m <-> length l = length m /\ forall i, i < length l -> R (nth i l d) (nth i m e).
Proof.
  split.
  - intros H; split; [eapply Forall2_len; exact H|]. induction H; simpl; intros i Hi; [lia|].
    destruct i; [assumption|apply IHForall2; lia].
  - revert m; induction l as [|x l IH]; intros [|y m] [HL HN]; try discriminate; constructor.
    + apply (HN 0); simpl; lia.
    + apply IH. split; [simpl in HL; lia|]. intros i Hi. apply (HN (S i)); simpl; lia.
Qed.

Lemma broadcastable_rdim a c :
  broadcastable a c <->
  length a <= length c /\ forall i, i < length a -> rdim a i = rdim c i \/ rdim a i = 1.
Proof.
  unfold broadcastable, stretchable. split; intros [HL H]; (split; [exact HL|]).
  - intros i Hi. apply Forall2_rev' in H. rewrite (Forall2_nth_iff _ _ _ 1 1) in H. destruct H as [_ H].
    rewrite rev_length in H. specialize (H i Hi).
    rewrite <- (rdim_skipn c (length c - length a)) by lia. exact H.
  - assert (HF : Forall2 (fun s n => s = n \/ s = 1) (rev a) (rev (skipn (length c - length a) c))).
    { rewrite (Forall2_nth_iff _ _ _ 1 1). rewrite !rev_length, skipn_length. split; [lia|].
      intros i Hi. pose proof (rdim_skipn c (length c - length a) i ltac:(lia)) as HR.
      unfold rdim in *. rewrite HR. apply H; exact Hi. }
    apply Forall2_rev' in HF. rewrite !rev_involutive in HF. exact HF.
Qed.

Lemma bdim_some x y d : bdim x y = Some d -> (x = d \/ x = 1) /\ (y = d \/ y = 1).
Proof.
  unfold bdim. destruct (Nat.eqb_spec x y), (Nat.eqb_spec x 1), (Nat.eqb_spec y 1); intros H;
    try discriminate; injection H as <-; subst; auto.
Qed.
Lemma bdim_least x y d c :
  bdim x y = Some d -> (x = c \/ x = 1) -> (y = c \/ y = 1) -> d = c \/ d = 1.
Proof.
  unfold bdim. destruct (Nat.eqb_spec x y), (Nat.eqb_spec x 1), (Nat.eqb_spec y 1); intros H;
    try discriminate; injection H as <-; subst; intros; tauto.
Qed.
Lemma bdim_join x y c : (x = c \/ x = 1) -> (y = c \/ y = 1) -> exists d, bdim x y = Some d.
Proof.
  unfold bdim. destruct (Nat.eqb_spec x y), (Nat.eqb_spec x 1), (Nat.eqb_spec y 1);
    intros; try (eexists; reflexivity). exfalso; lia.
Qed.

Lemma bshape_upper a b r : broadcast_shapes a b = Some r -> broadcastable a r /\ broadcastable b r.
Proof.
  intros E. apply bshape_iff_all in E as [HL HN]. rewrite !broadcastable_rdim.
  split; (split; [lia|]); intros i _; apply (bdim_some _ _ _ (HN i)).
Qed.
Lemma bshape_least a b c :
  broadcastable a c -> broadcastable b c ->
  exists r, broadcast_shapes a b = Some r /\ broadcastable r c.
Proof.
  rewrite !broadcastable_rdim. intros [LA NA] [LB NB].
  assert (NA' : forall i, rdim a i = rdim c i \/ rdim a i = 1).
  { intros i. destruct (Nat.lt_ge_cases i (length a)); [auto|right; apply rdim_beyond; assumption]. }
  assert (NB' : forall i, rdim b i = rdim c i \/ rdim b i = 1).
  { intros i. destruct (Nat.lt_ge_cases i (length b)); [auto|right; apply rdim_beyond; assumption]. }
  assert (HE : exists r, broadcast_shapes a b = Some r).
  { apply bshape_exists. intros i. eapply bdim_join; eauto. }
  destruct HE as (r & E). exists r; split; [exact E|].
  apply bshape_iff_all in E as [HL HN]. apply broadcastable_rdim. split; [lia|].
  intros i _. eapply bdim_least; eauto.
Qed.

Lemma broadcast_fold_assoc acc shs :
  broadcast_fold acc shs = obind (broadcast_multi_shapes shs) (fun r => broadcast_shapes acc r).
Proof.
  revert acc; induction shs as [|s shs IH]; intros acc; cbn [broadcast_fold broadcast_multi_shapes].
  - cbn [obind]. rewrite bshape_comm, bshape_unit. reflexivity.
  - destruct (broadcast_shapes acc s) as [r|] eqn:E.
    + rewrite IH, (IH s). destruct (broadcast_multi_shapes shs) as [t|]; [|reflexivity]. cbn [obind].
      pose proof (bshape_assoc acc s t) as HA. rewrite E in HA. cbn [obind] in HA. exact HA.
    + rewrite IH. destruct (broadcast_multi_shapes shs) as [t|]; [|reflexivity]. cbn [obind].
      pose proof (bshape_assoc acc s t) as HA. rewrite E in HA. cbn [obind] in HA. exact HA.
Qed.

From Coq Require Import Permutation.
Lemma broadcast_multi_cons s shs :
  broadcast_multi_shapes (s :: shs) = obind (broadcast_multi_shapes shs) (broadcast_shapes s).
Proof. apply broadcast_fold_assoc. Qed.

Lemma broadcast_multi_perm l l' :
  Permutation l l' -> broadcast_multi_shapes l = broadcast_multi_shapes l'.
Proof.
  induction 1 as [|x l l' H IH|x y l|l l' l'' H1 IH1 H2 IH2]; [reflexivity| | |congruence].
  - rewrite !broadcast_multi_cons, IH. reflexivity.
  - rewrite !broadcast_multi_cons. destruct (broadcast_multi_shapes l) as [r|]; [|reflexivity].
    cbn [obind].
    pose proof (bshape_assoc y x r) as H1. pose proof (bshape_assoc x y r) as H2.
    rewrite (bshape_comm x y) in H2. rewrite H1 in H2. exact H2.
Qed.
