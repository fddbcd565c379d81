(* Histories of view operations refine the index-map specification. *)
From Verif Require Import Base Lists Arr_Model Arr_Spec Arr_Wf Arr_Proofs.
From Coq Require Import Permutation.
Local Open Scope nat_scope.
Ltac Zify.zify_post_hook ::= Z.div_mod_to_equations.

(* ---------- swapaxes ---------- *)
Definition transp (i j k : nat) : nat := if k =? i then j else if k =? j then i else k.

Lemma swap_axes_list_map n i j :
  i < n -> j < n -> swap_axes_list n i j = map (transp i j) (seq 0 n).
Proof.
  intros Hi Hj. apply nth_error_ext. intros k. unfold swap_axes_list.
  rewrite !nth_error_upd, upd_length, seq_length, nth_error_map', nth_error_seq. cbn [plus].
  unfold transp.
  destruct (Nat.ltb_spec i n), (Nat.ltb_spec j n); try lia.
  repeat match goal with |- context [?x <? ?y] => destruct (Nat.ltb_spec x y) end;
    repeat match goal with |- context [?x =? ?y] => destruct (Nat.eqb_spec x y) end;
    cbn [option_map]; try reflexivity; try lia; try (f_equal; lia).
all: f_equal; repeat match goal with |- context [?x =? ?y] => destruct (Nat.eqb_spec x y) end; lia.
Qed.

Lemma transp_invol i j k : transp i j (transp i j k) = k.
Proof.
  unfold transp.
  destruct (Nat.eqb_spec k i); [|destruct (Nat.eqb_spec k j)]; subst;
  repeat match goal with |- context [?x =? ?y] => destruct (Nat.eqb_spec x y) end; lia.
Qed.
Lemma transp_lt i j k n : i < n -> j < n -> (transp i j k < n <-> k < n).
Proof.
  unfold transp.
  repeat match goal with |- context [?x =? ?y] => destruct (Nat.eqb_spec x y) end; lia.
Qed.

Lemma swap_axes_perm n i j : i < n -> j < n -> Permutation (swap_axes_list n i j) (seq 0 n).
Proof.
  intros Hi Hj. rewrite swap_axes_list_map by assumption. apply NoDup_Permutation.
  - apply FinFun.Injective_map_NoDup; [|apply seq_NoDup].
    intros x y E. rewrite <- (transp_invol i j x), <- (transp_invol i j y), E. reflexivity.
  - apply seq_NoDup.
  - intros k. rewrite in_map_iff. split.
    + intros (x & <- & Hx). apply in_seq in Hx. apply in_seq.
      pose proof (transp_lt i j x n Hi Hj). lia.
    + intros Hk. exists (transp i j k). split; [apply transp_invol|].
      apply in_seq in Hk. apply in_seq. pose proof (transp_lt i j k n Hi Hj). lia.
Qed.

Lemma swap_at_map i j l :
  i < length l -> j < length l ->
  swap_at i j l = map (fun k => nth (transp i j k) l 0) (seq 0 (length l)).
Proof.
  intros Hi Hj. apply nth_error_ext; intros k. unfold swap_at.
  rewrite !nth_error_upd, upd_length, nth_error_map', nth_error_seq. cbn [plus].
  unfold transp.
  destruct (Nat.ltb_spec i (length l)), (Nat.ltb_spec j (length l)); try lia.
  destruct (Nat.ltb_spec k (length l)) as [Hk|Hk]; cbn [option_map].
  - destruct (Nat.eqb_spec k j), (Nat.eqb_spec k i); subst; try reflexivity.
    apply nth_error_nth'; exact Hk.
  - destruct (Nat.eqb_spec k j); [lia|]. destruct (Nat.eqb_spec k i); [lia|].
    apply nth_error_None; exact Hk.
Qed.

Lemma swapaxes_is_view {V} (buf : list V) a i j :
  wf buf a -> i < ndim a -> j < ndim a ->
  exists a', swapaxes_view a i j = Ok a' /\
    is_view buf a a' (swap_at i j (a_shape a)) (swap_at i j).
Proof.
  intros W Hi Hj. unfold swapaxes_view.
  destruct (Nat.ltb_spec i (ndim a)); [|lia]. destruct (Nat.ltb_spec j (ndim a)); [|lia]. cbn [andb].
  pose proof (swap_axes_perm (ndim a) i j Hi Hj) as HP.
  destruct (transpose_axes_is_view buf a _ W HP) as (a' & E & Hs & Hw & Hg).
  exists a'; split; [exact E|].
  assert (ES : map (fun k => nth k (a_shape a) 0) (swap_axes_list (ndim a) i j) = swap_at i j (a_shape a)).
  { rewrite swap_at_map by assumption. rewrite swap_axes_list_map by assumption. rewrite map_map. reflexivity. }
  rewrite ES in *.
  split; [exact Hs|]. split; [exact Hw|]. intros idx Hidx.
  pose proof (inb_length _ _ Hidx) as HL. unfold swap_at in HL. rewrite !upd_length in HL.
  unfold ndim in *.
  assert (EU : unpermute (swap_axes_list (length (a_shape a)) i j) idx = swap_at i j idx).
  { rewrite swap_at_map by lia. unfold unpermute.
    rewrite (Permutation_length HP), seq_length, HL. apply map_ext_in. intros k Hk.
    apply in_seq in Hk. f_equal.
    assert (ND : NoDup (swap_axes_list (length (a_shape a)) i j))
      by (eapply Permutation_NoDup; [symmetry; exact HP|apply seq_NoDup]).
    rewrite <- (transp_invol i j k) at 1.
    pose proof (transp_lt i j k (length (a_shape a)) Hi Hj) as HT.
    assert (EN : nth (transp i j k) (swap_axes_list (length (a_shape a)) i j) 0 = transp i j (transp i j k)).
    { rewrite swap_axes_list_map by assumption.
      apply nth_error_nth. rewrite nth_error_map', nth_error_seq.
      destruct (Nat.ltb_spec (transp i j k) (length (a_shape a))); [reflexivity|lia]. }
    rewrite <- EN. apply index_of_nth; [exact ND|].
    rewrite (Permutation_length HP), seq_length. lia. }
  rewrite <- EU. apply Hg; exact Hidx.
Qed.

(* ---------- diagonal ---------- *)
Lemma diagonal_is_view {V} (buf : list V) a d0 d1 :
  wf buf a -> a_shape a = [d0; d1] ->
  exists a', diagonal a = Ok a' /\
    is_view buf a a' [Nat.min d0 d1] (fun idx => match idx with [i] => [i; i] | _ => [] end).
Proof.
  intros W Hs. pose proof W as (_ & _ & _ & HL & _). unfold diagonal. rewrite Hs in *.
  destruct (a_strides a) as [|s0 [|s1 [|? ?]]] eqn:Est; try discriminate.
  eexists; split; [reflexivity|].
  apply view0_is_view; [exact W|reflexivity|].
  intros idx Hi. inversion Hi as [|i ? t ? Hi0 Ht]; subst. inversion Ht; subst.
  rewrite Hs, Est. split; [repeat constructor; lia|]. cbn [dot]. lia.
Qed.

(* ---------- one step ---------- *)
Lemma strides_nth {V} (buf : list V) a axis :
  wf buf a -> axis < length (a_shape a) ->
  nth_error (a_strides a) axis = Some (nth axis (a_strides a) 0%Z).
Proof. intros (_ & _ & _ & HL & _) H. apply nth_error_nth'. lia. Qed.

Lemma count_unique (P : nat -> Prop) n m :
  (forall j, j < n <-> P j) -> (forall j, j < m <-> P j) -> n = m.
Proof.
  intros H1 H2. assert (A : forall j, j < n <-> j < m) by (intros j; rewrite H1, H2; tauto).
  pose proof (A n); pose proof (A m). lia.
Qed.

Lemma step_refines {V} (buf : list V) a op sh' f :
  wf buf a -> denotes op (a_shape a) sh' f -> step_ok op a = true ->
  exists a', run_vop op a = Ok a' /\ is_view buf a a' sh' f.
Proof.
  intros W D G. inversion D; subst; cbn [run_vop step_ok] in *.
  - eexists; split; [reflexivity|]. apply transpose_is_view; exact W.
  - apply transpose_axes_is_view; [exact W|].
    apply NoDup_Permutation; [assumption|apply seq_NoDup|]. intros k. rewrite in_seq.
    match goal with H : forall k, _ <-> _ |- _ => rewrite H end. unfold ndim; lia.
  - apply swapaxes_is_view; assumption.
  - assert (Hax : axis < length (a_shape a))
      by (apply nth_error_Some; match goal with H : nth_error _ axis = _ |- _ => rewrite H end; discriminate).
    destruct (slice_axis_is_view buf a axis start stop step len (nth axis (a_strides a) 0%Z) W)
      as (a' & m & E & Hm & Hv); try assumption; [eapply strides_nth; eassumption|lia|].
    assert (m = n) by (eapply count_unique; eassumption). subst m.
    exists a'; split; [exact E|exact Hv].
  - assert (Hax : axis < length (a_shape a))
      by (apply nth_error_Some; match goal with H : nth_error _ axis = _ |- _ => rewrite H end; discriminate).
    eapply flip_is_view; [exact W|eassumption|eapply strides_nth; eassumption|].
    match goal with H : nth_error (a_shape a) axis = Some _ |- _ =>
      rewrite (nth_error_nth _ _ 0 H) in G end. lia.
  - apply reshape_c_is_view; assumption.
  - apply broadcast_to_is_view; assumption.
  - destruct (expand_dims_is_view buf a axis W) as [He _]. apply He. assumption.
  - eexists; split; [reflexivity|]. apply squeeze_axis_is_view; assumption.
  - eexists; split; [reflexivity|]. apply squeeze_is_view; exact W.
  - apply diagonal_is_view; [exact W|congruence].
Qed.

Lemma history_refines {V} (buf : list V) ops : forall a sh' f,
  wf buf a -> history ops (a_shape a) sh' f -> steps_ok ops a = true ->
  exists a', run_vops ops a = Ok a' /\ is_view buf a a' sh' f.
Proof.
  induction ops as [|op ops IH]; intros a sh' f W H G; inversion H; subst.
  - exists a; split; [reflexivity|]. split; [reflexivity|]. split; [exact W|]. auto.
  - cbn [steps_ok run_vops] in *. apply andb_true_iff in G as [G1 G2].
    match goal with HD : denotes _ _ ?s ?f1, HH : history _ ?s _ ?g1 |- _ =>
      destruct (step_refines buf a op s f1 W HD G1) as (a1 & E1 & V1); rename HH into HR end.
    rewrite E1 in *. cbn [bind]. destruct V1 as (S1 & W1 & G1').
    rewrite <- S1 in HR.
    destruct (IH a1 sh' g W1 HR G2) as (a2 & E2 & S2 & W2 & G2').
    exists a2; split; [exact E2|]. split; [exact S2|]. split; [exact W2|].
    intros idx Hi. destruct (G2' idx Hi) as [Ha Hb]. rewrite S1 in Ha.
    destruct (G1' (g idx) Ha) as [Hc Hd]. split; [exact Hc|congruence].
Qed.

(* ---------- histories that never need the guard ---------- *)
Definition nonneg_strides (a : arr) : Prop := Forall (fun s => (0 <= s)%Z) (a_strides a).

Lemma gather_forall {A} (P : A -> Prop) l axes r :
  gather l axes = Ok r -> Forall P l -> Forall P r.
Proof.
  unfold gather. revert r; induction axes as [|i axes IH]; cbn [mapM]; intros r H HP.
  - injection H as <-; constructor.
  - destruct (nth_error l i) as [x|] eqn:E; cbn [bind] in H; [|discriminate].
    destruct (mapM _ axes) eqn:E2; cbn [bind] in H; try discriminate. injection H as <-.
    constructor; [|apply IH; auto]. rewrite Forall_forall in HP. apply HP. eapply nth_error_In; exact E.
Qed.
Lemma Forall_upd {A} (P : A -> Prop) l n v : Forall P l -> P v -> Forall P (upd l n v).
Proof. intros H Hv; revert n; induction H as [|x l Hx H IH]; intros [|n]; simpl; auto. Qed.
Lemma Forall_insert_at {A} (P : A -> Prop) l n v : Forall P l -> P v -> Forall P (insert_at n v l).
Proof. intros H Hv; revert n; induction H as [|x l Hx H IH]; intros [|n]; simpl; auto. Qed.
Lemma Forall_remove_at {A} (P : A -> Prop) l n : Forall P l -> Forall P (remove_at n l).
Proof. intros H; revert n; induction H as [|x l Hx H IH]; intros [|n]; simpl; auto. Qed.
Lemma bcast_nonneg sh st nsh r :
  bcast_strides sh st nsh = Some r -> Forall (fun s => (0 <= s)%Z) st -> Forall (fun s => (0 <= s)%Z) r.
Proof.
  revert st nsh r; induction sh as [|s sh IH]; intros st nsh r H HP.
  - cbn in H; injection H as <-; constructor.
  - destruct st as [|x st], nsh as [|n nsh]; try discriminate. cbn [bcast_strides] in H.
    inversion HP; subst.
    destruct (s =? n).
    + destruct (bcast_strides sh st nsh) eqn:E; [|discriminate]. injection H as <-.
      constructor; [assumption|eapply IH; eassumption].
    + destruct (s =? 1); [|discriminate].
      destruct (bcast_strides sh st nsh) eqn:E; [|discriminate]. injection H as <-.
      constructor; [lia|eapply IH; eassumption].
Qed.
Lemma squeeze_lists_nonneg sh st :
  Forall (fun s => (0 <= s)%Z) st -> Forall (fun s => (0 <= s)%Z) (snd (squeeze_lists sh st)).
Proof.
  revert st; induction sh as [|s sh IH]; intros [|x st] H; cbn; try constructor.
  inversion H; subst. specialize (IH st ltac:(assumption)).
  destruct (squeeze_lists sh st). destruct (s =? 1); cbn in *; auto.
Qed.

Lemma step_nonneg op a a' :
  (0 < a_item a)%Z -> forward_op op = true -> nonneg_strides a -> run_vop op a = Ok a' ->
  nonneg_strides a' /\ a_item a' = a_item a.
Proof.
  unfold nonneg_strides. intros HI HF HN H.
  assert (TA : forall axes b, transpose_axes a axes = Ok b ->
     Forall (fun s => (0 <= s)%Z) (a_strides b) /\ a_item b = a_item a).
  { intros axes b E. unfold transpose_axes in E. destruct (negb _); [discriminate|].
    destruct (gather (a_shape a) axes); cbn [bind] in E; try discriminate.
    destruct (gather (a_strides a) axes) eqn:E2; cbn [bind] in E; try discriminate.
    injection E as <-. split; [|reflexivity]. cbn. eapply gather_forall; eassumption. }
  destruct op; cbn [run_vop forward_op] in *; try discriminate.
  - injection H as <-. split; [|reflexivity]. cbn. apply Forall_rev; exact HN.
  - eapply TA; exact H.
  - unfold swapaxes_view in H. destruct (_ && _); [|discriminate]. eapply TA; exact H.
  - unfold slice_axis in H. destruct (nth_error (a_strides a) axis) as [x|] eqn:E; [|discriminate].
    destruct (nth_error (a_shape a) axis); [|discriminate].
    destruct (slice_len start stop step); cbn [bind] in H; try discriminate.
    injection H as <-. split; [|reflexivity]. cbn. apply Forall_upd; [exact HN|].
    rewrite Forall_forall in HN. specialize (HN x (nth_error_In _ _ E)). nia.
  - unfold broadcast_to in H. destruct (_ <? _); [discriminate|].
    destruct (bcast_strides _ _ _) eqn:E; [|discriminate]. injection H as <-.
    split; [|reflexivity]. cbn. apply Forall_app. split.
    + apply Forall_forall. intros x Hx. apply repeat_spec in Hx. lia.
    + eapply bcast_nonneg; eassumption.
  - unfold expand_dims in H. destruct (_ <? _); [discriminate|]. injection H as <-.
    split; [|reflexivity]. cbn. apply Forall_insert_at; [exact HN|lia].
  - injection H as <-. unfold squeeze_axis.
    destruct (nth_error (a_shape a) axis) as [[|[|?]]|]; try (split; [exact HN|reflexivity]).
    split; [|reflexivity]. cbn. apply Forall_remove_at; exact HN.
  - injection H as <-. unfold squeeze. pose proof (squeeze_lists_nonneg (a_shape a) (a_strides a) HN) as HS.
    destruct (squeeze_lists _ _) as [r t]. cbn in HS. destruct (_ && _); split; try reflexivity; cbn; auto.
    constructor; [lia|constructor].
  - unfold diagonal in H. destruct (a_shape a) as [|d0 [|d1 ?]]; try discriminate.
    destruct (a_strides a) as [|s0 [|s1 ?]]; try discriminate. injection H as <-.
    split; [|reflexivity]. cbn. inversion HN as [|? ? ? HN']; subst. inversion HN'; subst.
    constructor; [lia|constructor].
Qed.

Lemma nth_nonneg l n : Forall (fun s => (0 <= s)%Z) l -> (0 <= nth n l 0)%Z.
Proof. intros H; revert n; induction H as [|x l Hx H IH]; intros [|n]; simpl; auto; lia. Qed.

Lemma forward_steps_ok ops : forall a,
  (0 < a_item a)%Z -> nonneg_strides a -> forallb forward_op ops = true -> steps_ok ops a = true.
Proof.
  induction ops as [|op ops IH]; intros a HI HN HF; [reflexivity|].
  cbn [forallb steps_ok] in *. apply andb_true_iff in HF as [HF1 HF2]. apply andb_true_iff; split.
  - destruct op; cbn in *; try reflexivity; try discriminate.
    pose proof (nth_nonneg (a_strides a) axis HN). lia.
  - destruct (run_vop op a) as [a'| | |] eqn:E; try reflexivity.
    destruct (step_nonneg op a a' HI HF1 HN E) as [HN' HI']. apply IH; auto. lia.
Qed.

Lemma c_strides_nonneg sh item : (0 <= item)%Z -> Forall (fun s => (0 <= s)%Z) (c_strides sh item).
Proof.
  intros H. induction sh as [|s sh IH]; [constructor|]. rewrite c_strides_cons. constructor; [nia|exact IH].
Qed.

Lemma fresh_history {V} (buf : list V) sh item ops sh' f :
  (0 < item)%Z -> (Z.of_nat (length buf) * item < 2 ^ 63)%Z -> length buf = prod sh ->
  history ops sh sh' f -> steps_ok ops (fresh sh item) = true ->
  exists a', run_vops ops (fresh sh item) = Ok a' /\ a_shape a' = sh' /\
    forall idx, inb idx sh' -> inb (f idx) sh /\ get buf a' idx = nth_error buf (rm_rank sh (f idx)).
Proof.
  intros HI HB HL HH HG.
  pose proof (fresh_wf buf sh item HI HB HL) as W.
  destruct (history_refines buf ops (fresh sh item) sh' f W HH HG) as (a' & E & S1 & _ & G).
  exists a'; split; [exact E|]. split; [exact S1|]. intros idx Hi.
  destruct (G idx Hi) as [Ha Hb]. split; [exact Ha|].
  rewrite Hb, rm_rank_eq. apply fresh_get; exact HI.
Qed.

Lemma fresh_forward_history {V} (buf : list V) sh item ops sh' f :
  (0 < item)%Z -> (Z.of_nat (length buf) * item < 2 ^ 63)%Z -> length buf = prod sh ->
  history ops sh sh' f -> forallb forward_op ops = true ->
  exists a', run_vops ops (fresh sh item) = Ok a' /\ a_shape a' = sh' /\
    forall idx, inb idx sh' -> inb (f idx) sh /\ get buf a' idx = nth_error buf (rm_rank sh (f idx)).
Proof.
  intros HI HB HL HH HF. apply fresh_history; try assumption.
  apply forward_steps_ok; [exact HI| |exact HF].
  apply c_strides_nonneg. lia.
Qed.
