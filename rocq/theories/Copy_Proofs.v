From Verif Require Import Base Lists Arr_Spec Arr_Model Arr_Wf Arr_Proofs Copy_Model.
Local Open Scope nat_scope.
Ltac Zify.zify_post_hook ::= Z.div_mod_to_equations.

Lemma mapM_of_load {A V} (f : A -> option V) l vals :
  map f l = map Some vals <-> mapM (fun x => of_load (f x)) l = Ok vals.
Proof.
  revert vals; induction l as [|x l IH]; intros vals; simpl.
  - split; intros H; [destruct vals; [reflexivity|discriminate]|injection H as <-; reflexivity].
  - destruct (f x) as [v|] eqn:E; cbn [of_load bind].
    + split.
      * intros H. destruct vals as [|w vals]; [discriminate|]. simpl in H. injection H as -> H.
        apply IH in H. rewrite H. reflexivity.
      * destruct (mapM _ l) as [ys| | |] eqn:E2; cbn [bind]; intros H; try discriminate.
        injection H as <-. simpl. f_equal. apply IH. reflexivity.
    + split; intros H; [destruct vals; discriminate|discriminate].
Qed.

(* the elements of a view in row-major order *)
Definition elems {V} (buf : list V) (a : arr) : list (option V) := map (get buf a) (all_idx (a_shape a)).

Lemma wf_elems {V} (buf : list V) a : wf buf a ->
  exists vals, elems buf a = map Some vals /\ length vals = size a.
Proof.
  intros (_ & _ & _ & _ & HG & _). unfold elems, size. rewrite <- all_idx_length.
  assert (H : forall idx, In idx (all_idx (a_shape a)) -> exists v, get buf a idx = Some v).
  { intros idx Hi. apply HG, in_all_idx; exact Hi. }
  induction (all_idx (a_shape a)) as [|idx l IH]; simpl.
  - exists []; split; reflexivity.
  - destruct (H idx (or_introl eq_refl)) as [v Hv]. destruct IH as (vals & E & HL).
    { intros i Hi; apply H; right; exact Hi. }
    exists (v :: vals); simpl. rewrite Hv, E, HL. split; reflexivity.
Qed.

Lemma read_offsets {V} (buf : list V) a vals : wf buf a ->
  elems buf a = map Some vals -> mapM (read buf a) (iter_offsets a) = Ok vals.
Proof.
  intros (_ & _ & _ & HL & _) E. unfold read. apply mapM_of_load. rewrite <- E.
  unfold elems, iter_offsets. rewrite strided_offsets_spec, map_map by exact HL.
  apply map_ext. intros idx. unfold get, byte_offset_for. f_equal.
Qed.

(* displacements of valid elements are multiples of the item size *)
Lemma wf_dot_mult {V} (buf : list V) a idx : wf buf a -> inb idx (a_shape a) ->
  (dot idx (a_strides a) mod a_item a = 0)%Z.
Proof.
  intros W Hi. pose proof W as (HI & _ & _ & _ & HG & _).
  assert (H0 : inb (repeat 0 (length (a_shape a))) (a_shape a)).
  { rewrite <- unrank_0. apply unrank_inb. eapply inb_prod_pos; exact Hi. }
  destruct (HG _ Hi) as [v Hv]. destruct (HG _ H0) as [w Hw].
  unfold get, byte_offset_for in *. apply load_some in Hv; [|exact HI]. apply load_some in Hw; [|exact HI].
  rewrite dot_zeros in Hw.
  destruct Hv as (_ & Hv & _), Hw as (_ & Hw & _).
  rewrite Z.add_0_r in Hw. rewrite Z.add_mod, Hw, Z.add_0_l, Z.mod_mod in Hv by lia. exact Hv.
Qed.

Lemma quot_mult o item : (0 < item)%Z -> (o mod item = 0)%Z -> (Z.quot o item * item = o)%Z.
Proof.
  intros Hi Hm. apply Z.mod_divide in Hm; [|lia]. destruct Hm as [q ->].
  rewrite Z.quot_mul by lia. reflexivity.
Qed.

Lemma copy_fallback_spec {V} (buf : list V) a vals : wf buf a ->
  elems buf a = map Some vals -> copy_fallback buf a = Ok vals.
Proof.
  intros W E. rewrite <- (read_offsets buf a vals W E). unfold copy_fallback.
  pose proof W as (HI & _ & _ & HL & _).
  unfold iter_offsets. rewrite strided_offsets_spec by exact HL. rewrite !mapM_map.
  apply mapM_ext. intros idx Hidx. apply in_all_idx in Hidx.
  rewrite quot_mult; [reflexivity|exact HI|].
  rewrite Z.add_0_l. eapply wf_dot_mult; eassumption.
Qed.

Lemma concat_repeat_map {A} (f : nat -> A) n0 n1 :
  concat (repeat (map f (seq 0 n1)) n0) = flat_map (fun _ => map f (seq 0 n1)) (seq 0 n0).
Proof.
  set (r := map f (seq 0 n1)). generalize 0 as s.
  induction n0 as [|n0 IH]; intros s; simpl; [reflexivity|]. f_equal. apply IH.
Qed.

Lemma elems_2d {V} (buf : list V) a n0 n1 : a_shape a = [n0; n1] ->
  elems buf a = flat_map (fun i => map (fun j => get buf a [i; j]) (seq 0 n1)) (seq 0 n0).
Proof.
  intros H. unfold elems. rewrite H. cbn [all_idx].
  assert (E1 : flat_map (fun i => map (cons i) [[]]) (seq 0 n1) = map (fun j => [j]) (seq 0 n1)).
  { induction (seq 0 n1) as [|j l IH]; simpl; [reflexivity|]. f_equal; exact IH. }
  rewrite E1. induction (seq 0 n0) as [|i l IH]; simpl; [reflexivity|].
  rewrite map_app, IH. f_equal. rewrite !map_map. reflexivity.
Qed.

Lemma map_Some_inj {A} (l m : list A) : map Some l = map Some m -> l = m.
Proof.
  revert m; induction l as [|x l IH]; intros [|y m] H; try discriminate; [reflexivity|].
  simpl in H. injection H as -> H. f_equal; apply IH; exact H.
Qed.

Lemma map_repeat {A B} (f : A -> B) x n : map f (repeat x n) = repeat (f x) n.
Proof. induction n as [|n IH]; simpl; [reflexivity|]. f_equal; exact IH. Qed.
Lemma map_repeat_seq {A} (x : A) n : map (fun _ => x) (seq 0 n) = repeat x n.
Proof. generalize 0. induction n as [|n IH]; intros s; simpl; [reflexivity|]. f_equal; apply IH. Qed.

Lemma seq_somes {V} (f : nat -> option V) n :
  (forall j, j < n -> exists v, f j = Some v) -> exists vals, map f (seq 0 n) = map Some vals.
Proof.
  intros H. assert (G : forall l, (forall j, In j l -> j < n) -> exists vals, map f l = map Some vals).
  { induction l as [|j l IH]; intros HI; [exists []; reflexivity|].
    destruct (H j (HI j (or_introl eq_refl))) as [v Hv].
    destruct IH as [vals Hvals]; [intros; apply HI; right; assumption|].
    exists (v :: vals). simpl. rewrite Hv, Hvals. reflexivity. }
  apply G. intros j Hj. apply in_seq in Hj. lia.
Qed.

Lemma copy_broadcast_typed_spec {V} (buf : list V) a vals : wf buf a ->
  elems buf a = map Some vals -> copy_broadcast_typed buf a = Ok vals.
Proof.
  intros W E. unfold copy_broadcast_typed.
  destruct (Nat.eqb_spec (size a) 0) as [H0|H0].
  { destruct (wf_elems buf a W) as (vals' & E' & HL). rewrite E in E'. apply map_Some_inj in E'. subst vals'.
    rewrite H0 in HL. destruct vals; [reflexivity|discriminate]. }
  unfold size in H0.
  destruct (a_shape a) as [|n0 [|n1 [|]]] eqn:Es; try (apply copy_fallback_spec; assumption).
  destruct (a_strides a) as [|s0 [|s1 [|]]] eqn:Et; try (apply copy_fallback_spec; assumption).
  pose proof W as (HI & _ & _ & _ & HG & _).
  assert (HM : forall i j, i < n0 -> j < n1 ->
     ((Z.of_nat i * s0 + Z.of_nat j * s1) mod a_item a = 0)%Z).
  { intros i j Hi Hj. pose proof (wf_dot_mult buf a [i; j] W) as HD. rewrite Es, Et in HD.
    cbn [dot] in HD. rewrite Z.add_0_r in HD. apply HD. repeat constructor; assumption. }
  assert (HE : forall i j, i < n0 -> j < n1 -> exists v, get buf a [i; j] = Some v).
  { intros i j Hi Hj. apply HG. rewrite Es. repeat constructor; assumption. }
  rewrite (elems_2d buf a n0 n1 Es) in E.
  destruct (Z.eqb_spec s0 0) as [Hs0|Hs0], (Z.eqb_spec s1 0) as [Hs1|Hs1]; cbn [negb andb];
    try (apply copy_fallback_spec; [exact W|rewrite (elems_2d buf a n0 n1 Es); exact E]).
  - (* rows repeat *)
    subst s0. cbn [prod] in H0.
    assert (Hn0 : 0 < n0) by nia.
    destruct (seq_somes (fun j => get buf a [0; j]) n1) as [row Hrow]; [intros; apply HE; assumption|].
    assert (HR : mapM (fun j => read buf a (Z.quot s1 (a_item a) * Z.of_nat j * a_item a)) (seq 0 n1) = Ok row).
    { unfold read. apply mapM_of_load. rewrite <- Hrow. apply map_ext_in. intros j Hj. apply in_seq in Hj.
      unfold get, byte_offset_for. rewrite Et. cbn [dot]. f_equal.
      destruct (Nat.lt_ge_cases j 1) as [Hj1|Hj1]; [assert (j = 0) by lia; subst; lia|].
      assert (Hm : (s1 mod a_item a = 0)%Z).
      { specialize (HM 0 1 Hn0 ltac:(lia)). 
        replace (Z.of_nat 0 * 0 + Z.of_nat 1 * s1)%Z with s1 in HM by lia. exact HM. }
      pose proof (quot_mult s1 (a_item a) HI Hm). nia. }
    rewrite HR. cbn [bind]. f_equal. apply map_Some_inj. rewrite <- E, concat_map, map_repeat, <- Hrow.
    rewrite concat_repeat_map. apply flat_map_ext_in. intros i Hi. apply map_ext. intros j.
    unfold get, byte_offset_for. rewrite Et. cbn [dot]. f_equal. lia.
  - (* columns repeat *)
    subst s1. cbn [prod] in H0.
    assert (Hn1 : 0 < n1) by nia.
    destruct (seq_somes (fun i => get buf a [i; 0]) n0) as [col Hcol]; [intros; apply HE; assumption|].
    assert (HR : mapM (fun i => read buf a (Z.quot s0 (a_item a) * Z.of_nat i * a_item a)) (seq 0 n0) = Ok col).
    { unfold read. apply mapM_of_load. rewrite <- Hcol. apply map_ext_in. intros i Hi. apply in_seq in Hi.
      unfold get, byte_offset_for. rewrite Et. cbn [dot]. f_equal.
      destruct (Nat.lt_ge_cases i 1) as [Hj1|Hj1]; [assert (i = 0) by lia; subst; lia|].
      assert (Hm : (s0 mod a_item a = 0)%Z).
      { specialize (HM 1 0 ltac:(lia) Hn1). 
        replace (Z.of_nat 1 * s0 + Z.of_nat 0 * 0)%Z with s0 in HM by lia. exact HM. }
      pose proof (quot_mult s0 (a_item a) HI Hm). nia. }
    rewrite HR. cbn [bind]. f_equal. apply map_Some_inj. rewrite <- E.
    assert (EC : map Some (flat_map (fun v => repeat v n1) col)
                 = flat_map (fun ov => repeat ov n1) (map Some col)).
    { clear. induction col as [|v col IH]; simpl; [reflexivity|]. rewrite map_app, map_repeat, IH. reflexivity. }
    rewrite EC, <- Hcol, flat_map_concat_map, map_map, <- flat_map_concat_map.
    apply flat_map_ext_in. intros i Hi.
    rewrite <- map_repeat_seq. apply map_ext. intros j.
    unfold get, byte_offset_for. rewrite Et. cbn [dot]. f_equal. lia.
Qed.

Lemma copy_buf_spec {V} (buf : list V) a typed : wf buf a ->
  exists vals, copy_buf buf a typed = Ok vals /\ elems buf a = map Some vals /\ length vals = size a.
Proof.
  intros W. destruct (wf_elems buf a W) as (vals & E & HL). exists vals. split; [|split; assumption].
  unfold copy_buf. destruct (Nat.eqb_spec (size a) 0) as [H0|H0].
  { rewrite H0 in HL. destruct vals; [reflexivity|discriminate]. }
  destruct (a_c a) eqn:HC.
  - pose proof W as (HI & _ & _ & HLs & _ & HCC & _). specialize (HCC HC).
    unfold read. apply mapM_of_load. rewrite <- E. unfold elems, size. rewrite all_idx_unrank, map_map.
    apply map_ext_in. intros k Hk. apply in_seq in Hk.
    unfold get, byte_offset_for. f_equal.
    rewrite (c_contig_dot (a_shape a) (a_strides a) (a_item a)); auto; [|apply unrank_inb; lia].
    rewrite rank_unrank by lia. lia.
  - destruct typed; [apply copy_broadcast_typed_spec; assumption|apply read_offsets; assumption].
Qed.

Lemma astype_conv_spec {V W} (conv : V -> W) (buf : list V) a : wf buf a ->
  exists vals, astype_conv conv buf a = Ok (map conv vals) /\ elems buf a = map Some vals.
Proof.
  intros Wf. destruct (wf_elems buf a Wf) as (vals & E & HL). exists vals. split; [|exact E].
  unfold astype_conv. rewrite (read_offsets buf a vals Wf E). reflexivity.
Qed.

Lemma elems_get {V W} (buf : list V) (vals : list V) a (f : V -> W) idx item : (0 < item)%Z ->
  elems buf a = map Some vals -> inb idx (a_shape a) ->
  get (map f vals) (fresh (a_shape a) item) idx = option_map f (get buf a idx).
Proof.
  intros HI E H. rewrite fresh_get by exact HI. rewrite nth_error_map'.
  assert (EN : nth_error (elems buf a) (rank (a_shape a) idx) = Some (get buf a idx)).
  { unfold elems. rewrite nth_error_map', nth_error_all_idx_rank by exact H. reflexivity. }
  rewrite E, nth_error_map' in EN. destruct (nth_error vals _); cbn [option_map] in *; [|discriminate].
  injection EN as <-. reflexivity.
Qed.
