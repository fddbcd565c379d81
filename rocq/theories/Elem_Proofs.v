(* Proofs about the element-wise loops. *)
From Verif Require Import Base Lists Arr_Spec Arr_Model Arr_Wf Arr_Proofs Bcast_Model Bcast_Proofs
  Copy_Model Copy_Proofs Idx_Model Idx_Assign Elem_Model.
Local Open Scope nat_scope.

(* ---------- shapes of loops ---------- *)
Lemma mapM_seq_all {B} (F : nat -> res B) (G : list nat -> res B) sh :
  (forall k, k < prod sh -> F k = G (unrank sh k)) ->
  mapM F (seq 0 (prod sh)) = mapM G (all_idx sh).
Proof.
  intros H. rewrite all_idx_unrank, mapM_map. apply mapM_ext.
  intros k Hk. apply in_seq in Hk. apply H. lia.
Qed.

Lemma mapM_concat {A B C} (g : B -> res C) (h : A -> list B) l :
  bind (mapM (fun x => mapM g (h x)) l) (fun rows => Ok (concat rows)) = mapM g (flat_map h l).
Proof.
  induction l as [|x l IH]; cbn [mapM flat_map bind concat]; [reflexivity|].
  rewrite mapM_app, <- IH. destruct (mapM g (h x)); cbn [bind]; try reflexivity.
  destruct (mapM _ l); cbn [bind concat]; reflexivity.
Qed.

Lemma all_idx_snoc sh n :
  all_idx (sh ++ [n]) = flat_map (fun oi => map (fun k => oi ++ [k]) (seq 0 n)) (all_idx sh).
Proof.
  induction sh as [|s sh IH]; cbn [app all_idx].
  - cbn [flat_map]. rewrite app_nil_r. cbn [app].
    induction (seq 0 n) as [|i l IHl]; [reflexivity|]. cbn [flat_map map app]. f_equal; exact IHl.
  - rewrite IH. induction (seq 0 s) as [|i l IHl]; [reflexivity|]. cbn [flat_map].
    rewrite flat_map_app, <- IHl. f_equal. clear.
    induction (all_idx sh) as [|x l IH]; [reflexivity|]. cbn [flat_map map].
    rewrite map_app, IH, map_map. reflexivity.
Qed.

Lemma mapM_rows {B} (H : list nat -> nat -> res B) (G : list nat -> res B) outer inner :
  (forall oi k, inb oi outer -> k < inner -> H oi k = G (oi ++ [k])) ->
  bind (mapM (fun oi => mapM (H oi) (seq 0 inner)) (all_idx outer)) (fun rows => Ok (concat rows))
  = mapM G (all_idx (outer ++ [inner])).
Proof.
  intros E. rewrite all_idx_snoc, <- mapM_concat.
  f_equal. apply mapM_ext. intros oi Ho. apply in_all_idx in Ho. rewrite mapM_map.
  apply mapM_ext. intros k Hk. apply in_seq in Hk. apply E; [exact Ho|lia].
Qed.

Lemma last_split {A} (l : list A) : 0 < length l -> exists l' x, l = l' ++ [x] /\ length l' = length l - 1.
Proof.
  intros H. destruct (exists_last (l := l)) as (l' & x & ->); [destruct l; [simpl in H; lia|discriminate]|].
  exists l', x. split; [reflexivity|]. rewrite app_length; simpl; lia.
Qed.

Lemma dot_snoc oi k st s : length oi = length st ->
  dot (oi ++ [k]) (st ++ [s]) = (dot oi (st ++ [s]) + Z.of_nat k * s)%Z.
Proof.
  intros H. rewrite dot_app by exact H.
  rewrite <- (app_nil_r oi) at 2. rewrite dot_app by exact H. cbn [dot]. lia.
Qed.

(* byte offset of element k in the contiguous loop *)
Lemma contig_off {V} (buf : list V) a k : wf buf a -> a_c a = true -> k < size a ->
  (Z.of_nat k * a_item a = byte_offset_for a (unrank (a_shape a) k))%Z.
Proof.
  intros (_ & _ & _ & HL & _ & HC & _) Hc Hk. unfold byte_offset_for.
  rewrite (c_contig_dot (a_shape a) (a_strides a) (a_item a));
    [|exact HL|apply unrank_inb; exact Hk|apply HC; exact Hc].
  rewrite rank_unrank by exact Hk. lia.
Qed.

(* what every path computes *)
Definition lift1 {A W} (f : A -> res W) (buf : list A) (a : arr) (idx : list nat) : res W :=
  bind (of_load (get buf a idx)) f.
Definition lift2 {A B W} (f : A -> B -> res W) (bufA : list A) (bufB : list B) (a b : arr)
    (idx : list nat) : res W :=
  bind (of_load (get bufA a idx)) (fun x => bind (of_load (get bufB b idx)) (fun y => f x y)).

Lemma app1_lift {A W} (f : A -> res W) buf a idx :
  app1 f buf a (byte_offset_for a idx) = lift1 f buf a idx.
Proof. reflexivity. Qed.
Lemma app2_lift {A B W} (f : A -> B -> res W) bufA bufB a b idx :
  app2 f bufA bufB a (byte_offset_for a idx) b (byte_offset_for b idx) = lift2 f bufA bufB a b idx.
Proof. reflexivity. Qed.

Lemma all_idx_empty sh : prod sh = 0 -> all_idx sh = [].
Proof. intros H. apply length_zero_iff_nil. rewrite all_idx_length. exact H. Qed.

Lemma at_last {A} (l : list A) x n : n = length l -> at_ (l ++ [x]) n = Ok x.
Proof.
  intros ->. unfold at_. rewrite nth_error_app2 by lia. rewrite Nat.sub_diag. reflexivity.
Qed.

Theorem dispatch_zip_spec {A B W} (f : A -> B -> res W) bufA bufB a b sh :
  wf bufA a -> wf bufB b -> a_shape a = sh -> a_shape b = sh ->
  dispatch_zip f bufA bufB a b sh = mapM (lift2 f bufA bufB a b) (all_idx sh).
Proof.
  intros WA WB EA EB. unfold dispatch_zip.
  destruct (Nat.eqb_spec (prod sh) 0) as [H0|H0]; [rewrite all_idx_empty by exact H0; reflexivity|].
  pose proof WA as (_ & _ & _ & LA & _). pose proof WB as (_ & _ & _ & LB & _).
  rewrite EA in LA. rewrite EB in LB.
  destruct (a_c a && list_eqb (a_shape a) sh && (a_c b && list_eqb (a_shape b) sh)) eqn:EC.
  - apply andb_true_iff in EC as [E1 E2]. apply andb_true_iff in E1 as [CA _]. apply andb_true_iff in E2 as [CB _].
    unfold zip_contig. apply mapM_seq_all. intros k Hk.
    rewrite (contig_off bufA a k WA CA), (contig_off bufB b k WB CB)
      by (unfold size; rewrite ?EA, ?EB; exact Hk).
    rewrite EA, EB. apply app2_lift.
  - destruct (Nat.leb_spec (length sh) 1) as [H1|H1].
    + destruct sh as [|n [|? ?]]; [| |simpl in H1; lia].
      * cbn [length Nat.eqb bind prod]. unfold zip_strided. apply (mapM_seq_all _ _ []).
        intros k Hk. cbn [prod] in Hk. replace k with 0 by lia. cbn [unrank].
        rewrite <- app2_lift. f_equal; unfold byte_offset_for; cbn; lia.
      * destruct (a_strides a) as [|sa [|? ?]] eqn:SA; try discriminate.
        destruct (a_strides b) as [|sb [|? ?]] eqn:SB; try discriminate.
        cbn [length Nat.eqb at_ nth_error bind]. unfold zip_strided. apply mapM_seq_all.
        intros k Hk. cbn [prod] in Hk. rewrite Nat.mul_1_r in Hk.
        assert (U : unrank [n] k = [k]).
        { cbn [unrank prod]. rewrite Nat.div_1_r, ?(Nat.mod_small k n) by lia. reflexivity. }
        rewrite U, <- app2_lift. unfold byte_offset_for. rewrite SA, SB. cbn [dot]. f_equal; lia.
    + destruct (last_split sh) as (outer & inner & Es & HL); [lia|].
      destruct (last_split (a_strides a)) as (sta & sa & Ea & HA); [lia|].
      destruct (last_split (a_strides b)) as (stb & sb & Eb & HB); [lia|].
      rewrite Ea, Eb, !at_last by lia. cbn [bind].
      assert (EF : firstn (length sh - 1) sh = outer).
      { rewrite Es at 2. rewrite <- HL. rewrite firstn_app, firstn_all, Nat.sub_diag. apply app_nil_r. }
      assert (EN : nth (length sh - 1) sh 0 = inner).
      { rewrite Es at 2. rewrite <- HL. rewrite app_nth2, Nat.sub_diag by lia. reflexivity. }
      rewrite EF, EN, <- HL, odometer_all. rewrite Es. unfold zip_strided. apply mapM_rows.
      intros oi k Ho Hk. rewrite <- app2_lift. unfold byte_offset_for. rewrite Ea, Eb.
      apply inb_length in Ho. rewrite !dot_snoc by lia. reflexivity.
Qed.

Lemma trait_zip_spec {A B W} (f : A -> B -> res W) bufA bufB a b sh :
  trait_zip f bufA bufB a b sh = mapM (lift2 f bufA bufB a b) (all_idx sh).
Proof. unfold trait_zip. rewrite odometer_all. reflexivity. Qed.

Lemma element_zip_spec {A B W} (f : A -> B -> res W) bufA bufB a b sh :
  a_shape a = sh -> a_shape b = sh ->
  element_zip f bufA bufB a b sh = mapM (lift2 f bufA bufB a b) (all_idx sh).
Proof.
  intros EA EB. unfold element_zip. rewrite odometer_all. apply mapM_ext. intros idx Hi.
  apply in_all_idx in Hi. unfold get_element, lift2. rewrite EA, EB, !(proj2 (idx_ok_iff _ _) Hi). reflexivity.
Qed.

Theorem dispatch_map_spec {A W} (f : A -> res W) buf a : wf buf a ->
  dispatch_map f buf a = mapM (lift1 f buf a) (all_idx (a_shape a)).
Proof.
  intros WA. unfold dispatch_map, ndim, size in *.
  destruct (Nat.eqb_spec (prod (a_shape a)) 0) as [H0|H0]; [rewrite all_idx_empty by exact H0; reflexivity|].
  pose proof WA as (_ & _ & _ & LA & _).
  destruct (a_c a) eqn:CA.
  - apply mapM_seq_all. intros k Hk.
    rewrite (contig_off buf a k WA CA) by exact Hk. apply app1_lift.
  - set (sh := a_shape a) in *. destruct (Nat.leb_spec (length sh) 1) as [H1|H1].
    + destruct sh as [|n [|? ?]] eqn:ES; [| |simpl in H1; lia].
      * cbn [length Nat.eqb bind prod]. unfold map_strided. apply (mapM_seq_all _ _ []).
        intros k Hk. cbn [prod] in Hk. replace k with 0 by lia. cbn [unrank].
        rewrite <- app1_lift. f_equal; unfold byte_offset_for; cbn; lia.
      * destruct (a_strides a) as [|sa [|? ?]] eqn:SA; try discriminate.
        cbn [length Nat.eqb at_ nth_error bind]. unfold map_strided. apply mapM_seq_all.
        intros k Hk. cbn [prod] in Hk. rewrite Nat.mul_1_r in Hk.
        assert (U : unrank [n] k = [k]).
        { cbn [unrank prod]. rewrite Nat.div_1_r, ?(Nat.mod_small k n) by lia. reflexivity. }
        rewrite U, <- app1_lift. unfold byte_offset_for. rewrite SA. cbn [dot]. f_equal; lia.
    + destruct (last_split sh) as (outer & inner & Es & HL); [lia|].
      destruct (last_split (a_strides a)) as (sta & sa & Ea & HA); [lia|].
      rewrite Ea, !at_last by lia. cbn [bind].
      assert (EF : firstn (length sh - 1) sh = outer).
      { rewrite Es at 2. rewrite <- HL. rewrite firstn_app, firstn_all, Nat.sub_diag. apply app_nil_r. }
      assert (EN : nth (length sh - 1) sh 0 = inner).
      { rewrite Es at 2. rewrite <- HL. rewrite app_nth2, Nat.sub_diag by lia. reflexivity. }
      rewrite EF, EN, <- HL, odometer_all. rewrite Es. unfold map_strided. apply mapM_rows.
      intros oi k Ho Hk. rewrite <- app1_lift. unfold byte_offset_for. rewrite Ea.
      apply inb_length in Ho. rewrite !dot_snoc by lia. reflexivity.
Qed.

Lemma trait_map_spec {A W} (f : A -> res W) buf a : wf buf a ->
  trait_map f buf a = mapM (lift1 f buf a) (all_idx (a_shape a)).
Proof.
  intros (_ & _ & _ & HL & _). unfold trait_map, size.
  destruct (Nat.eqb_spec (prod (a_shape a)) 0) as [H0|H0]; [rewrite all_idx_empty by exact H0; reflexivity|].
  unfold iter_offsets. rewrite strided_offsets_spec, mapM_map by exact HL. reflexivity.
Qed.

(* ---------- reading off the results ---------- *)
Lemma mapM_all_idx_get {W} (G : list nat -> res W) sh vals item idx : (0 < item)%Z ->
  mapM G (all_idx sh) = Ok vals -> inb idx sh ->
  exists w, get vals (fresh sh item) idx = Some w /\ G idx = Ok w.
Proof.
  intros HI E H. rewrite fresh_get by exact HI.
  apply (mapM_nth G (all_idx sh) vals _ idx E). apply nth_error_all_idx_rank; exact H.
Qed.

Lemma mapM_all_ok {A B} (f : A -> res B) l :
  (forall x, In x l -> exists y, f x = Ok y) -> exists ys, mapM f l = Ok ys.
Proof.
  induction l as [|x l IH]; intros H; cbn [mapM]; [eauto|].
  destruct (H x (or_introl eq_refl)) as [y Hy]. destruct IH as [ys Hys]; [intros; apply H; right; assumption|].
  rewrite Hy, Hys. cbn [bind]. eauto.
Qed.

Lemma mapM_no_err {A B} (f : A -> res B) l e :
  mapM f l = e -> (forall x, In x l -> f x = Panic \/ exists y, f x = Ok y) ->
  (exists x, In x l /\ f x = Panic) -> e = Panic.
Proof.
  intros <-. induction l as [|x l IH]; intros H (z & Hz & Ez); [destruct Hz|]. cbn [mapM].
  destruct (H x (or_introl eq_refl)) as [E|[y E]]; rewrite E; [reflexivity|]. cbn [bind].
  rewrite IH; [reflexivity|intros; apply H; right; assumption|].
  destruct Hz as [->|Hz]; [congruence|]. exists z; auto.
Qed.

Lemma wf_get {V} (buf : list V) a idx : wf buf a -> inb idx (a_shape a) -> exists v, get buf a idx = Some v.
Proof. intros (_ & _ & _ & _ & HG & _). apply HG. Qed.

(* the whole pipeline, with broadcasting *)
Theorem elementwise2_spec {A B W} (f : A -> B -> res W) path bufA a bufB b :
  wf bufA a -> wf bufB b ->
  match broadcast_shapes (a_shape a) (a_shape b) with
  | None => elementwise2 f path bufA a bufB b = Err
  | Some sh =>
      elementwise2 f path bufA a bufB b =
      bind (mapM (fun idx =>
              bind (of_load (get bufA a (unbroadcast (a_shape a) idx))) (fun x =>
              bind (of_load (get bufB b (unbroadcast (a_shape b) idx))) (fun y => f x y)))
            (all_idx sh)) (fun vals => Ok (sh, vals))
  end.
Proof.
  intros WA WB. unfold elementwise2.
  destruct (broadcast_shapes (a_shape a) (a_shape b)) as [sh|] eqn:E; [|reflexivity].
  destruct (bshape_upper _ _ _ E) as [UA UB].
  destruct (proj1 (broadcast_to_is_view bufA a sh WA) UA) as (a' & Ea & SA & WA' & GA).
  destruct (proj1 (broadcast_to_is_view bufB b sh WB) UB) as (b' & Eb & SB & WB' & GB).
  rewrite Ea, Eb. cbn [bind].
  assert (EQ : mapM (lift2 f bufA bufB a' b') (all_idx sh) =
    mapM (fun idx =>
              bind (of_load (get bufA a (unbroadcast (a_shape a) idx))) (fun x =>
              bind (of_load (get bufB b (unbroadcast (a_shape b) idx))) (fun y => f x y)))
            (all_idx sh)).
  { apply mapM_ext. intros idx Hi. apply in_all_idx in Hi. unfold lift2.
    rewrite (proj2 (GA idx Hi)), (proj2 (GB idx Hi)). reflexivity. }
  rewrite <- EQ. f_equal.
  destruct path; [apply dispatch_zip_spec|apply trait_zip_spec|apply element_zip_spec]; assumption.
Qed.

(* ---------- where ---------- *)
Lemma zip3_map {X Y} (f g h : X -> Y) l :
  zip3 (map f l) (map g l) (map h l) = map (fun x => (f x, g x, h x)) l.
Proof. induction l as [|x l IH]; cbn; [reflexivity|]. f_equal; exact IH. Qed.

Definition lift_where {V} (truth : list Z -> bool) cbuf (xbuf ybuf : list V) c x y idx : res V :=
  bind (of_load (get cbuf c idx)) (fun bytes =>
  if truth bytes then of_load (get xbuf x idx) else of_load (get ybuf y idx)).

Lemma where_typed_spec {V} cbuf (xbuf ybuf : list V) c x y sh :
  wf cbuf c -> wf xbuf x -> wf ybuf y ->
  broadcastable (a_shape c) sh -> broadcastable (a_shape x) sh -> broadcastable (a_shape y) sh ->
  exists truth, (truth = truth_contig \/ truth = truth_strided) /\
  where_typed cbuf xbuf ybuf c x y sh =
  mapM (fun idx => bind (of_load (get cbuf c (unbroadcast (a_shape c) idx))) (fun bytes =>
        if truth bytes then of_load (get xbuf x (unbroadcast (a_shape x) idx))
        else of_load (get ybuf y (unbroadcast (a_shape y) idx)))) (all_idx sh).
Proof.
  intros WC WX WY BC BX BY. unfold where_typed.
  destruct (Nat.eqb_spec (prod sh) 0) as [H0|H0].
  { exists truth_contig. split; [auto|]. rewrite all_idx_empty by exact H0. reflexivity. }
  destruct (proj1 (broadcast_to_is_view cbuf c sh WC) BC) as (c' & Ec & SC & WC' & GC).
  destruct (proj1 (broadcast_to_is_view xbuf x sh WX) BX) as (x' & Ex & SX & WX' & GX).
  destruct (proj1 (broadcast_to_is_view ybuf y sh WY) BY) as (y' & Ey & SY & WY' & GY).
  rewrite Ec, Ex, Ey. cbn [bind].
  assert (EQ : forall truth, mapM (lift_where truth cbuf xbuf ybuf c' x' y') (all_idx sh) =
    mapM (fun idx => bind (of_load (get cbuf c (unbroadcast (a_shape c) idx))) (fun bytes =>
        if truth bytes then of_load (get xbuf x (unbroadcast (a_shape x) idx))
        else of_load (get ybuf y (unbroadcast (a_shape y) idx)))) (all_idx sh)).
  { intros truth. apply mapM_ext. intros idx Hi. apply in_all_idx in Hi. unfold lift_where.
    rewrite (proj2 (GC idx Hi)), (proj2 (GX idx Hi)), (proj2 (GY idx Hi)). reflexivity. }
  destruct (a_c c' && a_c x' && a_c y') eqn:EA.
  - apply andb_true_iff in EA as [EA CY]. apply andb_true_iff in EA as [CC CX].
    exists truth_contig. split; [auto|]. rewrite <- EQ. apply mapM_seq_all. intros k Hk.
    rewrite (contig_off cbuf c' k WC' CC), (contig_off xbuf x' k WX' CX), (contig_off ybuf y' k WY' CY)
      by (unfold size; rewrite ?SC, ?SX, ?SY; exact Hk).
    rewrite SC, SX, SY. reflexivity.
  - exists truth_strided. split; [auto|]. rewrite <- EQ.
    pose proof WC' as (_ & _ & _ & LC & _). pose proof WX' as (_ & _ & _ & LX & _).
    pose proof WY' as (_ & _ & _ & LY & _).
    unfold iter_offsets. rewrite !strided_offsets_spec by assumption. rewrite SC, SX, SY, zip3_map, mapM_map.
    reflexivity.
Qed.

Lemma where_fallback_spec {V} truthy cbuf (xbuf ybuf : list V) c x y sh :
  wf cbuf c -> wf xbuf x -> wf ybuf y ->
  broadcastable (a_shape c) sh -> broadcastable (a_shape x) sh -> broadcastable (a_shape y) sh ->
  where_fallback cbuf xbuf ybuf truthy c x y sh =
  mapM (fun idx => bind (of_load (get cbuf c (unbroadcast (a_shape c) idx))) (fun bytes =>
        if truthy bytes then of_load (get xbuf x (unbroadcast (a_shape x) idx))
        else of_load (get ybuf y (unbroadcast (a_shape y) idx)))) (all_idx sh).
Proof.
  intros WC WX WY BC BX BY. unfold where_fallback.
  destruct (proj1 (broadcast_to_is_view cbuf c sh WC) BC) as (c' & Ec & SC & WC' & GC).
  destruct (proj1 (broadcast_to_is_view xbuf x sh WX) BX) as (x' & Ex & SX & WX' & GX).
  destruct (proj1 (broadcast_to_is_view ybuf y sh WY) BY) as (y' & Ey & SY & WY' & GY).
  rewrite Ec, Ex, Ey. cbn [bind].
  destruct (Nat.eqb_spec (prod sh) 0) as [H0|H0]; [rewrite all_idx_empty by exact H0; reflexivity|].
  rewrite odometer_all. apply mapM_ext. intros idx Hi. apply in_all_idx in Hi.
  rewrite <- (proj2 (GC idx Hi)), <- (proj2 (GX idx Hi)), <- (proj2 (GY idx Hi)). reflexivity.
Qed.

Lemma broadcastable_trans a b c : broadcastable a b -> broadcastable b c -> broadcastable a c.
Proof.
  rewrite !broadcastable_rdim. intros [H1 H2] [H3 H4]. split; [lia|]. intros i Hi.
  destruct (H2 i Hi) as [E|E]; [|auto]. rewrite E. apply H4. lia.
Qed.

(* ---------- heaps ---------- *)
Section Heap.
Context {V : Type}.
Implicit Types h : heap V.

Lemma retain_nth h b i : nth_error (retain h b) i =
  if Nat.eqb i b then option_map (fun x => mkAlloc (al_data x) (S (al_strong x))) (nth_error h i)
  else nth_error h i.
Proof.
  unfold retain. destruct (nth_error h b) as [x|] eqn:E; destruct (Nat.eqb_spec i b) as [->|N].
  - rewrite E. cbn. apply nth_error_upd_eq. apply nth_error_Some. congruence.
  - apply nth_error_upd_neq; auto.
  - rewrite E. reflexivity.
  - reflexivity.
Qed.
Lemma release_nth h b i : nth_error (release h b) i =
  if Nat.eqb i b then option_map (fun x => mkAlloc (al_data x) (al_strong x - 1)) (nth_error h i)
  else nth_error h i.
Proof.
  unfold release. destruct (nth_error h b) as [x|] eqn:E; destruct (Nat.eqb_spec i b) as [->|N].
  - rewrite E. cbn. apply nth_error_upd_eq. apply nth_error_Some. congruence.
  - apply nth_error_upd_neq; auto.
  - rewrite E. reflexivity.
  - reflexivity.
Qed.
Lemma retain_data h b i : data_of (retain h b) i = data_of h i.
Proof.
  unfold data_of. rewrite retain_nth. destruct (Nat.eqb i b); [|reflexivity].
  destruct (nth_error h i); reflexivity.
Qed.
Lemma retain_length h b : length (retain h b) = length h.
Proof. unfold retain. destruct (nth_error h b); [apply upd_length|reflexivity]. Qed.
Lemma release_length h b : length (release h b) = length h.
Proof. unfold release. destruct (nth_error h b); [apply upd_length|reflexivity]. Qed.
Lemma strong_retain h b i : strong_of (retain h b) i =
  (if Nat.eqb i b then (if Nat.ltb i (length h) then 1 else 0) else 0) + strong_of h i.
Proof.
  unfold strong_of. rewrite retain_nth. destruct (Nat.eqb i b); [|reflexivity].
  destruct (Nat.ltb_spec i (length h)) as [H|H]; [|apply nth_error_None in H; rewrite H; reflexivity].
  destruct (nth_error h i) eqn:E; [reflexivity|]. apply nth_error_None in E. lia.
Qed.

Lemma release_retain h b : release (retain h b) b = h.
Proof.
  apply nth_error_ext. intros i. rewrite release_nth, retain_nth.
  destruct (Nat.eqb_spec i b) as [->|]; [|reflexivity].
  destruct (nth_error h b) as [[d s]|]; cbn; [|reflexivity]. rewrite Nat.sub_0_r. reflexivity.
Qed.
End Heap.
