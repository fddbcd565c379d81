From Coq Require Import SpecFloat.
From Verif Require Import Base Lists Int_Model Arr_Spec Arr_Model Arr_Wf Arr_Proofs Copy_Model Copy_Proofs Idx_Model Idx_Wf Idx_Assign Red_Model Red_Proofs Red_Scan
  Sort_Proofs Sort_Lanes Man_Proofs Man_Edit Rng_Model Gu_Model New_Spec New_Model New_Proofs Span_Model Span_Proofs SF_Proofs SF_Arith Grid_Spec Grid_Model.
Local Open Scope nat_scope.

(* ---- shapes with one axis ------------------------------------------------- *)
Lemma ones_but_only n d len : ones_but n d len = only_axis n d len.
Proof.
  apply nth_error_ext. intros k. unfold ones_but, only_axis. rewrite nth_error_upd, nth_error_map', nth_error_seq, repeat_length.
  destruct (Nat.ltb_spec k n) as [L|L]; cbn [option_map plus]; rewrite ?(Nat.eqb_sym k d).
  - destruct (Nat.eqb_spec d k) as [->|N].
    + destruct (Nat.ltb_spec k n); [reflexivity|lia].
    + rewrite nth_error_repeat; [reflexivity|exact L].
  - replace (nth_error (repeat 1 n) k) with (@None nat) by (symmetry; apply nth_error_None; rewrite repeat_length; exact L).
    destruct (Nat.eqb_spec d k) as [->|]; [|reflexivity]. destruct (Nat.ltb_spec k n); [lia|reflexivity].
Qed.
Lemma prod_ones n : prod (repeat 1 n) = 1. Proof. induction n; cbn; lia. Qed.
Lemma rank_ones n : forall idx, inb idx (repeat 1 n) -> rank (repeat 1 n) idx = 0.
Proof.
  induction n as [|n IH]; intros idx H; cbn [repeat] in *; inversion H; subst; [reflexivity|]. cbn [rank]. rewrite IH by assumption. nia.
Qed.
Lemma prod_ones_but n : forall d len, d < n -> prod (ones_but n d len) = len.
Proof.
  unfold ones_but. induction n as [|n IH]; intros d len H; [lia|]. cbn [repeat]. destruct d as [|d]; cbn [upd prod].
  - rewrite prod_ones. lia.
  - rewrite IH by lia. lia.
Qed.
Lemma rank_ones_but n : forall d len idx, d < n -> inb idx (ones_but n d len) -> rank (ones_but n d len) idx = nth d idx 0.
Proof.
  unfold ones_but. induction n as [|n IH]; intros d len idx H Hi; [lia|]. cbn [repeat] in *. destruct d as [|d]; cbn [upd] in *; inversion Hi; subst; cbn [rank nth].
  - rewrite prod_ones, rank_ones by assumption. lia.
  - rewrite IH by (lia || assumption). nia.
Qed.
Lemma stretch_ones_but n : forall d len out, length out = n -> nth_error out d = Some len -> stretchable (ones_but n d len) out.
Proof.
  unfold ones_but, stretchable. induction n as [|n IH]; intros d len [|o out] HL HN; try discriminate; [destruct d; discriminate|].
  cbn [repeat length] in *. destruct d as [|d]; cbn [upd nth_error] in *.
  - injection HN as ->. constructor; [left; reflexivity|]. clear IH. injection HL as <-. induction out; cbn; constructor; auto.
  - constructor; [right; reflexivity|]. apply IH; [lia|exact HN].
Qed.
Lemma unstretch_ones_but n : forall d len out idx, length out = n -> nth_error out d = Some len -> inb idx out ->
  nth d (unstretch (ones_but n d len) idx) 0 = nth d idx 0.
Proof.
  unfold ones_but. induction n as [|n IH]; intros d len [|o out] idx HL HN Hi; try discriminate; [destruct d; discriminate|].
  cbn [repeat length] in *. inversion Hi; subst. destruct d as [|d]; cbn [upd nth_error unstretch nth] in *.
  - injection HN as ->. destruct (Nat.eqb_spec len 1); lia.
  - apply (IH d len out); [lia|exact HN|assumption].
Qed.

(* an input along axis d of n *)
Lemma coord_view {V} (buf : list V) a n d len : wf buf a -> a_c a = true -> a_shape a = [len] -> d < n ->
  exists r, reshape a (ones_but n d len) = Ok r /\ is_view buf a r (ones_but n d len) (fun idx => [nth d idx 0]).
Proof.
  intros W HC HS HD. destruct (reshape_c_is_view buf a (ones_but n d len) W HC) as (r & E & V1 & V2 & V3).
  { rewrite HS, prod_ones_but by exact HD. cbn. lia. }
  exists r. split; [exact E|]. split; [exact V1|]. split; [exact V2|]. intros idx Hi. specialize (V3 idx Hi).
  rewrite rm_unrank_eq, rm_rank_eq, rank_ones_but, HS in V3 by assumption. cbn [unrank prod] in V3.
  rewrite Nat.div_1_r in V3. rewrite HS. exact V3.
Qed.
Lemma coord_bcast {V} (buf : list V) a r n d len out : a_shape a = [len] -> length out = n -> nth_error out d = Some len ->
  is_view buf a r (ones_but n d len) (fun idx => [nth d idx 0]) ->
  exists b, broadcast_to r out = Ok b /\ is_view buf a b out (fun idx => [nth d idx 0]).
Proof.
  intros HS HL HN (V1 & V2 & V3). destruct (broadcast_to_is_view buf r out V2) as [HB _].
  assert (LO : length (ones_but n d len) = n) by (unfold ones_but; rewrite upd_length, repeat_length; reflexivity).
  destruct HB as (b & E & B1 & B2 & B3).
  { rewrite V1. split; [lia|]. rewrite LO, HL, Nat.sub_diag. cbn [skipn]. apply stretch_ones_but; assumption. }
  exists b. split; [exact E|]. split; [exact B1|]. split; [exact B2|]. intros idx Hi. destruct (B3 idx Hi) as [K1 K2].
  rewrite V1 in K1, K2. destruct (V3 _ K1) as [J1 J2].
  assert (EU : nth d (unbroadcast (ones_but n d len) idx) 0 = nth d idx 0).
  { unfold unbroadcast. rewrite LO, (inb_length _ _ Hi), HL, Nat.sub_diag. cbn [skipn]. apply (unstretch_ones_but n d len out); assumption. }
  rewrite EU in J1. rewrite EU in J2. split; [exact J1|]. rewrite K2. exact J2.
Qed.

(* ---- meshgrid --------------------------------------------------------------- *)
Lemma vary_mesh xy n d : vary_dim xy n d = mesh_axis xy n d.
Proof. unfold vary_dim, mesh_axis. change (1 <? n) with (2 <=? n). destruct (xy && (2 <=? n)); [|reflexivity]. destruct d as [|[|d]]; reflexivity. Qed.
Lemma vary_lt xy n d : d < n -> vary_dim xy n d < n.
Proof. unfold vary_dim. destruct xy; cbn [andb]; [|trivial]. destruct (Nat.leb_spec 2 n); [|trivial]. destruct d as [|[|d]]; lia. Qed.
Lemma mesh_shape_len xy sizes : length (mesh_shape xy sizes) = length sizes.
Proof. unfold mesh_shape. destruct (xy && _); [|reflexivity]. destruct sizes as [|a [|b r]]; reflexivity. Qed.
Lemma mesh_shape_nth xy sizes d : d < length sizes ->
  nth_error (mesh_shape xy sizes) (vary_dim xy (length sizes) d) = nth_error sizes d.
Proof.
  intros H. unfold mesh_shape, vary_dim. destruct (xy && (2 <=? length sizes)) eqn:E; [|reflexivity].
  apply andb_true_iff in E as [_ E]. apply Nat.leb_le in E. destruct sizes as [|a [|b r]]; cbn [length] in *; try lia.
  destruct d as [|[|d]]; reflexivity.
Qed.
Lemma mapM_all {A B} (f : A -> res B) (P : A -> B -> Prop) l : (forall x, In x l -> exists y, f x = Ok y /\ P x y) ->
  exists r, mapM f l = Ok r /\ Forall2 P l r.
Proof.
  induction l as [|x l IH]; intros H; [exists []; split; [reflexivity|constructor]|].
  destruct (H x (or_introl eq_refl)) as (y & E & HP). destruct IH as (r & ER & HR). { intros; apply H; right; assumption. }
  exists (y :: r). cbn [mapM]. rewrite E. cbn [bind]. rewrite ER. split; [reflexivity|constructor; assumption].
Qed.
Lemma combine_seq_in {A} (l : list A) p : In p (combine (seq 0 (length l)) l) -> nth_error l (fst p) = Some (snd p).
Proof.
  intros H. apply In_nth_error in H as [k H]. rewrite nth_error_combine, nth_error_seq in H.
  destruct (Nat.ltb_spec k (length l)); [|discriminate]. destruct (nth_error l k) eqn:E; [|discriminate]. injection H as <-. exact E.
Qed.
Lemma combine_seq_at {A} (l : list A) k x : nth_error l k = Some x -> nth_error (combine (seq 0 (length l)) l) k = Some (k, x).
Proof.
  intros H. rewrite nth_error_combine, nth_error_seq, H. destruct (Nat.ltb_spec k (length l)) as [|L]; [reflexivity|].
  apply nth_error_None in L. congruence.
Qed.
Lemma one_dim (a : arr) : ndim a = 1 -> a_shape a = [size a].
Proof. unfold ndim, size. destruct (a_shape a) as [|n [|m r]]; try discriminate. intros _. cbn. f_equal. lia. Qed.
Lemma vals_at {V} (buf : list V) b vals idx : elems buf b = map Some vals -> inb idx (a_shape b) -> nth_error vals (rm_rank (a_shape b) idx) = get buf b idx.
Proof.
  intros E Hi. rewrite rm_rank_eq. assert (EN : nth_error (elems buf b) (rank (a_shape b) idx) = Some (get buf b idx)).
  { unfold elems. rewrite nth_error_map', nth_error_all_idx_rank by exact Hi. reflexivity. }
  rewrite E, nth_error_map' in EN. destruct (nth_error vals _); [injection EN as <-; reflexivity|discriminate].
Qed.

Lemma meshgrid_ok {V} typed (l : list (list V * arr)) xy :
  (forall x, In x l -> wf (fst x) (snd x) /\ ndim (snd x) = 1 /\ a_c (snd x) = true) ->
  exists outs, meshgrid typed l xy = Ok outs /\ length outs = length l /\
    let osh := mesh_shape xy (map (fun x => size (snd x)) l) in
    forall d x, nth_error l d = Some x ->
      nth_error osh (mesh_axis xy (length l) d) = Some (size (snd x)) /\
      exists vals, nth_error outs d = Some (osh, vals) /\ length vals = prod osh /\
        forall idx, inb idx osh -> exists v, nth_error vals (rm_rank osh idx) = Some v /\
          get (fst x) (snd x) [nth (mesh_axis xy (length l) d) idx 0] = Some v.
Proof.
  intros H. unfold meshgrid.
  replace (existsb _ l) with false.
  2:{ symmetry. destruct (existsb _ l) eqn:E; [|reflexivity]. apply existsb_exists in E as (x & Hx & E). destruct (H x Hx) as (_ & H1 & _). rewrite H1 in E. discriminate. }
  set (osh := mesh_shape xy (map (fun x => size (snd x)) l)).
  assert (HLo : length osh = length l) by (unfold osh; rewrite mesh_shape_len, map_length; reflexivity).
  assert (HA : forall d x, nth_error l d = Some x -> nth_error osh (mesh_axis xy (length l) d) = Some (size (snd x))).
  { intros d x Hx. unfold osh. rewrite <- vary_mesh. rewrite <- (map_length (fun x => size (snd x)) l). rewrite mesh_shape_nth.
    - rewrite nth_error_map', Hx. reflexivity.
    - rewrite map_length. apply nth_error_Some. congruence. }
  destruct (mapM_all (fun p => mesh_one (typed (fst p)) osh (length l) (vary_dim xy (length l) (fst p)) (snd p))
      (fun p y => exists vals, y = (osh, vals) /\ length vals = prod osh /\ forall idx, inb idx osh -> exists v, nth_error vals (rm_rank osh idx) = Some v /\
          get (fst (snd p)) (snd (snd p)) [nth (mesh_axis xy (length l) (fst p)) idx 0] = Some v) (combine (seq 0 (length l)) l)) as (outs & E & F).
  { intros [d x] Hp. apply combine_seq_in in Hp. cbn [fst snd] in *. destruct (H x (nth_error_In _ _ Hp)) as (W & H1 & HC).
    assert (HD : d < length l) by (apply nth_error_Some; congruence).
    destruct (coord_view (fst x) (snd x) (length l) (vary_dim xy (length l) d) (size (snd x)) W HC (one_dim _ H1) (vary_lt _ _ _ HD)) as (r & ER & VR).
    destruct (coord_bcast _ _ _ _ _ _ osh (one_dim _ H1) HLo (eq_trans (f_equal (nth_error osh) (vary_mesh _ _ _)) (HA d x Hp)) VR) as (b & EB & B1 & B2 & B3).
    destruct (copy_buf_spec (fst x) b (typed d) B2) as (vals & EV & EL & LV).
    exists (osh, vals). split. { unfold mesh_one. rewrite ER. cbn [bind]. rewrite EB. cbn [bind]. rewrite EV. reflexivity. }
    exists vals. split; [reflexivity|]. split; [rewrite LV; unfold size; rewrite B1; reflexivity|].
    intros idx Hi. destruct (B3 idx Hi) as [K1 K2]. rewrite <- vary_mesh. pose proof W as (_ & _ & _ & _ & HG & _). destruct (HG _ K1) as [v Hv].
    exists v. split; [|exact Hv]. rewrite <- B1 in Hi |- *. rewrite (vals_at _ _ _ _ EL Hi), K2. exact Hv. }
  exists outs. split; [exact E|]. split; [apply Forall2_len in F; rewrite <- F, combine_length, seq_length; lia|].
  cbv zeta. intros d x Hx. split; [apply HA; exact Hx|].
  destruct (Forall2_nth _ _ _ _ _ F (combine_seq_at _ _ _ Hx)) as (y & Hy & vals & -> & HL & HV). exists vals. auto.
Qed.

(* ---- ix_, mgrid, ogrid ------------------------------------------------------------ *)
Lemma ix_ok {V} (l : list (list V * arr)) :
  (forall x, In x l -> wf (fst x) (snd x) /\ ndim (snd x) = 1 /\ a_c (snd x) = true) ->
  exists outs, ix_ (map snd l) = Ok outs /\ length outs = length l /\
    forall d x, nth_error l d = Some x -> exists r, nth_error outs d = Some r /\
      is_view (fst x) (snd x) r (only_axis (length l) d (size (snd x))) (fun idx => [nth d idx 0]).
Proof.
  intros H. unfold ix_. rewrite map_length.
  destruct (mapM_all (fun p => if negb (ndim (snd p) =? 1) then Err
                 else match reshape (snd p) (ones_but (length l) (fst p) (size (snd p))) with Ok a => Ok a | _ => Panic end)
     (fun p r => forall x, nth_error l (fst p) = Some x -> is_view (fst x) (snd x) r (only_axis (length l) (fst p) (size (snd x))) (fun idx => [nth (fst p) idx 0]))
     (combine (seq 0 (length l)) (map snd l))) as (outs & E & F).
  { intros [d a] Hp. rewrite <- (map_length snd l) in Hp at 1. apply combine_seq_in in Hp. cbn [fst snd] in *. rewrite nth_error_map' in Hp.
    destruct (nth_error l d) as [x|] eqn:Hx; [|discriminate]. injection Hp as <-.
    destruct (H x (nth_error_In _ _ Hx)) as (W & H1 & HC). assert (HD : d < length l) by (apply nth_error_Some; congruence).
    destruct (coord_view (fst x) (snd x) (length l) d (size (snd x)) W HC (one_dim _ H1) HD) as (r & ER & VR).
    exists r. rewrite H1, ER. split; [reflexivity|]. intros x' Ex. injection Ex as <-. rewrite <- ones_but_only. exact VR. }
  exists outs. split; [exact E|]. split. { apply Forall2_len in F. rewrite <- F, combine_length, seq_length, map_length. lia. }
  intros d x Hx. assert (Hm : nth_error (map snd l) d = Some (snd x)) by (rewrite nth_error_map', Hx; reflexivity).
  pose proof (combine_seq_at _ _ _ Hm) as HC. rewrite map_length in HC. destruct (Forall2_nth _ _ _ _ _ F HC) as (r & Hr & VR). exists r. split; [exact Hr|]. apply VR. exact Hx.
Qed.
Lemma grid_ok {V} dense (l : list (list V * arr)) : l <> [] ->
  (forall x, In x l -> wf (fst x) (snd x) /\ ndim (snd x) = 1 /\ a_c (snd x) = true) ->
  exists outs, grid dense l = Ok outs /\ length outs = length l /\
    forall d x, nth_error l d = Some x -> exists r, nth_error outs d = Some (fst x, r) /\
      is_view (fst x) (snd x) r (if dense then map (fun x => size (snd x)) l else only_axis (length l) d (size (snd x))) (fun idx => [nth d idx 0]).
Proof.
  intros HN H. unfold grid. destruct l as [|x0 [|x1 l0]]; [congruence| |].
  { exists [x0]. split; [reflexivity|]. split; [reflexivity|]. intros [|[|d]] x Hx; try discriminate. injection Hx as <-.
    destruct (H x0 (or_introl eq_refl)) as (W & H1 & HC). exists (snd x0). split; [destruct x0; reflexivity|].
    replace (if dense then _ else _) with [size (snd x0)] by (destruct dense; reflexivity).
    split; [apply one_dim; exact H1|]. split; [exact W|]. intros idx Hi. inversion Hi as [|i s idx' sh Hlt Hr]; subst. inversion Hr; subst. cbn [nth].
    rewrite (one_dim _ H1). split; [constructor; [exact Hlt|constructor]|reflexivity]. }
  set (l := x0 :: x1 :: l0) in *. clearbody l. cbv zeta.
  set (P := fun (p : nat * (list V * arr)) (y : list V * arr) => exists r, y = (fst (snd p), r) /\ is_view (fst (snd p)) (snd (snd p)) r (if dense then map (fun x => size (snd x)) l else only_axis (length l) (fst p) (size (snd (snd p)))) (fun idx => [nth (fst p) idx 0])).
  match goal with |- exists outs, mapM ?f ?L = Ok outs /\ _ => destruct (mapM_all f P L) as (outs & E & F) end.
  { intros [d x] Hp. apply combine_seq_in in Hp. cbn [fst snd] in *.
    destruct (H x (nth_error_In _ _ Hp)) as (W & H1 & HC). assert (HD : d < length l) by (apply nth_error_Some; congruence).
    assert (HS : nth_error (map (fun x => size (snd x)) l) d = Some (size (snd x))) by (rewrite nth_error_map', Hp; reflexivity).
    rewrite (nth_error_nth _ _ _ HS).
    destruct (coord_view (fst x) (snd x) (length l) d (size (snd x)) W HC (one_dim _ H1) HD) as (r & ER & VR). rewrite ER. unfold P. cbn [fst snd].
    destruct dense.
    - destruct (coord_bcast (fst x) (snd x) r (length l) d (size (snd x)) (map (fun x => size (snd x)) l) (one_dim _ H1) (map_length _ _) HS VR) as (b & EB & VB).
      rewrite EB. exists (fst x, b). split; [reflexivity|]. exists b. split; [reflexivity|exact VB].
    - exists (fst x, r). split; [reflexivity|]. exists r. split; [reflexivity|]. rewrite <- ones_but_only. exact VR. }
  exists outs. split; [exact E|]. split. { apply Forall2_len in F. rewrite <- F, combine_length, seq_length. lia. }
  intros d x Hx. destruct (Forall2_nth _ _ _ _ _ F (combine_seq_at _ _ _ Hx)) as (y & Hy & r & -> & VR). exists r. split; [exact Hy|exact VR].
Qed.

(* ---- ndindex, ndenumerate --------------------------------------------------------- *)
Lemma incr_unrank sh k : S k < prod sh -> increment_indices (unrank sh k) sh = unrank sh (S k).
Proof. intros H. unfold increment_indices. rewrite increment_aux_unrank by lia. destruct (Nat.ltb_spec (S k) (prod sh)); [reflexivity|lia]. Qed.
Lemma ndi_collect sh : forall fuel k, k <= prod sh -> prod sh - k <= fuel -> forall idx, (k < prod sh -> idx = unrank sh k) ->
  collect ndi_next fuel (mkNdi sh idx (Z.of_nat k) (Z.of_nat (prod sh))) = map (unrank sh) (seq k (prod sh - k)).
Proof.
  induction fuel as [|fuel IH]; intros k Hk Hf idx Hi.
  - replace (prod sh - k) with 0 by lia. reflexivity.
  - cbn [collect]. unfold ndi_next at 1. cbn [ni_size ni_flat ni_idx ni_shape].
    destruct (Z.leb_spec (Z.of_nat (prod sh)) (Z.of_nat k)).
    + replace (prod sh - k) with 0 by lia. reflexivity.
    + replace (prod sh - k) with (S (prod sh - S k)) by lia. cbn [seq map]. rewrite (Hi ltac:(lia)) at 1. f_equal.
      replace (Z.of_nat k + 1)%Z with (Z.of_nat (S k)) by lia. apply IH; [lia|lia|].
      intros HL. rewrite (Hi ltac:(lia)). apply incr_unrank. exact HL.
Qed.
Lemma unrank_lists sh : lists_indices sh (map (unrank sh) (seq 0 (prod sh))).
Proof.
  intros k idx. rewrite nth_error_map', nth_error_seq. cbn [plus]. rewrite rm_rank_eq. destruct (Nat.ltb_spec k (prod sh)) as [L|L]; cbn [option_map]; split.
  - intros E. injection E as <-. split; [apply unrank_inb; exact L|apply rank_unrank; exact L].
  - intros [Hi <-]. rewrite unrank_rank by exact Hi. reflexivity.
  - discriminate.
  - intros [Hi <-]. apply rank_lt in Hi. lia.
Qed.
Lemma usize_prod_small sh : (Z.of_nat (prod sh) < 2 ^ 64)%Z -> usize_prod sh = Z.of_nat (prod sh).
Proof. intros H. unfold usize_prod, wrap_usize, two64. apply Z.mod_small. lia. Qed.
Lemma ndindex_ok sh fuel : (Z.of_nat (prod sh) < 2 ^ 64)%Z -> prod sh <= fuel ->
  collect ndi_next fuel (ndindex sh) = map (unrank sh) (seq 0 (prod sh)).
Proof.
  intros H Hf. unfold ndindex. replace (if length sh =? 0 then 1%Z else usize_prod sh) with (Z.of_nat (prod sh)).
  - rewrite <- unrank_0. pose proof (ndi_collect sh fuel 0 ltac:(lia) ltac:(lia) (unrank sh 0) ltac:(auto)) as E. rewrite Nat.sub_0_r in E. exact E.
  - destruct sh; [reflexivity|]. cbn [length Nat.eqb]. symmetry. apply usize_prod_small. exact H.
Qed.

Lemma nde_collect d buf a : wf buf a -> forall fuel k, k <= size a -> size a - k <= fuel -> forall idx, (k < size a -> idx = unrank (a_shape a) k) ->
  exists l, collect (nde_next d buf a) fuel (mkNdi (a_shape a) idx (Z.of_nat k) (Z.of_nat (size a))) = l /\ length l = size a - k /\
    forall i, i < size a - k -> exists c, get buf a (unrank (a_shape a) (k + i)) = Some c /\ nth_error l i = Some (unrank (a_shape a) (k + i), read_f64 d c).
Proof.
  intros W. induction fuel as [|fuel IH]; intros k Hk Hf idx Hi.
  - exists []. replace (size a - k) with 0 by lia. split; [reflexivity|]. split; [reflexivity|]. lia.
  - cbn [collect]. unfold nde_next at 1. cbn [ni_size ni_flat ni_idx ni_shape].
    destruct (Z.leb_spec (Z.of_nat (size a)) (Z.of_nat k)).
    + exists []. replace (size a - k) with 0 by lia. split; [reflexivity|]. split; [reflexivity|]. lia.
    + pose proof W as (_ & _ & _ & _ & HG & _). destruct (HG (unrank (a_shape a) k)) as [c Hc]; [apply unrank_inb; unfold size in *; lia|].
      rewrite (Hi ltac:(lia)), Hc. replace (Z.of_nat k + 1)%Z with (Z.of_nat (S k)) by lia.
      destruct (IH (S k) ltac:(lia) ltac:(lia) (increment_indices (unrank (a_shape a) k) (a_shape a))) as (l & El & Ll & Hl).
      { intros HL. apply incr_unrank. exact HL. }
      rewrite El. eexists. split; [reflexivity|]. split; [cbn [length]; lia|]. intros [|i] HiL.
      * exists c. rewrite Nat.add_0_r. split; [exact Hc|reflexivity].
      * destruct (Hl i ltac:(lia)) as (c' & G' & N'). exists c'. replace (k + S i) with (S k + i) by lia. split; [exact G'|exact N'].
Qed.

(* ---- indices ------------------------------------------------------------------------ *)
Definition idx_write (val : nat -> cell) (dims : list nat) (p : nat) (v : cell) : Prop :=
  exists dim idx, dim < length dims /\ inb idx dims /\ p = dim * prod dims + rank dims idx /\ v = val (nth dim idx 0).
Lemma nth_split_sh (dims : list nat) dim : dim < length dims -> dims = firstn dim dims ++ nth dim dims 0 :: skipn (dim + 1) dims.
Proof.
  revert dim; induction dims as [|x dims IH]; intros [|dim] H; cbn in *; try lia; [reflexivity|]. f_equal. apply IH. lia.
Qed.
Lemma fast_writes d dims p v : In (p, v) (indices_fast d dims) <-> idx_write (idx_value d) dims p v.
Proof.
  unfold indices_fast, idx_write. rewrite in_flat_map. split.
  - intros (dim & Hd & H). apply in_seq in Hd. cbv zeta in H. apply in_flat_map in H as (r & Hr & H). apply in_flat_map in H as (i & Hi & H).
    apply in_map_iff in H as (s & E & Hs). apply in_seq in Hr, Hi, Hs. injection E as <- <-.
    pose proof (nth_split_sh dims dim ltac:(lia)) as SP. set (A := firstn dim dims) in *. set (B := skipn (dim + 1) dims) in *. set (m := nth dim dims 0) in *.
    assert (LA : length A = dim) by (unfold A; rewrite firstn_length; lia).
    exists dim, (unrank A r ++ i :: unrank B s). split; [lia|]. rewrite SP. split; [|split].
    + apply inb_app; [rewrite unrank_length; reflexivity|]. split; [apply unrank_inb; lia|]. apply inb_cons. split; [lia|apply unrank_inb; lia].
    + rewrite rank_app by apply unrank_length. cbn [rank prod]. rewrite !rank_unrank by lia. rewrite prod_app. cbn [prod]. nia.
    + rewrite app_nth2; rewrite unrank_length, LA; [|lia]. rewrite Nat.sub_diag. reflexivity.
  - intros (dim & idx & Hd & Hi & -> & ->). exists dim. split; [apply in_seq; lia|]. cbv zeta.
    pose proof (nth_split_sh dims dim Hd) as SP. set (A := firstn dim dims) in *. set (B := skipn (dim + 1) dims) in *. set (m := nth dim dims 0) in *.
    assert (LA : length A = dim) by (unfold A; rewrite firstn_length; lia).
    assert (HL : dim < length idx) by (rewrite (inb_length _ _ Hi); exact Hd).
    pose proof (nth_split_sh idx dim HL) as SI. set (i := nth dim idx 0) in *. set (IA := firstn dim idx) in *. set (IB := skipn (dim + 1) idx) in *.
    assert (LI : length IA = dim) by (unfold IA; rewrite firstn_length; lia).
    rewrite SP, SI in Hi. apply inb_app in Hi as [HA HB]; [|lia]. apply inb_cons in HB as [Hm HB].
    apply in_flat_map. exists (rank A IA). split; [apply in_seq; pose proof (rank_lt _ _ HA); lia|].
    apply in_flat_map. exists i. split; [apply in_seq; lia|]. apply in_map_iff. exists (rank B IB). split; [|apply in_seq; pose proof (rank_lt _ _ HB); lia].
    f_equal. replace (rank dims idx) with (rank (A ++ m :: B) (IA ++ i :: IB)) by (rewrite <- SP, <- SI; reflexivity). rewrite rank_app by lia. cbn [rank prod]. nia.
Qed.
Lemma slow_writes d dims p v : In (p, v) (indices_slow d dims) <-> idx_write (fun i => write_f64 d (f64_int (Z.of_nat i))) dims p v.
Proof.
  unfold indices_slow, idx_write. rewrite odometer_all, in_flat_map.
  assert (K : forall q, In q (combine (seq 0 (prod dims)) (all_idx dims)) <-> inb (snd q) dims /\ fst q = rank dims (snd q)).
  { intros [k idx]. cbn [fst snd]. split.
    - intros H. rewrite <- (all_idx_length dims) in H. apply combine_seq_in in H. cbn [fst snd] in H.
      assert (Hk : k < prod dims) by (rewrite <- all_idx_length; apply nth_error_Some; congruence).
      rewrite nth_error_all_idx in H by exact Hk. injection H as <-. split; [apply unrank_inb; exact Hk|symmetry; apply rank_unrank; exact Hk].
    - intros [Hi ->]. apply (nth_error_In _ (rank dims idx)). rewrite <- (all_idx_length dims). apply combine_seq_at. apply nth_error_all_idx_rank. exact Hi. }
  split.
  - intros (dim & Hd & H). apply in_seq in Hd. apply in_map_iff in H as ([k idx] & E & H). apply K in H as [Hi Hk]. cbn [fst snd] in *. injection E as <- <-.
    exists dim, idx. subst k. repeat split; [lia|exact Hi].
  - intros (dim & idx & Hd & Hi & -> & ->). exists dim. split; [apply in_seq; lia|]. apply in_map_iff. exists (rank dims idx, idx). split; [reflexivity|].
    apply K. split; [exact Hi|reflexivity].
Qed.
Lemma idx_write_all val dims ws z : (forall p v, In (p, v) ws <-> idx_write val dims p v) ->
  exists out, write_all ws (repeat z (length dims * prod dims)) = Ok out /\ length out = length dims * prod dims /\
    forall dim idx, dim < length dims -> inb idx dims -> nth_error out (dim * prod dims + rank dims idx) = Some (val (nth dim idx 0)).
Proof.
  intros H. destruct (write_all_spec ws (repeat z (length dims * prod dims))) as (out & E & L & S').
  { intros p v Hin. rewrite repeat_length. apply H in Hin as (dim & idx & Hd & Hi & -> & _). apply rank_lt in Hi. nia. }
  rewrite repeat_length in L. exists out. split; [exact E|]. split; [exact L|]. intros dim idx Hd Hi.
  apply (S' _); [apply H; exists dim, idx; auto|]. intros v Hin. apply H in Hin as (dim' & idx' & Hd' & Hi' & Ep & ->).
  pose proof (rank_lt _ _ Hi). pose proof (rank_lt _ _ Hi').
  assert (dim = dim') by nia. subst dim'. assert (rank dims idx = rank dims idx') by lia.
  rewrite <- (unrank_rank dims idx Hi), <- (unrank_rank dims idx' Hi'). congruence.
Qed.
Lemma idx_value_stores d i : is_i64 d || match d with LF64 => true | _ => false end = true -> fits d (PInt (Z.of_nat i)) -> (Z.of_nat i < 2 ^ 53)%Z ->
  stores d (PInt (Z.of_nat i)) (idx_value d i).
Proof.
  destruct d as [t| |]; cbn [idx_value stores fits]; intros H F L; [split; [exact F|reflexivity]|discriminate|apply f64_int_is; lia].
Qed.
Lemma indices_ok d dims : (forall n, In n dims -> (Z.of_nat n <= 2 ^ 53)%Z) -> (forall n i, In n dims -> i < n -> fits d (PInt (Z.of_nat i))) -> dims <> [] ->
  exists out, indices dims d = Ok (length dims :: dims, out) /\ length out = length dims * prod dims /\
    forall dim idx, dim < length dims -> inb idx dims -> exists c, nth_error out (rm_rank (length dims :: dims) (dim :: idx)) = Some c /\ stores d (PInt (Z.of_nat (nth dim idx 0))) c.
Proof.
  intros H53 HF HN. unfold indices. destruct dims as [|n0 dims0]; [congruence|]. set (dims := n0 :: dims0) in *. clearbody dims.
  destruct (Nat.eqb_spec (prod dims) 0) as [Z0|Z0].
  { exists []. split; [reflexivity|]. split; [rewrite Z0; cbn; lia|]. intros dim idx _ Hi. apply rank_lt in Hi. lia. }
  assert (HB : forall dim idx, dim < length dims -> inb idx dims -> fits d (PInt (Z.of_nat (nth dim idx 0))) /\ (Z.of_nat (nth dim idx 0%nat) < 2 ^ 53)%Z).
  { intros dim idx Hd Hi. destruct (nth_error dims dim) as [n|] eqn:En; [|apply nth_error_None in En; lia].
    pose proof (nth_inb dims idx dim n Hi En) as HL. pose proof (H53 n (nth_error_In _ _ En)). split; [apply (HF n); [apply (nth_error_In _ _ En)|exact HL]|lia]. }
  destruct (is_i64 d || match d with LF64 => true | _ => false end) eqn:FP.
  - destruct (idx_write_all (idx_value d) dims (indices_fast d dims) (zero_cell d) (fast_writes d dims)) as (out & E & L & S').
    rewrite E. exists out. split; [reflexivity|]. split; [exact L|]. intros dim idx Hd Hi. destruct (HB dim idx Hd Hi) as [F B].
    eexists. split; [cbn [rm_rank]; rewrite rm_rank_eq; apply S'; assumption|]. apply idx_value_stores; assumption.
  - destruct (idx_write_all _ dims (indices_slow d dims) (zero_cell d) (slow_writes d dims)) as (out & E & L & S').
    rewrite E. exists out. split; [reflexivity|]. split; [exact L|]. intros dim idx Hd Hi. destruct (HB dim idx Hd Hi) as [F B].
    eexists. split; [cbn [rm_rank]; rewrite rm_rank_eq; apply S'; assumption|]. apply write_f64_small; [lia|exact F].
Qed.
