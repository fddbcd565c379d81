(* Lemmas about Man_Model: diagflat, pad, append/insert/delete, rot90, index lists. *)
From Verif Require Import Base Lists Arr_Spec Arr_Model Arr_Wf Arr_Proofs Arr_Hist Copy_Model Copy_Proofs Idx_Model
  Int_Model F64_Model F64_Proofs Elem_Model Elem_Proofs Red_Spec Red_Model Red_Proofs Red_Scan Sort_Lanes Sort_Api
  Man_Spec Man_Model Man_Proofs Man_Ops Man_Ops2.
Local Open Scope nat_scope.

Lemma mapM_enum {A B C} (rd : A -> res B) (g : nat -> B -> C) : forall l vs s, mapM rd l = Ok vs ->
  mapM (fun p => bind (rd (snd p)) (fun v => Ok (g (fst p) v))) (combine (seq s (length l)) l) =
  Ok (map (fun p => g (fst p) (snd p)) (combine (seq s (length l)) vs)).
Proof.
  induction l as [|x l IH]; intros vs s E; cbn [mapM] in E; [injection E as <-; reflexivity|].
  destruct (rd x) as [y| | |] eqn:Ey; cbn [bind] in E; try discriminate.
  destruct (mapM rd l) as [ys| | |] eqn:El; cbn [bind] in E; try discriminate. injection E as <-.
  cbn [length seq combine mapM fst snd]. rewrite Ey. cbn [bind]. rewrite (IH ys (S s) eq_refl). reflexivity.
Qed.

Lemma combine_seq_nth {A} (d : A) (l : list A) : forall s, combine (seq s (length l)) l = map (fun i => (i, nth (i - s) l d)) (seq s (length l)).
Proof.
  induction l as [|x l IH]; intros s; [reflexivity|]. cbn [length seq combine map]. rewrite IH. f_equal.
  - rewrite Nat.sub_diag. reflexivity.
  - apply map_ext_in. intros i Hi. apply in_seq in Hi. f_equal. replace (i - s) with (S (i - S s)) by lia. reflexivity.
Qed.

(* positions inside and outside the copied region of pad *)
Lemma region_in : forall sh pw si, length pw = length sh -> inb si sh ->
  let di := zip_with (fun i p => i + fst p) si pw in
  inb di (padded sh pw) /\ in_region sh pw di = true /\ shifted_back pw di = si.
Proof.
  induction sh as [|s sh IH]; intros [|p pw] si HL Hi; cbn in HL; try lia.
  - inversion Hi. cbn. split; [constructor|auto].
  - destruct si as [|i si]; [inversion Hi|]. apply inb_cons in Hi as [H1 H2]. cbn [zip_with padded in_region shifted_back].
    destruct (IH pw si ltac:(lia) H2) as (A & B & C). split; [|split].
    + apply inb_cons. split; [lia|exact A].
    + rewrite B. apply andb_true_iff. split; [|reflexivity]. apply andb_true_iff. split; [apply Nat.leb_le|apply Nat.ltb_lt]; lia.
    + rewrite C. f_equal. lia.
Qed.

Lemma region_out : forall sh pw idx, length pw = length sh -> inb idx (padded sh pw) -> in_region sh pw idx = true ->
  inb (shifted_back pw idx) sh /\ zip_with (fun i p => i + fst p) (shifted_back pw idx) pw = idx.
Proof.
  induction sh as [|s sh IH]; intros [|p pw] idx HL Hi HR; cbn in HL; try lia.
  - inversion Hi. cbn. split; [constructor|reflexivity].
  - cbn [padded zip_with] in Hi. fold (padded sh pw) in Hi. destruct idx as [|i idx]; [inversion Hi|]. apply inb_cons in Hi as [H1 H2].
    cbn [in_region] in HR. apply andb_true_iff in HR as [HR R3]. apply andb_true_iff in HR as [R1 R2].
    apply Nat.leb_le in R1. apply Nat.ltb_lt in R2. destruct (IH pw idx ltac:(lia) H2 R3) as [A B].
    cbn [shifted_back zip_with]. split; [apply inb_cons; split; [lia|exact A]|]. rewrite B. f_equal. lia.
Qed.

Lemma clamped_spec : forall sh pw idx, length pw = length sh -> length idx = length sh -> (forall s, In s sh -> 0 < s) ->
  zip_with (fun x s => edge_src (fst x) (snd x) s) (combine idx (map fst pw)) sh = clamped sh pw idx /\ inb (clamped sh pw idx) sh.
Proof.
  induction sh as [|s sh IH]; intros [|p pw] [|i idx] HL HL2 HP; cbn in HL, HL2; try lia.
  - split; [reflexivity|constructor].
  - assert (Hs : 0 < s) by (apply HP; left; reflexivity).
    destruct (IH pw idx ltac:(lia) ltac:(lia) ltac:(intros; apply HP; right; assumption)) as [A B].
    cbn [map combine zip_with clamped fst snd]. rewrite A. split.
    + f_equal. unfold edge_src. destruct (Nat.ltb_spec i (fst p)), (Nat.leb_spec (fst p + s) i); lia.
    + apply inb_cons. split; [lia|exact B].
Qed.

Section Edit.
Context {V : Type}.
Variable zero : V.

(* ---- diagflat ---- *)
Lemma diagflat_spec (buf : list V) a vals k item : wf buf a -> elems buf a = map Some vals -> (0 < item)%Z ->
  let n := size a + Z.abs_nat k in
  exists out, diagflat zero buf a k = Ok ([n; n], out) /\ length out = n * n /\
    forall i j, i < n -> j < n ->
      get out (fresh [n; n] item) [i; j] =
      if (Z.of_nat j - Z.of_nat i =? k)%Z then nth_error vals (Nat.min i j) else Some zero.
Proof.
  intros W E HI n. unfold diagflat. fold n.
  assert (HL : length (iter_offsets a) = size a).
  { unfold iter_offsets. destruct W as (_ & _ & _ & W4 & _). rewrite strided_offsets_spec by exact W4. rewrite map_length. apply all_idx_length. }
  pose proof (elems_len buf a vals E) as LV.
  set (row := fun i => if (0 <=? k)%Z then i else i + Z.to_nat (- k)).
  set (col := fun i => if (0 <=? k)%Z then i + Z.to_nat k else i).
  rewrite (mapM_ext _ (fun p => bind (read buf a (snd p)) (fun v => Ok ((fun i v => (row i * n + col i, v)) (fst p) v)))).
  2:{ intros [i o] _. cbn [fst snd]. unfold row, col. destruct (read buf a o); cbn [bind]; try reflexivity. destruct (0 <=? k)%Z; reflexivity. }
  rewrite <- HL. rewrite (mapM_enum (read buf a) (fun i v => (row i * n + col i, v)) _ vals) by (apply read_offsets; assumption).
  rewrite HL, <- LV. cbn [bind]. rewrite (combine_seq_nth zero vals 0), map_map.
  rewrite (map_ext_in _ (fun i => (row i * n + col i, nth (Nat.min (row i) (col i)) vals zero))).
  2:{ intros i Hi. cbn [fst snd]. f_equal. unfold row, col. destruct (0 <=? k)%Z; f_equal; lia. }
  destruct (scatter2 zero (fun x => x) n n (fun i j => (Z.of_nat j - Z.of_nat i =? k)%Z) (map (fun i => (row i, col i)) (seq 0 (length vals)))
              (fun p => nth (Nat.min (fst p) (snd p)) vals zero) item HI) as (out & EO & Len & HN).
  { intros i j. rewrite in_map_iff. split.
    - intros (x & Ex & Hx). injection Ex as <- <-. apply in_seq in Hx. unfold row, col, n.
      destruct (Z.leb_spec 0 k); (split; [lia|]); (split; [lia|]); apply Z.eqb_eq; lia.
    - intros (Hi & Hj & HP). apply Z.eqb_eq in HP. exists (Nat.min i j). unfold row, col, n in *.
      destruct (Z.leb_spec 0 k); (split; [f_equal; lia|apply in_seq; lia]). }
  rewrite map_map in EO. cbn [fst snd] in EO. rewrite EO. cbn [bind]. exists out. split; [reflexivity|]. split; [exact Len|].
  intros i j Hi Hj. rewrite (HN i j Hi Hj). destruct (Z.eqb_spec (Z.of_nat j - Z.of_nat i) k) as [HK|HK]; [|reflexivity].
  cbn [fst snd]. symmetry. apply nth_error_nth'. unfold n in *. lia.
Qed.

(* ---- pad ---- *)
Variable via : V -> V.




Lemma pad_constant_spec (buf : list V) a pw cval item : wf buf a -> length pw = ndim a -> (0 < item)%Z ->
  let nsh := padded (a_shape a) pw in
  exists out, pad zero via buf a pw (PadConstant cval) = Ok (nsh, out) /\ length out = prod nsh /\
    forall idx, inb idx nsh -> get out (fresh nsh item) idx =
      if in_region (a_shape a) pw idx then option_map via (get buf a (shifted_back pw idx)) else Some cval.
Proof.
  intros W HL HI nsh. unfold pad. rewrite HL, Nat.eqb_refl. cbn [negb]. cbv zeta. fold (padded (a_shape a) pw). fold nsh.
  unfold size, ndim. rewrite odometer_all.
  set (f := fun si => zip_with (fun i p => i + fst p) si pw).
  rewrite (mapM_ok _ (fun si => (flat_idx (f si) nsh, via (vget zero buf a si)))).
  2:{ intros si Hs. apply in_all_idx in Hs. rewrite (read_vget zero) by assumption. reflexivity. }
  cbn [bind].
  destruct (scatter nsh (all_idx (a_shape a)) f (fun si => via (vget zero buf a si)) (repeat cval (prod nsh))) as (out & E & Len & HN & HO).
  { apply repeat_length. }
  { intros si Hs. apply in_all_idx in Hs. apply (region_in (a_shape a) pw si HL Hs). }
  { intros x y Hx Hy Exy. apply in_all_idx in Hx, Hy. destruct (region_in (a_shape a) pw x HL Hx) as (_ & _ & Ex).
    destruct (region_in (a_shape a) pw y HL Hy) as (_ & _ & Ey). fold (f x) in Ex. fold (f y) in Ey. congruence. }
  rewrite E. cbn [bind]. exists out. split; [reflexivity|]. split; [exact Len|]. intros idx Hi. rewrite fresh_get by exact HI.
  destruct (in_region (a_shape a) pw idx) eqn:ER.
  - destruct (region_out (a_shape a) pw idx HL Hi ER) as [A B]. rewrite (vget_some zero buf a _ W A). cbn [option_map].
    rewrite <- B at 1. apply (HN (shifted_back pw idx)). apply in_all_idx. exact A.
  - rewrite HO; [apply nth_error_repeat, rank_lt, Hi|exact Hi|]. intros si Hs Ef. apply in_all_idx in Hs.
    destruct (region_in (a_shape a) pw si HL Hs) as (_ & B & _). fold (f si) in B. congruence.
Qed.


Lemma pad_edge_spec (buf : list V) a pw item : wf buf a -> length pw = ndim a -> (0 < item)%Z ->
  (forall s, In s (a_shape a) -> 0 < s) ->
  let nsh := padded (a_shape a) pw in
  exists out, pad zero via buf a pw PadEdge = Ok (nsh, out) /\ length out = prod nsh /\
    forall idx, inb idx nsh -> inb (clamped (a_shape a) pw idx) (a_shape a) /\
      get out (fresh nsh item) idx = option_map via (get buf a (clamped (a_shape a) pw idx)).
Proof.
  intros W HL HI HP nsh. unfold pad. rewrite HL, Nat.eqb_refl. cbn [negb]. cbv zeta. fold (padded (a_shape a) pw). fold nsh.
  assert (LN : length nsh = ndim a). { unfold nsh, padded. rewrite zip_with_length. unfold ndim in *. lia. }
  destruct (scatter_all nsh (fun di => bind (read buf a (byte_offset_for a (clamped (a_shape a) pw di))) (fun v => Ok (via v)))
              (fun di => via (vget zero buf a (clamped (a_shape a) pw di))) (repeat zero (prod nsh)) item HI) as (ws & out & E1 & E2 & Len & HN).
  { apply repeat_length. }
  { intros idx Hi. pose proof (inb_length _ _ Hi) as HLi. unfold ndim in *.
    destruct (clamped_spec (a_shape a) pw idx HL ltac:(lia) HP) as [_ B]. rewrite (read_vget zero) by assumption. reflexivity. }
  match goal with |- context [mapM ?f ?l] => replace (mapM f l) with (@Ok (list (nat * V)) ws) end.
  2:{ rewrite <- E1, LN. apply mapM_ext. intros x Hx. rewrite <- LN in Hx. rewrite odometer_all in Hx. apply in_all_idx in Hx.
      pose proof (inb_length _ _ Hx) as HLi. unfold ndim in *.
      destruct (clamped_spec (a_shape a) pw x HL ltac:(lia) HP) as [-> _]. destruct (read buf a _); reflexivity. }
  cbn [bind]. rewrite E2. cbn [bind]. exists out. split; [reflexivity|]. split; [exact Len|]. intros idx Hi.
  pose proof (inb_length _ _ Hi) as HLi. unfold ndim in *.
  destruct (clamped_spec (a_shape a) pw idx HL ltac:(lia) HP) as [_ B]. split; [exact B|].
  rewrite (HN idx Hi), (vget_some zero buf a _ W B). reflexivity.
Qed.
End Edit.

(* ---- one-dimensional pieces ---- *)
Section Flat.
Context {V : Type}.
Variable zero : V.

(* x is a one-dimensional array holding the list vs *)
Definition holds (x : @nd V) (vs : list V) : Prop :=
  wf (fst x) (snd x) /\ a_shape (snd x) = [length vs] /\ lane (fst x) (snd x) 0 [] = map Some vs.

Lemma lane_1d_elems (buf : list V) a n : a_shape a = [n] -> lane buf a 0 [] = elems buf a.
Proof.
  intros S. unfold lane, elems. rewrite S. cbn [nth all_idx insert_at]. rewrite flat_map_concat_map, concat_map, !map_map.
  cbn [map]. symmetry. exact (concat_singletons (fun j => get buf a [j]) (seq 0 n)).
Qed.

Lemma lane_fresh_1d (out : list V) n item : (0 < item)%Z -> length out = n -> lane out (fresh [n] item) 0 [] = map Some out.
Proof.
  intros HI HL. unfold lane. cbn [fresh a_shape nth insert_at]. fold (fresh [n] item). apply nth_error_ext. intros k.
  rewrite !nth_error_map', nth_error_seq. destruct (Nat.ltb_spec k n).
  - cbn [option_map Nat.add]. rewrite fresh_get by exact HI. cbn [rank prod].
    replace (k * 1 + 0) with k by lia. destruct (nth_error out k) eqn:E; [reflexivity|]. apply nth_error_None in E. lia.
  - cbn [option_map]. assert (E : nth_error out k = None) by (apply nth_error_None; lia). rewrite E. reflexivity.
Qed.

Lemma holds_fresh (vs : list V) item : (0 < item)%Z -> (Z.of_nat (length vs) * item < 2 ^ 63)%Z -> holds (vs, fresh [length vs] item) vs.
Proof.
  intros HI HB. split; [|split; [reflexivity|]]; cbn [fst snd].
  - apply fresh_wf; [exact HI|exact HB|cbn; lia].
  - apply lane_fresh_1d; [exact HI|reflexivity].
Qed.

Lemma empty_holds item : (0 < item)%Z -> holds (empty_nd item) [].
Proof. intros HI. apply (holds_fresh [] item HI). cbn. lia. Qed.

Lemma slice_holds (x : @nd V) vs stride st len : holds x vs -> nth_error (a_strides (snd x)) 0 = Some stride ->
  (0 <= stride)%Z \/ st = 0 -> st + len <= length vs ->
  exists y, slice_nd x 0 (Z.of_nat st) (Z.of_nat (st + len)) = Ok y /\ holds y (firstn len (skipn st vs)).
Proof.
  intros (W & S & L) Hst HP HB.
  assert (Hn : nth_error (a_shape (snd x)) 0 = Some (length vs)) by (rewrite S; reflexivity).
  destruct (slice_axis_piece (fst x) (snd x) 0 (length vs) stride st len W Hn Hst HP HB) as (p & E & W' & S' & I' & _ & L').
  unfold slice_nd. rewrite Nat2Z.inj_add, E. cbn [bind]. exists (fst x, p). split; [reflexivity|].
  assert (HL : length (firstn len (skipn st vs)) = len) by (rewrite firstn_length, skipn_length; lia).
  split; [exact W'|]. cbn [fst snd]. split; [rewrite S', S, HL; reflexivity|].
  rewrite (L' []) by (rewrite S; constructor).
  unfold lane in L. rewrite S in L. cbn [nth] in L.
  apply nth_error_ext. intros k. rewrite nth_error_map', nth_error_seq, nth_error_map'.
  destruct (Nat.ltb_spec k len).
  - cbn [option_map]. rewrite nth_error_firstn_lt, nth_error_skipn by lia.
    assert (HE := f_equal (fun l => nth_error l (st + k)) L). cbn beta in HE. rewrite !nth_error_map', nth_error_seq in HE.
    destruct (Nat.ltb_spec (st + k) (length vs)); [|lia]. exact HE.
  - cbn [option_map]. assert (EN : nth_error (firstn len (skipn st vs)) k = None) by (apply nth_error_None; lia). rewrite EN. reflexivity.
Qed.

Lemma concat_1d l (vss : list (list V)) : Forall2 holds l vss -> l <> [] ->
  concat_nd zero l 0 = Ok ([length (concat vss)], concat vss).
Proof.
  intros HF Hne. destruct l as [|x0 l]; [congruence|].
  assert (HA : forall x, In x (x0 :: l) -> exists vs, holds x vs).
  { intros x Hx. clear -HF Hx. induction HF; [contradiction|]. destruct Hx as [<-|Hx]; [eexists; eassumption|auto]. }
  destruct (concat_nd_spec zero (x0 :: l) x0 0 eq_refl) as [S1 _].
  { intros x Hx. destruct (HA x Hx) as (vs & W & _). exact W. }
  destruct (HA x0 (or_introl eq_refl)) as (vs0 & _ & SH0 & _). rewrite SH0 in S1. cbn [upd] in S1.
  assert (HSum : list_sum (map (axis_len 0) (x0 :: l)) = length (concat vss)).
  { clear -HF. induction HF as [|x vs l' vss' H HF IH]; [reflexivity|]. cbn [map list_sum fold_right concat].
    fold (list_sum (map (axis_len 0) l')). rewrite IH, app_length. f_equal. unfold axis_len. destruct H as (_ & -> & _). reflexivity. }
  rewrite HSum in S1. destruct S1 as (out & E & Len & HN).
  { split; [cbn; lia|]. intros x Hx. destruct (HA x Hx) as (vs & _ & S & _). rewrite S. split; reflexivity. }
  rewrite E. f_equal. f_equal. apply map_Some_inj.
  specialize (HN 1%Z [] eq_refl ltac:(constructor)). rewrite lane_fresh_1d in HN; [|lia|rewrite Len; cbn; lia].
  rewrite HN. clear -HF. induction HF as [|x vs l' vss' H HF IH]; [reflexivity|]. cbn [map concat]. rewrite IH, map_app.
  destruct H as (_ & _ & ->). reflexivity.
Qed.

(* flattening of a one-dimensional array, or of any array that is not F- only contiguous *)
Definition row_major (a : arr) : Prop := a_c a = true \/ a_f a = false \/ ndim a = 1.

Lemma ravel_holds typed (x : @nd V) vs : wf (fst x) (snd x) -> elems (fst x) (snd x) = map Some vs -> row_major (snd x) ->
  (Z.of_nat (size (snd x)) * a_item (snd x) < 2 ^ 63)%Z ->
  exists y stride, ravel_arr typed x = Ok y /\ holds y vs /\ size (snd y) = length vs /\
    nth_error (a_strides (snd y)) 0 = Some stride /\ (0 <= stride)%Z /\ a_item (snd y) = a_item (snd x).
Proof.
  intros W E HR HB. destruct x as [buf a]. cbn [fst snd] in *. pose proof (elems_len buf a vs E) as LV.
  assert (C : (a_c a = true \/ a_f a = false) \/ (a_c a = false /\ a_f a = true /\ ndim a = 1)).
  { destruct (a_c a) eqn:HC; [left; left; reflexivity|]. destruct (a_f a) eqn:HFl; [|left; right; reflexivity].
    right. split; [reflexivity|]. split; [reflexivity|]. unfold row_major in HR. destruct HR as [HR|[HR|HR]]; try congruence. }
  destruct C as [C|(HC & HFl & HD)].
  - destruct (ravel_arr_spec typed buf a W C HB) as (fb & fa & EF & WF & SF & IF & ELF & _ & stride & HS & HS0).
    exists (fb, fa), stride. split; [exact EF|]. cbn [snd]. split.
    { split; [exact WF|]. cbn [fst snd]. split; [congruence|]. rewrite (lane_1d_elems fb fa (size a)) by exact SF. congruence. }
    split; [unfold size at 1; rewrite SF; cbn [prod]; lia|]. auto.
  - unfold ndim in HD. destruct (a_shape a) as [|n [|]] eqn:SA; try (cbn in HD; lia).
    pose proof W as (HI & _ & _ & HLs & _ & _ & WFF). specialize (WFF HFl). rewrite SA in HLs, WFF.
    destruct (a_strides a) as [|st [|]] eqn:SS; cbn in HLs; try lia.
    assert (SZ : size a = n) by (unfold size; rewrite SA; cbn; lia).
    assert (HV : is_view buf a (view_with a 0 [n] [a_item a]) [n] (fun idx => idx)).
    { apply view0_is_view; [exact W|reflexivity|]. intros idx Hi. rewrite SA. split; [exact Hi|]. rewrite SS.
      pose proof (f_contig_dot [n] [st] (a_item a) idx eq_refl Hi WFF) as D. rewrite D.
      destruct idx as [|i idx]; [inversion Hi|]. apply inb_cons in Hi as [_ Hi]. inversion Hi. cbn. lia. }
    exists (buf, view_with a 0 [n] [a_item a]), (a_item a). split.
    { unfold ravel_arr. cbn [fst snd]. unfold reshape. rewrite SZ, SA, Z.eqb_refl, HC, HFl. cbn [negb andb]. reflexivity. }
    destruct HV as (S & WV & G). cbn [fst snd]. split.
    { split; [exact WV|]. cbn [fst snd]. split; [rewrite S; congruence|]. rewrite (lane_1d_elems _ _ n S). rewrite <- E. unfold elems. rewrite S, SA.
      apply map_ext_in. intros idx Hi. apply in_all_idx in Hi. apply G, Hi. }
    split; [unfold size at 1; rewrite S; cbn [prod]; lia|]. cbn [view_with a_strides a_item]. split; [reflexivity|]. split; [lia|reflexivity].
Qed.

Lemma ends_before (flat : @nd V) vs stride p item : holds flat vs -> nth_error (a_strides (snd flat)) 0 = Some stride -> (0 <= stride)%Z ->
  (0 < item)%Z -> p <= length vs ->
  exists y, (if 0 <? p then slice_nd flat 0 0 (Z.of_nat p) else Ok (empty_nd item)) = Ok y /\ holds y (firstn p vs).
Proof.
  intros HF HS HS0 HI Hp. destruct (Nat.ltb_spec 0 p).
  - destruct (slice_holds flat vs stride 0 p HF HS (or_introl HS0)) as (y & E & H'); [lia|]. exists y. split; [exact E|exact H'].
  - exists (empty_nd item). split; [reflexivity|]. replace p with 0 by lia. apply empty_holds. exact HI.
Qed.
Lemma ends_after (flat : @nd V) vs stride p item : holds flat vs -> nth_error (a_strides (snd flat)) 0 = Some stride -> (0 <= stride)%Z ->
  (0 < item)%Z ->
  exists y, (if p <? length vs then slice_nd flat 0 (Z.of_nat p) (Z.of_nat (length vs)) else Ok (empty_nd item)) = Ok y /\ holds y (skipn p vs).
Proof.
  intros HF HS HS0 HI. destruct (Nat.ltb_spec p (length vs)).
  - destruct (slice_holds flat vs stride p (length vs - p) HF HS (or_introl HS0)) as (y & E & H'); [lia|].
    replace (p + (length vs - p)) with (length vs) in E by lia. exists y. split; [exact E|].
    replace (firstn (length vs - p) (skipn p vs)) with (skipn p vs) in H'; [exact H'|].
    symmetry. apply firstn_all2. rewrite skipn_length. lia.
  - exists (empty_nd item). split; [reflexivity|]. rewrite skipn_all2 by lia. apply empty_holds. exact HI.
Qed.

Definition small (x : @nd V) : Prop := (Z.of_nat (size (snd x)) * a_item (snd x) < 2 ^ 63)%Z.

Lemma append_flat_spec typed (x v : @nd V) xs vs : wf (fst x) (snd x) -> wf (fst v) (snd v) ->
  elems (fst x) (snd x) = map Some xs -> elems (fst v) (snd v) = map Some vs ->
  row_major (snd x) -> row_major (snd v) -> small x -> small v ->
  append zero typed x v None = Ok ([length (xs ++ vs)], xs ++ vs).
Proof.
  intros WX WV EX EV RX RV BX BV. unfold append.
  destruct (ravel_holds typed x xs WX EX RX BX) as (fx & sx & E1 & H1 & _). rewrite E1. cbn [bind].
  destruct (ravel_holds typed v vs WV EV RV BV) as (fv & sv & E2 & H2 & _). rewrite E2. cbn [bind].
  rewrite (concat_1d [fx; fv] [xs; vs]) by (try discriminate; repeat (apply Forall2_cons; [assumption|]); apply Forall2_nil).
  cbn [concat]. rewrite app_nil_r. reflexivity.
Qed.

Lemma insert_flat_spec typed (x v : @nd V) xs vs index : wf (fst x) (snd x) -> wf (fst v) (snd v) ->
  elems (fst x) (snd x) = map Some xs -> elems (fst v) (snd v) = map Some vs ->
  row_major (snd x) -> row_major (snd v) -> small x -> small v ->
  let p := insert_pos (length xs) index in
  let r := firstn p xs ++ vs ++ skipn p xs in
  insert zero typed x index v None = Ok ([length r], r).
Proof.
  intros WX WV EX EV RX RV BX BV p r. unfold insert.
  assert (HI : (0 < a_item (snd x))%Z) by (destruct WX; assumption).
  destruct (ravel_holds typed x xs WX EX RX BX) as (fx & sx & E1 & H1 & SZ & HS & HS0 & _). rewrite E1. cbn [bind]. cbv zeta.
  rewrite SZ. fold p.
  assert (Hp : p <= length xs) by (unfold p, insert_pos; lia).
  destruct (ends_before fx xs sx p (a_item (snd x)) H1 HS HS0 HI Hp) as (b & EB & HB). rewrite EB. cbn [bind].
  destruct (ends_after fx xs sx p (a_item (snd x)) H1 HS HS0 HI) as (c & EC & HC). rewrite EC. cbn [bind].
  destruct (ravel_holds typed v vs WV EV RV BV) as (fv & sv & E2 & H2 & _). rewrite E2. cbn [bind].
  rewrite (concat_1d [b; fv; c] [firstn p xs; vs; skipn p xs]) by (try discriminate; repeat (apply Forall2_cons; [assumption|]); apply Forall2_nil).
  cbn [concat]. rewrite app_nil_r. reflexivity.
Qed.

Lemma as_result_spec (x : @nd V) xs : wf (fst x) (snd x) -> elems (fst x) (snd x) = map Some xs ->
  as_result x = Ok (a_shape (snd x), xs).
Proof. intros W E. unfold as_result. rewrite (read_offsets _ _ xs W E). reflexivity. Qed.

Lemma delete_flat_spec typed (x : @nd V) xs index : wf (fst x) (snd x) ->
  elems (fst x) (snd x) = map Some xs -> row_major (snd x) -> small x ->
  delete zero typed x index None =
  match delete_pos (length xs) index with
  | None => Ok ([length xs], xs)
  | Some p => let r := firstn p xs ++ skipn (p + 1) xs in Ok ([length r], r)
  end.
Proof.
  intros WX EX RX BX. unfold delete.
  assert (HI : (0 < a_item (snd x))%Z) by (destruct WX; assumption).
  destruct (ravel_holds typed x xs WX EX RX BX) as (fx & sx & E1 & H1 & SZ & HS & HS0 & _). rewrite E1. cbn [bind]. cbv zeta.
  rewrite SZ. destruct (delete_pos (length xs) index) as [p|] eqn:EP.
  - assert (Hp : p < length xs).
    { unfold delete_pos in EP. destruct (length xs =? 0); [discriminate|]. destruct (Nat.leb_spec (length xs) (Z.to_nat (if (index <? 0)%Z then Z.max (Z.of_nat (length xs) + index) 0 else index))); [discriminate|]. injection EP as <-. assumption. }
    destruct (ends_before fx xs sx p (a_item (snd x)) H1 HS HS0 HI) as (b & EB & HB); [lia|]. rewrite EB. cbn [bind].
    destruct (ends_after fx xs sx (p + 1) (a_item (snd x)) H1 HS HS0 HI) as (c & EC & HC). rewrite EC. cbn [bind].
    rewrite (concat_1d [b; c] [firstn p xs; skipn (p + 1) xs]) by (try discriminate; repeat (apply Forall2_cons; [assumption|]); apply Forall2_nil).
    cbn [concat]. rewrite app_nil_r. reflexivity.
  - destruct H1 as (W1 & S1 & L1). rewrite (as_result_spec fx xs W1); [rewrite S1; reflexivity|].
    rewrite <- (lane_1d_elems _ _ (length xs) S1). exact L1.
Qed.
End Flat.

(* ---- rot90 ---- *)
Lemma is_view_trans {V} (buf : list V) a b c sh1 sh2 f g :
  is_view buf a b sh1 f -> is_view buf b c sh2 g -> is_view buf a c sh2 (fun idx => f (g idx)).
Proof.
  intros (S1 & W1 & G1) (S2 & W2 & G2). split; [exact S2|]. split; [exact W2|]. intros idx Hi.
  destruct (G2 idx Hi) as [I2 E2]. rewrite S1 in I2. destruct (G1 _ I2) as [I1 E1]. split; [exact I1|congruence].
Qed.

Lemma flip_strides a axis f d : flip a axis = Ok f -> d <> axis -> nth_error (a_strides f) d = nth_error (a_strides a) d.
Proof.
  unfold flip. destruct (nth_error (a_shape a) axis) as [[|n]|]; [intros [=<-]; reflexivity| |discriminate].
  unfold slice_axis. destruct (nth_error (a_strides a) axis); [|discriminate]. destruct (nth_error (a_shape a) axis); [|discriminate].
  destruct (slice_len _ _ _); cbn [bind]; try discriminate. intros [=<-] Hd. cbn [view_with a_strides]. apply nth_error_upd_neq. exact Hd.
Qed.

Lemma nth_of_nth_error {A} (l m : list A) k d : nth_error l k = nth_error m k -> nth k l d = nth k m d.
Proof. intros H. rewrite <- !(nth_default_eq). unfold nth_default. rewrite H. reflexivity. Qed.

Definition flippable (a : arr) (axis : nat) : Prop := (0 <= nth axis (a_strides a) 0)%Z \/ nth axis (a_shape a) 0 <= 1.

Lemma flip_view {V} (buf : list V) a axis : wf buf a -> axis < ndim a -> flippable a axis ->
  exists f, flip a axis = Ok f /\ is_view buf a f (a_shape a) (flip_idx axis (nth axis (a_shape a) 0)).
Proof.
  intros W Ha HF. pose proof W as (_ & _ & _ & HL & _).
  destruct (nth_error (a_shape a) axis) as [n|] eqn:En; [|apply nth_error_None in En; unfold ndim in Ha; lia].
  destruct (nth_error (a_strides a) axis) as [s|] eqn:Es; [|apply nth_error_None in Es; unfold ndim in Ha; lia].
  rewrite (nth_error_nth _ _ _ En). unfold flippable in HF. rewrite (nth_error_nth _ _ _ Es), (nth_error_nth _ _ _ En) in HF.
  exact (flip_is_view buf a axis n s W En Es HF).
Qed.

Lemma rot90_spec {V} (buf : list V) a k ax0 ax1 : wf buf a -> ax0 < ndim a -> ax1 < ndim a -> ax0 <> ax1 ->
  flippable a ax0 -> flippable a ax1 ->
  let n0 := nth ax0 (a_shape a) 0 in let n1 := nth ax1 (a_shape a) 0 in
  exists a', rot90 a k ax0 ax1 = Ok a' /\
    (k mod 4 = 0 -> is_view buf a a' (a_shape a) (fun idx => idx))%Z /\
    (k mod 4 = 1 -> is_view buf a a' (swap_at ax0 ax1 (a_shape a)) (fun idx => flip_idx ax1 n1 (swap_at ax0 ax1 idx)))%Z /\
    (k mod 4 = 2 -> is_view buf a a' (a_shape a) (fun idx => flip_idx ax0 n0 (flip_idx ax1 n1 idx)))%Z /\
    (k mod 4 = 3 -> is_view buf a a' (swap_at ax0 ax1 (a_shape a)) (fun idx => flip_idx ax0 n0 (swap_at ax0 ax1 idx)))%Z.
Proof.
  intros W H0 H1 Hne F0 F1 n0 n1. unfold rot90.
  destruct (Nat.ltb_spec ax0 (ndim a)) as [_|]; [|lia]. destruct (Nat.ltb_spec ax1 (ndim a)) as [_|]; [|lia]. cbn [andb negb]. cbv zeta.
  pose proof (norm_shift_spec k 4 ltac:(lia)) as HK. pose proof (Z.mod_pos_bound k 4 ltac:(lia)) as HB.
  change (Z.of_nat 4) with 4%Z in HK.
  destruct (flip_view buf a ax0 W H0 F0) as (f0 & E0 & V0). destruct (flip_view buf a ax1 W H1 F1) as (f1 & E1 & V1).
  assert (TR : forall f, a_shape f = a_shape a -> wf buf f ->
     exists t, transpose_axes f (swap_axes_list (ndim a) ax0 ax1) = Ok t /\ is_view buf f t (swap_at ax0 ax1 (a_shape a)) (swap_at ax0 ax1)).
  { intros f Sf Wf. assert (NDf : ndim f = ndim a) by (unfold ndim; rewrite Sf; reflexivity).
    destruct (swapaxes_is_view buf f ax0 ax1 Wf) as (t & Et & Vt); [lia|lia|].
    unfold swapaxes_view in Et. destruct ((_ <? _) && (_ <? _)); [|discriminate]. rewrite NDf in Et. rewrite Sf in Vt.
    exists t. split; assumption. }
  destruct (norm_shift k 4) as [|[|[|[|m]]]] eqn:EN; cbn [Z.of_nat] in HK.
  - exists a. split; [reflexivity|]. split; [|repeat split; lia]. intros _. split; [reflexivity|]. split; [exact W|]. intros idx Hi. split; [exact Hi|reflexivity].
  - rewrite E1. cbn [unwrap bind]. destruct V1 as (S1 & W1 & G1). destruct (TR f1 S1 W1) as (t & Et & Vt). exists t. split; [exact Et|].
    split; [lia|]. split; [|split; lia]. intros _. apply (is_view_trans buf a f1 t (a_shape a)); [split; [exact S1|split; [exact W1|exact G1]]|exact Vt].
  - rewrite E0. cbn [unwrap bind]. pose proof V0 as (S0 & W0 & G0).
    destruct (flip_view buf f0 ax1 W0) as (g & Eg & Vg).
    { unfold ndim. rewrite S0. exact H1. }
    { unfold flippable. rewrite S0. rewrite (nth_of_nth_error (a_strides f0) (a_strides a) ax1); [exact F1|].
      apply (flip_strides a ax0); [exact E0|auto]. }
    rewrite Eg. cbn [unwrap]. rewrite S0 in Vg. exists g. split; [reflexivity|]. split; [lia|]. split; [lia|]. split; [|lia]. intros _.
    exact (is_view_trans buf a f0 g _ _ _ _ V0 Vg).
  - rewrite E0. cbn [unwrap bind]. pose proof V0 as (S0 & W0 & G0). destruct (TR f0 S0 W0) as (t & Et & Vt). exists t. split; [exact Et|].
    split; [lia|]. split; [lia|]. split; [lia|]. intros _. exact (is_view_trans buf a f0 t _ _ _ _ V0 Vt).
  - lia.
Qed.

(* ---- tril_indices, triu_indices ---- *)
Lemma filter_seq_lt c m : filter (fun j => j <? c) (seq 0 m) = seq 0 (Nat.min c m).
Proof.
  induction m as [|m IH]; [rewrite Nat.min_0_r; reflexivity|]. rewrite seq_S, filter_app, IH. cbn [filter Nat.add].
  destruct (Nat.ltb_spec m c).
  - replace (Nat.min c m) with m by lia. replace (Nat.min c (S m)) with (S m) by lia. rewrite seq_S. reflexivity.
  - rewrite app_nil_r. f_equal. lia.
Qed.
Lemma filter_seq_ge c m : filter (fun j => c <=? j) (seq 0 m) = seq c (m - c).
Proof.
  induction m as [|m IH]; [reflexivity|]. rewrite seq_S, filter_app, IH. cbn [filter Nat.add].
  destruct (Nat.leb_spec c m).
  - replace (S m - c) with (S (m - c)) by lia. rewrite seq_S. repeat f_equal. lia.
  - rewrite app_nil_r. f_equal. lia.
Qed.
Lemma filter_flat_map {A B} (p : B -> bool) (f : A -> list B) l : filter p (flat_map f l) = flat_map (fun x => filter p (f x)) l.
Proof. induction l as [|x l IH]; [reflexivity|]. cbn [flat_map]. rewrite filter_app, IH. reflexivity. Qed.
Lemma filter_map {A B} (p : B -> bool) (f : A -> B) l : filter p (map f l) = map f (filter (fun x => p (f x)) l).
Proof. induction l as [|x l IH]; [reflexivity|]. cbn [map filter]. rewrite IH. destruct (p (f x)); reflexivity. Qed.
Lemma flat_map_ext_in {A B} (f g : A -> list B) l : (forall x, In x l -> f x = g x) -> flat_map f l = flat_map g l.
Proof. intros H. rewrite !flat_map_concat_map. f_equal. apply map_ext_in. exact H. Qed.


Lemma in_grid n m i j : In (i, j) (grid n m) <-> i < n /\ j < m.
Proof.
  unfold grid. rewrite in_flat_map. split.
  - intros (x & Hx & H). apply in_map_iff in H as (y & E & Hy). injection E as -> ->. apply in_seq in Hx, Hy. lia.
  - intros [Hi Hj]. exists i. split; [apply in_seq; lia|]. apply in_map_iff. exists j. split; [reflexivity|apply in_seq; lia].
Qed.


Lemma tri_indices_spec n m k : k_ok n k -> (Z.of_nat n <= 2 ^ 53)%Z -> (Z.of_nat m <= 2 ^ 53)%Z ->
  let out lower := (map (fun p => Z.of_nat (fst p)) (tri_positions lower n m k), map (fun p => Z.of_nat (snd p)) (tri_positions lower n m k)) in
  tril_indices n k m = out true /\ triu_indices n k m = out false.
Proof.
  intros HK Hn Hm out.
  assert (SM : forall z, z < n \/ z < m -> through_f64 int64_t (Z.of_nat z) = Z.of_nat z).
  { intros z Hz. apply through_f64_small; [|lia]. unfold representable, i_min, i_max. cbn. lia. }
  assert (EX : forall P : list (nat * nat), (forall p, In p P -> fst p < n /\ snd p < m) ->
    (map (fun p => through_f64 int64_t (Z.of_nat (fst p))) P, map (fun p => through_f64 int64_t (Z.of_nat (snd p))) P) =
    (map (fun p => Z.of_nat (fst p)) P, map (fun p => Z.of_nat (snd p)) P)).
  { intros P HP. f_equal; apply map_ext_in; intros p Hp; apply SM; destruct (HP p Hp); auto. }
  assert (IN : forall lower p, In p (tri_positions lower n m k) -> fst p < n /\ snd p < m).
  { intros lower [i j] Hp. apply filter_In in Hp as [Hp _]. apply in_grid in Hp. exact Hp. }
  unfold k_ok in HK. split.
  - unfold tril_indices. cbv zeta.
    match goal with |- context [flat_map ?f (seq 0 n)] => assert (EP : flat_map f (seq 0 n) = tri_positions true n m k) end.
    { unfold tri_positions, grid. rewrite filter_flat_map. apply flat_map_ext_in. intros i Hi. apply in_seq in Hi.
      rewrite filter_map. cbn [fst snd]. f_equal. rewrite (wrap_isize_id (Z.of_nat i + k)), wrap_isize_id by lia.
      rewrite (filter_ext (fun j => in_tri true k i j) (fun j => j <? Z.to_nat (Z.of_nat i + k + 1))).
      - rewrite filter_seq_lt. f_equal. lia.
      - intros j. unfold in_tri. destruct (Z.leb_spec (Z.of_nat j - Z.of_nat i) k), (Nat.ltb_spec j (Z.to_nat (Z.of_nat i + k + 1))); lia. }
    rewrite EP. apply EX. apply IN.
  - unfold triu_indices. cbv zeta.
    match goal with |- context [flat_map ?f (seq 0 n)] => assert (EP : flat_map f (seq 0 n) = tri_positions false n m k) end.
    { unfold tri_positions, grid. rewrite filter_flat_map. apply flat_map_ext_in. intros i Hi. apply in_seq in Hi.
      rewrite filter_map. cbn [fst snd]. f_equal. rewrite (wrap_isize_id (Z.of_nat i + k)) by lia.
      rewrite (filter_ext (fun j => in_tri false k i j) (fun j => Z.to_nat (Z.max (Z.of_nat i + k) 0) <=? j)).
      - rewrite filter_seq_ge. f_equal.
      - intros j. unfold in_tri. destruct (Z.leb_spec k (Z.of_nat j - Z.of_nat i)), (Nat.leb_spec (Z.to_nat (Z.max (Z.of_nat i + k) 0)) j); lia. }
    rewrite EP. apply EX. apply IN.
Qed.

(* ---- insert and delete along an axis ---- *)
Section Axis.
Context {V : Type}.
Variable zero : V.

Lemma remove_at_upd {A} (l : list A) : forall axis v, remove_at axis (upd l axis v) = remove_at axis l.
Proof. induction l as [|x l IH]; intros [|axis] v; cbn [upd remove_at]; try reflexivity. rewrite IH. reflexivity. Qed.

Lemma delete_pos_lt n index p : delete_pos n index = Some p -> p < n.
Proof.
  unfold delete_pos. destruct (n =? 0); [discriminate|].
  destruct (Nat.leb_spec n (Z.to_nat (if (index <? 0)%Z then Z.max (Z.of_nat n + index) 0 else index))); [discriminate|].
  intros [=<-]. assumption.
Qed.

Lemma lane_seq (buf : list V) a axis oi st len : st + len <= nth axis (a_shape a) 0 ->
  map (fun j => get buf a (insert_at axis j oi)) (seq st len) = firstn len (skipn st (lane buf a axis oi)).
Proof.
  intros H. unfold lane. rewrite skipn_map, firstn_map. f_equal.
  apply nth_error_ext. intros k. rewrite nth_error_seq. destruct (Nat.ltb_spec k len).
  - rewrite nth_error_firstn_lt, nth_error_skipn, nth_error_seq by assumption. destruct (Nat.ltb_spec (st + k) (nth axis (a_shape a) 0)); [f_equal; lia|lia].
  - symmetry. apply nth_error_None. rewrite firstn_length. lia.
Qed.

Lemma delete_axis_spec typed (x : @nd V) index ax axis p stride item : wf (fst x) (snd x) ->
  norm_axis (ndim (snd x)) ax = Some axis -> axis < ndim (snd x) ->
  nth_error (a_strides (snd x)) axis = Some stride -> (0 <= stride)%Z -> (0 < item)%Z ->
  let n := nth axis (a_shape (snd x)) 0 in
  delete_pos n index = Some p ->
  let osh := upd (a_shape (snd x)) axis (n - 1) in
  exists out, delete zero typed x index (Some ax) = Ok (osh, out) /\ length out = prod osh /\
    forall oi, inb oi (remove_at axis (a_shape (snd x))) ->
      lane out (fresh osh item) axis oi =
      firstn p (lane (fst x) (snd x) axis oi) ++ skipn (p + 1) (lane (fst x) (snd x) axis oi).
Proof.
  intros W EA HA HS HS0 HI n EP osh. pose proof (delete_pos_lt _ _ _ EP) as Hp. unfold ndim in HA.
  assert (Hn : nth_error (a_shape (snd x)) axis = Some n) by (apply nth_error_nth'; exact HA).
  unfold delete. rewrite EA. cbv zeta. fold n. rewrite EP.
  destruct (slice_axis_piece (fst x) (snd x) axis n stride 0 p W Hn HS (or_introl HS0)) as (b & EB & WB & SB & _ & _ & LB); [lia|].
  destruct (slice_axis_piece (fst x) (snd x) axis n stride (p + 1) (n - (p + 1)) W Hn HS (or_introl HS0)) as (c & EC & WC & SC & _ & _ & LC); [lia|].
  unfold slice_nd. change (Z.of_nat 0 + Z.of_nat p)%Z with (Z.of_nat p) in EB. change (Z.of_nat 0) with 0%Z in EB. rewrite EB. cbn [bind].
  replace (Z.of_nat (p + 1) + Z.of_nat (n - (p + 1)))%Z with (Z.of_nat n) in EC by lia. rewrite EC. cbn [bind].
  destruct (concat_nd_spec zero [(fst x, b); (fst x, c)] (fst x, b) axis eq_refl) as [S1 _].
  { intros y [<-|[<-|[]]]; assumption. }
  cbn [map snd axis_len list_sum fold_right] in S1. unfold axis_len in S1. cbn [snd] in S1. rewrite SB, SC in S1.
  assert (N1 : nth axis (upd (a_shape (snd x)) axis p) 0 = p).
  { apply nth_error_nth. apply nth_error_upd_eq. exact HA. }
  assert (N2 : nth axis (upd (a_shape (snd x)) axis (n - (p + 1))) 0 = n - (p + 1)).
  { apply nth_error_nth. apply nth_error_upd_eq. exact HA. }
  rewrite N1, N2, upd_upd, upd_length in S1. replace (p + (n - (p + 1) + 0)) with (n - 1) in S1 by lia.
  destruct S1 as (out & E & Len & HN).
  { split; [exact HA|]. intros y [<-|[<-|[]]]; cbn [snd]; rewrite ?SB, ?SC, ?upd_length, !remove_at_upd; split; reflexivity. }
  exists out. split; [exact E|]. split; [exact Len|]. intros oi Ho. rewrite HN; [|exact HI|rewrite remove_at_upd; exact Ho].
  cbn [map concat fst snd]. rewrite app_nil_r, LB, LC by exact Ho. rewrite !lane_seq by (fold n; lia).
  rewrite skipn_O. f_equal. apply firstn_all2. rewrite skipn_length. unfold lane. rewrite map_length, seq_length. fold n. lia.
Qed.

Lemma holds_elems (x : @nd V) vs : holds x vs -> elems (fst x) (snd x) = map Some vs.
Proof. intros (_ & S & L). rewrite <- (lane_1d_elems _ _ _ S). exact L. Qed.

Lemma reshape_holds (x : @nd V) vs a' : holds x vs -> small x -> reshape (snd x) [length vs] = Ok a' -> holds (fst x, a') vs.
Proof.
  intros H HB E. pose proof H as (W & S & L).
  destruct (ravel_holds false x vs W (holds_elems x vs H)) as (y & st & EY & HY & _); [|exact HB|].
  { right. right. unfold ndim. rewrite S. reflexivity. }
  assert (SZ : size (snd x) = length vs) by (unfold size; rewrite S; cbn; lia).
  unfold ravel_arr in EY. rewrite SZ, E in EY. injection EY as <-. exact HY.
Qed.

Lemma insert_axis_1d_spec typed (x v : @nd V) xs vs index ax stride : holds x xs -> holds v vs -> small v ->
  nth_error (a_strides (snd x)) 0 = Some stride -> (0 <= stride)%Z -> xs <> [] -> norm_axis 1 ax = Some 0 ->
  let p := insert_pos (length xs) index in
  let r := firstn p xs ++ vs ++ skipn p xs in
  insert zero typed x index v (Some ax) = Ok ([length r], r).
Proof.
  intros HX HV BV HS HS0 Hne EA p r. pose proof HX as (WX & SX & LX).
  assert (Hp : p <= length xs) by (unfold p, insert_pos; lia).
  assert (Hl : 0 < length xs) by (destruct xs; [congruence|cbn; lia]).
  unfold insert. unfold ndim. rewrite SX. cbn [length]. rewrite EA. cbv zeta. cbn [nth]. fold p.
  destruct (slice_holds x xs stride 0 p HX HS (or_introl HS0)) as (b & EB & HB); [lia|].
  change (slice_nd x 0 0 (Z.of_nat p) = Ok b) in EB. rewrite EB. cbn [bind].
  destruct (slice_holds x xs stride p (length xs - p) HX HS (or_introl HS0)) as (c & EC & HC); [lia|].
  replace (p + (length xs - p)) with (length xs) in EC by lia. rewrite EC. cbn [bind].
  destruct (Nat.eqb_spec (length xs) 0); [lia|]. cbn [upd].
  assert (SZX : size (snd x) = length xs) by (unfold size; rewrite SX; cbn; lia).
  assert (SZV : size (snd v) = length vs) by (destruct HV as (_ & SV & _); unfold size; rewrite SV; cbn; lia).
  rewrite SZX, SZV, Nat.div_same by lia. cbn [Nat.max]. rewrite Nat.div_1_r.
  set (w := match reshape (snd v) [length vs] with Ok a => (fst v, a) | _ => v end).
  assert (HW : holds w vs).
  { unfold w. destruct (reshape (snd v) [length vs]) eqn:ER; try exact HV. exact (reshape_holds v vs _ HV BV ER). }
  rewrite (concat_1d zero [b; w; c] [firstn p (skipn 0 xs); vs; firstn (length xs - p) (skipn p xs)]) by (try discriminate; repeat (apply Forall2_cons; [assumption|]); apply Forall2_nil).
  cbn [concat]. rewrite app_nil_r, skipn_O. rewrite (firstn_all2 (n := length xs - p)) by (rewrite skipn_length; lia). reflexivity.
Qed.
End Axis.
