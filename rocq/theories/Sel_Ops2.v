From Verif Require Import Base Lists Arr_Spec Arr_Model Arr_Wf Arr_Proofs Copy_Model Copy_Proofs
  Idx_Model Idx_Wf Idx_Assign Int_Model F64_Model F64_Proofs Elem_Proofs Red_Model Red_Spec Red_Proofs Red_Scan
  Man_Model Man_Proofs Man_Ops Man_Ops2 Man_Edit Sel_Spec Sel_Model Sel_Proofs Sel_Ops.
Local Open Scope nat_scope.

(* ---- a[index array] ---- *)
Lemma mapM_enum2 {A B C} (body : nat * A -> res C) (row : nat -> B -> C) l js : forall s,
  Forall2 (fun x j => forall k, body (k, x) = Ok (row k j)) l js ->
  mapM body (combine (seq s (length l)) l) = Ok (map (fun p => row (fst p) (snd p)) (combine (seq s (length js)) js)).
Proof.
  intros s H. revert s. induction H as [|x j l js Hx H IH]; intros s; [reflexivity|]. cbn [length seq combine mapM map fst snd].
  rewrite Hx. cbn [bind]. rewrite IH. reflexivity.
Qed.
Lemma Forall2_map_l {A B C} (R : B -> C -> Prop) (f : A -> B) l m : Forall2 (fun x y => R (f x) y) l m -> Forall2 R (map f l) m.
Proof. induction 1; constructor; auto. Qed.
Lemma Forall2_map_eq {A B C} (f : A -> C) (g : B -> C) l m : map f l = map g m -> Forall2 (fun x y => f x = g y) l m.
Proof. revert m; induction l as [|x l IH]; intros [|y m] H; try discriminate; [constructor|]. injection H as H1 H2. constructor; auto. Qed.

Section Rows.
Context {V : Type} (zero : V).
Lemma select_by_indices_spec as_idx (buf : list V) a ibuf ia iv n rest : wf buf a -> wf ibuf ia -> elems ibuf ia = map Some iv ->
  a_shape a = n :: rest -> Forall i64_range iv -> (Z.of_nat n <= isize_max)%Z ->
  (forall i, In i iv -> as_idx i = i) -> (0 < prod rest \/ size ia = 0) ->
  let osh := size ia :: rest in
  (forall js, map (fun i => py_index i n) iv = map Some js ->
   exists out, select_by_indices zero as_idx buf a ibuf ia = Ok (osh, out) /\ length out = prod osh /\
     forall item i idx, (0 < item)%Z -> inb (i :: idx) osh ->
       get out (fresh osh item) (i :: idx) = get buf a (nth i js 0 :: idx)) /\
  ((exists i, In i iv /\ py_index i n = None) -> select_by_indices zero as_idx buf a ibuf ia = Err).
Proof.
  intros W WI E Hs HR Hn HA HP osh. unfold select_by_indices. rewrite Hs. fold osh.
  pose proof (elems_length _ _ _ E) as HL.
  destruct (Nat.eqb_spec (size ia) 0) as [H0|H0].
  { split.
    - intros js HJ. exists (repeat zero (prod osh)). split; [reflexivity|]. split; [apply repeat_length|].
      intros item i idx _ Hi. exfalso. apply inb_cons in Hi. lia.
    - intros (i & Hi & _). destruct iv; [destruct Hi|cbn in HL; lia]. }
  destruct HP as [HP|HP]; [|contradiction].
  rewrite (Nat.max_l (prod rest) 1) by lia. unfold size at 2 3, ndim. rewrite odometer_all. rewrite odometer_all.
  set (r := prod rest) in *. fold (size ia).
  assert (EG : map (fun x => get_element ibuf ia x) (all_idx (a_shape ia)) = map (@Ok Z) iv).
  { transitivity (map (fun o : option Z => of_load o) (map (get ibuf ia) (all_idx (a_shape ia)))).
    - rewrite map_map. apply map_ext_in. intros x Hx. apply in_all_idx in Hx. unfold get_element.
      rewrite (proj2 (idx_ok_iff _ _) Hx). destruct (wf_get ibuf ia x WI Hx) as [w ->]. reflexivity.
    - fold (elems ibuf ia). rewrite E, map_map. reflexivity. }
  set (g := fun j q => vget zero buf a (j :: unrank rest q)).
  set (body := fun p : nat * list nat => bind (get_element ibuf ia (snd p)) (fun iv0 =>
       bind (of_opt (norm_index (as_idx iv0) n)) (fun idx =>
       mapM (fun q => bind (read buf a (byte_offset_for a (idx :: snd q))) (fun v => Ok (fst p * r + fst q, v)))
         (combine (seq 0 r) (all_idx rest))))).
  assert (INNER : forall k j, j < n -> mapM (fun q => bind (read buf a (byte_offset_for a (j :: snd q))) (fun v => Ok (k * r + fst q, v)))
         (combine (seq 0 r) (all_idx rest)) = Ok (map (fun q => (k * r + q, g j q)) (seq 0 r))).
  { intros k j Hj. rewrite all_idx_unrank. fold r. rewrite combine_seq_map, mapM_map. cbn [fst snd Nat.add].
    apply mapM_ok. intros q Hq. apply in_seq in Hq.
    rewrite (read_vget zero buf a (j :: unrank rest q) W); [reflexivity|]. rewrite Hs. apply inb_cons. split; [exact Hj|].
    apply unrank_inb. unfold r in Hq. lia. }
  assert (LA : length (all_idx (a_shape ia)) = size ia) by apply all_idx_length.
  split.
  - intros js HJ.
    assert (F2 : Forall2 (fun x j => forall k, body (k, x) = Ok (map (fun q => (k * r + q, g j q)) (seq 0 r))) (all_idx (a_shape ia)) js).
    { apply Forall2_map_eq in EG. clear -EG HJ HR HA Hn INNER. revert js HJ.
      induction EG as [|x i l iv' Hx EG IH]; intros js HJ; destruct js as [|j js]; try discriminate; constructor.
      - cbn [map] in HJ. injection HJ as HJ _. intros k. unfold body. cbn [fst snd]. rewrite Hx. cbn [bind]. inversion HR; subst.
        rewrite HA by (left; reflexivity). rewrite norm_index_spec by assumption. rewrite HJ. cbn [of_opt bind].
        apply INNER. eapply py_index_lt; exact HJ.
      - inversion HR; subst. apply IH; [assumption|intros; apply HA; right; assumption|].
        cbn [map] in HJ. injection HJ as _ HJ. exact HJ. }
    pose proof (mapM_enum2 body (fun k j => map (fun q => (k * r + q, g j q)) (seq 0 r)) _ _ 0 F2) as ME.
    rewrite LA in ME. rewrite ME. cbn [bind]. cbv beta.
    pose proof (rows_enum g r js 0) as RE. rewrite Nat.mul_0_l in RE. rewrite RE. clear RE.
    assert (LJ : length js = size ia) by (apply (f_equal (@length _)) in HJ; rewrite !map_length in HJ; lia).
    set (out := flat_map (fun i => map (g i) (seq 0 r)) js).
    assert (LO : length out = size ia * r).
    { unfold out. rewrite (flat_map_const_length _ _ r) by (intros; rewrite map_length, seq_length; reflexivity). lia. }
    rewrite write_all_enum by (rewrite repeat_length; subst osh; cbn [prod]; fold r; lia). cbn [bind].
    exists out. split; [reflexivity|]. split; [subst osh; cbn [prod]; fold r; lia|].
    intros item i idx HI Hi. apply inb_cons in Hi as [Hi1 Hi2]. rewrite fresh_get by exact HI. cbn [rank osh]. fold r.
    unfold out. rewrite flat_map_concat_map, (nth_error_concat r).
    + rewrite nth_error_map'. rewrite (nth_error_nth' js 0) by lia. cbn [option_map].
      rewrite nth_error_map', nth_error_seq. destruct (Nat.ltb_spec (rank rest idx) r); [|pose proof (rank_lt _ _ Hi2); unfold r in *; lia].
      cbn [option_map Nat.add]. unfold g. rewrite unrank_rank by exact Hi2. symmetry. apply vget_some; [exact W|].
      rewrite Hs. apply inb_cons. split; [|exact Hi2].
      assert (HJ' : nth_error (map Some js) i = Some (Some (nth i js 0))) by (rewrite nth_error_map', (nth_error_nth' js 0) by lia; reflexivity).
      rewrite <- HJ, nth_error_map' in HJ'. destruct (nth_error iv i) as [z|]; [|discriminate]. cbn in HJ'. injection HJ' as HJ'.
      eapply py_index_lt; exact HJ'.
    + intros l Hl. apply in_map_iff in Hl as (x & <- & _). rewrite map_length, seq_length. reflexivity.
    + apply rank_lt; exact Hi2.
  - intros HB. assert (GE : mapM body (combine (seq 0 (size ia)) (all_idx (a_shape ia))) = Err).
    { rewrite <- LA. apply Forall2_map_eq in EG. clear -EG HR HA Hn INNER HB. generalize 0 as s.
      induction EG as [|x i l iv' Hx EG IH]; intros s; [destruct HB as (i & [] & _)|].
      cbn [length seq combine mapM]. unfold body at 1. cbn [fst snd]. rewrite Hx. cbn [bind]. inversion HR; subst.
      rewrite HA by (left; reflexivity). rewrite norm_index_spec by assumption.
      destruct (py_index i n) as [k|] eqn:Ek; cbn [of_opt bind]; [|reflexivity].
      rewrite INNER by (eapply py_index_lt; exact Ek). cbn [bind].
      rewrite IH; [reflexivity|assumption|intros; apply HA; right; assumption|].
      destruct HB as (i' & [<-|Hi'] & Ei'); [congruence|exists i'; auto]. }
    unfold size at 2; rewrite odometer_all; rewrite GE. reflexivity.
Qed.
End Rows.

(* ---- positions of non-zero elements ---- *)
Lemma combine_map_r {A B C} (f : B -> C) (l : list A) (m : list B) :
  combine l (map f m) = map (fun p => (fst p, f (snd p))) (combine l m).
Proof. revert m; induction l as [|x l IH]; intros [|y m]; try reflexivity. cbn. rewrite IH. reflexivity. Qed.
Lemma filter_enum {V} (truthy : V -> bool) vs : forall s,
  map fst (filter (fun p => truthy (snd p)) (combine (seq s (length vs)) vs)) = true_positions s (map truthy vs).
Proof.
  induction vs as [|v vs IH]; intros s; [reflexivity|]. cbn [length seq combine filter snd map true_positions].
  destruct (truthy v); cbn [map fst]; rewrite IH; reflexivity.
Qed.
Lemma keep_filter_len {V} (truthy : V -> bool) vs : length (filter truthy vs) = length (true_positions 0 (map truthy vs)).
Proof.
  generalize 0. induction vs as [|v vs IH]; intros s; [reflexivity|]. cbn [filter map true_positions].
  destruct (truthy v); cbn [length]; rewrite (IH (S s)); reflexivity.
Qed.

Section NZ.
Context {V : Type} (truthy : V -> bool).
Lemma flatnonzero_spec (buf : list V) a vals : wf buf a -> elems buf a = map Some vals ->
  let ks := true_positions 0 (map truthy vals) in flatnonzero truthy buf a = Ok ([length ks], map Z.of_nat ks).
Proof.
  intros W E ks. unfold flatnonzero. destruct (Nat.eqb_spec (size a) 0) as [H0|H0].
  - pose proof (elems_length _ _ _ E) as HL. subst ks. destruct vals; [reflexivity|cbn in HL; lia].
  - rewrite (read_offsets buf a vals W E). cbn [bind]. rewrite keep_filter_len. fold ks. f_equal. f_equal.
    unfold ks. rewrite <- filter_enum, map_map. reflexivity.
Qed.

Lemma rows_of (buf : list V) a vals (t : V -> bool) (rd : list nat -> res V) : elems buf a = map Some vals ->
  (forall i v, inb i (a_shape a) -> get buf a i = Some v -> rd i = Ok v) ->
  exists l, mapM (fun i => bind (rd i) (fun v => Ok (t v, i))) (all_idx (a_shape a)) = Ok l /\
    map snd (filter (fun p => fst p) l) = keep (map t vals) (all_idx (a_shape a)).
Proof.
  intros E HR. unfold elems in E.
  assert (HI : forall i, In i (all_idx (a_shape a)) -> inb i (a_shape a)) by (intros i; apply in_all_idx).
  revert vals E HI. induction (all_idx (a_shape a)) as [|i l IH]; intros vals E HI; destruct vals as [|v vals]; try discriminate.
  - exists []. split; reflexivity.
  - cbn [map] in E. injection E as E1 E2. destruct (IH vals E2) as (r & Er & Ek); [intros; apply HI; right; assumption|].
    exists ((t v, i) :: r). cbn [mapM]. rewrite (HR i v (HI i (or_introl eq_refl)) E1). cbn [bind]. rewrite Er. cbn [bind].
    split; [reflexivity|]. cbn [filter fst map keep]. destruct (t v); cbn [map snd]; rewrite Ek; reflexivity.
Qed.
Lemma keep_in {A} mask (l : list A) x : In x (keep mask l) -> In x l.
Proof.
  revert l; induction mask as [|b mask IH]; intros [|y l] H; try destruct H. cbn [keep] in H.
  destruct b; [destruct H as [->|H]|]; [left; reflexivity|right; apply IH; exact H|right; apply IH; exact H].
Qed.

Lemma read_get (buf : list V) a i v : get buf a i = Some v -> read buf a (byte_offset_for a i) = Ok v.
Proof. intros H. unfold read. fold (get buf a i). rewrite H. reflexivity. Qed.

Lemma argwhere_spec (buf : list V) a vals : wf buf a -> elems buf a = map Some vals -> 0 < ndim a ->
  let rows := keep (map truthy vals) (all_idx (a_shape a)) in
  argwhere truthy buf a = Ok ([length rows; ndim a], flat_map (map Z.of_nat) rows).
Proof.
  intros W E HN rows. unfold argwhere. rewrite (Nat.max_l (ndim a) 1) by lia.
  pose proof (elems_length _ _ _ E) as HL.
  assert (HC : length (filter truthy vals) = length rows).
  { unfold rows. rewrite keep_len by (rewrite map_length, all_idx_length; fold (size a); lia).
    rewrite keep_filter_len. rewrite true_positions_filter, map_length. rewrite map_length.
    generalize 0. clear. induction vals as [|v vals IH]; intros s; [reflexivity|]. cbn [map length seq combine filter fst].
    destruct (truthy v); cbn [length]; rewrite IH; reflexivity. }
  destruct (Nat.eqb_spec (size a) 0) as [H0|H0].
  { destruct vals; [|cbn in HL; lia]. unfold rows. cbn [map keep]. reflexivity. }
  rewrite (read_offsets buf a vals W E). cbn [bind]. rewrite HC.
  destruct (Nat.eqb_spec (length rows) 0) as [HR|HR]; [destruct rows; [reflexivity|discriminate]|].
  unfold size at 1, ndim at 1. rewrite odometer_all.
  destruct (rows_of buf a vals truthy (fun i => read buf a (byte_offset_for a i)) E) as (l & El & Ek).
  { intros i v _ Hg. apply read_get; exact Hg. }
  rewrite El. cbn [bind]. rewrite Ek. fold rows.
  assert (HRL : forall row, In row rows -> length row = ndim a).
  { intros row Hr. apply keep_in in Hr. apply in_all_idx in Hr. apply inb_length in Hr. exact Hr. }
  assert (EQ : concat (map (fun p => map (fun q => (fst p * ndim a + fst q, Z.of_nat (snd q))) (combine (seq 0 (ndim a)) (snd p)))
                 (combine (seq 0 (length rows)) rows))
             = combine (seq 0 (length (flat_map (map Z.of_nat) rows))) (flat_map (map Z.of_nat) rows)).
  { pose proof (rows_enum (fun row j => Z.of_nat (nth j row 0)) (ndim a) rows 0) as RE. rewrite Nat.mul_0_l in RE.
    assert (EF : flat_map (fun row => map (fun j => Z.of_nat (nth j row 0)) (seq 0 (ndim a))) rows = flat_map (map Z.of_nat) rows).
    { apply flat_map_ext_in. intros row Hr. transitivity (map Z.of_nat (map (fun j => nth j row 0) (seq 0 (ndim a)))); [rewrite map_map; reflexivity|].
      rewrite <- (HRL row Hr), <- list_as_nth. reflexivity. }
    rewrite EF in RE. rewrite <- RE. f_equal. apply map_ext_in. intros [k row] Hp. cbn [fst snd].
    apply in_combine_r in Hp. rewrite <- (HRL row Hp). rewrite (combine_seq_nth 0 row 0), map_map. cbn [fst snd].
    apply map_ext_in. intros j _. rewrite Nat.sub_0_r. reflexivity. }
  rewrite EQ. rewrite write_all_enum; [reflexivity|].
  rewrite repeat_length, (flat_map_const_length _ _ (ndim a)); [reflexivity|]. intros row Hr. rewrite map_length. apply HRL; exact Hr.
Qed.

Lemma nonzero_spec (nz : V -> bool) (buf : list V) a vals : wf buf a -> elems buf a = map Some vals ->
  Forall (fun s => Z.of_nat s <= 2 ^ 53)%Z (a_shape a) ->
  let rows := keep (map nz vals) (all_idx (a_shape a)) in
  nonzero nz buf a = Ok (map (fun d => map (fun r => Z.of_nat (nth d r 0)) rows) (seq 0 (ndim a))).
Proof.
  intros W E HS rows. unfold nonzero, size, ndim. rewrite odometer_all.
  destruct (rows_of buf a vals nz (fun i => get_element buf a i) E) as (l & El & Ek).
  { intros i v Hi Hg. unfold get_element. rewrite (proj2 (idx_ok_iff _ _) Hi), Hg. reflexivity. }
  rewrite El. cbn [bind]. rewrite Ek. fold rows. f_equal. apply map_ext_in. intros d Hd. apply in_seq in Hd.
  apply map_ext_in. intros row Hr. apply keep_in in Hr. apply in_all_idx in Hr.
  assert (Hlt : (Z.of_nat (nth d row 0%nat) < 2 ^ 53)%Z).
  { destruct (nth_error (a_shape a) d) as [s|] eqn:Es; [|apply nth_error_None in Es; lia].
    pose proof (nth_inb _ _ _ _ Hr Es) as Hlt. rewrite Forall_forall in HS. specialize (HS s (nth_error_In _ _ Es)). lia. }
  apply through_f64_small; [|lia]. unfold representable, i_min, i_max. cbn [signed bits]. lia.
Qed.
End NZ.

(* ---- put ---- *)
Lemma put_list_app {A} (ws ws' : list (nat * A)) l : put_list (ws ++ ws') l = put_list ws' (put_list ws l).
Proof. apply fold_left_app. Qed.
Section Put.
Context {V : Type} (via : V -> V).

Lemma set_element_spec (buf : list V) a k vals v : wf buf a -> elems buf a = map Some vals -> k < size a ->
  exists buf', set_element buf a (unrank (a_shape a) k) v = Ok buf' /\ wf buf' a /\ length buf' = length buf /\
    (injective a -> elems buf' a = map Some (upd vals k v)) /\
    (forall ad, ad <> addr a (unrank (a_shape a) k) -> load buf' (a_item a) ad = load buf (a_item a) ad).
Proof.
  intros W E Hk. unfold set_element. assert (Hi : inb (unrank (a_shape a) k) (a_shape a)) by (apply unrank_inb; exact Hk).
  rewrite (proj2 (idx_ok_iff _ _) Hi). pose proof W as (W1 & W2 & W3 & W4 & W5 & W6 & W7).
  destruct (W5 _ Hi) as [w Hw].
  destruct (store_ok buf (a_item a) (a_off a + byte_offset_for a (unrank (a_shape a) k))%Z w v W1 Hw) as (buf' & Es & EL & HLd).
  exists buf'. split; [exact Es|]. split; [|split; [exact EL|split]].
  - split; [exact W1|]. split; [rewrite EL; exact W2|]. split; [exact W3|]. split; [exact W4|]. split; [|split; assumption].
    intros idx Hidx. unfold get. rewrite HLd. destruct (_ =? _)%Z; [eexists; reflexivity|apply W5; exact Hidx].
  - intros HJ. unfold elems in *. apply nth_error_ext. intros q. rewrite !nth_error_map'.
    pose proof (elems_length buf a vals E) as HLv.
    destruct (Nat.lt_ge_cases q (size a)) as [Hq|Hq].
    + rewrite nth_error_all_idx by exact Hq. cbn [option_map]. rewrite nth_error_upd.
      assert (Eq : nth_error (map Some vals) q = Some (get buf a (unrank (a_shape a) q))).
      { rewrite <- E, nth_error_map', nth_error_all_idx by exact Hq. reflexivity. }
      unfold get at 1. rewrite HLd. destruct (Nat.eqb_spec q k) as [->|Hne].
      * rewrite Z.eqb_refl. destruct (Nat.ltb_spec k (length vals)); [reflexivity|lia].
      * destruct (Z.eqb_spec (a_off a + byte_offset_for a (unrank (a_shape a) q)) (a_off a + byte_offset_for a (unrank (a_shape a) k))) as [Ea|Ea].
        -- exfalso. apply Hne. apply HJ in Ea; [|apply unrank_inb; exact Hq|exact Hi].
           rewrite <- (rank_unrank (a_shape a) q Hq), Ea. apply rank_unrank. exact Hk.
        -- rewrite nth_error_map' in Eq. fold (get buf a (unrank (a_shape a) q)). rewrite <- Eq. reflexivity.
    + rewrite (proj2 (nth_error_None _ _)) by (rewrite all_idx_length; exact Hq).
      rewrite (proj2 (nth_error_None _ _)) by (rewrite upd_length; lia). reflexivity.
  - intros ad Had. rewrite HLd. destruct (Z.eqb_spec ad (a_off a + byte_offset_for a (unrank (a_shape a) k))) as [->|]; [|reflexivity].
    exfalso. apply Had. reflexivity.
Qed.

Lemma put_loop_spec a values : values <> [] -> (forall v, In v values -> via v = v) ->
  forall l ws s buf vals, wf buf a -> elems buf a = map Some vals -> Forall (fun k => k < size a) l ->
  map fst ws = l -> (forall i w, nth_error ws i = Some w -> cycled values (s + i) = Some (snd w)) ->
  exists buf', put_loop via (combine (seq s (length l)) l) buf a values = Ok buf' /\ length buf' = length buf /\ wf buf' a /\
    (injective a -> elems buf' a = map Some (put_list ws vals)) /\
    (forall ad, (forall k, In k l -> ad <> addr a (unrank (a_shape a) k)) -> load buf' (a_item a) ad = load buf (a_item a) ad).
Proof.
  intros HV HA. induction l as [|k l IH]; intros ws s buf vals W E HF HW HC.
  - destruct ws; [|discriminate]. exists buf. repeat split; auto; apply W.
  - destruct ws as [|[k' v] ws]; [discriminate|]. cbn [map fst] in HW. injection HW as -> HW. inversion HF as [|? ? Hk HF']; subst.
    cbn [length seq combine put_loop]. destruct values as [|v0 vs0] eqn:Ev; [congruence|]. rewrite <- Ev in *.
    pose proof (HC 0 (k, v) eq_refl) as HC0. rewrite Nat.add_0_r in HC0. unfold cycled in HC0. cbn [snd] in HC0. rewrite HC0.
    rewrite flat_indices_unrank by exact Hk. rewrite (HA v (nth_error_In _ _ HC0)).
    destruct (set_element_spec buf a k vals v W E Hk) as (b1 & E1 & W1 & L1 & S1 & O1). rewrite E1. cbn [bind].
    destruct (wf_elems b1 a W1) as (vals1 & EV1 & _).
    destruct (IH ws (S s) b1 vals1 W1 EV1 HF' eq_refl) as (b2 & E2 & L2 & W2 & S2 & O2).
    { intros i w Hw. specialize (HC (S i) w Hw). replace (S s + i) with (s + S i) by lia. exact HC. }
    exists b2. split; [exact E2|]. split; [congruence|]. split; [exact W2|]. split.
    + intros HJ. rewrite (S2 HJ). pose proof (S1 HJ) as S1'. rewrite EV1 in S1'. apply map_Some_inj in S1'. subst vals1. reflexivity.
    + intros ad Had. rewrite O2 by (intros q Hq; apply Had; right; exact Hq). apply O1. apply Had. left; reflexivity.
Qed.

Lemma put_spec (buf : list V) a indices values vals : wf buf a -> elems buf a = map Some vals ->
  Forall i64_range indices -> (Z.of_nat (size a) <= isize_max)%Z -> values <> [] -> (forall v, In v values -> via v = v) ->
  (forall js ws, map (fun i => py_index i (size a)) indices = map Some js ->
     map fst ws = js -> (forall i w, nth_error ws i = Some w -> cycled values i = Some (snd w)) ->
   exists buf', put via buf a indices values = Ok buf' /\ length buf' = length buf /\
     (injective a -> elems buf' a = map Some (put_list ws vals)) /\
     (forall ad, (forall k, In k js -> ad <> addr a (unrank (a_shape a) k)) -> load buf' (a_item a) ad = load buf (a_item a) ad)) /\
  ((exists i, In i indices /\ py_index i (size a) = None) -> put via buf a indices values = Err).
Proof.
  intros W E HR HS HV HA. split.
  - intros js ws HJ HW HC.
    assert (HF : Forall (fun k => k < size a) js).
    { apply Forall_forall. intros j Hj. apply (in_map Some) in Hj. rewrite <- HJ in Hj. apply in_map_iff in Hj as (i & Ei & _).
      eapply py_index_lt; exact Ei. }
    destruct (put_loop_spec a values HV HA js ws 0 buf vals W E HF HW HC) as (b & Eb & Lb & _ & Sb & Ob).
    exists b. split; [|split; [exact Lb|split; assumption]].
    unfold put. destruct indices as [|i0 is_] eqn:Ei.
    + destruct js; [|discriminate]. cbn [length seq combine put_loop] in Eb. exact Eb.
    + rewrite <- Ei in *. rewrite (index_mapM_ok indices (size a) js HR HS HJ). cbn [bind]. exact Eb.
  - intros HB. unfold put. destruct indices as [|i0 is_] eqn:Ei; [destruct HB as (i & [] & _)|]. rewrite <- Ei in *.
    rewrite (index_mapM_err indices (size a) HR HS HB). reflexivity.
Qed.

(* ---- put_along_axis ---- *)
Lemma put_along_loop_spec a ibuf ia (vbuf : list V) va axis n : nth_error (a_shape a) axis = Some n -> (Z.of_nat n <= isize_max)%Z ->
  length (a_shape a) = length (a_shape ia) -> remove_at axis (a_shape a) = remove_at axis (a_shape ia) ->
  a_shape va = a_shape ia -> wf ibuf ia -> wf vbuf va -> (forall i, In (Some i) (elems ibuf ia) -> i64_range i) ->
  (forall v, In (Some v) (elems vbuf va) -> via v = v) ->
  forall l buf vals ws, Forall (fun oi => inb oi (a_shape ia)) l -> wf buf a -> elems buf a = map Some vals ->
  Forall2 (fun oi w => exists i k, get ibuf ia oi = Some i /\ py_index i n = Some k /\
             fst w = rank (a_shape a) (upd oi axis k) /\ get vbuf va oi = Some (snd w)) l ws ->
  exists buf', put_along_loop via l buf a ibuf ia vbuf va axis = Ok (buf', true) /\ length buf' = length buf /\ wf buf' a /\
    (injective a -> elems buf' a = map Some (put_list ws vals)) /\
    (forall ad, (forall w, In w ws -> ad <> addr a (unrank (a_shape a) (fst w))) -> load buf' (a_item a) ad = load buf (a_item a) ad).
Proof.
  intros Hn Hb HL HRM HVS WI WV HR HA. induction l as [|oi l IH]; intros buf vals ws HF W E H2; inversion H2 as [|? [p v] ? ws' Hw H2']; subst.
  - exists buf. repeat split; auto; apply W.
  - destruct Hw as (i & k & Hgi & Hk & Hp & Hgv). cbn [fst snd] in Hp, Hgv. inversion HF as [|? ? Hoi HF']; subst.
    assert (Hnth : nth axis (a_shape a) 0 = n) by (apply nth_error_nth with (1 := Hn)).
    cbn [put_along_loop]. rewrite (read_get ibuf ia oi i Hgi). cbn [bind]. rewrite Hnth.
    assert (HIR : i64_range i). { apply HR. unfold elems. rewrite <- Hgi. apply in_map, in_all_idx, Hoi. }
    rewrite norm_index_spec by assumption. rewrite Hk.
    rewrite (read_get vbuf va oi v Hgv). cbn [bind].
    assert (Hv : via v = v). { apply HA. unfold elems. rewrite HVS, <- Hgv. apply in_map, in_all_idx, Hoi. }
    rewrite Hv.
    assert (Hin : inb (upd oi axis k) (a_shape a)) by (eapply same_off_inb; [exact HL|exact HRM|exact Hn|exact Hoi|eapply py_index_lt; exact Hk]).
    set (q := rank (a_shape a) (upd oi axis k)).
    assert (Hq : q < size a) by (apply rank_lt; exact Hin).
    destruct (set_element_spec buf a q vals v W E Hq) as (b1 & E1 & W1 & L1 & S1 & O1).
    unfold q in E1. rewrite unrank_rank in E1 by exact Hin. rewrite E1. cbn [bind].
    destruct (wf_elems b1 a W1) as (vals1 & EV1 & _).
    destruct (IH b1 vals1 ws' HF' W1 EV1 H2') as (b2 & E2 & L2 & W2 & S2 & O2).
    exists b2. split; [exact E2|]. split; [congruence|]. split; [exact W2|]. split.
    + intros HJ. rewrite (S2 HJ). pose proof (S1 HJ) as S1'. rewrite EV1 in S1'. apply map_Some_inj in S1'. subst vals1.
      unfold put_list. cbn [fold_left fst snd]. reflexivity.
    + intros ad Had. rewrite O2 by (intros w Hw; apply Had; right; exact Hw). apply O1.
      specialize (Had _ (or_introl eq_refl)). cbn [fst] in Had. exact Had.
Qed.
End Put.
