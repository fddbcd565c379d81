(* Proofs about resize, extract, place, putmask. *)
From Verif Require Import Base Lists Arr_Spec Arr_Model Arr_Wf Arr_Proofs Copy_Model Copy_Proofs Idx_Model Idx_Wf Idx_Assign Elem_Model Elem_Proofs
  Red_Model Gu_Model Gu_Proofs Man_Model Man_Proofs Man_Ops Man_Ops2 Sel_Spec Sel_Proofs Sel_Ops Lay_Copy Msk_Spec Msk_Model.
Local Open Scope nat_scope.

(* element k of a view in row-major order *)
Lemma elem_at {V} (buf : list V) a vals k : wf buf a -> elems buf a = map Some vals -> k < size a ->
  exists v o, nth_error vals k = Some v /\ nth_error (iter_offsets a) k = Some o /\ read buf a o = Ok v /\
    o = byte_offset_for a (unrank (a_shape a) k) /\ get buf a (unrank (a_shape a) k) = Some v.
Proof.
  intros W E Hk. rewrite (offsets_of buf a W).
  assert (HN : nth_error (all_idx (a_shape a)) k = Some (unrank (a_shape a) k)) by (apply nth_error_all_idx; exact Hk).
  assert (G : nth_error (elems buf a) k = Some (get buf a (unrank (a_shape a) k))) by (unfold elems; rewrite nth_error_map', HN; reflexivity).
  rewrite E, nth_error_map' in G. destruct (nth_error vals k) as [v|] eqn:EV; [|discriminate]. injection G as G.
  exists v, (byte_offset_for a (unrank (a_shape a) k)). rewrite nth_error_map', HN. split; [reflexivity|]. split; [reflexivity|].
  split; [|auto]. unfold read, get in *. rewrite <- G. reflexivity.
Qed.

(* on a C-contiguous view the k-th offset is k items *)
Lemma contig_offset {V} (buf : list V) a k : wf buf a -> a_c a = true -> k < size a ->
  byte_offset_for a (unrank (a_shape a) k) = (Z.of_nat k * a_item a)%Z.
Proof.
  intros (HI & _ & _ & HL & _ & HC & _) Hc Hk. unfold byte_offset_for.
  rewrite (c_contig_dot (a_shape a) (a_strides a) (a_item a)) by (assumption || (apply unrank_inb; exact Hk) || (apply HC; exact Hc)).
  rewrite rank_unrank by exact Hk. lia.
Qed.

Lemma mapM_list {A B} (f : A -> res B) : forall l vals, Forall2 (fun x v => f x = Ok v) l vals -> mapM f l = Ok vals.
Proof. induction 1 as [|x v l vals H _ IH]; cbn [mapM]; [reflexivity|]. rewrite H, IH. reflexivity. Qed.
Lemma Forall2_of_nth {A B} (R : A -> B -> Prop) : forall l m, length l = length m ->
  (forall k x y, nth_error l k = Some x -> nth_error m k = Some y -> R x y) -> Forall2 R l m.
Proof.
  induction l as [|x l IH]; intros [|y m] HL H; try discriminate; constructor.
  - apply (H 0 x y); reflexivity.
  - apply IH; [simpl in HL; lia|]. intros k u w Hu Hw. apply (H (S k) u w); assumption.
Qed.
Lemma mapM_seq_list {B} (f : nat -> res B) n vals : length vals = n ->
  (forall k v, nth_error vals k = Some v -> f k = Ok v) -> mapM f (seq 0 n) = Ok vals.
Proof.
  intros HL H. apply mapM_list, Forall2_of_nth; [rewrite seq_length; lia|].
  intros k x y Hx Hy. rewrite nth_error_seq in Hx. destruct (Nat.ltb_spec k n); [|discriminate]. injection Hx as <-. apply H, Hy.
Qed.
Lemma elems_len {V} (buf : list V) a vals : elems buf a = map Some vals -> length vals = size a.
Proof. intros E. apply (f_equal (@length _)) in E. unfold elems in E. rewrite !map_length, all_idx_length in E. symmetry. exact E. Qed.

(* ---------- resize ---------- *)
Lemma resize_spec {V} (zero : V) buf a vals sh : wf buf a -> elems buf a = map Some vals ->
  exists out, resize zero buf a sh = Ok out /\ length out = prod sh /\
    forall k, k < prod sh -> nth_error out k = match vals with [] => Some zero | _ => cycled vals k end.
Proof.
  intros W E. pose proof (elems_len _ _ _ E) as HL. unfold resize.
  destruct (Nat.eqb_spec (prod sh) 0) as [H0|H0].
  { cbn [orb]. exists (repeat zero (prod sh)). split; [reflexivity|]. split; [apply repeat_length|]. intros k Hk. lia. }
  destruct (Nat.eqb_spec (size a) 0) as [HA|HA]; cbn [orb].
  { exists (repeat zero (prod sh)). split; [reflexivity|]. split; [apply repeat_length|]. intros k Hk.
    destruct vals; [|simpl in HL; lia]. apply nth_error_repeat; exact Hk. }
  assert (NE : forall B (x y : B), match vals with [] => x | _ => y end = y) by (intros; destruct vals; [simpl in HL; lia|reflexivity]).
  destruct (a_c a) eqn:EC.
  - rewrite (mapM_seq_list _ (size a) vals HL).
    2:{ intros k v Hv. assert (Hk : k < size a) by (rewrite <- HL; apply nth_error_Some; congruence).
        destruct (elem_at buf a vals k W E Hk) as (v' & o & Hv' & _ & HR & Ho & _). rewrite (contig_offset buf a k W EC Hk) in Ho.
        rewrite <- Ho. congruence. }
    cbn [bind]. set (n := size a) in *. set (m := prod sh) in *.
    pose proof (Nat.mod_upper_bound m n HA) as HM.
    rewrite (mapM_seq_list _ (m mod n) (firstn (m mod n) vals)).
    2:{ rewrite firstn_length. lia. }
    2:{ intros k v Hv. assert (Hk : k < m mod n).
        { assert (k < length (firstn (m mod n) vals)) by (apply nth_error_Some; congruence). rewrite firstn_length in *. lia. }
        rewrite nth_error_firstn_lt in Hv by exact Hk.
        assert (Hk' : k < size a) by (fold n; lia).
        destruct (elem_at buf a vals k W E Hk') as (v' & o & Hv' & _ & HR & Ho & _). rewrite (contig_offset buf a k W EC Hk') in Ho.
        rewrite <- Ho. congruence. }
    cbn [bind]. eexists. split; [reflexivity|].
    assert (LC : forall q, length (concat (repeat vals q)) = q * n).
    { induction q as [|q IH]; [reflexivity|]. cbn [repeat concat]. rewrite app_length, IH. lia. }
    split.
    { rewrite app_length, LC, firstn_length. pose proof (Nat.div_mod m n HA). lia. }
    intros k Hk. rewrite NE. unfold cycled. rewrite HL. fold n. pose proof (Nat.div_mod m n HA) as DM. pose proof (Nat.div_mod k n HA) as DK.
    pose proof (Nat.mod_upper_bound k n HA) as HK.
    destruct (Nat.lt_ge_cases k (m / n * n)) as [Hlt|Hge].
    + rewrite nth_error_app1 by (rewrite LC; exact Hlt).
      rewrite (nth_concat_repeat zero (fun v => v)) by (rewrite HL; exact Hlt). rewrite HL. reflexivity.
    + rewrite nth_error_app2 by (rewrite LC; exact Hge). rewrite LC.
      assert (k mod n = k - m / n * n) as <-.
      { symmetry. apply (Nat.mod_unique k n (m / n)); [|nia]. nia. }
      destruct (Nat.ltb_spec (k mod n) (m mod n)) as [HG|HG]; [apply nth_error_firstn_lt; exact HG|]. exfalso.
      assert (k / n = m / n). { apply Nat.le_antisymm; [apply Nat.div_le_mono; lia|]. apply Nat.div_le_lower_bound; lia. } nia.
  - exists (map (fun k => nth (k mod size a) vals zero) (seq 0 (prod sh))). split.
    + apply mapM_list, Forall2_of_nth; [rewrite map_length; reflexivity|].
      intros k x y Hx Hy. rewrite nth_error_seq in Hx. rewrite nth_error_map', nth_error_seq in Hy.
      destruct (Nat.ltb_spec k (prod sh)); [|discriminate]. injection Hx as <-. injection Hy as <-. cbn [Nat.add].
      pose proof (Nat.mod_upper_bound k (size a) HA) as HK.
      destruct (elem_at buf a vals _ W E HK) as (v & o & Hv & HO & HR & _). unfold at_. rewrite HO. cbn [bind].
      rewrite HR. f_equal. symmetry. apply nth_error_nth, Hv.
    + split; [rewrite map_length, seq_length; reflexivity|]. intros k Hk. rewrite NE. unfold cycled. rewrite nth_error_map', nth_error_seq.
      destruct (Nat.ltb_spec k (prod sh)); [|lia]. cbn [option_map Nat.add]. rewrite HL.
      pose proof (Nat.mod_upper_bound k (size a) HA) as HK. symmetry. apply nth_error_nth'. lia.
Qed.

(* ---------- masks ---------- *)
Lemma mask_offsets (cb : list Z) m bs k : wf cb m -> a_item m = 1%Z -> elems cb m = map Some bs -> k < size m ->
  exists b o, nth_error bs k = Some b /\ nth_error (iter_offsets m) k = Some o /\ mask_byte cb m o = Ok b /\
    o = byte_offset_for m (unrank (a_shape m) k).
Proof.
  intros W H1 E Hk. destruct (elem_at cb m bs k W E Hk) as (b & o & Hb & Ho & HR & EO & _). exists b, o.
  unfold read in HR. rewrite H1 in HR. auto.
Qed.

Lemma filter_truth (bs : list Z) {A} (l : list A) :
  map snd (filter (fun p => negb (fst p =? 0)%Z) (combine bs l)) = keep (map truth bs) l.
Proof.
  revert l. induction bs as [|b bs IH]; intros [|x l]; cbn [combine map filter keep]; try reflexivity.
  - cbn [fst]. unfold truth. destruct (b =? 0)%Z; cbn [negb map snd]; rewrite IH; reflexivity.
Qed.

Lemma extract_spec {V} (via : V -> V) typed cb c buf a bs vals : wf cb c -> a_item c = 1%Z -> wf buf a ->
  elems cb c = map Some bs -> elems buf a = map Some vals -> size c = size a -> (typed = true \/ forall v, In v vals -> via v = v) ->
  extract typed via cb c buf a = Ok (keep (map truth bs) vals).
Proof.
  intros WC H1 W EC E HS HT. pose proof (elems_len _ _ _ EC) as LC. pose proof (elems_len _ _ _ E) as LV. unfold extract.
  rewrite HS, Nat.eqb_refl. cbn [negb]. set (fast := a_c c && a_c a).
  set (co := if fast then _ else _). set (ao := if fast then _ else _).
  assert (HCO : forall k, k < size a -> exists b o, nth_error bs k = Some b /\ nth_error co k = Some o /\ mask_byte cb c o = Ok b).
  { intros k Hk. destruct (mask_offsets cb c bs k WC H1 EC) as (b & o & Hb & Ho & HR & EO); [lia|].
    exists b. unfold co, fast in *. destruct (a_c c && a_c a) eqn:EF; [|exists o; auto].
    apply andb_true_iff in EF as [EF _]. rewrite (contig_offset cb c k WC EF) in EO by lia. rewrite H1, Z.mul_1_r in EO.
    exists (Z.of_nat k). split; [exact Hb|]. split; [|congruence]. rewrite nth_error_map', nth_error_seq. destruct (Nat.ltb_spec k (size a)); [reflexivity|lia]. }
  assert (LCO : length co = size a).
  { unfold co. destruct fast; [rewrite map_length, seq_length; reflexivity|]. rewrite iter_offsets_length by apply WC. exact HS. }
  assert (HAO : forall k, k < size a -> exists v o, nth_error vals k = Some v /\ nth_error ao k = Some o /\ read buf a o = Ok v).
  { intros k Hk. destruct (elem_at buf a vals k W E Hk) as (v & o & Hv & Ho & HR & EO & _).
    exists v. unfold ao, fast in *. destruct (a_c c && a_c a) eqn:EF; [|exists o; auto].
    apply andb_true_iff in EF as [_ EF]. rewrite (contig_offset buf a k W EF) in EO by lia.
    exists (Z.of_nat k * a_item a)%Z. split; [exact Hv|]. split; [|congruence]. rewrite nth_error_map', nth_error_seq. destruct (Nat.ltb_spec k (size a)); [reflexivity|lia]. }
  assert (LAO : length ao = size a).
  { unfold ao. destruct fast; [rewrite map_length, seq_length; reflexivity|]. apply iter_offsets_length. apply W. }
  clearbody co ao. rewrite (mapM_list _ co bs).
  2:{ apply Forall2_of_nth; [lia|]. intros k x y Hx Hy. assert (Hk : k < size a) by (rewrite <- LCO; apply nth_error_Some; congruence).
      destruct (HCO k Hk) as (b & o & Hb & Ho & HR). congruence. }
  cbn [bind].
  assert (G : Forall2 (fun o v => bind (read buf a o) (fun v => Ok (if typed then v else via v)) = Ok v) ao vals).
  { apply Forall2_of_nth; [lia|]. intros k x y Hx Hy. assert (Hk : k < size a) by (rewrite <- LAO; apply nth_error_Some; congruence).
    destruct (HAO k Hk) as (v & o & Hv & Ho & HR). replace x with o by congruence. rewrite HR. cbn [bind]. f_equal.
    replace v with y by congruence. destruct typed; [reflexivity|]. destruct HT as [HT|HT]; [discriminate|]. apply HT. apply nth_error_In in Hy. exact Hy. }
  clear - G. revert bs. induction G as [|o v ao vals H _ IH]; intros [|b bs]; cbn [combine filter mapM map keep]; try reflexivity.
  cbn [fst]. unfold truth at 1. destruct (b =? 0)%Z; cbn [negb]; [apply IH|]. cbn [mapM snd]. rewrite H, IH. reflexivity.
Qed.

(* ---------- place and putmask ---------- *)
Lemma trues_before_S mask k b : nth_error mask k = Some b -> trues_before (S k) mask = trues_before k mask + (if b then 1 else 0).
Proof.
  revert k. induction mask as [|c mask IH]; intros [|k] H; try discriminate; cbn [nth_error] in H.
  - injection H as ->. destruct b; reflexivity.
  - specialize (IH k H). unfold trues_before in *. rewrite !(firstn_cons _ c). cbn [filter]. destruct c; cbn [length]; lia.
Qed.

Section Assign.
Context {V : Type}.
Variables (counted : bool) (conv : V -> V) (cb : list Z) (m a : arr) (s : @source V) (n : nat) (mo ao vo : list Z) (bs : list Z).
Let mask := map truth bs.
Definition val_pos (i : nat) : nat := (if counted then trues_before i mask else i) mod n.
Definition plain_step (b : list V) (i : nat) : res (list V) :=
  if truth (nth i bs 0%Z) then
    bind (of_load (s_load s b (a_off (s_arr s) + nth (val_pos i) vo 0%Z))) (fun v => store b (a_item a) (a_off a + nth i ao 0%Z) (conv v))
  else Ok b.
Hypothesis HN : 0 < n.
Hypothesis LVO : length vo = n.
Hypothesis HM : forall i, i < length bs -> exists o, nth_error mo i = Some o /\ mask_byte cb m o = Ok (nth i bs 0%Z).
Hypothesis LAO : length ao = length bs.

Lemma loop_plain : forall len st b, st + len <= length bs ->
  foldM (mask_step counted conv cb m a s n mo ao vo) (seq st len) (b, trues_before st mask) =
  bind (foldM plain_step (seq st len) b) (fun b' => Ok (b', trues_before (st + len) mask)).
Proof.
  induction len as [|len IH]; intros st b H; cbn [seq foldM].
  - cbn [bind]. rewrite Nat.add_0_r. reflexivity.
  - destruct (HM st) as (o & Ho & HO); [lia|]. unfold mask_step at 1. unfold at_ at 1. rewrite Ho. cbn [bind]. rewrite HO. cbn [bind].
    assert (HB : nth_error mask st = Some (truth (nth st bs 0%Z))).
    { unfold mask. rewrite nth_error_map', (nth_error_nth' bs 0%Z) by lia. reflexivity. }
    pose proof (trues_before_S mask st _ HB) as HT. unfold plain_step at 1. unfold truth in *.
    destruct (nth st bs 0%Z =? 0)%Z; cbn [negb] in *.
    + cbn [bind]. rewrite Nat.add_0_r in HT. rewrite <- HT, (IH (S st) b) by lia. do 2 f_equal. 
      rewrite Nat.add_succ_r. reflexivity.
    + fold (val_pos st). assert (HV : val_pos st < n) by (apply Nat.mod_upper_bound; lia).
      unfold at_ at 1. rewrite (nth_error_nth' vo 0%Z) by lia. cbn [bind].
      destruct (s_load s b (a_off (s_arr s) + nth (val_pos st) vo 0%Z)) as [v|]; cbn [of_load bind]; [|reflexivity].
      unfold at_. rewrite (nth_error_nth' ao 0%Z) by lia. cbn [bind].
      destruct (store b (a_item a) (a_off a + nth st ao 0%Z) (conv v)); cbn [bind]; try reflexivity.
      rewrite Nat.add_1_r in HT. rewrite <- HT, (IH (S st)) by lia. do 2 f_equal. rewrite Nat.add_succ_r. reflexivity.
Qed.
End Assign.

(* values held in other memory than the destination's elements *)
Definition apart {V} (buf : list V) (a : arr) (s : @source V) (vb : list V) (v : arr) : Prop :=
  s = own vb v \/
  s = sharing v /\ vb = buf /\ a_item v = a_item a /\ forall i j, inb i (a_shape a) -> inb j (a_shape v) -> addr a i <> addr v j.

Lemma masked_assign_spec {V} counted typed (via : V -> V) buf a cb m s vb v bs vals :
  wf buf a -> injective a -> wf cb m -> a_item m = 1%Z -> size m = size a -> elems cb m = map Some bs ->
  wf vb v -> a_item v = a_item a -> elems vb v = map Some vals -> vals <> [] -> apart buf a s vb v ->
  (typed = true \/ (forall x, In x vals -> via x = x) /\ a_c a = false) ->
  exists buf', masked_assign counted typed via buf a cb m s = Ok buf' /\ length buf' = length buf /\
    (forall idx, inb idx (a_shape a) ->
       let k := rank (a_shape a) idx in
       get buf' a idx = if nth k (map truth bs) false
                        then cycled vals (if counted then trues_before k (map truth bs) else k)
                        else get buf a idx) /\
    (forall ad, (forall idx, inb idx (a_shape a) -> ad <> addr a idx) -> load buf' (a_item a) ad = load buf (a_item a) ad).
Proof.
  intros W HJ WM H1 HS EM WV HIV EV NV HA HT.
  pose proof (elems_len _ _ _ EM) as LB. pose proof (elems_len _ _ _ EV) as LV.
  assert (SV : s_arr s = v /\ s_same s = true) by (destruct HA as [->|[-> _]]; auto). destruct SV as [SV SS].
  assert (NZ : 0 < size v) by (destruct vals; [congruence|simpl in LV; lia]).
  pose proof W as (HI & _ & _ & HLS & HG & _).
  unfold masked_assign. rewrite HS, Nat.eqb_refl, SV, SS. cbn [negb]. destruct (Nat.eqb_spec (size v) 0) as [|_]; [lia|].
  assert (GEN : forall conv mo ao vo, length vo = size v -> length ao = length bs ->
     (forall i, i < length bs -> exists o, nth_error mo i = Some o /\ mask_byte cb m o = Ok (nth i bs 0%Z)) ->
     (forall i, i < size a -> nth i ao 0%Z = byte_offset_for a (unrank (a_shape a) i)) ->
     (forall i, i < size v -> nth i vo 0%Z = byte_offset_for v (unrank (a_shape v) i)) ->
     (forall x, In x vals -> conv x = x) ->
     exists buf', bind (foldM (mask_step counted conv cb m a s (size v) mo ao vo) (seq 0 (size a)) (buf, 0)) (fun st => Ok (fst st)) = Ok buf' /\
       length buf' = length buf /\
       (forall idx, inb idx (a_shape a) ->
          let k := rank (a_shape a) idx in
          get buf' a idx = if nth k (map truth bs) false
                        then cycled vals (if counted then trues_before k (map truth bs) else k)
                        else get buf a idx) /\
       (forall ad, (forall idx, inb idx (a_shape a) -> ad <> addr a idx) -> load buf' (a_item a) ad = load buf (a_item a) ad)).
  { intros conv mo ao vo LVO LAO HM HAO HVO HC.
    pose proof (loop_plain counted conv cb m a s (size v) mo ao vo bs NZ LVO HM LAO (size a) 0 buf ltac:(lia)) as HL.
    change (trues_before 0 (map truth bs)) with 0 in HL. rewrite HL. clear HL.
    set (ps := plain_step counted conv a s (size v) ao vo bs).
    set (A := fun i => addr a (unrank (a_shape a) i)).
    set (val := fun i => if truth (nth i bs 0%Z) then cycled vals (if counted then trues_before i (map truth bs) else i) else None).
    assert (CY : forall i, exists x, cycled vals i = Some x).
    { intros i. unfold cycled. destruct (nth_error vals (i mod length vals)) eqn:EN; [eauto|]. apply nth_error_None in EN.
      pose proof (Nat.mod_upper_bound i (length vals)). lia. }
    destruct (guarded_stores ps val A (a_item a) buf HI (seq 0 (size a)) buf) with (L0 := seq 0 (size a)) as (b' & EF & LF & G1 & G2); auto.
    - intros i Hi. apply in_seq in Hi. destruct (HG (unrank (a_shape a) i)) as (w & Hw); [apply unrank_inb; unfold size in Hi; lia|].
      exists w. exact Hw.
    - apply seq_NoDup.
    - intros i j Hi Hj E. apply in_seq in Hi, Hj. unfold size in *. apply HJ in E; try (apply unrank_inb; lia).
      rewrite <- (rank_unrank (a_shape a) i), <- (rank_unrank (a_shape a) j), E by lia. reflexivity.
    - intros b i Hi Hb HO. apply in_seq in Hi. unfold ps, plain_step, val, A. rewrite HAO by lia.
      destruct (truth (nth i bs 0%Z)); [|reflexivity].
      destruct (CY (if counted then trues_before i (map truth bs) else i)) as (x & Hx). rewrite Hx.
      set (p := val_pos counted (size v) bs i). assert (HP : p < size v) by (apply Nat.mod_upper_bound; lia).
      destruct (elem_at vb v vals p WV EV HP) as (y & o & Hy & _ & _ & _ & HGET).
      assert (y = x) as ->. { unfold cycled in Hx. rewrite LV in Hx. unfold p, val_pos in Hy. congruence. }
      assert (SL : s_load s b (a_off (s_arr s) + nth p vo 0%Z) = Some x).
      { rewrite SV, HVO by exact HP. destruct HA as [->|(-> & -> & _ & HD)]; cbn [own sharing s_load]; [exact HGET|].
        rewrite HIV, HO; [rewrite <- HIV; exact HGET|]. intros j Hj E. apply in_seq in Hj. 
        apply (HD (unrank (a_shape a) j) (unrank (a_shape v) p)); [apply unrank_inb; unfold size in Hj; lia|apply unrank_inb; exact HP|].
        symmetry. exact E. }
      rewrite SL. cbn [of_load bind]. rewrite HC by (apply nth_error_In in Hy; exact Hy). reflexivity.
    - exists b'. rewrite EF. cbn [bind fst]. split; [reflexivity|]. split; [exact LF|].
      assert (HR : forall idx, inb idx (a_shape a) -> A (rank (a_shape a) idx) = addr a idx /\ In (rank (a_shape a) idx) (seq 0 (size a))).
      { intros idx Hi. unfold A. rewrite unrank_rank by exact Hi. split; [reflexivity|]. apply in_seq. pose proof (rank_lt _ _ Hi). unfold size. lia. }
      split.
      + intros idx Hi. set (k := rank (a_shape a) idx). destruct (HR idx Hi) as [E1 E2]. pose proof (G1 _ E2) as G. rewrite E1 in G.
        change (get b' a idx) with (load b' (a_item a) (addr a idx)). rewrite G. unfold val. fold k.
        assert (HB : nth k (map truth bs) false = truth (nth k bs 0%Z)) by (change false with (truth 0%Z); apply map_nth).
        rewrite HB. destruct (truth (nth k bs 0%Z)); [|reflexivity].
        destruct (CY (if counted then trues_before k (map truth bs) else k)) as (x & Hx). rewrite Hx. reflexivity.
      + intros ad Had. apply G2. intros i Hi. apply in_seq in Hi. apply Had. apply unrank_inb. unfold size in Hi; lia. }
  destruct (a_c m && a_c a && a_c v && true) eqn:EF.
  - apply andb_true_iff in EF as [EF _]. apply andb_true_iff in EF as [EF ECV]. apply andb_true_iff in EF as [ECM ECA].
    assert (typed = true) as -> by (destruct HT as [HT|[_ HT]]; [exact HT|congruence]).
    apply GEN.
    + rewrite map_length, seq_length. reflexivity.
    + rewrite map_length, seq_length. lia.
    + intros i Hi. destruct (mask_offsets cb m bs i WM H1 EM) as (b & o & Hb & Ho & HR & EO); [lia|].
      rewrite (contig_offset cb m i WM ECM) in EO by lia. rewrite H1, Z.mul_1_r in EO.
      exists (Z.of_nat i). rewrite nth_error_map', nth_error_seq. destruct (Nat.ltb_spec i (size a)); [|lia]. split; [reflexivity|].
      rewrite <- EO, HR. f_equal. symmetry. apply nth_error_nth, Hb.
    + intros i Hi. rewrite (contig_offset buf a i W ECA Hi). apply nth_error_nth. rewrite nth_error_map', nth_error_seq.
      destruct (Nat.ltb_spec i (size a)); [reflexivity|lia].
    + intros i Hi. rewrite (contig_offset vb v i WV ECV Hi), HIV. apply nth_error_nth. rewrite nth_error_map', nth_error_seq.
      destruct (Nat.ltb_spec i (size v)); [reflexivity|lia].
    + reflexivity.
  - apply GEN.
    + apply iter_offsets_length, WV.
    + rewrite iter_offsets_length by exact HLS. lia.
    + intros i Hi. destruct (mask_offsets cb m bs i WM H1 EM) as (b & o & Hb & Ho & HR & EO); [lia|]. exists o. split; [exact Ho|].
      rewrite HR. f_equal. symmetry. apply nth_error_nth, Hb.
    + intros i Hi. destruct (wf_elems buf a W) as (vs & Evs & _). destruct (elem_at buf a vs i W Evs Hi) as (x & o & _ & Ho & _ & EO & _).
      rewrite <- EO. apply nth_error_nth, Ho.
    + intros i Hi. destruct (elem_at vb v vals i WV EV Hi) as (x & o & _ & Ho & _ & EO & _). rewrite <- EO. apply nth_error_nth, Ho.
    + intros x Hx. destruct typed; [reflexivity|]. destruct HT as [HT|[HT _]]; [discriminate|]. apply HT, Hx.
Qed.
