(* C117-C121: masked assignment, selection, trimming, blocks, phase unwrapping. *)
From Verif Require Import Base Lists Arr_Spec Arr_Model Arr_Wf Arr_Proofs Copy_Model Copy_Proofs Idx_Model Idx_Wf Idx_Assign Int_Model Int_Proofs Elem_Model Elem_Proofs
  Red_Spec Red_Model Red_Proofs Red_Scan Sort_Proofs Sort_Lanes Gu_Model Gu_Proofs Man_Model Man_Proofs Sel_Spec Sel_Proofs Sel_Ops Lay_Copy Wf_Check
  Msk_Spec Msk_Model Msk_Proofs Msk_More Msk_Shape.
Local Open Scope nat_scope.
Ltac wfc := apply wf_check_sound; vm_compute; reflexivity.

(* ---- C117: extract, place, putmask --------------------------------------------------- *)

(* extract keeps the elements at the true positions, in order.
   Missing: conditions that are not one byte per element, and dtypes whose elements do not
   survive the passage through an f64 (refuted below). *)
Theorem C117_extract_partial : forall (V : Type) (via : V -> V) typed cb c buf a bs vals,
  wf cb c -> a_item c = 1%Z -> wf buf a -> elems cb c = map Some bs -> elems buf a = map Some vals -> size c = size a ->
  typed = true \/ (forall v, In v vals -> via v = v) ->
  extract typed via cb c buf a = Ok (keep (map truth bs) vals).
Proof. intros. eapply extract_spec; eassumption. Qed.

(* place: the k-th element (in index order) is replaced exactly when its condition is true, by
   the value whose number is the count of true conditions before it, cyclically; nothing else
   in the buffer changes. *)
Theorem C117_place_partial : forall (V : Type) typed (via : V -> V) buf a cb m s vb v bs vals,
  wf buf a -> injective a -> wf cb m -> a_item m = 1%Z -> size m = size a -> elems cb m = map Some bs ->
  wf vb v -> a_item v = a_item a -> elems vb v = map Some vals -> vals <> [] -> apart buf a s vb v ->
  (typed = true \/ (forall x, In x vals -> via x = x) /\ a_c a = false) ->
  exists buf', place typed via buf a cb m s = Ok buf' /\ length buf' = length buf /\
    (forall idx, inb idx (a_shape a) ->
       get buf' a idx = if nth (rank (a_shape a) idx) (map truth bs) false
                        then cycled vals (trues_before (rank (a_shape a) idx) (map truth bs))
                        else get buf a idx) /\
    (forall ad, (forall idx, inb idx (a_shape a) -> ad <> addr a idx) -> load buf' (a_item a) ad = load buf (a_item a) ad).
Proof. intros V typed via buf a cb m s vb v bs vals. exact (masked_assign_spec true typed via buf a cb m s vb v bs vals). Qed.
Theorem C117_putmask_partial : forall (V : Type) typed (via : V -> V) buf a cb m s vb v bs vals,
  wf buf a -> injective a -> wf cb m -> a_item m = 1%Z -> size m = size a -> elems cb m = map Some bs ->
  wf vb v -> a_item v = a_item a -> elems vb v = map Some vals -> vals <> [] -> apart buf a s vb v ->
  (typed = true \/ (forall x, In x vals -> via x = x) /\ a_c a = false) ->
  exists buf', putmask typed via buf a cb m s = Ok buf' /\ length buf' = length buf /\
    (forall idx, inb idx (a_shape a) ->
       get buf' a idx = if nth (rank (a_shape a) idx) (map truth bs) false
                        then cycled vals (rank (a_shape a) idx)
                        else get buf a idx) /\
    (forall ad, (forall idx, inb idx (a_shape a) -> ad <> addr a idx) -> load buf' (a_item a) ad = load buf (a_item a) ad).
Proof. intros V typed via buf a cb m s vb v bs vals. exact (masked_assign_spec false typed via buf a cb m s vb v bs vals). Qed.

(* the two are inverse: placing back what was extracted changes no element *)
Lemma keep_true {A} : forall mask (l : list A) k, length mask = length l -> nth k mask false = true ->
  nth_error (keep mask l) (trues_before k mask) = nth_error l k.
Proof.
  induction mask as [|b mask IH]; intros [|x l] k HL Hk; try discriminate; [destruct k; discriminate|]. simpl in HL.
  destruct k as [|k]; cbn [nth] in Hk.
  - subst b. reflexivity.
  - unfold trues_before. rewrite firstn_cons. cbn [filter keep nth_error]. destruct b; cbn [length nth_error]; apply (IH l k); auto.
Qed.
Lemma trues_lt : forall mask k, nth k mask false = true -> trues_before k mask < length (filter (fun b => b) mask).
Proof.
  induction mask as [|b mask IH]; intros k Hk; [destruct k; discriminate|]. destruct k as [|k]; cbn [nth] in Hk.
  - subst b. cbn. lia.
  - specialize (IH k Hk). unfold trues_before in *. rewrite firstn_cons. cbn [filter]. destruct b; cbn [length]; lia.
Qed.
Lemma filter_length_le' {A} (f : A -> bool) l : length (filter f l) <= length l.
Proof. induction l as [|x l IH]; cbn; [lia|]. destruct (f x); cbn; lia. Qed.
Lemma Forall2_impl' {A B} (P Q : A -> B -> Prop) : (forall x y, P x y -> Q x y) -> forall l m, Forall2 P l m -> Forall2 Q l m.
Proof. intros H l m. induction 1; constructor; auto. Qed.
Theorem C117_place_extract_partial : forall (V : Type) typed (via : V -> V) buf a cb m,
  wf buf a -> injective a -> wf cb m -> a_item m = 1%Z -> size m = size a ->
  (Z.of_nat (size a) * a_item a < 2 ^ 63)%Z -> typed = true ->
  exists out buf', extract typed via cb m buf a = Ok out /\
    place typed via buf a cb m (own out (fresh [length out] (a_item a))) = Ok buf' /\
    forall idx, inb idx (a_shape a) -> get buf' a idx = get buf a idx.
Proof.
  intros V typed via buf a cb m W HJ WM H1 HS HB HT.
  destruct (wf_elems cb m WM) as (bs & EB & LB). destruct (wf_elems buf a W) as (vals & EV & LV). pose proof W as (HI & _).
  set (out := keep (map truth bs) vals). exists out.
  assert (LO : length out <= size a).
  { unfold out. rewrite keep_len by (rewrite map_length; lia). etransitivity; [apply filter_length_le'|]. rewrite map_length. lia. }
  assert (EX : extract typed via cb m buf a = Ok out) by (eapply extract_spec; eauto).
  destruct out as [|o0 out'] eqn:EO.
  - exists buf. split; [exact EX|]. split; [|reflexivity]. unfold place, masked_assign, own. cbn [s_arr]. rewrite HS, Nat.eqb_refl. reflexivity.
  - rewrite <- EO in *.
    destruct (C117_place_partial V typed via buf a cb m (own out (fresh [length out] (a_item a))) out (fresh [length out] (a_item a)) bs out W HJ WM H1 HS EB) as (buf' & EP & _ & GP & _).
    { apply fresh_wf; [exact HI| |cbn [prod]; lia]. nia. } { reflexivity. }
    { rewrite (elems_1d _ _ (length out)) by reflexivity. apply nth_error_ext. intros k. rewrite !nth_error_map', nth_error_seq.
      destruct (Nat.ltb_spec k (length out)) as [Hk|Hk]; cbn [option_map Nat.add].
      - rewrite fresh_get by exact HI. cbn [rank prod]. replace (k * 1 + 0) with k by lia.
        destruct (nth_error out k) eqn:EN; [reflexivity|apply nth_error_None in EN; lia].
      - destruct (nth_error out k) eqn:EN; [|reflexivity]. assert (k < length out) by (apply nth_error_Some; congruence). lia. }
    { rewrite EO. discriminate. } { left. reflexivity. } { left. exact HT. }
    exists buf'. split; [exact EX|]. split; [exact EP|]. intros idx Hi. rewrite (GP idx Hi).
    set (k := rank (a_shape a) idx). destruct (nth k (map truth bs) false) eqn:ET; [|reflexivity].
    assert (LK : trues_before k (map truth bs) < length out).
    { unfold out. rewrite keep_len by (rewrite map_length; lia). apply trues_lt, ET. }
    unfold cycled. rewrite Nat.mod_small by exact LK. unfold out. rewrite keep_true by (rewrite ?map_length; try lia; exact ET).
    assert (Hk : k < size a) by (apply rank_lt, Hi).
    destruct (elem_at buf a vals k W EV Hk) as (v & o & Hv & _ & _ & _ & HG). unfold k in HG.
    rewrite unrank_rank in HG by exact Hi. rewrite HG. exact Hv.
Qed.

(* A condition of another dtype is read byte by byte (int64 256, 0 selects the second element);
   complex elements are lost; on contiguous operands a dtype outside the list is not assigned at
   all; values of a narrower dtype are read out of bounds; values that are a view of the
   destination are read after having been overwritten; an empty values array is accepted. *)
Theorem C117_conditions_refuted :
  extract true (fun v => v) [0; 1; 0; 0; 0; 0; 0; 0; 0; 0; 0; 0; 0; 0; 0; 0]%Z (fresh [2] 8) [10; 20]%Z (fresh [2] 8) = Ok [20]%Z /\
  extract false (fun _ => 0%Z) [1; 1]%Z (fresh [2] 1) [10; 20]%Z (fresh [2] 16) = Ok [0; 0]%Z /\
  place false (fun v => v) [10; 20]%Z (fresh [2] 16) [1; 1]%Z (fresh [2] 1) (own [7]%Z (fresh [1] 16)) = Ok [10; 20]%Z /\
  putmask true (fun v => v) [10; 20]%Z (fresh [2] 8) [1; 1]%Z (fresh [2] 1) (mkSrc (fresh [1] 4) false (fun _ => load [] 8)) = Fault /\
  putmask true (fun v => v) [1; 2; 3; 4]%Z (mkArr 8 [3] [8%Z] 8 true true) [1; 1; 1]%Z (fresh [3] 1) (sharing (mkArr 0 [3] [8%Z] 8 true true)) = Ok [1; 1; 1; 1]%Z /\
  place true (fun v => v) [10; 20]%Z (fresh [2] 8) [1; 1]%Z (fresh [2] 1) (own [] (fresh [0] 8)) = Ok [10; 20]%Z.
Proof. repeat split; vm_compute; reflexivity. Qed.

(* a transposed 2 x 3 view, a condition and two values *)
Definition tr23 : arr := mkArr 0 [2; 3] [8; 16]%Z 8 false true.
Example C117_nonvacuous :
  wf [1; 2; 3; 4; 5; 6]%Z tr23 /\ wf [1; 0; 1; 1; 0; 2]%Z (fresh [6] 1) /\
  extract true (fun v => v) [1; 0; 1; 1; 0; 2]%Z (fresh [6] 1) [1; 2; 3; 4; 5; 6]%Z tr23 = Ok [1; 5; 2; 6]%Z /\
  place true (fun v => v) [1; 2; 3; 4; 5; 6]%Z tr23 [1; 0; 1; 1; 0; 2]%Z (fresh [6] 1) (own [70; 80]%Z (fresh [2] 8)) = Ok [70; 70; 3; 4; 80; 80]%Z /\
  putmask true (fun v => v) [1; 2; 3; 4; 5; 6]%Z tr23 [1; 0; 1; 1; 0; 2]%Z (fresh [6] 1) (own [70; 80]%Z (fresh [2] 8)) = Ok [70; 80; 3; 4; 70; 80]%Z.
Proof. split; [wfc|]. split; [wfc|]. repeat split; vm_compute; reflexivity. Qed.
Example C117_injective_nonvacuous : injective tr23.
Proof.
  intros i j Hi Hj E. unfold addr, tr23 in *. cbn [a_shape a_off a_strides] in *.
  destruct i as [|i1 [|i2 [|]]]; try (exfalso; apply inb_length in Hi; discriminate Hi).
  destruct j as [|j1 [|j2 [|]]]; try (exfalso; apply inb_length in Hj; discriminate Hj).
  inversion Hi as [|? ? ? ? A1 A2]; subst. inversion A2 as [|? ? ? ? A3 _]; subst. inversion Hj as [|? ? ? ? B1 B2]; subst. inversion B2 as [|? ? ? ? B3 _]; subst.
  cbn in E. assert (i1 = j1 /\ i2 = j2) as [-> ->] by lia. reflexivity.
Qed.

(* ---- C118: select and piecewise -------------------------------------------------------- *)

(* each element comes from the choice of the first true condition, or is the default.
   Missing: conditions and choices of other shapes or dtypes (refuted below). *)
Theorem C118_select_partial : forall (V : Type) typed (via : V -> V) dflt sh conds xs, conds <> [] -> length conds = length xs ->
  (forall c, In c conds -> cond_ok sh c) -> (forall x, In x xs -> nd_ok sh x) -> typed = true \/ (forall v, via v = v) ->
  exists out, select typed via dflt conds (map operand_of xs) = Ok (sh, out) /\ length out = prod sh /\
    forall item idx, (0 < item)%Z -> inb idx sh ->
      (forall p x, first_true (map (fun c => cond_at c idx) conds) p -> nth_error xs p = Some x ->
         get out (fresh sh item) idx = get (fst x) (snd x) idx) /\
      ((forall c, In c conds -> cond_at c idx = false) -> get out (fresh sh item) idx = Some dflt).
Proof.
  intros V typed via dflt sh conds xs NE HL HC HX HT.
  destruct (select_spec typed via dflt sh conds xs NE HL HC HX HT) as (out & EO & LO & G). exists out. split; [exact EO|]. split; [exact LO|].
  intros item idx Hit Hi. rewrite (G item idx Hit Hi). split.
  - intros p x Hp Hx. destruct (chosen_first dflt idx conds xs p HL Hp) as (x' & Hx' & ->). rewrite Hx in Hx'. injection Hx' as <-. reflexivity.
  - intros H. apply chosen_none, H.
Qed.
Theorem C118_rejects : forall (V : Type) typed (via : V -> V) dflt conds (choices : list (@operand V)) (zero : V) buf a funs,
  (conds = [] \/ length conds <> length choices -> select typed via dflt conds choices = Err) /\
  (conds = [] \/ (length funs <> length conds /\ length funs <> length conds + 1) -> piecewise zero buf a conds funs = Err).
Proof.
  intros V typed via dflt conds choices zero buf a funs. split.
  - intros H. unfold select. destruct conds as [|c0 conds]; [reflexivity|]. destruct H as [|H]; [discriminate|].
    destruct (Nat.eqb_spec (length (c0 :: conds)) (length choices)); [contradiction|reflexivity].
  - intros H. unfold piecewise. destruct conds as [|c0 conds]; [reflexivity|]. destruct H as [|[H1 H2]]; [discriminate|].
    destruct (Nat.eqb_spec (length funs) (length (c0 :: conds) + 1)); [contradiction|].
    destruct (Nat.eqb_spec (length funs) (length (c0 :: conds))); [contradiction|reflexivity].
Qed.

Lemma piece_first {V} idx : forall conds (funs : list (V -> V)) p f, first_true (map (fun c => cond_at c idx) conds) p ->
  nth_error funs p = Some f -> piece idx (combine conds funs) = Some f.
Proof.
  induction conds as [|c conds IH]; intros [|g funs] p f [H1 H2] Hf; try (destruct p; discriminate).
  cbn [map combine piece] in *. destruct p as [|p]; cbn [nth_error] in *.
  - injection H1 as ->. exact Hf.
  - pose proof (H2 0 ltac:(lia)) as H0. injection H0 as ->. apply (IH funs p f); [|exact Hf]. split; [exact H1|]. intros q Hq. exact (H2 (S q) ltac:(lia)).
Qed.
Lemma piece_none {V} idx : forall conds (funs : list (V -> V)), (forall c, In c conds -> cond_at c idx = false) -> piece idx (combine conds funs) = None.
Proof.
  induction conds as [|c conds IH]; intros [|g funs] H; try reflexivity. cbn [combine piece]. rewrite (H c (or_introl eq_refl)).
  apply IH. intros; apply H; right; assumption.
Qed.
(* piecewise where at most one condition holds at each element: the function of that condition,
   the default function where none holds, zero without a default.
   Missing: several true conditions (refuted below: NumPy lets the last one win). *)
Theorem C118_piecewise_partial : forall (V : Type) (zero : V) buf a sh conds funs dflt, nd_ok sh (buf, a) ->
  conds <> [] -> (forall c, In c conds -> cond_ok sh c) -> length funs = length conds ->
  exists out, piecewise zero buf a conds (funs ++ match dflt with Some f => [f] | None => [] end) = Ok (sh, out) /\ length out = prod sh /\
    forall item idx v, (0 < item)%Z -> inb idx sh -> get buf a idx = Some v ->
      (forall p f, first_true (map (fun c => cond_at c idx) conds) p -> last_true (map (fun c => cond_at c idx) conds) p -> nth_error funs p = Some f ->
         get out (fresh sh item) idx = Some (f v)) /\
      ((forall c, In c conds -> cond_at c idx = false) ->
         get out (fresh sh item) idx = Some (match dflt with Some f => f v | None => zero end)).
Proof.
  intros V zero buf a sh conds funs dflt HA NE HC HL.
  destruct (piecewise_spec zero buf a sh HA conds funs dflt NE HC HL) as (out & EO & LO & G). exists out. split; [exact EO|]. split; [exact LO|].
  intros item idx v Hit Hi Hv. rewrite fresh_get by exact Hit. specialize (G (rank sh idx) (rank_lt sh idx Hi)).
  assert (EV : value_at zero buf a sh (rank sh idx) = v) by (unfold value_at; rewrite unrank_rank by exact Hi; rewrite Hv; reflexivity).
  rewrite unrank_rank in G by exact Hi. rewrite EV in G. split.
  - intros p f Hp _ Hf. rewrite G, (piece_first idx conds funs p f Hp Hf). reflexivity.
  - intros H. rewrite G, piece_none by exact H. reflexivity.
Qed.
(* a one-element choice is not broadcast but indexed out of bounds; two conditions hold and the
   first function wins; a choice of a narrower dtype is read with the first choice's type *)
Theorem C118_select_refuted :
  select true (fun v => v) 0%Z [([1; 1]%Z, fresh [2] 1)] [operand_of ([5]%Z, fresh [1] 8)] = Panic /\
  select true (fun v => v) 0%Z [([0]%Z, fresh [1] 1); ([1]%Z, fresh [1] 1)] [operand_of ([5]%Z, fresh [1] 8); mkOp (fresh [1] 4) (load [] 8)] = Fault /\
  piecewise 0%Z [7]%Z (fresh [1] 8) [([1]%Z, fresh [1] 1); ([1]%Z, fresh [1] 1)] [(fun _ => 1%Z); (fun _ => 2%Z)] = Ok ([1], [1]%Z).
Proof. repeat split; vm_compute; reflexivity. Qed.
Example C118_nonvacuous :
  cond_ok [3] ([1; 0; 0]%Z, fresh [3] 1) /\ cond_ok [3] ([0; 5; 0]%Z, fresh [3] 1) /\
  nd_ok [3] ([1; 2; 3]%Z, fresh [3] 8) /\ nd_ok [3] ([4; 5; 6]%Z, mkArr 16 [3] [(-8)%Z] 8 false false) /\
  select true (fun v => v) 9%Z [([1; 0; 0]%Z, fresh [3] 1); ([0; 5; 0]%Z, fresh [3] 1)]
    (map operand_of [([1; 2; 3]%Z, fresh [3] 8); ([4; 5; 6]%Z, mkArr 16 [3] [(-8)%Z] 8 false false)]) = Ok ([3], [1; 5; 9]%Z) /\
  piecewise 0%Z [1; 2; 3]%Z (fresh [3] 8) [([1; 0; 0]%Z, fresh [3] 1); ([0; 5; 0]%Z, fresh [3] 1)]
    ([(fun v => v + 10)%Z; (fun v => v * v)%Z] ++ [(fun v => - v)%Z]) = Ok ([3], [11; 4; -3]%Z) /\
  first_true [false; true] 1 /\ last_true [false; true] 1.
Proof.
  split; [split; [wfc|split; reflexivity]|]. split; [split; [wfc|split; reflexivity]|]. split; [split; [wfc|reflexivity]|]. split; [split; [wfc|reflexivity]|].
  split; [vm_compute; reflexivity|]. split; [vm_compute; reflexivity|]. split; split; try reflexivity.
  - intros [|q] H; [reflexivity|lia].
  - intros q H. destruct q as [|[|q]]; try lia. destruct q; discriminate.
Qed.

(* ---- C119: resize, trim_zeros, ediff1d -------------------------------------------------- *)

(* resize repeats the elements in index order until the new shape is full *)
Theorem C119_resize : forall (V : Type) (zero : V) buf a vals sh, wf buf a -> elems buf a = map Some vals ->
  exists out, resize zero buf a sh = Ok out /\ length out = prod sh /\
    forall k, k < prod sh -> nth_error out k = match vals with [] => Some zero | _ => cycled vals k end.
Proof. intros. apply resize_spec; assumption. Qed.

(* trim_zeros of a one-dimensional view with a stride that is not negative.
   Missing: reversed views (refuted below). *)
Theorem C119_trim_zeros_partial : forall (V : Type) (nonzero : V -> bool) typed word front back buf a n stride vals, wf buf a ->
  a_shape a = [n] -> a_strides a = [stride] -> (0 <= stride)%Z -> elems buf a = map Some vals ->
  exists buf' a' r, trim_zeros nonzero typed word front back buf a = Ok (buf', a') /\ a_shape a' = [length r] /\
    elems buf' a' = map Some r /\ trimmed (fun v => negb (nonzero v)) front back vals r.
Proof. intros. eapply trim_zeros_spec; eassumption. Qed.
Theorem C119_trim_rejects : forall (V : Type) (nonzero : V -> bool) typed word front back buf a,
  length (a_shape a) <> 1 -> trim_zeros nonzero typed word front back buf a = Err.
Proof. intros V nonzero typed word front back buf a H. unfold trim_zeros, ndim. destruct (Nat.eqb_spec (length (a_shape a)) 1); [contradiction|reflexivity]. Qed.
Theorem C119_trim_zeros_refuted :
  let a := mkArr 24 [4] [(-8)%Z] 8 false false in          (* [7; 5; 0; 0] reversed: 0 0 5 7 *)
  elems [7; 5; 0; 0]%Z a = map Some [0; 0; 5; 7]%Z /\
  trim_zeros (fun v => negb (v =? 0)%Z) true true true true [7; 5; 0; 0]%Z a = Fault.
Proof. split; vm_compute; reflexivity. Qed.

(* ediff1d: to_begin, the differences of consecutive elements, to_end *)
Theorem C119_ediff1d_partial : forall (V : Type) (sub : V -> V -> V) buf a vals (b e : @nd V) bv ev, wf buf a -> elems buf a = map Some vals ->
  wf (fst b) (snd b) -> elems (fst b) (snd b) = map Some bv -> wf (fst e) (snd e) -> elems (fst e) (snd e) = map Some ev ->
  ediff1d sub buf a (EdgeArr (operand_of b)) (EdgeArr (operand_of e)) = Ok (bv ++ consecutive sub vals ++ ev) /\
  ediff1d sub buf a NoEdge NoEdge = Ok (consecutive sub vals) /\
  forall u w, ediff1d sub buf a (EdgeVal u) (EdgeVal w) = Ok (u :: consecutive sub vals ++ [w]).
Proof.
  intros V sub buf a vals b e bv ev W E WB EB WE EE. split; [|split].
  - apply ediff1d_spec; try assumption; apply edge_arr; assumption.
  - rewrite (ediff1d_spec sub buf a vals NoEdge [] NoEdge [] W E eq_refl eq_refl). cbn [app]. rewrite app_nil_r. reflexivity.
  - intros u w. exact (ediff1d_spec sub buf a vals (EdgeVal u) [u] (EdgeVal w) [w] W E eq_refl eq_refl).
Qed.
(* with the first element in front, the running sums (in wrapping arithmetic) give the array back *)
Fixpoint running (add : Z -> Z -> Z) (acc : Z) (l : list Z) : list Z :=
  match l with [] => [] | x :: l' => add acc x :: running add (add acc x) l' end.
Lemma running_consecutive t : ity_ok t -> forall l x, Forall (representable t) (x :: l) ->
  running (fun u v => wrap t (u + v)) x (consecutive (fun y x => wrap t (y - x)) (x :: l)) = l.
Proof.
  intros HT. induction l as [|y l IH]; intros x HF; [reflexivity|]. inversion HF as [|? ? Hx HF']; subst. inversion HF' as [|? ? Hy _]; subst.
  change (consecutive (fun y x => wrap t (y - x)) (x :: y :: l)) with (wrap t (y - x) :: consecutive (fun y x => wrap t (y - x)) (y :: l)).
  cbn [running]. rewrite wrap_add_r by exact HT. replace (x + (y - x))%Z with y by lia. rewrite wrap_id by assumption. rewrite IH by exact HF'. reflexivity.
Qed.
Theorem C119_ediff1d_sums : forall t buf a v vals, ity_ok t -> wf buf a -> elems buf a = map Some (v :: vals) -> Forall (representable t) (v :: vals) ->
  exists out, ediff1d (fun y x => wrap t (y - x)) buf a (EdgeVal v) NoEdge = Ok out /\ running (fun u w => wrap t (u + w)) 0 out = v :: vals.
Proof.
  intros t buf a v vals HT W E HF. exists (v :: consecutive (fun y x => wrap t (y - x)) (v :: vals)). split.
  - rewrite (ediff1d_spec _ buf a (v :: vals) (EdgeVal v) [v] NoEdge [] W E eq_refl eq_refl). rewrite app_nil_r. reflexivity.
  - cbn [running]. assert (HV : representable t v) by (inversion HF; assumption). rewrite Z.add_0_l, wrap_id by assumption. f_equal.
    apply running_consecutive; assumption.
Qed.
(* an edge of a narrower dtype is read with the array's item type *)
Theorem C119_ediff1d_refuted :
  ediff1d Z.sub [1; 4; 9]%Z (fresh [3] 8) (EdgeArr (mkOp (fresh [1] 4) (load [] 8))) NoEdge = Fault.
Proof. vm_compute. reflexivity. Qed.
Example C119_nonvacuous :
  wf [0; 9; 0; 9; 5; 9; 0; 9; 6; 9; 0; 9]%Z (mkArr 0 [6] [16%Z] 8 false false) /\
  trim_zeros (fun v => negb (v =? 0)%Z) true true true true [0; 9; 0; 9; 5; 9; 0; 9; 6; 9; 0; 9]%Z (mkArr 0 [6] [16%Z] 8 false false) = Ok ([5; 0; 6]%Z, fresh [3] 8) /\
  trim_zeros (fun v => negb (v =? 0)%Z) true true true false [0; 9; 0; 9; 5; 9; 0; 9; 6; 9; 0; 9]%Z (mkArr 0 [6] [16%Z] 8 false false) = Ok ([5; 0; 6; 0]%Z, fresh [4] 8) /\
  resize 0%Z [1; 2; 3; 4; 5; 6]%Z tr23 [2; 4] = Ok [1; 3; 5; 2; 4; 6; 1; 3]%Z /\
  ediff1d Z.sub [1; 2; 3; 4; 5; 6]%Z tr23 (EdgeVal 1%Z) NoEdge = Ok [1; 2; 2; -3; 2; 2]%Z /\
  running Z.add 0 [1; 2; 2; -3; 2; 2]%Z = [1; 3; 5; 2; 4; 6]%Z.
Proof. split; [wfc|]. repeat split; vm_compute; reflexivity. Qed.

(* ---- C120: unstack and block ------------------------------------------------------------ *)

(* unstack: as many views as the axis is long; view i at idx is the element with i put at the axis.
   Missing: negative strides along the axis (refuted below). *)
Theorem C120_unstack_partial : forall (V : Type) (buf : list V) a ax axis n stride, wf buf a -> norm_axis (ndim a) ax = Some axis ->
  nth_error (a_shape a) axis = Some n -> nth_error (a_strides a) axis = Some stride -> (0 <= stride)%Z \/ n <= 1 ->
  exists l, unstack a ax = Ok l /\ length l = n /\
    forall i p, nth_error l i = Some p -> is_view buf a p (remove_at axis (a_shape a)) (insert_at axis i).
Proof. intros. eapply unstack_spec; eassumption. Qed.
Theorem C120_unstack_rejects : forall a ax,
  (length (a_shape a) = 0 \/ norm_axis (ndim a) ax = None -> unstack a ax = Err).
Proof.
  intros a ax [H|H]; unfold unstack.
  - unfold ndim. rewrite H. reflexivity.
  - destruct (ndim a =? 0); [reflexivity|]. rewrite H. reflexivity.
Qed.
(* stacking the pieces again gives the array back *)
Theorem C120_stack_unstack_partial : forall (V : Type) (zero : V) (buf : list V) a ax axis n stride, wf buf a -> norm_axis (ndim a) ax = Some axis ->
  nth_error (a_shape a) axis = Some n -> nth_error (a_strides a) axis = Some stride -> (0 <= stride)%Z \/ n <= 1 -> n <> 0 ->
  exists l out, unstack a ax = Ok l /\ stack zero (map (fun p => operand_of (buf, p)) l) axis = Ok (a_shape a, out) /\
    forall item oi, (0 < item)%Z -> inb oi (remove_at axis (a_shape a)) ->
      lane out (fresh (a_shape a) item) axis oi = lane buf a axis oi.
Proof.
  intros V zero buf a ax axis n stride W HA Hn Hs HP H0.
  destruct (unstack_spec buf a ax axis n stride W HA Hn Hs HP) as (l & EU & LL & VW). exists l.
  assert (HX : axis < length (a_shape a)) by (apply nth_error_Some; congruence).
  destruct l as [|p0 l']; [cbn in LL; lia|]. set (l := p0 :: l') in *.
  assert (V0 : a_shape p0 = remove_at axis (a_shape a)) by (apply (VW 0 p0 eq_refl)).
  destruct (stack_spec zero (map (fun p => (buf, p)) l) (buf, p0) axis eq_refl) as [ST _].
  { intros x Hx. apply in_map_iff in Hx as (p & <- & Hp). apply In_nth_error in Hp as [i Hi]. apply (VW i p Hi). }
  destruct ST as (out & EO & LO & LN).
  { cbn [snd]. rewrite V0. pose proof (remove_at_length axis (a_shape a) HX). lia. }
  { intros x Hx. apply in_map_iff in Hx as (p & <- & Hp). apply In_nth_error in Hp as [i Hi]. cbn [snd]. rewrite V0. apply (VW i p Hi). }
  rewrite map_map in EO. cbn [snd] in EO, LN. rewrite map_length, LL, V0 in EO, LN.
  assert (SH : insert_at axis n (remove_at axis (a_shape a)) = a_shape a) by (apply insert_remove_at; exact Hn). rewrite SH in EO, LN.
  exists out. split; [exact EU|]. split; [exact EO|]. intros item oi Hit Ho. rewrite (LN item oi Hit Ho). rewrite map_map. cbn [fst snd].
  unfold lane. rewrite (nth_error_nth _ _ 0 Hn). apply nth_error_ext. intros i. rewrite !nth_error_map', nth_error_seq.
  destruct (Nat.ltb_spec i n) as [Hi|Hi].
  - destruct (nth_error l i) as [p|] eqn:EP; [|apply nth_error_None in EP; lia]. cbn [option_map Nat.add]. f_equal.
    destruct (VW i p EP) as (_ & _ & G). apply (G oi Ho).
  - destruct (nth_error l i) eqn:EP; [|reflexivity]. assert (i < length l) by (apply nth_error_Some; congruence). lia.
Qed.
Theorem C120_unstack_refuted :
  let a := mkArr 16 [3] [(-8)%Z] 8 false false in          (* [1; 2; 3] reversed *)
  exists p0 p1 p2, unstack a 0 = Ok [p0; p1; p2] /\ get [1; 2; 3]%Z p0 [] = Some 3%Z /\ get [1; 2; 3]%Z p1 [] = None.
Proof. do 3 eexists. split; [vm_compute; reflexivity|]. split; vm_compute; reflexivity. Qed.

(* A grid of matrices: the pieces of a row have the row's height, the rows have equal total
   width (each row may be cut differently).  Element (i, j) of piece q of row p stands at
   (heights above + i, widths to the left + j). *)
Definition block_grid {V} (rows : list (list (@nd V))) : @blk V := BList (map (fun r => BList (map BArr r)) rows).
Definition matrix {V} (it : Z) (x : @nd V) (h w : nat) : Prop := wf (fst x) (snd x) /\ a_item (snd x) = it /\ a_shape (snd x) = [h; w].
Lemma go_arrs {V} (zero : V) (r : list (@nd V)) d : process_block zero (BList (map BArr r)) d = join_blocks zero d r.
Proof.
  cbn [process_block]. match goal with |- bind ?g _ = _ => assert (E : g = Ok r) end.
  { induction r as [|x r IH]; [reflexivity|]. cbn [map process_block bind]. rewrite IH. reflexivity. }
  rewrite E. reflexivity.
Qed.
Lemma block_grid_eq {V} (zero : V) rows : block zero (block_grid rows) = bind (mapM (join_blocks zero 1) rows) (join_blocks zero 0).
Proof.
  unfold block, block_grid. cbn [process_block]. f_equal.
  induction rows as [|r rows IH]; [reflexivity|]. cbn [map mapM]. rewrite go_arrs. destruct (join_blocks zero 1 r); try reflexivity. cbn [bind].
  rewrite IH. reflexivity.
Qed.
Lemma sum_ge_nth : forall (l : list nat) k x, nth_error l k = Some x -> x <= list_sum l.
Proof.
  induction l as [|y l IH]; intros [|k] x H; try discriminate; change (list_sum (y :: l)) with (y + list_sum l).
  - injection H as ->. lia.
  - specialize (IH k x H). lia.
Qed.
Theorem C120_block_partial : forall (V : Type) (zero : V) it rows hs wss width, rows <> [] ->
  Forall2 (fun r hw => r <> [] /\ list_sum (snd hw) = width /\ Forall2 (fun x w => matrix it x (fst hw) w) r (snd hw)) rows (combine hs wss) ->
  length hs = length wss ->
  (Z.of_nat (list_sum hs * width) * it < 2 ^ 63)%Z ->
  exists y, block zero (block_grid rows) = Ok y /\ matrix it y (list_sum hs) width /\
    forall p r h ws q x w i j, nth_error rows p = Some r -> nth_error hs p = Some h -> nth_error wss p = Some ws ->
      nth_error r q = Some x -> nth_error ws q = Some w -> i < h -> j < w ->
      get (fst y) (snd y) [start hs p + i; start ws q + j] = get (fst x) (snd x) [i; j].
Proof.
  intros V zero it rows hs wss width NE F HL HB. rewrite block_grid_eq.
  assert (HIT : (0 < it)%Z).
  { destruct F as [|r hw rows' hws (NR & _ & FR) F']; [congruence|]. destruct FR as [|x w r' ws' ((HI & _) & E & _) _]; [congruence|]. rewrite <- E. exact HI. }
  assert (HROWS : exists ys, mapM (join_blocks zero 1) rows = Ok ys /\ length ys = length rows /\
     Forall2 (part_ok it 0 [width]) ys hs /\
     forall p r h ws y, nth_error rows p = Some r -> nth_error hs p = Some h -> nth_error wss p = Some ws -> nth_error ys p = Some y ->
       forall q x w i j, nth_error r q = Some x -> nth_error ws q = Some w -> i < h -> j < w ->
       get (fst y) (snd y) [i; start ws q + j] = get (fst x) (snd x) [i; j]).
  { clear NE. assert (HB' : forall h, In h hs -> (Z.of_nat (h * width) * it < 2 ^ 63)%Z).
    { intros h Hh. apply In_nth_error in Hh as [k Hk]. apply sum_ge_nth in Hk. assert (HM : h * width <= list_sum hs * width) by (apply Nat.mul_le_mono_r; exact Hk).
      apply inj_le in HM. set (A := Z.of_nat (h * width)) in *. set (B := Z.of_nat (list_sum hs * width)) in *. nia. }
    clear HB. revert rows F HB'. revert wss HL. induction hs as [|h hs IH]; intros [|ws wss] HL rows F HB'; try discriminate.
    { inversion F; subst. exists []. split; [reflexivity|]. split; [reflexivity|]. split; [constructor|]. intros [|p]; discriminate. }
    cbn [combine] in F. inversion F as [|r ? rows' ? (NR & SW & FR) F']; subst. cbn [fst snd] in *.
    destruct (join_blocks_spec zero it 1 [h] r ws NR ltac:(cbn; lia)) as (y & EY & PY & GY).
    { eapply Forall2_impl'; [|exact FR]. intros x w (A & B & C). split; [exact A|]. split; [exact B|exact C]. }
    { change (insert_at 1 (list_sum ws) [h]) with [h; list_sum ws]. cbn [prod]. rewrite Nat.mul_1_r. apply HB'. left; reflexivity. }
    destruct (IH wss ltac:(simpl in HL; lia) rows' F') as (ys & EM & LY & FY & GG). { intros; apply HB'; right; assumption. }
    exists (y :: ys). cbn [mapM]. rewrite EY, EM. split; [reflexivity|]. split; [cbn [length]; lia|]. split.
    { constructor; [|exact FY]. destruct PY as (A & B & C). split; [exact A|]. split; [exact B|exact C]. }
    intros [|p] r' h' ws' y' H1 H2 H3 H4.
    - cbn in H1, H2, H3, H4. injection H1 as <-. injection H2 as <-. injection H3 as <-. injection H4 as <-. intros q x w i j Hx Hw Hi Hj.
      apply (GY q x w j [i] Hx Hw Hj). constructor; [exact Hi|constructor].
    - exact (GG p r' h' ws' y' H1 H2 H3 H4). }
  destruct HROWS as (ys & EM & LY & FY & GG). rewrite EM. cbn [bind].
  destruct (join_blocks_spec zero it 0 [width] ys hs) as (y & EY & PY & GY).
  { destruct ys; [|discriminate]. destruct rows; [congruence|discriminate]. } { cbn; lia. } { exact FY. }
  { change (insert_at 0 (list_sum hs) [width]) with [list_sum hs; width]. cbn [prod]. rewrite Nat.mul_1_r. exact HB. }
  exists y. split; [exact EY|]. split. { destruct PY as (A & B & C). split; [exact A|]. split; [exact B|exact C]. }
  intros p r h ws q x w i j H1 H2 H3 Hx Hw Hi Hj.
  assert (exists z, nth_error ys p = Some z) as [z Hz].
  { destruct (nth_error ys p) eqn:E; [eauto|]. apply nth_error_None in E. assert (p < length rows) by (apply nth_error_Some; congruence). lia. }
  assert (HW : start ws q + j < width).
  { assert (SW : list_sum ws = width).
    { destruct (Forall2_nth' _ _ _ F p r H1) as (hw & Hhw & (_ & SW & _)). rewrite nth_error_combine, H2, H3 in Hhw. injection Hhw as <-. exact SW. }
    rewrite <- SW. clear - Hw Hj. revert q Hw. induction ws as [|m ws IH]; intros [|q] Hw; try discriminate; unfold start in *; cbn [firstn].
    - injection Hw as ->. cbn [list_sum fold_right]. lia.
    - specialize (IH q Hw). change (list_sum (m :: firstn q ws)) with (m + list_sum (firstn q ws)). change (list_sum (m :: ws)) with (m + list_sum ws). lia. }
  etransitivity; [exact (GY p z h i [start ws q + j] Hz H2 Hi ltac:(constructor; [exact HW|constructor]))|]. cbn [insert_at firstn skipn app].
  apply (GG p r h ws z H1 H2 H3 Hz q x w i j Hx Hw Hi Hj).
Qed.
(* one level of nesting stacks matrices vertically instead of side by side; two levels of
   one-dimensional arrays give a one-dimensional result instead of a row *)
Theorem C120_block_refuted :
  block 0%Z (BList [BArr ([1; 2]%Z, fresh [2; 1] 8); BArr ([3; 4]%Z, fresh [2; 1] 8)]) = Ok ([1; 2; 3; 4]%Z, fresh [4; 1] 8) /\
  block 0%Z (BList [BList [BArr ([1]%Z, fresh [1] 8); BArr ([2]%Z, fresh [1] 8)]]) = Ok ([1; 2]%Z, fresh [2] 8).
Proof. split; vm_compute; reflexivity. Qed.
Example C120_nonvacuous :
  block 0%Z (block_grid [[([1; 2]%Z, fresh [1; 2] 8); ([3]%Z, fresh [1; 1] 8)]; [([4; 5; 6; 7; 8; 9]%Z, mkArr 0 [2; 3] [8; 16]%Z 8 false true)]]) =
    Ok ([1; 2; 3; 4; 6; 8; 5; 7; 9]%Z, fresh [3; 3] 8) /\
  Forall2 (fun r hw => r <> [] /\ list_sum (snd hw) = 3 /\ Forall2 (fun x w => matrix 8 x (fst hw) w) r (snd hw))
    [[([1; 2]%Z, fresh [1; 2] 8); ([3]%Z, fresh [1; 1] 8)]; [([4; 5; 6; 7; 8; 9]%Z, mkArr 0 [2; 3] [8; 16]%Z 8 false true)]]
    (combine [1; 2] [[2; 1]; [3]]) /\
  (exists p0 p1 p2, unstack tr23 (-1) = Ok [p0; p1; p2] /\ get [1; 2; 3; 4; 5; 6]%Z p1 [1] = Some 4%Z) /\
  unstack (fresh [] 8) 0 = Err /\ unstack tr23 2 = Err.
Proof.
  split; [vm_compute; reflexivity|]. split.
  { repeat (constructor; [split; [discriminate|]; split; [reflexivity|]; repeat (constructor; [split; [wfc|split; reflexivity]|]); constructor|]). constructor. }
  split; [do 3 eexists; split; vm_compute; reflexivity|]. split; reflexivity.
Qed.

(* ---- C121: unwrap ----------------------------------------------------------------------- *)

(* Along every lane the first element stays, every element moves by whole periods, steps within
   the limit stay and all others become at most half a period.
   Missing: rounding of the float arithmetic. *)
Theorem C121_unwrap_partial : forall half d (buf : list Z) a ax axis n, (0 < half)%Z -> wf buf a -> a_item a = 8%Z -> norm_axis (ndim a) ax = Some axis ->
  nth_error (a_shape a) axis = Some n ->
  exists out, unwrap half d buf a ax = Ok out /\ length out = size a /\
    forall oi lv, inb oi (remove_at axis (a_shape a)) -> lane buf a axis oi = map Some lv ->
      exists r, lane out (fresh (a_shape a) 8) axis oi = map Some r /\ unwrapped half d lv r.
Proof. exact unwrap_spec. Qed.
(* a signal whose steps are all short is its own unwrapping: unwrapping is idempotent at the
   default limit *)
Lemma unwrapped_id half d l r : unwrapped half d l r ->
  (forall k x x', nth_error l k = Some x -> nth_error l (k + 1) = Some x' -> (Z.abs (x' - x) <= d)%Z) -> r = l.
Proof.
  intros (HL & H0 & _ & HS) HB. apply nth_error_ext. intros k.
  destruct (Nat.lt_ge_cases k (length l)) as [Hk|Hk].
  2:{ rewrite (proj2 (nth_error_None l k)) by lia. apply nth_error_None. lia. }
  induction k as [|k IH].
  - destruct l as [|x l]; [cbn in Hk; lia|]. rewrite (H0 x eq_refl). reflexivity.
  - specialize (IH ltac:(lia)).
    destruct (nth_error l k) as [x|] eqn:E1; [|apply nth_error_None in E1; lia].
    destruct (nth_error l (S k)) as [x'|] eqn:E2; [|apply nth_error_None in E2; lia].
    destruct (nth_error r (S k)) as [y'|] eqn:E3; [|apply nth_error_None in E3; lia].
    rewrite <- (Nat.add_1_r k) in E2, E3.
    specialize (HB k x x' E1 E2). destruct (HS k x x' x y' E1 E2 IH E3) as [[_ H]|[H _]]; [f_equal; lia|lia].
Qed.
Theorem C121_idempotent_partial : forall half l, (0 < half)%Z ->
  unwrap_lane half half (unwrap_lane half half l) = unwrap_lane half half l.
Proof.
  intros half l HH. apply (unwrapped_id half half). { apply unwrap_lane_spec, HH. }
  intros k x x' H1 H2. destruct (unwrap_lane_spec half half l HH) as (HL & _ & _ & HS).
  destruct (nth_error l k) as [u|] eqn:E1. 2:{ apply nth_error_None in E1. assert (k < length (unwrap_lane half half l)) by (apply nth_error_Some; congruence). lia. }
  destruct (nth_error l (k + 1)) as [u'|] eqn:E2. 2:{ apply nth_error_None in E2. assert (k + 1 < length (unwrap_lane half half l)) by (apply nth_error_Some; congruence). lia. }
  destruct (HS k u u' x x' E1 E2 H1 H2) as [[A B]|[_ B]]; lia.
Qed.
(* a step of three half periods up becomes one half period down (NumPy: up) *)
Theorem C121_half_period_refuted : unwrap 3 3 [0; 9]%Z (fresh [2] 8) 0 = Ok [0; -3]%Z.
Proof. vm_compute. reflexivity. Qed.
Example C121_nonvacuous :
  wf [0; 1; 4; 8; 8; 15; 2; 4]%Z (mkArr 0 [2; 4] [8; 16]%Z 8 false true) /\
  unwrap 5 5 [0; 1; 4; 8; 8; 15; 2; 4]%Z (mkArr 0 [2; 4] [8; 16]%Z 8 false true) 1 = Ok [0; 4; 8; 12; 1; -2; -5; -6]%Z.
Proof. split; [wfc|]. vm_compute. reflexivity. Qed.

Print Assumptions C117_extract_partial.
Print Assumptions C117_place_partial.
Print Assumptions C117_putmask_partial.
Print Assumptions C117_place_extract_partial.
Print Assumptions C117_conditions_refuted.
Print Assumptions C118_select_partial.
Print Assumptions C118_rejects.
Print Assumptions C118_piecewise_partial.
Print Assumptions C118_select_refuted.
Print Assumptions C119_resize.
Print Assumptions C119_trim_zeros_partial.
Print Assumptions C119_trim_rejects.
Print Assumptions C119_trim_zeros_refuted.
Print Assumptions C119_ediff1d_partial.
Print Assumptions C119_ediff1d_sums.
Print Assumptions C119_ediff1d_refuted.
Print Assumptions C120_unstack_partial.
Print Assumptions C120_unstack_rejects.
Print Assumptions C120_stack_unstack_partial.
Print Assumptions C120_unstack_refuted.
Print Assumptions C120_block_partial.
Print Assumptions C120_block_refuted.
Print Assumptions C121_unwrap_partial.
Print Assumptions C121_idempotent_partial.
Print Assumptions C121_half_period_refuted.
