(* Proofs about select, piecewise, ediff1d, trim_zeros. *)
From Verif Require Import Base Lists Arr_Spec Arr_Model Arr_Wf Arr_Proofs Copy_Model Copy_Proofs Idx_Model Idx_Wf Idx_Assign Elem_Model Elem_Proofs
  Red_Model Gu_Model Gu_Proofs Man_Model Man_Proofs Man_Ops Man_Ops2 Sel_Spec Sel_Proofs Sel_Ops Lay_Copy Msk_Spec Msk_Model Msk_Proofs.
Local Open Scope nat_scope.

(* a bool array of the given shape *)
Definition cond_ok (sh : list nat) (c : list Z * arr) : Prop := wf (fst c) (snd c) /\ a_item (snd c) = 1%Z /\ a_shape (snd c) = sh.
(* its truth values at one index *)
Definition cond_at (c : list Z * arr) (idx : list nat) : bool :=
  match get (fst c) (snd c) idx with Some b => truth b | None => false end.
Definition nd_ok {V} (sh : list nat) (x : @nd V) : Prop := wf (fst x) (snd x) /\ a_shape (snd x) = sh.

Lemma cond_read sh c k : cond_ok sh c -> k < prod sh ->
  exists o b, nth_error (iter_offsets (snd c)) k = Some o /\ mask_byte (fst c) (snd c) o = Ok b /\ cond_at c (unrank sh k) = truth b.
Proof.
  intros (W & H1 & HS) Hk. destruct (wf_elems _ _ W) as (bs & E & _).
  destruct (elem_at _ _ bs k W E) as (b & o & Hb & Ho & HR & _ & HG); [unfold size; rewrite HS; exact Hk|].
  exists o, b. split; [exact Ho|]. unfold read in HR. rewrite H1 in HR. split; [exact HR|]. unfold cond_at. rewrite <- HS, HG. reflexivity.
Qed.
Lemma nd_read {V} sh (x : @nd V) k : nd_ok sh x -> k < prod sh ->
  exists o v, nth_error (iter_offsets (snd x)) k = Some o /\ read (fst x) (snd x) o = Ok v /\ get (fst x) (snd x) (unrank sh k) = Some v.
Proof.
  intros (W & HS) Hk. destruct (wf_elems _ _ W) as (vs & E & _).
  destruct (elem_at _ _ vs k W E) as (b & o & Hb & Ho & HR & _ & HG); [unfold size; rewrite HS; exact Hk|].
  exists o, b. rewrite HS in HG. auto.
Qed.

(* ---------- select ---------- *)
Fixpoint chosen {V} (dflt : V) (idx : list nat) (l : list ((list Z * arr) * @nd V)) : option V :=
  match l with
  | [] => Some dflt
  | (c, x) :: l' => if cond_at c idx then get (fst x) (snd x) idx else chosen dflt idx l'
  end.

Lemma select_at_spec {V} typed (via : V -> V) dflt sh k : k < prod sh -> forall conds xs, length conds = length xs ->
  (forall c, In c conds -> cond_ok sh c) -> (forall x, In x xs -> nd_ok sh x) ->
  (typed = true \/ forall v, via v = v) ->
  exists v, select_at typed via dflt k (combine conds (map operand_of xs)) = Ok v /\ chosen dflt (unrank sh k) (combine conds xs) = Some v.
Proof.
  intros Hk. induction conds as [|c conds IH]; intros [|x xs] HL HC HX HT; try discriminate; cbn [combine map select_at chosen].
  - eauto.
  - destruct (cond_read sh c k (HC c (or_introl eq_refl)) Hk) as (o & b & Ho & Hb & HA). destruct c as [cb c]. cbn [fst snd] in *.
    unfold at_ at 1. rewrite Ho. cbn [bind]. rewrite Hb. cbn [bind]. rewrite HA. unfold truth. destruct (b =? 0)%Z; cbn [negb].
    + apply IH; [simpl in HL; lia|intros; apply HC; right; assumption|intros; apply HX; right; assumption|exact HT].
    + destruct (nd_read sh x k (HX x (or_introl eq_refl)) Hk) as (o' & v & Ho' & HR & HG). cbn [operand_of o_arr o_read].
      unfold at_. rewrite Ho'. cbn [bind]. unfold read in HR.
      destruct (load (fst x) (a_item (snd x)) (a_off (snd x) + o')) as [w|]; [|discriminate]. injection HR as ->. cbn [of_load bind].
      exists v. split; [|exact HG]. destruct typed; [reflexivity|]. destruct HT as [HT|HT]; [discriminate|]. rewrite HT. reflexivity.
Qed.

Lemma select_spec {V} typed (via : V -> V) dflt sh conds xs : conds <> [] -> length conds = length xs ->
  (forall c, In c conds -> cond_ok sh c) -> (forall x, In x xs -> nd_ok sh x) -> (typed = true \/ forall v, via v = v) ->
  exists out, select typed via dflt conds (map operand_of xs) = Ok (sh, out) /\ length out = prod sh /\
    forall item idx, (0 < item)%Z -> inb idx sh -> get out (fresh sh item) idx = chosen dflt idx (combine conds xs).
Proof.
  intros NE HL HC HX HT. unfold select. destruct conds as [|c0 conds']; [congruence|].
  pose proof (HC c0 (or_introl eq_refl)) as (_ & _ & HS). rewrite map_length, <- HL, Nat.eqb_refl. cbn [negb].
  unfold size. rewrite HS. set (conds := c0 :: conds') in *. clearbody conds.
  exists (map (fun k => match chosen dflt (unrank sh k) (combine conds xs) with Some v => v | None => dflt end) (seq 0 (prod sh))).
  assert (HM : mapM (fun i => select_at typed via dflt i (combine conds (map operand_of xs))) (seq 0 (prod sh)) =
               Ok (map (fun k => match chosen dflt (unrank sh k) (combine conds xs) with Some v => v | None => dflt end) (seq 0 (prod sh)))).
  { apply mapM_list, Forall2_of_nth; [rewrite map_length; reflexivity|]. intros k x y Hx Hy.
    rewrite nth_error_seq in Hx. rewrite nth_error_map', nth_error_seq in Hy. destruct (Nat.ltb_spec k (prod sh)) as [Hk|]; [|discriminate].
    injection Hx as <-. injection Hy as <-. cbn [Nat.add].
    destruct (select_at_spec typed via dflt sh k Hk conds xs HL HC HX HT) as (v & E1 & E2). rewrite E1, E2. reflexivity. }
  rewrite HM. cbn [bind]. split; [reflexivity|]. split; [rewrite map_length, seq_length; reflexivity|].
  intros item idx HI Hi. rewrite fresh_get by exact HI. pose proof (rank_lt _ _ Hi) as HR.
  rewrite nth_error_map', nth_error_seq. destruct (Nat.ltb_spec (rank sh idx) (prod sh)); [|lia]. cbn [option_map Nat.add].
  destruct (select_at_spec typed via dflt sh (rank sh idx) HR conds xs HL HC HX HT) as (v & _ & E2).
  rewrite (unrank_rank sh idx Hi) in *. rewrite E2. reflexivity.
Qed.

Lemma chosen_first {V} (dflt : V) idx : forall conds xs p, length conds = length xs ->
  first_true (map (fun c => cond_at c idx) conds) p ->
  exists x, nth_error xs p = Some x /\ chosen dflt idx (combine conds xs) = get (fst x) (snd x) idx.
Proof.
  induction conds as [|c conds IH]; intros [|x xs] p HL [H1 H2]; try discriminate; [destruct p; discriminate|].
  cbn [map combine chosen] in *. destruct p as [|p]; cbn [nth_error] in *.
  - injection H1 as ->. eauto.
  - pose proof (H2 0 ltac:(lia)) as H0. injection H0 as ->. apply IH; [simpl in HL; lia|]. split; [exact H1|].
    intros q Hq. apply (H2 (S q)). lia.
Qed.
Lemma chosen_none {V} (dflt : V) idx : forall conds xs, (forall c, In c conds -> cond_at c idx = false) ->
  chosen dflt idx (combine conds xs) = Some dflt.
Proof.
  induction conds as [|c conds IH]; intros [|x xs] H; try reflexivity. cbn [combine chosen]. rewrite (H c (or_introl eq_refl)).
  apply IH. intros; apply H; right; assumption.
Qed.

(* ---------- piecewise ---------- *)
(* the function of the first true condition at an index *)
Fixpoint piece {V} (idx : list nat) (l : list ((list Z * arr) * (V -> V))) : option (V -> V) :=
  match l with
  | [] => None
  | (c, f) :: l' => if cond_at c idx then Some f else piece idx l'
  end.
Lemma piece_app {V} idx (l l' : list ((list Z * arr) * (V -> V))) :
  piece idx (l ++ l') = match piece idx l with Some f => Some f | None => piece idx l' end.
Proof. induction l as [|[c f] l IH]; cbn [app piece]; [reflexivity|]. destruct (cond_at c idx); [reflexivity|exact IH]. Qed.

Section Piece.
Context {V : Type}.
Variables (zero : V) (buf : list V) (a : arr) (sh : list nat).
Hypothesis HA : nd_ok sh (buf, a).
Definition value_at (k : nat) : V := match get buf a (unrank sh k) with Some v => v | None => zero end.
(* the state after the conditions [pre] *)
Definition piece_inv (pre : list ((list Z * arr) * (V -> V))) (st : list V * list bool) : Prop :=
  length (fst st) = prod sh /\ length (snd st) = prod sh /\
  forall k, k < prod sh ->
    nth_error (snd st) k = Some (match piece (unrank sh k) pre with Some _ => true | None => false end) /\
    nth_error (fst st) k = Some (match piece (unrank sh k) pre with Some f => f (value_at k) | None => zero end).

Lemma value_read k : k < prod sh -> exists o, nth_error (iter_offsets a) k = Some o /\ read buf a o = Ok (value_at k).
Proof.
  intros Hk. destruct (nd_read sh (buf, a) k HA Hk) as (o & v & Ho & HR & HG). cbn [fst snd] in *. exists o. split; [exact Ho|].
  unfold value_at. rewrite HG. exact HR.
Qed.

Lemma nth_error_upd' {A} (l : list A) i j x : i < length l -> nth_error (upd l i x) j = if j =? i then Some x else nth_error l j.
Proof.
  intros H. destruct (Nat.eqb_spec j i) as [->|HN]; [apply nth_error_upd_eq; exact H|apply nth_error_upd_neq; congruence].
Qed.

(* one pass over the elements *)
Lemma piece_pass pre c f : cond_ok sh c -> forall len st s0, piece_inv pre s0 ->
  st + len <= prod sh ->
  forall s, length (fst s) = prod sh -> length (snd s) = prod sh ->
  (forall k, k < prod sh -> (k < st -> nth_error (snd s) k = Some (match piece (unrank sh k) (pre ++ [(c, f)]) with Some _ => true | None => false end) /\
       nth_error (fst s) k = Some (match piece (unrank sh k) (pre ++ [(c, f)]) with Some g => g (value_at k) | None => zero end)) /\
     (st <= k -> nth_error (snd s) k = nth_error (snd s0) k /\ nth_error (fst s) k = nth_error (fst s0) k)) ->
  exists s', foldM (piece_step (fst c) (snd c) f buf a) (seq st len) s = Ok s' /\
    length (fst s') = prod sh /\ length (snd s') = prod sh /\
    (forall k, k < prod sh -> (k < st + len -> nth_error (snd s') k = Some (match piece (unrank sh k) (pre ++ [(c, f)]) with Some _ => true | None => false end) /\
       nth_error (fst s') k = Some (match piece (unrank sh k) (pre ++ [(c, f)]) with Some g => g (value_at k) | None => zero end)) /\
     (st + len <= k -> nth_error (snd s') k = nth_error (snd s0) k /\ nth_error (fst s') k = nth_error (fst s0) k)).
Proof.
  intros HC. induction len as [|len IH]; intros st s0 HI HL s L1 L2 HK; cbn [seq foldM].
  - exists s. rewrite Nat.add_0_r. auto.
  - assert (Hst : st < prod sh) by lia. destruct HI as (I1 & I2 & I3). destruct (I3 st Hst) as [IA IB].
    destruct (HK st Hst) as [_ HK']. destruct (HK' (le_n _)) as [KA KB].
    destruct (cond_read sh c st HC Hst) as (o & b & Ho & Hb & Hcond). destruct (value_read st Hst) as (o' & Ho' & HR).
    assert (STEP : exists s1, piece_step (fst c) (snd c) f buf a s st = Ok s1 /\ length (fst s1) = prod sh /\ length (snd s1) = prod sh /\
      (forall k, k < prod sh -> k <> st -> nth_error (snd s1) k = nth_error (snd s) k /\ nth_error (fst s1) k = nth_error (fst s) k) /\
      nth_error (snd s1) st = Some (match piece (unrank sh st) (pre ++ [(c, f)]) with Some _ => true | None => false end) /\
      nth_error (fst s1) st = Some (match piece (unrank sh st) (pre ++ [(c, f)]) with Some g => g (value_at st) | None => zero end)).
    { destruct s as [out asg]. cbn [fst snd] in *. unfold piece_step. unfold at_ at 1. rewrite KA, IA. cbn [bind]. rewrite !piece_app. cbn [piece].
      destruct (piece (unrank sh st) pre) as [g|] eqn:EP.
      - exists (out, asg). cbn [fst snd]. split; [reflexivity|]. split; [exact L1|]. split; [exact L2|]. split; [auto|]. split; congruence.
      - unfold at_ at 1. rewrite Ho. cbn [bind]. rewrite Hb. cbn [bind]. rewrite Hcond. unfold truth. destruct (b =? 0)%Z; cbn [negb].
        + exists (out, asg). cbn [fst snd]. split; [reflexivity|]. split; [exact L1|]. split; [exact L2|]. split; [auto|]. split; congruence.
        + unfold at_. rewrite Ho'. cbn [bind]. rewrite HR. cbn [bind]. eexists. split; [reflexivity|]. cbn [fst snd].
          rewrite !upd_length. split; [exact L1|]. split; [exact L2|]. split.
          * intros k Hk Hne. rewrite !nth_error_upd' by lia. destruct (Nat.eqb_spec k st); [congruence|auto].
          * rewrite !nth_error_upd' by lia. rewrite Nat.eqb_refl. auto. }
    destruct STEP as (s1 & E1 & L1' & L2' & HO & HA1 & HB1). rewrite E1. cbn [bind].
    destruct (IH (S st) s0 (conj I1 (conj I2 I3)) ltac:(lia) s1 L1' L2') as (s' & E' & P1 & P2 & P3).
    { intros k Hk. split.
      - intros Hlt. destruct (Nat.eq_dec k st) as [->|Hne]; [auto|]. destruct (HO k Hk Hne) as [-> ->]. apply (proj1 (HK k Hk)). lia.
      - intros Hge. destruct (HO k Hk ltac:(lia)) as [-> ->]. apply (proj2 (HK k Hk)). lia. }
    exists s'. rewrite <- Nat.add_succ_comm in *. auto.
Qed.

Lemma piece_loop : forall l pre s, (forall p, In p l -> cond_ok sh (fst p)) -> piece_inv pre s ->
  exists s', foldM (fun st p => foldM (piece_step (fst (fst p)) (snd (fst p)) (snd p) buf a) (seq 0 (prod sh)) st) l s = Ok s' /\ piece_inv (pre ++ l) s'.
Proof.
  induction l as [|[c f] l IH]; intros pre s HC HI; cbn [foldM].
  - exists s. rewrite app_nil_r. auto.
  - cbn [fst snd]. pose proof HI as (I1 & I2 & _).
    destruct (piece_pass pre c f (HC _ (or_introl eq_refl)) (prod sh) 0 s HI (le_n _) s I1 I2) as (s1 & E1 & P1 & P2 & P3).
    { intros k Hk. split; [lia|auto]. }
    rewrite E1. cbn [bind]. destruct (IH (pre ++ [(c, f)]) s1) as (s' & E' & P').
    + intros p Hp. apply HC. right. exact Hp.
    + split; [exact P1|]. split; [exact P2|]. intros k Hk. apply (proj1 (P3 k Hk)). lia.
    + exists s'. split; [exact E'|]. rewrite <- app_assoc in P'. exact P'.
Qed.

Lemma default_loop f asg : length asg = prod sh -> forall len st out0 out, st + len <= prod sh -> length out = prod sh ->
  (forall k, k < prod sh -> st <= k -> nth_error out k = nth_error out0 k) ->
  exists out', foldM (default_step f buf a asg) (seq st len) out = Ok out' /\ length out' = prod sh /\
    (forall k, k < prod sh -> (k < st -> nth_error out' k = nth_error out k) /\
       (st <= k < st + len -> nth_error out' k = if nth k asg false then nth_error out0 k else Some (f (value_at k))) /\
       (st + len <= k -> nth_error out' k = nth_error out0 k)).
Proof.
  intros LA. induction len as [|len IH]; intros st out0 out HL LO HK; cbn [seq foldM].
  - exists out. split; [reflexivity|]. split; [exact LO|]. intros k Hk. split; [auto|]. split; [lia|]. intros; apply HK; lia.
  - unfold default_step at 1. unfold at_ at 1. rewrite (nth_error_nth' asg false) by lia. cbn [bind].
    destruct (value_read st ltac:(lia)) as (o & Ho & HR).
    destruct (nth st asg false) eqn:EA.
    + destruct (IH (S st) out0 out ltac:(lia) LO) as (out' & E & L & H); [intros; apply HK; lia|].
      exists out'. split; [exact E|]. split; [exact L|]. intros k Hk. destruct (H k Hk) as (H1 & H2 & H3).
      split; [intros; apply H1; lia|]. split; [|intros; apply H3; lia]. intros HS. destruct (Nat.eq_dec k st) as [->|].
      * rewrite EA, H1 by lia. apply HK; lia.
      * apply H2. lia.
    + unfold at_. rewrite Ho. cbn [bind]. rewrite HR. cbn [bind].
      destruct (IH (S st) out0 (upd out st (f (value_at st))) ltac:(lia)) as (out' & E & L & H).
      { rewrite upd_length. exact LO. }
      { intros k Hk Hge. rewrite nth_error_upd' by lia. destruct (Nat.eqb_spec k st); [lia|]. apply HK; lia. }
      exists out'. split; [exact E|]. split; [exact L|]. intros k Hk. destruct (H k Hk) as (H1 & H2 & H3).
      split; [intros; rewrite H1 by lia; rewrite nth_error_upd' by lia; destruct (Nat.eqb_spec k st); [lia|reflexivity]|].
      split; [|intros; apply H3; lia]. intros HS. destruct (Nat.eq_dec k st) as [->|].
      * rewrite EA, H1 by lia. rewrite nth_error_upd' by lia. rewrite Nat.eqb_refl. reflexivity.
      * apply H2. lia.
Qed.

Lemma piecewise_spec conds funs dflt : conds <> [] -> (forall c, In c conds -> cond_ok sh c) -> length funs = length conds ->
  exists out, piecewise zero buf a conds (funs ++ match dflt with Some f => [f] | None => [] end) = Ok (sh, out) /\ length out = prod sh /\
    forall k, k < prod sh -> nth_error out k = Some
      (match piece (unrank sh k) (combine conds funs) with
       | Some f => f (value_at k)
       | None => match dflt with Some f => f (value_at k) | None => zero end
       end).
Proof.
  intros NE HC HL. unfold piecewise. destruct conds as [|c0 conds']; [congruence|]. set (conds := c0 :: conds') in *. clearbody conds.
  pose proof HA as [W HS]. cbn [fst snd] in *.
  assert (HD : (length (funs ++ match dflt with Some f => [f] | None => [] end) =? length conds + 1) = match dflt with Some _ => true | None => false end).
  { rewrite app_length, HL. destruct dflt; cbn [length]; [apply Nat.eqb_refl|]. apply Nat.eqb_neq. lia. }
  assert (HE : (length (funs ++ match dflt with Some f => [f] | None => [] end) =? length conds) = match dflt with Some _ => false | None => true end).
  { rewrite app_length, HL. destruct dflt; cbn [length]; [apply Nat.eqb_neq; lia|]. apply Nat.eqb_eq. lia. }
  rewrite HD, HE.
  assert (HG : negb (match dflt with Some _ => true | None => false end) && negb (match dflt with Some _ => false | None => true end) = false) by (destruct dflt; reflexivity).
  rewrite HG. clear HG.
  assert (HCM : forall extra, combine conds (funs ++ extra) = combine conds funs).
  { intros extra. clear - HL. revert funs HL. induction conds as [|c conds IH]; intros [|f funs] HL; try discriminate; cbn [combine app]; [reflexivity|].
    rewrite IH by (simpl in HL; lia). reflexivity. }
  rewrite HCM. unfold size. rewrite HS.
  destruct (piece_loop (combine conds funs) [] (repeat zero (prod sh), repeat false (prod sh))) as (st & ES & L1 & L2 & HI).
  { intros [c f] Hp. apply in_combine_l in Hp. apply HC. exact Hp. }
  { split; [apply repeat_length|]. split; [apply repeat_length|]. intros k Hk. cbn [piece fst snd]. split; apply nth_error_repeat; exact Hk. }
  rewrite ES. cbn [bind]. cbn [app] in HI. destruct dflt as [f|].
  - unfold at_ at 1. rewrite nth_error_app2 by lia. rewrite HL, Nat.sub_diag. cbn [nth_error bind].
    destruct (default_loop f (snd st) L2 (prod sh) 0 (fst st) (fst st) (le_n _) L1) as (out & EO & LO & HO); [auto|].
    rewrite EO. cbn [bind]. exists out. split; [reflexivity|]. split; [exact LO|]. intros k Hk. destruct (HI k Hk) as [HI1 HI2].
    destruct (HO k Hk) as (_ & HO2 & _). rewrite HO2 by lia. rewrite (nth_error_nth _ _ false HI1).
    destruct (piece (unrank sh k) (combine conds funs)); [exact HI2|reflexivity].
  - cbn [bind]. exists (fst st). split; [reflexivity|]. split; [exact L1|]. intros k Hk. apply (HI k Hk).
Qed.
End Piece.
