(* Lemmas about Man_Model: scattering writes, concatenate, stack, split. *)
From Verif Require Import Base Lists Arr_Spec Arr_Model Arr_Wf Arr_Proofs Copy_Model Copy_Proofs Idx_Model
  Elem_Model Elem_Proofs Red_Spec Red_Model Red_Proofs Red_Scan Sort_Lanes Man_Spec Man_Model.
Local Open Scope nat_scope.

(* ---- writes at distinct index tuples ---- *)
Lemma scatter {X V} sh (L : list X) (f : X -> list nat) (v : X -> V) out0 :
  length out0 = prod sh -> (forall x, In x L -> inb (f x) sh) ->
  (forall x y, In x L -> In y L -> f x = f y -> v x = v y) ->
  exists out, write_all (map (fun x => (flat_idx (f x) sh, v x)) L) out0 = Ok out /\ length out = prod sh /\
    (forall x, In x L -> nth_error out (rank sh (f x)) = Some (v x)) /\
    (forall idx, inb idx sh -> (forall x, In x L -> f x <> idx) ->
       nth_error out (rank sh idx) = nth_error out0 (rank sh idx)).
Proof.
  intros HL HI HF.
  assert (HFI : forall x, In x L -> flat_idx (f x) sh = rank sh (f x)).
  { intros x Hx. apply flat_idx_spec, inb_length, HI, Hx. }
  destruct (write_all_spec (map (fun x => (flat_idx (f x) sh, v x)) L) out0) as (out & E & Len & HN).
  { intros p w Hin. apply in_map_iff in Hin as (x & Ex & Hx). injection Ex as <- <-.
    rewrite HFI, HL by exact Hx. apply rank_lt, HI, Hx. }
  exists out. split; [exact E|]. split; [congruence|]. split.
  - intros x Hx. apply (HN (rank sh (f x))).
    + apply in_map_iff. exists x. rewrite HFI by exact Hx. split; [reflexivity|exact Hx].
    + intros w Hin. apply in_map_iff in Hin as (y & Ey & Hy). injection Ey as Ep Ew.
      rewrite HFI in Ep by exact Hy. rewrite <- Ew. apply HF; [exact Hy|exact Hx|].
      rewrite <- (unrank_rank sh (f y)), <- (unrank_rank sh (f x)) by auto. congruence.
  - intros idx Hi Hne. apply (HN (rank sh idx)). intros w Hin.
    apply in_map_iff in Hin as (y & Ey & Hy). injection Ey as Ep _. rewrite HFI in Ep by exact Hy.
    apply (Hne y Hy). rewrite <- (unrank_rank sh (f y)), <- (unrank_rank sh idx) by auto. congruence.
Qed.

(* every index written once, in row-major order *)
Lemma scatter_all {V} sh (F : list nat -> res V) (v : list nat -> V) out0 item : (0 < item)%Z ->
  length out0 = prod sh -> (forall idx, inb idx sh -> F idx = Ok (v idx)) ->
  exists ws out, mapM (fun di => bind (F di) (fun x => Ok (flat_idx di sh, x)))
                      (odometer (prod sh) (repeat 0 (length sh)) sh) = Ok ws /\
    write_all ws out0 = Ok out /\ length out = prod sh /\
    forall idx, inb idx sh -> get out (fresh sh item) idx = Some (v idx).
Proof.
  intros HI HL HF. rewrite odometer_all.
  exists (map (fun di => (flat_idx di sh, v di)) (all_idx sh)).
  destruct (scatter sh (all_idx sh) (fun di => di) v out0 HL) as (out & E & Len & HN & _).
  { intros x Hx. apply in_all_idx, Hx. } { intros x y _ _ ->. reflexivity. }
  exists out. split; [|split; [exact E|split; [exact Len|]]].
  - apply mapM_ok. intros x Hx. apply in_all_idx in Hx. rewrite (HF x Hx). reflexivity.
  - intros idx Hi. rewrite fresh_get by exact HI. apply HN, in_all_idx, Hi.
Qed.

Lemma nth_inb sh idx axis n : inb idx sh -> nth_error sh axis = Some n -> nth axis idx 0 < n.
Proof.
  intros H Hn. assert (Hl : axis < length idx).
  { rewrite (inb_length _ _ H). apply nth_error_Some. congruence. }
  destruct (nth_error idx axis) as [i|] eqn:E; [|apply nth_error_None in E; lia].
  rewrite (nth_error_nth _ _ _ E). eapply inb_nth; eassumption.
Qed.

Lemma upd_insert_at {A} axis (j j' : A) oi : axis <= length oi ->
  upd (insert_at axis j oi) axis j' = insert_at axis j' oi.
Proof.
  revert axis; induction oi as [|x oi IH]; intros [|axis] H; cbn in *; try reflexivity; try lia.
  rewrite IH by lia. reflexivity.
Qed.

Lemma upd_inj_idx axis (i j i' j' : nat) (si si' : list nat) :
  axis < length si -> length si = length si' -> upd si axis j = upd si' axis j' ->
  j = j' /\ remove_at axis si = remove_at axis si'.
Proof.
  revert axis si'; induction si as [|x si IH]; intros axis si' H HL E; cbn in H; [lia|].
  destruct si' as [|x' si']; cbn in HL; [lia|]. destruct axis as [|axis]; cbn in E |- *.
  - injection E as -> ->. auto.
  - injection E as -> E. destruct (IH axis si') as [-> ->]; [lia|lia|exact E|]. auto.
Qed.

(* ---- concatenate ---- *)
Section Concat.
Context {V : Type}.
Variable zero : V.

Definition o_get (o : @operand V) (idx : list nat) : option V :=
  o_read o (a_off (o_arr o) + byte_offset_for (o_arr o) idx)%Z.
Definition op_ok (o : @operand V) : Prop :=
  forall idx, inb idx (a_shape (o_arr o)) -> exists v, o_get o idx = Some v.
Definition o_lane (axis : nat) (oi : list nat) (o : @operand V) : list (option V) :=
  map (fun j => o_get o (insert_at axis j oi)) (seq 0 (nth axis (a_shape (o_arr o)) 0)).
Definition o_val (o : @operand V) (idx : list nat) : V :=
  match o_get o idx with Some v => v | None => zero end.

Definition olen (axis : nat) (o : @operand V) : nat := nth axis (a_shape (o_arr o)) 0.
Definition total (axis : nat) (l : list (@operand V)) : nat := list_sum (map (olen axis) l).

Fixpoint entries (axis : nat) (l : list (@operand V)) (off : nat) : list (nat * operand * list nat) :=
  match l with
  | [] => []
  | o :: l' => map (fun si => (off, o, si)) (all_idx (a_shape (o_arr o))) ++ entries axis l' (off + olen axis o)
  end.
Definition e_dst (axis : nat) (e : nat * @operand V * list nat) : list nat :=
  let '(off, _, si) := e in upd si axis (nth axis si 0 + off).
Definition e_val (e : nat * operand * list nat) : V := let '(_, o, si) := e in o_val o si.

Lemma concat_writes_spec out_sh axis l off : Forall op_ok l ->
  concat_writes out_sh axis l off = Ok (map (fun e => (flat_idx (e_dst axis e) out_sh, e_val e)) (entries axis l off)).
Proof.
  intros H. revert off; induction H as [|o l Ho H IH]; intros off; cbn [concat_writes entries]; [reflexivity|].
  unfold size, ndim. rewrite odometer_all.
  rewrite (mapM_ok _ (fun si => (flat_idx (upd si axis (nth axis si 0 + off)) out_sh, o_val o si))).
  - cbn [bind]. fold (olen axis o). rewrite IH. cbn [bind]. rewrite map_app, map_map. reflexivity.
  - intros si Hs. apply in_all_idx in Hs. destruct (Ho si Hs) as [v Ev].
    fold (o_get o si). rewrite Ev. cbn. unfold o_val. rewrite Ev. reflexivity.
Qed.

Lemma entries_in axis l : forall off off' o si, In (off', o, si) (entries axis l off) ->
  off <= off' /\ In o l /\ inb si (a_shape (o_arr o)) /\ off' + olen axis o <= off + total axis l.
Proof.
  induction l as [|o l IH]; intros off off' o' si H; cbn [entries] in H; [contradiction|].
  unfold total; cbn [map list_sum fold_right]. fold (list_sum (map (olen axis) l)). fold (total axis l).
  apply in_app_iff in H as [H|H].
  - apply in_map_iff in H as (s & Es & Hs). injection Es as -> -> ->. apply in_all_idx in Hs.
    split; [lia|]. split; [left; reflexivity|]. split; [exact Hs|lia].
  - apply IH in H as (H1 & H2 & H3 & H4). split; [lia|]. split; [right; exact H2|]. split; [exact H3|lia].
Qed.

Lemma entries_inj axis l : (forall o, In o l -> axis < length (a_shape (o_arr o))) ->
  (forall o o', In o l -> In o' l -> length (a_shape (o_arr o)) = length (a_shape (o_arr o'))) ->
  forall off x y, In x (entries axis l off) -> In y (entries axis l off) -> e_dst axis x = e_dst axis y -> x = y.
Proof.
  intros HA HD. induction l as [|o l IH]; intros off x y Hx Hy E; cbn [entries] in Hx, Hy; [contradiction|].
  assert (IH' := IH (fun o' H => HA o' (or_intror H)) (fun o' o'' H H' => HD o' o'' (or_intror H) (or_intror H'))).
  clear IH. destruct x as [[ox px] sx], y as [[oy py] sy]. cbn [e_dst] in E.
  assert (KX : In px (o :: l) /\ inb sx (a_shape (o_arr px))).
  { apply in_app_iff in Hx as [Hx|Hx].
    - apply in_map_iff in Hx as (s & Es & Hs). injection Es as -> -> ->. apply in_all_idx in Hs. split; [left; reflexivity|exact Hs].
    - apply entries_in in Hx as (_ & H2 & H3 & _). split; [right; exact H2|exact H3]. }
  assert (KY : In py (o :: l) /\ inb sy (a_shape (o_arr py))).
  { apply in_app_iff in Hy as [Hy|Hy].
    - apply in_map_iff in Hy as (s & Es & Hs). injection Es as -> -> ->. apply in_all_idx in Hs. split; [left; reflexivity|exact Hs].
    - apply entries_in in Hy as (_ & H2 & H3 & _). split; [right; exact H2|exact H3]. }
  destruct KX as [KX1 KX2], KY as [KY1 KY2].
  pose proof (HA _ KX1) as AX. pose proof (HA _ KY1) as AY. pose proof (HD _ _ KX1 KY1) as DXY.
  pose proof (inb_length _ _ KX2) as LX. pose proof (inb_length _ _ KY2) as LY.
  destruct (upd_inj_idx axis 0 (nth axis sx 0 + ox) 0 (nth axis sy 0 + oy) sx sy) as [E1 E2]; [lia|lia|exact E|].
  assert (BX : nth axis sx 0 < olen axis px).
  { apply (nth_inb (a_shape (o_arr px))); [exact KX2|]. unfold olen. apply nth_error_nth'. exact AX. }
  assert (BY : nth axis sy 0 < olen axis py).
  { apply (nth_inb (a_shape (o_arr py))); [exact KY2|]. unfold olen. apply nth_error_nth'. exact AY. }
  apply in_app_iff in Hx as [Hx|Hx]; apply in_app_iff in Hy as [Hy|Hy].
  - apply in_map_iff in Hx as (s & Es & Hs). injection Es as -> -> ->.
    apply in_map_iff in Hy as (s' & Es' & Hs'). injection Es' as -> -> ->.
    f_equal. rewrite <- (insert_remove_at axis (nth axis sx 0) sx), <- (insert_remove_at axis (nth axis sy 0) sy)
      by (apply nth_error_nth'; lia). f_equal; [lia|exact E2].
  - apply in_map_iff in Hx as (s & Es & Hs). injection Es as -> -> ->.
    apply entries_in in Hy as (H1 & _). lia.
  - apply in_map_iff in Hy as (s & Es & Hs). injection Es as -> -> ->.
    apply entries_in in Hx as (H1 & _). lia.
  - apply (IH' (off + olen axis o)); assumption.
Qed.

Lemma agree_from_spec axis sh sh' : forall i, length sh = length sh' ->
  agree_from i axis sh sh' = true <-> (forall d, i + d <> axis -> nth_error sh d = nth_error sh' d).
Proof.
  revert sh'; induction sh as [|x sh IH]; intros [|y sh'] i HL; cbn in HL; try lia; cbn [agree_from].
  - split; auto.
  - rewrite andb_true_iff, IH by lia. split.
    + intros [H1 H2] [|d] Hd; cbn.
      * apply orb_true_iff in H1 as [H1|H1]; [apply Nat.eqb_eq in H1; lia|apply Nat.eqb_eq in H1; congruence].
      * apply H2. lia.
    + intros H. split.
      * apply orb_true_iff. destruct (Nat.eqb_spec i axis); [left; reflexivity|right].
        apply Nat.eqb_eq. specialize (H 0). cbn in H. specialize (H ltac:(lia)). congruence.
      * intros d Hd. apply (H (S d)). lia.
Qed.

Lemma remove_at_agree axis (sh sh' : list nat) : length sh = length sh' ->
  (forall d, d <> axis -> nth_error sh d = nth_error sh' d) <-> remove_at axis sh = remove_at axis sh'.
Proof.
  intros HL. split.
  - intros H. apply nth_error_ext. intros k. rewrite !nth_error_remove_at.
    destruct (Nat.ltb_spec k axis); apply H; lia.
  - intros E d Hd. assert (H := fun k => f_equal (fun l => nth_error l k) E). cbn beta in H.
    destruct (Nat.lt_ge_cases d axis) as [Hlt|Hge].
    + specialize (H d). rewrite !nth_error_remove_at in H. destruct (Nat.ltb_spec d axis); [exact H|lia].
    + specialize (H (d - 1)). rewrite !nth_error_remove_at in H.
      destruct (Nat.ltb_spec (d - 1) axis); [lia|]. replace (S (d - 1)) with d in H by lia. exact H.
Qed.

Lemma fold_add_sum l s : fold_left Nat.add l s = s + list_sum l.
Proof. revert s; induction l as [|x l IH]; intros s; cbn; [lia|]. rewrite IH. unfold list_sum. lia. Qed.

(* the condition under which arrays can be concatenated *)
Definition fits (axis : nat) (l : list (@operand V)) (sh : list nat) : Prop :=
  axis < length sh /\
  forall o, In o l -> length (a_shape (o_arr o)) = length sh /\ remove_at axis (a_shape (o_arr o)) = remove_at axis sh.

Theorem concatenate_spec first rest axis item : (0 < item)%Z ->
  let l := first :: rest in let sh := a_shape (o_arr first) in
  Forall op_ok l ->
  (fits axis l sh ->
   exists out, concatenate zero l axis = Ok (upd sh axis (total axis l), out) /\
     length out = prod (upd sh axis (total axis l)) /\
     forall oi, inb oi (remove_at axis sh) ->
       lane out (fresh (upd sh axis (total axis l)) item) axis oi = concat (map (o_lane axis oi) l)) /\
  (~ fits axis l sh -> concatenate zero l axis = Err).
Proof.
  intros HI l sh OK. unfold concatenate, l. cbn zeta. fold sh.
  destruct (Nat.leb_spec (ndim (o_arr first)) axis) as [Hax|Hax]; unfold ndim in Hax at 1; fold sh in Hax.
  { split; [intros [H _]; lia|reflexivity]. }
  assert (HB : forallb (fun o => (ndim (o_arr o) =? ndim (o_arr first)) && agree_from 0 axis sh (a_shape (o_arr o))) rest = true
               <-> fits axis l sh).
  { rewrite forallb_forall. unfold fits, ndim. fold sh. split.
    - intros H. split; [exact Hax|]. intros o [<-|Ho]; [split; reflexivity|].
      specialize (H o Ho). apply andb_true_iff in H as [H1 H2]. apply Nat.eqb_eq in H1. split; [exact H1|].
      symmetry. apply remove_at_agree; [lia|]. intros d Hd. apply (agree_from_spec axis sh _ 0); [lia|exact H2|lia].
    - intros [_ H] o Ho. destruct (H o (or_intror Ho)) as [H1 H2]. apply andb_true_iff. split; [apply Nat.eqb_eq; exact H1|].
      apply agree_from_spec; [lia|]. intros d Hd. apply remove_at_agree with (axis := axis); [lia|congruence|lia]. }
  destruct (forallb _ rest) eqn:EB; cbn [negb]; [|split; [intros H; apply HB in H; discriminate|reflexivity]].
  split; [intros FT|intros NF; exfalso; apply NF, HB; reflexivity]. clear HB EB.
  destruct FT as [_ FT]. rewrite fold_add_sum. cbn [Nat.add].
  fold l. change (list_sum (map (fun o => nth axis (a_shape (o_arr o)) 0) l)) with (total axis l).
  set (osh := upd sh axis (total axis l)).
  assert (HOA : nth_error osh axis = Some (total axis l)) by (apply nth_error_upd_eq; exact Hax).
  assert (HR : remove_at axis osh = remove_at axis sh).
  { apply remove_at_agree; [apply upd_length|]. intros d Hd. apply nth_error_upd_neq. exact Hd. }
  assert (Lane0 : forall oi, inb oi (remove_at axis sh) -> total axis l = 0 -> concat (map (o_lane axis oi) l) = []).
  { intros oi _ HT. clear - HT. induction l as [|o l IH]; [reflexivity|]. unfold total in *. cbn [map list_sum fold_right] in HT.
    cbn [map concat]. fold (list_sum (map (olen axis) l)) in HT. rewrite IH by lia.
    unfold o_lane. fold (olen axis o). replace (olen axis o) with 0 by lia. reflexivity. }
  destruct (Nat.eqb_spec (prod osh) 0) as [HZ|HZ].
  - exists []. split; [reflexivity|]. split; [cbn; congruence|]. intros oi Hoi.
    rewrite (prod_remove_at axis osh (total axis l) HOA), HR in HZ.
    pose proof (inb_prod_pos _ _ Hoi). assert (HT : total axis l = 0) by nia.
    rewrite (Lane0 oi Hoi HT). unfold lane. cbn [fresh a_shape]. rewrite (nth_error_nth _ _ _ HOA), HT. reflexivity.
  - rewrite (concat_writes_spec osh axis l 0 OK). cbn [bind].
    assert (HDim : forall o, In o l -> axis < length (a_shape (o_arr o))).
    { intros o Ho. destruct (FT o Ho) as [-> _]. exact Hax. }
    destruct (scatter osh (entries axis l 0) (e_dst axis) e_val (repeat zero (prod osh))) as (out & E & Len & HN & _).
    { apply repeat_length. }
    { intros [[off o] si] He. apply entries_in in He as (_ & Ho & Hsi & Hb). cbn [e_dst].
      destruct (FT o Ho) as [F1 F2]. pose proof (HDim o Ho) as Hd.
      assert (Hn : nth axis si 0 < olen axis o) by (apply (nth_inb (a_shape (o_arr o))); [exact Hsi|apply nth_error_nth'; exact Hd]).
      assert (HU : osh = upd (a_shape (o_arr o)) axis (total axis l)).
      { unfold osh. apply nth_error_ext. intros d. rewrite !nth_error_upd. rewrite F1.
        destruct (Nat.eqb_spec d axis); [reflexivity|]. symmetry.
        apply remove_at_agree with (axis := axis); assumption. }
      rewrite HU. apply inb_upd; [exact Hsi|lia]. }
    { intros x y Hx Hy Exy. f_equal. apply (entries_inj axis l HDim) with (off := 0); [|assumption..].
      intros o o' Ho Ho'. destruct (FT o Ho), (FT o' Ho'). congruence. }
    rewrite E. cbn [bind]. exists out. split; [reflexivity|]. split; [exact Len|]. intros oi Hoi.
    unfold lane. cbn [fresh a_shape]. rewrite (nth_error_nth _ _ _ HOA).
    fold (fresh osh item).
    assert (G : forall off o si, In (off, o, si) (entries axis l 0) -> forall j, si = insert_at axis j oi ->
                get out (fresh osh item) (insert_at axis (j + off) oi) = o_get o (insert_at axis j oi)).
    { intros off o si He j ->. rewrite fresh_get by exact HI.
      specialize (HN _ He). cbn [e_dst e_val] in HN.
      apply entries_in in He as (_ & Ho & Hsi & _).
      assert (Hl : axis <= length oi).
      { rewrite (inb_length _ _ Hoi), remove_at_length by exact Hax. lia. }
      rewrite upd_insert_at in HN by exact Hl. destruct (insert_at_parts axis j oi Hl) as [-> _] in HN.
      rewrite HN. unfold o_val. destruct (proj1 (Forall_forall _ _) OK o Ho _ Hsi) as [v ->]. reflexivity. }
    assert (Aux : forall l' off, (forall off' o si, In (off', o, si) (entries axis l' off) -> In (off', o, si) (entries axis l 0)) ->
              (forall o, In o l' -> In o l) ->
              map (fun j => get out (fresh osh item) (insert_at axis j oi)) (seq off (total axis l')) =
              concat (map (o_lane axis oi) l')).
    { induction l' as [|o l' IH]; intros off HE HIn; [reflexivity|].
      unfold total; cbn [map list_sum fold_right concat]. fold (list_sum (map (olen axis) l')). fold (total axis l').
      rewrite seq_app, map_app. f_equal.
      - unfold o_lane. fold (olen axis o). rewrite map_seq_shift. apply map_ext_in. intros j Hj. apply in_seq in Hj.
        rewrite Nat.add_comm. apply (G off o (insert_at axis j oi)); [|reflexivity]. apply HE.
        cbn [entries]. apply in_app_iff. left. apply in_map_iff. exists (insert_at axis j oi). split; [reflexivity|].
        apply in_all_idx. apply (lane_inb _ axis oi j (olen axis o)).
        + apply nth_error_nth', HDim, HIn. left; reflexivity.
        + destruct (FT o (HIn o (or_introl eq_refl))) as [_ ->]. exact Hoi.
        + lia.
      - apply IH.
        + intros off' o' si H. apply HE. cbn [entries]. apply in_app_iff. right. exact H.
        + intros o' H. apply HIn. right. exact H. }
    apply (Aux l 0); auto.
Qed.
End Concat.

(* ---- operands of the result's own dtype ---- *)
Lemma operand_ok {V} (x : @nd V) : wf (fst x) (snd x) -> op_ok (operand_of x).
Proof. intros W idx Hi. exact (wf_get (fst x) (snd x) idx W Hi). Qed.
Lemma operand_lane {V} (x : @nd V) axis oi : o_lane axis oi (operand_of x) = lane (fst x) (snd x) axis oi.
Proof. reflexivity. Qed.

Definition axis_len {V} (axis : nat) (x : @nd V) : nat := nth axis (a_shape (snd x)) 0.

(* concatenate for a list of well-formed arrays of one dtype *)
Lemma concat_nd_spec {V} (zero : V) (l : list nd) x0 axis : nth_error l 0 = Some x0 ->
  (forall x, In x l -> wf (fst x) (snd x)) ->
  let sh := a_shape (snd x0) in
  let osh := upd sh axis (list_sum (map (axis_len axis) l)) in
  (axis < length sh /\ (forall x, In x l -> length (a_shape (snd x)) = length sh /\
                        remove_at axis (a_shape (snd x)) = remove_at axis sh) ->
   exists out, concat_nd zero l axis = Ok (osh, out) /\ length out = prod osh /\
     forall item oi, (0 < item)%Z -> inb oi (remove_at axis sh) ->
       lane out (fresh osh item) axis oi = concat (map (fun x => lane (fst x) (snd x) axis oi) l)) /\
  (~ (axis < length sh /\ (forall x, In x l -> length (a_shape (snd x)) = length sh /\
                        remove_at axis (a_shape (snd x)) = remove_at axis sh)) ->
   concat_nd zero l axis = Err).
Proof.
  intros E0 W sh osh. destruct l as [|y l]; [discriminate|]. injection E0 as ->.
  unfold concat_nd. cbn [map].
  assert (OK : Forall op_ok (operand_of x0 :: map operand_of l)).
  { apply (proj2 (Forall_forall _ (map operand_of (x0 :: l)))). intros o Ho. apply in_map_iff in Ho as (x & <- & Hx).
    apply operand_ok, W, Hx. }
  assert (HT : total axis (operand_of x0 :: map operand_of l) = list_sum (map (axis_len axis) (x0 :: l))).
  { unfold total. change (operand_of x0 :: map operand_of l) with (map operand_of (x0 :: l)). rewrite map_map. reflexivity. }
  assert (HF : fits axis (operand_of x0 :: map operand_of l) sh <->
    axis < length sh /\ (forall x, In x (x0 :: l) -> length (a_shape (snd x)) = length sh /\
                        remove_at axis (a_shape (snd x)) = remove_at axis sh)).
  { unfold fits. change (operand_of x0 :: map operand_of l) with (map operand_of (x0 :: l)). split; intros [H1 H2]; (split; [exact H1|]).
    - intros x Hx. apply (H2 (operand_of x)). apply in_map, Hx.
    - intros o Ho. apply in_map_iff in Ho as (x & <- & Hx). apply H2, Hx. }
  destruct (concatenate_spec zero (operand_of x0) (map operand_of l) axis 1 eq_refl OK) as [S1 S2].
  cbn [o_arr operand_of] in S1, S2. fold sh in S1, S2. rewrite HT in S1. fold osh in S1. rewrite HF in S1, S2.
  split; [|exact S2]. intros H. destruct (S1 H) as (out & E & Len & _). exists out. split; [exact E|]. split; [exact Len|].
  intros item oi HI Hoi. destruct (concatenate_spec zero (operand_of x0) (map operand_of l) axis item HI OK) as [T1 _].
  cbn [o_arr operand_of] in T1. fold sh in T1. rewrite HT in T1. fold osh in T1. rewrite HF in T1.
  destruct (T1 H) as (out' & E' & _ & HN). assert (out' = out) as -> by congruence.
  rewrite (HN oi Hoi). change (operand_of x0 :: map operand_of l) with (map operand_of (x0 :: l)). rewrite map_map. reflexivity.
Qed.

(* ---- stack ---- *)
Lemma concat_singletons {A B} (f : A -> B) l : concat (map (fun x => [f x]) l) = map f l.
Proof. induction l as [|x l IH]; [reflexivity|]. cbn. rewrite IH. reflexivity. Qed.

Lemma stack_spec {V} (zero : V) (l : list nd) x0 axis : nth_error l 0 = Some x0 ->
  (forall x, In x l -> wf (fst x) (snd x)) ->
  let sh := a_shape (snd x0) in
  (axis <= length sh -> (forall x, In x l -> a_shape (snd x) = sh) ->
   exists out, stack zero (map operand_of l) axis = Ok (insert_at axis (length l) sh, out) /\
     length out = length l * prod sh /\
     forall item idx, (0 < item)%Z -> inb idx sh ->
       lane out (fresh (insert_at axis (length l) sh) item) axis idx = map (fun x => get (fst x) (snd x) idx) l) /\
  (~ (axis <= length sh /\ (forall x, In x l -> a_shape (snd x) = sh)) -> stack zero (map operand_of l) axis = Err).
Proof.
  intros E0 W sh. destruct l as [|y l]; [discriminate|]. injection E0 as ->.
  unfold stack. cbn [map o_arr operand_of]. unfold ndim. fold sh.
  assert (HB : forallb (fun o : @operand V => if list_eq_dec Nat.eq_dec (a_shape (o_arr o)) sh then true else false)
                       (map operand_of l) = true <-> (forall x, In x (x0 :: l) -> a_shape (snd x) = sh)).
  { rewrite forallb_forall. split.
    - intros H x [<-|Hx]; [reflexivity|]. specialize (H (operand_of x) (in_map _ _ _ Hx)). cbn [o_arr operand_of] in H.
      destruct (list_eq_dec Nat.eq_dec (a_shape (snd x)) sh); [assumption|discriminate].
    - intros H o Ho. apply in_map_iff in Ho as (x & <- & Hx). cbn [o_arr operand_of].
      destruct (list_eq_dec Nat.eq_dec (a_shape (snd x)) sh) as [|N]; [reflexivity|]. exfalso. apply N, H. right; exact Hx. }
  destruct (Nat.ltb_spec (length sh) axis) as [Ha|Ha]; [split; [lia|reflexivity]|].
  destruct (forallb _ (map operand_of l)) eqn:EB; cbn [negb].
  2:{ split; [intros _ H; apply HB in H; discriminate|reflexivity]. }
  split; [intros _ HS|intros N; exfalso; apply N; split; [exact Ha|apply HB; reflexivity]]. clear HB EB.
  assert (HX : exists g, forall x, In x (x0 :: l) -> expand_dims (snd x) axis = Ok (g x) /\ a_item (g x) = a_item (snd x) /\
             is_view (fst x) (snd x) (g x) (insert_at axis 1 sh) (remove_at axis)).
  { exists (fun x => match expand_dims (snd x) axis with Ok a => a | _ => snd x end).
    intros x Hx. destruct (expand_dims_is_view (fst x) (snd x) axis (W x Hx)) as [H _].
    unfold ndim in H. rewrite (HS x Hx) in H. destruct (H Ha) as (a' & E & IV). rewrite E. split; [reflexivity|].
    split; [|exact IV]. unfold expand_dims in E. destruct (_ <? axis); [discriminate|]. injection E as <-. reflexivity. }
  destruct HX as [g HG].
  change (operand_of x0 :: map operand_of l) with (map operand_of (x0 :: l)).
  change (mkOp (snd x0) (load (fst x0) (a_item (snd x0))) :: map operand_of l) with (map operand_of (x0 :: l)).
  rewrite mapM_map. rewrite (mapM_ok _ (fun x => operand_of (fst x, g x))).
  2:{ intros x Hx. destruct (HG x Hx) as (E & I & _). cbn [operand_of o_arr o_read]. rewrite E. cbn [bind].
      unfold operand_of. cbn [fst snd]. rewrite I. reflexivity. }
  cbn [bind]. rewrite <- (map_map (fun x => (fst x, g x)) operand_of).
  set (l' := map (fun x => (fst x, g x)) (x0 :: l)).
  destruct (concat_nd_spec zero l' (fst x0, g x0) axis) as [S1 _].
  { reflexivity. }
  { intros x Hx. apply in_map_iff in Hx as (z & <- & Hz). destruct (HG z Hz) as (_ & _ & _ & Wz & _). exact Wz. }
  cbn [snd] in S1. destruct (HG x0 (or_introl eq_refl)) as (_ & _ & SH0 & _). rewrite SH0 in S1.
  assert (HLs : list_sum (map (axis_len axis) l') = length (x0 :: l)).
  { assert (A : forall m, (forall x, In x m -> In x (x0 :: l)) -> list_sum (map (axis_len axis) (map (fun x => (fst x, g x)) m)) = length m).
    { induction m as [|z m IH]; intros Hm; [reflexivity|]. cbn [map list_sum fold_right length].
      fold (list_sum (map (axis_len axis) (map (fun x => (fst x, g x)) m))). rewrite IH by (intros; apply Hm; right; assumption).
      unfold axis_len. cbn [snd]. destruct (HG z (Hm z (or_introl eq_refl))) as (_ & _ & -> & _).
      erewrite nth_error_nth; [|rewrite nth_error_insert_at by exact Ha; destruct (Nat.ltb_spec axis axis); [lia|]; rewrite Nat.eqb_refl; reflexivity]. lia. }
    apply A. auto. }
  rewrite HLs in S1. rewrite upd_insert_at in S1 by exact Ha.
  destruct S1 as (out & E & Len & HN).
  { split; [rewrite insert_at_length; lia|]. intros x Hx. apply in_map_iff in Hx as (z & <- & Hz). cbn [snd].
    destruct (HG z Hz) as (_ & _ & -> & _). auto. }
  exists out. split; [exact E|]. split.
  { rewrite Len. erewrite (prod_remove_at axis).
    2:{ rewrite nth_error_insert_at by exact Ha. destruct (Nat.ltb_spec axis axis); [lia|]. rewrite Nat.eqb_refl. reflexivity. }
    rewrite remove_insert_at by exact Ha. reflexivity. }
  intros item idx HI Hi. rewrite (HN item idx HI) by (rewrite remove_insert_at by exact Ha; exact Hi).
  unfold l'. rewrite map_map. cbn [fst snd].
  etransitivity; [|exact (concat_singletons (fun x : @nd V => get (fst x) (snd x) idx) (x0 :: l))].
  apply (f_equal (@concat _)). apply map_ext_in. intros x Hx.
  destruct (HG x Hx) as (_ & _ & SX & _ & GX). unfold lane. rewrite SX.
  erewrite nth_error_nth; [|rewrite nth_error_insert_at by exact Ha; destruct (Nat.ltb_spec axis axis); [lia|]; rewrite Nat.eqb_refl; reflexivity].
  cbn [seq map]. f_equal. destruct (GX (insert_at axis 0 idx)) as [_ ->]; [apply inb_insert_at; [exact Hi|lia]|].
  rewrite remove_insert_at; [reflexivity|]. rewrite (inb_length _ _ Hi). exact Ha.
Qed.

(* ---- split ---- *)
Lemma slice_axis_piece {V} (buf : list V) a axis n stride start s : wf buf a ->
  nth_error (a_shape a) axis = Some n -> nth_error (a_strides a) axis = Some stride ->
  (0 <= stride)%Z \/ start = 0 -> start + s <= n ->
  exists p, slice_axis a axis (Z.of_nat start) (Z.of_nat start + Z.of_nat s) 1 = Ok p /\
    wf buf p /\ a_shape p = upd (a_shape a) axis s /\ a_item p = a_item a /\
    nth_error (a_strides p) axis = Some stride /\
    forall oi, inb oi (remove_at axis (a_shape a)) ->
      lane buf p axis oi = map (fun j => get buf a (insert_at axis j oi)) (seq start s).
Proof.
  intros W Hn Hst HP Hs.
  destruct (slice_axis_is_view buf a axis (Z.of_nat start) (Z.of_nat start + Z.of_nat s) 1 n stride W Hn Hst) as (p & m & E & Hm & SP & WP & GP).
  { left. lia. } { destruct HP as [HP|HP]; [left; exact HP|right; lia]. }
  assert (m = s).
  { assert (H1 : m <= s).
    { destruct (Nat.le_gt_cases m s) as [|Hgt]; [assumption|]. specialize (proj1 (Hm s) Hgt). unfold in_slice. lia. }
    assert (H2 : s <= m).
    { destruct (Nat.le_gt_cases s m) as [|Hgt]; [assumption|]. exfalso.
      assert (m < m); [|lia]. apply (Hm m). unfold in_slice. left. lia. }
    lia. }
  subst m. exists p. split; [exact E|]. split; [exact WP|]. split; [exact SP|].
  assert (Hax : axis < length (a_shape a)) by (apply nth_error_Some; congruence).
  pose proof W as (_ & _ & _ & HLs & _).
  split; [|split].
  - unfold slice_axis in E. rewrite Hst, Hn in E. destruct (slice_len _ _ 1); cbn in E; try discriminate. injection E as <-. reflexivity.
  - unfold slice_axis in E. rewrite Hst, Hn in E. destruct (slice_len _ _ 1); cbn in E; try discriminate. injection E as <-.
    cbn [view_with a_strides]. rewrite nth_error_upd_eq by lia. f_equal. lia.
  - intros oi Hoi. unfold lane. rewrite SP. erewrite nth_error_nth by (apply nth_error_upd_eq; exact Hax).
    symmetry. rewrite map_seq_shift. apply map_ext_in. intros j Hj. apply in_seq in Hj.
    assert (Hl : axis <= length oi).
    { rewrite (inb_length _ _ Hoi), remove_at_length by exact Hax. lia. }
    destruct (GP (insert_at axis j oi)) as [_ ->].
    { apply lane_inb with (n := s); [apply nth_error_upd_eq; exact Hax| |lia].
      replace (remove_at axis (upd (a_shape a) axis s)) with (remove_at axis (a_shape a)); [exact Hoi|].
      apply remove_at_agree; [symmetry; apply upd_length|]. intros d Hd. symmetry. apply nth_error_upd_neq. exact Hd. }
    unfold slice_idx. rewrite upd_insert_at by exact Hl. f_equal. f_equal.
    destruct (insert_at_parts axis j oi Hl) as [-> _]. lia.
Qed.

Definition piece_of {V} (buf : list V) (a : arr) (axis start s : nat) (p : arr) : Prop :=
  wf buf p /\ a_shape p = upd (a_shape a) axis s /\ a_item p = a_item a /\
  forall oi, inb oi (remove_at axis (a_shape a)) ->
    lane buf p axis oi = map (fun j => get buf a (insert_at axis j oi)) (seq start s).

Lemma split_into_sizes_spec {V} (buf : list V) a axis n stride : wf buf a ->
  nth_error (a_shape a) axis = Some n -> nth_error (a_strides a) axis = Some stride -> (0 <= stride)%Z ->
  forall sizes start, start + list_sum sizes <= n ->
  exists ps, split_into_sizes a axis (Z.of_nat start) sizes = Ok ps /\ length ps = length sizes /\
    forall i p, nth_error ps i = Some p -> exists s, nth_error sizes i = Some s /\
      piece_of buf a axis (start + list_sum (firstn i sizes)) s p.
Proof.
  intros W Hn Hst HP. induction sizes as [|s sizes IH]; intros start Hs; cbn [split_into_sizes].
  { exists []. split; [reflexivity|]. split; [reflexivity|]. intros [|i] p H; discriminate. }
  cbn [list_sum fold_right] in Hs. fold (list_sum sizes) in Hs.
  destruct (slice_axis_piece buf a axis n stride start s W Hn Hst) as (p & E & W' & S' & I' & _ & L'); [left; exact HP|lia|].
  rewrite E. cbn [bind]. rewrite <- Nat2Z.inj_add. destruct (IH (start + s)) as (ps & E2 & Len & HN); [lia|].
  rewrite E2. cbn [bind]. exists (p :: ps). split; [reflexivity|]. split; [cbn; lia|].
  intros [|i] q H; cbn [nth_error] in H |- *.
  - injection H as <-. exists s. split; [reflexivity|]. cbn [firstn list_sum fold_right]. rewrite Nat.add_0_r.
    split; [exact W'|]. split; [exact S'|]. split; [exact I'|exact L'].
  - destruct (HN i q H) as (s' & H1 & H2). exists s'. split; [exact H1|].
    cbn [firstn list_sum fold_right]. fold (list_sum (firstn i sizes)).
    replace (start + (s + list_sum (firstn i sizes))) with (start + s + list_sum (firstn i sizes)) by lia. exact H2.
Qed.

Lemma firstn_seq i s k : firstn i (seq s k) = seq s (Nat.min i k).
Proof. revert s k; induction i as [|i IH]; intros s [|k]; cbn; try reflexivity. rewrite IH. reflexivity. Qed.


Lemma sum_parts n k s m : list_sum (map (part_size n k) (seq s m)) + part_start n k s = part_start n k (s + m).
Proof.
  revert s; induction m as [|m IH]; intros s; cbn [seq map list_sum fold_right].
  - rewrite Nat.add_0_r. reflexivity.
  - fold (list_sum (map (part_size n k) (seq (S s) m))). specialize (IH (S s)).
    replace (s + S m) with (S s + m) by lia. rewrite <- IH. unfold part_start, part_size.
    destruct (Nat.ltb_spec s (n mod k)); nia.
Qed.
Lemma part_start_end n k : 0 < k -> part_start n k k = n.
Proof.
  intros H. unfold part_start. rewrite Nat.min_r by (pose proof (Nat.mod_upper_bound n k ltac:(lia)); lia).
  rewrite (Nat.div_mod n k) at 3 by lia. lia.
Qed.

Theorem array_split_spec {V} (buf : list V) a k axis n stride : wf buf a -> 0 < k ->
  nth_error (a_shape a) axis = Some n -> nth_error (a_strides a) axis = Some stride -> (0 <= stride)%Z ->
  exists ps, array_split a k axis = Ok ps /\ length ps = k /\
    forall i p, nth_error ps i = Some p -> piece_of buf a axis (part_start n k i) (part_size n k i) p.
Proof.
  intros W Hk Hn Hst HP. unfold array_split.
  assert (Hax : axis < ndim a) by (apply nth_error_Some; unfold ndim; congruence).
  destruct (Nat.eqb_spec k 0); [lia|]. destruct (Nat.leb_spec (ndim a) axis); [lia|]. cbn [orb].
  rewrite (nth_error_nth _ _ _ Hn). cbv zeta. change (fun i => if i <? n mod k then n / k + 1 else n / k) with (part_size n k).
  assert (HS : list_sum (map (part_size n k) (seq 0 k)) = n).
  { pose proof (sum_parts n k 0 k) as HQ. rewrite part_start_end in HQ by exact Hk. unfold part_start in HQ. lia. }
  destruct (split_into_sizes_spec buf a axis n stride W Hn Hst HP (map (part_size n k) (seq 0 k)) 0) as (ps & E & Len & HN).
  { rewrite HS. lia. }
  rewrite map_length, seq_length in Len. exists ps. split; [exact E|]. split; [exact Len|].
  intros i p HPi. assert (Hi : i < k) by (rewrite <- Len; apply nth_error_Some; congruence).
  destruct (HN i p HPi) as (s & H1 & H2). rewrite nth_error_map', nth_error_seq in H1.
  destruct (Nat.ltb_spec i k); [|lia]. injection H1 as <-. cbn [Nat.add] in H2.
  replace (part_start n k i) with (list_sum (firstn i (map (part_size n k) (seq 0 k)))); [exact H2|].
  rewrite firstn_map, firstn_seq. rewrite Nat.min_l by lia. pose proof (sum_parts n k 0 i) as HX.
  unfold part_start in HX at 1. cbn [Nat.add Nat.mul Nat.min] in HX. lia.
Qed.

Lemma pieces_lane {V} (buf : list V) a axis n k ps oi : 0 < k -> length ps = k ->
  nth_error (a_shape a) axis = Some n -> inb oi (remove_at axis (a_shape a)) ->
  (forall i p, nth_error ps i = Some p -> piece_of buf a axis (part_start n k i) (part_size n k i) p) ->
  concat (map (fun p => lane buf p axis oi) ps) = lane buf a axis oi.
Proof.
  intros Hk HL Hn Hoi HP.
  assert (A : forall s qs, (forall i p, nth_error qs i = Some p -> piece_of buf a axis (part_start n k (s + i)) (part_size n k (s + i)) p) ->
      concat (map (fun p => lane buf p axis oi) qs) =
      map (fun j => get buf a (insert_at axis j oi)) (seq (part_start n k s) (list_sum (map (part_size n k) (seq s (length qs)))))).
  { intros s qs; revert s; induction qs as [|q qs IH]; intros s H; [reflexivity|].
    cbn [map concat length seq list_sum fold_right]. fold (list_sum (map (part_size n k) (seq (S s) (length qs)))).
    rewrite seq_app, map_app. destruct (H 0 q eq_refl) as (_ & _ & _ & L). rewrite Nat.add_0_r in L. rewrite (L oi Hoi). f_equal.
    rewrite (IH (S s)).
    - f_equal. f_equal. pose proof (sum_parts n k s 1) as HS. cbn [seq map list_sum fold_right] in HS. replace (s + 1) with (S s) in HS by lia. lia.
    - intros i p Hi. replace (S s + i) with (s + S i) by lia. apply H. exact Hi. }
  rewrite (A 0 ps) by exact HP. unfold lane. rewrite (nth_error_nth _ _ _ Hn). rewrite HL.
  pose proof (sum_parts n k 0 k) as HS. rewrite part_start_end in HS by exact Hk. unfold part_start in HS at 1.
  unfold part_start at 1. cbn [Nat.add Nat.mul Nat.min] in *. replace (list_sum (map (part_size n k) (seq 0 k))) with n by lia. reflexivity.
Qed.
