(* Lemmas about apply_along_axis, apply_over_axes, vectorize and frompyfunc. *)
From Verif Require Import Base Lists Arr_Spec Arr_Model Arr_Wf Arr_Proofs Copy_Model Copy_Proofs Bcast_Model Bcast_Proofs
  Idx_Model Idx_Assign Elem_Model Elem_Proofs Red_Spec Red_Model Red_Proofs Red_Scan Man_Model Man_Edit Man_Ops2 Gu_Spec Gu_Model Gu_Proofs Sort_Proofs Fn_Spec Fn_Model.
Local Open Scope nat_scope.

(* ---------- broadcasting ---------- *)
Lemma Forall2_cons_iff {A B} (P : A -> B -> Prop) x y l m : Forall2 P (x :: l) (y :: m) <-> P x y /\ Forall2 P l m.
Proof. split; [inversion 1; auto|intros []; constructor; assumption]. Qed.
Lemma fn_merge_spec r : forall s, length r = length s ->
  match fn_merge r s with
  | Ok t => stretchable r t /\ stretchable s t /\ forall c, stretchable r c -> stretchable s c -> stretchable t c
  | Err => forall c, stretchable r c -> stretchable s c -> False
  | _ => False
  end.
Proof.
  unfold stretchable. induction r as [|x r IH]; intros [|y s] HL; try discriminate; cbn [fn_merge].
  - split; [constructor|]. split; [constructor|]. intros c H _; exact H.
  - injection HL as HL. specialize (IH s HL). destruct (Nat.eqb_spec x 1) as [E|E].
    + destruct (fn_merge r s) as [t| | |]; cbn [bind]; try contradiction.
      * destruct IH as (A & B & C). split; [constructor; auto|]. split; [constructor; auto|].
        intros c H1 H2. destruct c as [|z c]; [inversion H1|]. apply Forall2_cons_iff in H1, H2. destruct H1 as [P1 Q1], H2 as [P2 Q2]. constructor; [lia|auto].
      * intros c H1 H2. destruct c as [|z c]; [inversion H1|]. apply Forall2_cons_iff in H1, H2. destruct H1 as [P1 Q1], H2 as [P2 Q2]. eauto.
    + destruct (Nat.eqb_spec y 1) as [E1|E1]; cbn [negb andb].
      * destruct (fn_merge r s) as [t| | |]; cbn [bind]; try contradiction.
        -- destruct IH as (A & B & C). split; [constructor; auto|]. split; [constructor; auto|].
           intros c H1 H2. destruct c as [|z c]; [inversion H1|]. apply Forall2_cons_iff in H1, H2. destruct H1 as [P1 Q1], H2 as [P2 Q2]. constructor; [lia|auto].
        -- intros c H1 H2. destruct c as [|z c]; [inversion H1|]. apply Forall2_cons_iff in H1, H2. destruct H1 as [P1 Q1], H2 as [P2 Q2]. eauto.
      * destruct (Nat.eqb_spec y x) as [E2|E2]; cbn [negb].
        -- destruct (fn_merge r s) as [t| | |]; cbn [bind]; try contradiction.
           ++ destruct IH as (A & B & C). split; [constructor; auto|]. split; [constructor; auto|].
              intros c H1 H2. destruct c as [|z c]; [inversion H1|]. apply Forall2_cons_iff in H1, H2. destruct H1 as [P1 Q1], H2 as [P2 Q2]. constructor; [lia|auto].
           ++ intros c H1 H2. destruct c as [|z c]; [inversion H1|]. apply Forall2_cons_iff in H1, H2. destruct H1 as [P1 Q1], H2 as [P2 Q2]. eauto.
        -- intros c H1 H2. destruct c as [|z c]; [inversion H1|]. apply Forall2_cons_iff in H1, H2. destruct H1 as [P1 Q1], H2 as [P2 Q2]. lia.
Qed.

Lemma stretch_len a b : stretchable a b -> length a = length b.
Proof. unfold stretchable. induction 1; simpl; congruence. Qed.
Lemma skipn_skipn' {A} (l : list A) : forall a b, skipn a (skipn b l) = skipn (a + b) l.
Proof.
  intros a b. revert l. induction b as [|b IH]; intros l; [rewrite Nat.add_0_r; reflexivity|].
  replace (a + S b) with (S (a + b)) by lia. destruct l as [|x l]; [cbn; apply skipn_nil|]. cbn [skipn]. apply IH.
Qed.

Lemma fn_merge_at_spec r s : length s <= length r ->
  match fn_merge_at r s with
  | Ok q => broadcastable r q /\ broadcastable s q /\ length q = length r /\
            forall c, broadcastable r c -> broadcastable s c -> broadcastable q c
  | Err => forall c, broadcastable r c -> broadcastable s c -> False
  | _ => False
  end.
Proof.
  intros HL. unfold fn_merge_at. set (off := length r - length s).
  assert (LS : length (skipn off r) = length s) by (rewrite skipn_length; subst off; lia).
  assert (LF : length (firstn off r) = off) by (rewrite firstn_length; subst off; lia).
  pose proof (fn_merge_spec (skipn off r) s LS) as M.
  assert (SPLIT : forall c, broadcastable r c -> broadcastable s c ->
    let c' := skipn (length c - length r) c in
    stretchable (firstn off r) (firstn off c') /\ stretchable (skipn off r) (skipn off c') /\ stretchable s (skipn off c')).
  { intros c [L1 S1] [L2 S2] c'. fold c' in S1. assert (LC : length c' = length r) by (unfold c'; rewrite skipn_length; lia).
    unfold stretchable in *. split; [|split].
    - rewrite <- (firstn_skipn off r), <- (firstn_skipn off c') in S1.
      apply Forall2_app_inv_l in S1. destruct S1 as (p & q & HP & HQ & E).
      apply stretch_len in HP as LP. rewrite LF in LP.
      assert (firstn off c' = p) as ->; [|exact HP].
      apply (f_equal (firstn off)) in E. rewrite firstn_app, firstn_firstn, Nat.min_id in E.
      rewrite firstn_length_le in E by (rewrite LC; unfold off; lia). rewrite Nat.sub_diag in E. cbn [firstn] in E. rewrite app_nil_r in E.
      rewrite E, firstn_app, LP, Nat.sub_diag, firstn_all. cbn [firstn]. rewrite app_nil_r. reflexivity.
    - rewrite <- (firstn_skipn off r), <- (firstn_skipn off c') in S1.
      apply Forall2_app_inv_l in S1. destruct S1 as (p & q & HP & HQ & E).
      apply stretch_len in HP as LP. rewrite LF in LP.
      assert (skipn off c' = q) as ->; [|exact HQ].
      apply (f_equal (skipn off)) in E. rewrite skipn_app in E. rewrite skipn_all2 in E by (rewrite firstn_length; lia).
      rewrite firstn_length_le in E by (rewrite LC; unfold off; lia). rewrite Nat.sub_diag in E. cbn [skipn app] in E.
      rewrite E, skipn_app, LP, Nat.sub_diag, skipn_all. reflexivity.
    - unfold c'. rewrite skipn_skipn'. replace (off + (length c - length r)) with (length c - length s) by (unfold off; lia). exact S2. }
  destruct (fn_merge (skipn off r) s) as [t| | |]; cbn [bind]; try contradiction.
  - destruct M as (A & B & C). apply stretch_len in A as LA.
    assert (LQ : length (firstn off r ++ t) = length r) by (rewrite app_length, LF, <- LA, LS; unfold off; lia).
    split; [|split; [|split]].
    + split; [lia|]. rewrite LQ, Nat.sub_diag. cbn [skipn]. rewrite <- (firstn_skipn off r) at 1. apply Forall2_app; [|exact A].
      clear. induction (firstn off r); constructor; auto.
    + split; [lia|]. rewrite LQ. fold off. rewrite skipn_app, LF, Nat.sub_diag. rewrite skipn_all2 by lia. exact B.
    + exact LQ.
    + intros c H1 H2. destruct (SPLIT c H1 H2) as (P1 & P2 & P3). pose proof H1 as [L1 _]. split; [lia|]. rewrite LQ.
      rewrite <- (firstn_skipn off (skipn (length c - length r) c)). apply Forall2_app; [exact P1|]. apply C; assumption.
  - intros c H1 H2. destruct (SPLIT c H1 H2) as (P1 & P2 & P3). exact (M _ P2 P3).
Qed.

Lemma fn_fold_joint shs : forall acc, (forall s, In s shs -> length s <= length acc) ->
  (exists r, foldM fn_merge_at shs acc = Ok r /\ joint (acc :: shs) r) \/
  (foldM fn_merge_at shs acc = Err /\ forall r, ~ joint (acc :: shs) r).
Proof.
  induction shs as [|s shs IH]; intros acc HL; cbn [foldM].
  - left. exists acc. split; [reflexivity|]. split; [intros s [<-|[]]; apply broadcastable_refl|].
    intros c H. apply H. left; reflexivity.
  - pose proof (fn_merge_at_spec acc s (HL s (or_introl eq_refl))) as M.
    destruct (fn_merge_at acc s) as [q| | |]; cbn [bind]; try contradiction.
    + destruct M as (Ua & Us & LQ & LE).
      assert (HC : forall c, (forall t, In t (acc :: s :: shs) -> broadcastable t c) <->
                             (forall t, In t (q :: shs) -> broadcastable t c)).
      { intros c. split; intros H t Ht.
        - destruct Ht as [<-|Ht]; [apply LE; apply H; cbn; auto|]. apply H. right; right; exact Ht.
        - destruct Ht as [<-|[<-|Ht]].
          + apply (broadcastable_trans _ q); [exact Ua|apply H; left; reflexivity].
          + apply (broadcastable_trans _ q); [exact Us|apply H; left; reflexivity].
          + apply H. right; exact Ht. }
      assert (HJ : forall r, joint (acc :: s :: shs) r <-> joint (q :: shs) r).
      { intros r. unfold joint. split; intros [U L]; (split; [apply HC; exact U|intros c Hc; apply L, HC, Hc]). }
      destruct (IH q) as [(r & E & J)|(E & J)].
      { intros t Ht. rewrite LQ. apply HL. right; exact Ht. }
      * left. exists r. split; [exact E|]. apply HJ, J.
      * right. split; [exact E|]. intros r Hr. apply (J r), HJ, Hr.
    + right. split; [reflexivity|]. intros r [U _]. apply (M r); apply U; cbn; auto.
Qed.

Lemma list_max_in l x : In x l -> x <= list_max l.
Proof. induction l as [|y l IH]; intros []; cbn; [subst; lia|]. specialize (IH H). fold (list_max l). lia. Qed.
Lemma list_max_bound l n : (forall x, In x l -> x <= n) -> list_max l <= n.
Proof. induction l as [|y l IH]; intros H; cbn; [lia|]. fold (list_max l). pose proof (H y (or_introl eq_refl)).
  assert (list_max l <= n) by (apply IH; intros; apply H; right; assumption). lia. Qed.

Lemma ones_broadcastable n c : n <= length c -> broadcastable (repeat 1 n) c.
Proof.
  intros H. split; rewrite repeat_length; [exact H|]. assert (length (skipn (length c - n) c) = n) as L by (rewrite skipn_length; lia).
  revert L. generalize (skipn (length c - n) c). induction n as [|n IH]; intros [|x l] L; try discriminate; [constructor|].
  cbn [repeat]. constructor; [right; reflexivity|]. apply (IH ltac:(lia)). simpl in L. lia.
Qed.

Lemma fn_broadcast_joint shs :
  (exists r, fn_broadcast shs = Ok r /\ joint shs r) \/ (fn_broadcast shs = Err /\ forall r, ~ joint shs r).
Proof.
  unfold fn_broadcast. set (m := list_max _).
  assert (HL : forall s, In s shs -> length s <= length (repeat 1 m)).
  { intros s Hs. rewrite repeat_length. apply list_max_in, in_map, Hs. }
  assert (HC : forall c, (forall t, In t (repeat 1 m :: shs) -> broadcastable t c) <-> (forall t, In t shs -> broadcastable t c)).
  { intros c. split; intros H t Ht; [apply H; right; exact Ht|]. destruct Ht as [<-|Ht]; [|apply H, Ht].
    apply ones_broadcastable. apply list_max_bound. intros x Hx. apply in_map_iff in Hx. destruct Hx as (t & <- & Ht).
    destruct (H t Ht) as [L _]. exact L. }
  assert (HJ : forall r, joint (repeat 1 m :: shs) r <-> joint shs r).
  { intros r. unfold joint. split; intros [U L]; (split; [apply HC; exact U|intros c Hc; apply L, HC, Hc]). }
  destruct (fn_fold_joint shs _ HL) as [(r & E & J)|(E & J)].
  - left. exists r. split; [exact E|apply HJ, J].
  - right. split; [exact E|]. intros r Hr. apply (J r), HJ, Hr.
Qed.

(* ---------- flat indices ---------- *)
Lemma flat_to_unrank k sh : k < prod sh -> flat_to_indices k sh = Ok (unrank sh k).
Proof.
  intros H. unfold flat_to_indices. replace (existsb (Nat.eqb 0) sh) with false.
  - rewrite flat_indices_unrank by exact H. reflexivity.
  - symmetry. apply not_true_is_false. intros E. apply existsb_exists in E. destruct E as (x & Hx & E0).
    apply Nat.eqb_eq in E0. subst x. assert (prod sh = 0); [|lia]. clear H.
    induction sh as [|y sh IH]; [contradiction|]. cbn [prod]. destruct Hx as [->|Hx]; [reflexivity|]. rewrite (IH Hx). lia.
Qed.

(* ---------- calls of a logged function ---------- *)
Lemma calls_log {I X A} (step : list X * A -> I -> res (list X * A)) (arg : I -> X) (res_of : A -> I -> A) (L : list I) :
  (forall acc i, In i L -> step acc i = Ok (fst acc ++ [arg i], res_of (snd acc) i)) ->
  forall log acc, foldM step L (log, acc) = Ok (log ++ map arg L, fold_left res_of L acc).
Proof.
  intros H. induction L as [|i L IH]; intros log acc; cbn [foldM map fold_left]; [rewrite app_nil_r; reflexivity|].
  rewrite H by (left; reflexivity). cbn [bind fst snd]. rewrite IH by (intros; apply H; right; assumption).
  rewrite <- app_assoc. reflexivity.
Qed.
Lemma fold_snoc {I R} (h : I -> R) L : forall acc, fold_left (fun (a : list R) (i : I) => a ++ [h i]) L acc = acc ++ map h L.
Proof.
  induction L as [|i L IH]; intros acc; cbn [fold_left map]; [rewrite app_nil_r; reflexivity|]. rewrite IH, <- app_assoc. reflexivity.
Qed.

Lemma slice_along_lane {V} (buf : list V) a axis oi n lv : wf buf a ->
  nth_error (a_shape a) axis = Some n -> inb oi (remove_at axis (a_shape a)) -> lane buf a axis oi = map Some lv ->
  slice_along buf a axis oi = Ok lv.
Proof.
  intros W Hn Ho HL. pose proof W as (_ & _ & _ & LS & _).
  assert (AX : axis < length (a_shape a)) by (apply nth_error_Some; congruence).
  destruct (nth_error (a_strides a) axis) as [st|] eqn:Hs; [|apply nth_error_None in Hs; lia].
  unfold slice_along, at_. rewrite Hn, Hs. cbn [bind of_load].
  apply inb_length in Ho as LO. rewrite !remove_at_length in * by lia.
  destruct (Nat.ltb_spec (length oi) (length (a_strides a) - 1)); [lia|].
  apply (read_lane buf a axis oi n st lv); assumption.
Qed.

Lemma somes_map {V} (l : list V) : flat_map (fun o => match o with Some v => [v] | None => [] end) (map Some l) = l.
Proof. induction l as [|x l IH]; cbn; [reflexivity|]. f_equal. exact IH. Qed.
Lemma lane_values_ok {V} (buf : list V) a axis oi n : wf buf a -> nth_error (a_shape a) axis = Some n ->
  inb oi (remove_at axis (a_shape a)) ->
  lane buf a axis oi = map Some (lane_values buf a axis oi) /\ length (lane_values buf a axis oi) = n.
Proof.
  intros W Hn Ho. destruct (lane_vals buf a axis oi n W Hn Ho) as (lv & E & L). unfold lane_values. rewrite E, somes_map. auto.
Qed.

Section Along.
Context {V F : Type}.
Variables (rd : V -> F) (wr : F -> V) (zero : V).
Lemma along_calls (g : list V -> @pyres F) buf a ax axis n : wf buf a -> norm_axis (ndim a) ax = Some axis ->
  nth_error (a_shape a) axis = Some n -> let osh := remove_at axis (a_shape a) in prod osh <> 0 ->
  let arg := fun oi => map (fun v => wr (rd v)) (lane_values buf a axis oi) in
  apply_along_axis rd wr zero (logged g) [] ax buf a =
  bind (along_assemble wr osh (map (fun oi => g (arg oi)) (all_idx osh))) (fun out => Ok (map arg (all_idx osh), out)).
Proof.
  intros W HA Hn osh HP arg. unfold apply_along_axis. rewrite HA. fold osh.
  destruct (Nat.eqb_spec (prod osh) 0); [contradiction|]. rewrite odometer_all.
  rewrite (calls_log (along_step rd wr (logged g) buf a axis) arg (fun rs oi => rs ++ [g (arg oi)])).
  - cbn [bind app]. rewrite fold_snoc. reflexivity.
  - intros acc oi Hi. apply in_all_idx in Hi.
    unfold along_step. destruct (lane_values_ok buf a axis oi n W Hn Hi) as [E _].
    rewrite (slice_along_lane buf a axis oi n _ W Hn Hi E). cbn [bind]. unfold logged. reflexivity.
Qed.

Lemma norm_axis_nth a ax axis : norm_axis (ndim a) ax = Some axis -> exists n, nth_error (a_shape a) axis = Some n.
Proof.
  unfold norm_axis, ndim. set (z := if (ax <? 0)%Z then _ else _). destruct (_ || _)%bool eqn:E; [discriminate|]. intros [= <-].
  apply orb_false_iff in E. destruct E as [E1 E2]. apply Z.ltb_ge in E1. apply Z.leb_gt in E2.
  destruct (nth_error (a_shape a) (Z.to_nat z)) as [n|] eqn:E; [exists n; reflexivity|]. apply nth_error_None in E. lia.
Qed.

Lemma assemble_numbers osh (rs : list (@pyres F)) xs : rs <> [] -> Forall2 (fun r x => as_number r = Some x) rs xs ->
  length rs = prod osh -> along_assemble wr osh rs = Ok (osh, map wr xs).
Proof.
  intros NE HF HL.
  assert (M : mapM (fun r => match as_number r with Some x => Ok (wr x) | None => Err end) rs = Ok (map wr xs)).
  { clear - HF. induction HF as [|r x rs xs H HF IH]; [reflexivity|]. cbn [mapM map]. rewrite H, IH. reflexivity. }
  unfold along_assemble. destruct rs as [|r0 rs]; [contradiction|]. inversion HF as [|? x0 ? xs' H0 HF']; subst.
  rewrite H0, M. cbn [bind]. apply mapM_length in M. rewrite M, HL, Nat.eqb_refl. reflexivity.
Qed.
Lemma assemble_arrays osh rsh (xss : list (list F)) : xss <> [] -> (forall xs, In xs xss -> length xs = prod rsh) ->
  prod rsh <> 1 -> length xss = prod osh ->
  along_assemble wr osh (map (PArr rsh) xss) = Ok (osh ++ rsh, map wr (concat xss)).
Proof.
  intros NE HF H1 HL.
  assert (M : mapM (fun r : @pyres F => match r with PArr _ xs => Ok xs | PNum _ => Err end) (map (PArr rsh) xss) = Ok xss).
  { clear. induction xss as [|xs xss IH]; [reflexivity|]. cbn [mapM map]. rewrite IH. reflexivity. }
  assert (LC : length (concat xss) = prod (osh ++ rsh)).
  { rewrite prod_app, <- HL. clear - HF. induction xss as [|xs xss IH]; [reflexivity|]. cbn [concat length].
    rewrite app_length, IH, HF by (intros; try apply HF; cbn; auto). lia. }
  unfold along_assemble. destruct xss as [|x0 xss]; [contradiction|]. cbn [map] in *. rewrite M. cbn [bind].
  rewrite map_length, LC, Nat.eqb_refl. pose proof (HF x0 (or_introl eq_refl)) as L0.
  destruct x0 as [|y [|z x0]]; cbn [as_number]; [reflexivity| |reflexivity]. cbn in L0. congruence.
Qed.

Lemma all_idx_ne sh : prod sh <> 0 -> all_idx sh <> [].
Proof. intros HP E. apply (f_equal (@length _)) in E. rewrite all_idx_length in E. exact (HP E). Qed.

Lemma along_numbers (g : list V -> @pyres F) (h : list V -> F) buf a ax axis : wf buf a -> norm_axis (ndim a) ax = Some axis ->
  let osh := remove_at axis (a_shape a) in prod osh <> 0 ->
  let arg := fun oi => map (fun v => wr (rd v)) (lane_values buf a axis oi) in
  (forall oi, inb oi osh -> as_number (g (arg oi)) = Some (h (arg oi))) ->
  apply_along_axis rd wr zero (logged g) [] ax buf a =
  Ok (map arg (all_idx osh), (osh, map (fun oi => wr (h (arg oi))) (all_idx osh))).
Proof.
  intros W HA osh HP arg HG. destruct (norm_axis_nth a ax axis HA) as [n Hn].
  rewrite (along_calls g buf a ax axis n W HA Hn HP). fold osh. change (fun oi => map _ (lane_values buf a axis oi)) with arg.
  rewrite (assemble_numbers osh _ (map (fun oi => h (arg oi)) (all_idx osh))).
  - cbn [bind]. rewrite map_map. reflexivity.
  - intros E. apply map_eq_nil in E. exact (all_idx_ne osh HP E).
  - assert (HI : forall oi, In oi (all_idx osh) -> as_number (g (arg oi)) = Some (h (arg oi))) by (intros oi Hi; apply HG, in_all_idx, Hi).
    clear - HI. induction (all_idx osh) as [|o L IH]; cbn [map]; [constructor|]. constructor; [apply HI; left; reflexivity|].
    apply IH. intros; apply HI; right; assumption.
  - rewrite map_length. apply all_idx_length.
Qed.

Lemma along_arrays (g : list V -> list F) rsh buf a ax axis : wf buf a -> norm_axis (ndim a) ax = Some axis ->
  let osh := remove_at axis (a_shape a) in prod osh <> 0 -> prod rsh <> 1 ->
  let arg := fun oi => map (fun v => wr (rd v)) (lane_values buf a axis oi) in
  (forall oi, inb oi osh -> length (g (arg oi)) = prod rsh) ->
  exists out, apply_along_axis rd wr zero (logged (fun x => PArr rsh (g x))) [] ax buf a =
    Ok (map arg (all_idx osh), (osh ++ rsh, out)) /\
  length out = prod (osh ++ rsh) /\
  forall oi ri, inb oi osh -> inb ri rsh ->
    nth_error out (rank (osh ++ rsh) (oi ++ ri)) = option_map wr (nth_error (g (arg oi)) (rank rsh ri)).
Proof.
  intros W HA osh HP HR arg HG. destruct (norm_axis_nth a ax axis HA) as [n Hn].
  exists (map wr (concat (map (fun oi => g (arg oi)) (all_idx osh)))).
  rewrite (along_calls (fun x => PArr rsh (g x)) buf a ax axis n W HA Hn HP). fold osh. change (fun oi => map _ (lane_values buf a axis oi)) with arg.
  rewrite <- (map_map (fun oi => g (arg oi)) (PArr rsh)).
  assert (HI : forall xs, In xs (map (fun oi => g (arg oi)) (all_idx osh)) -> length xs = prod rsh).
  { intros xs Hx. apply in_map_iff in Hx. destruct Hx as (oi & <- & Hi). apply HG, in_all_idx, Hi. }
  rewrite (assemble_arrays osh rsh); [| |exact HI|exact HR|rewrite map_length; apply all_idx_length].
  2:{ intros E. apply map_eq_nil in E. exact (all_idx_ne osh HP E). }
  split; [reflexivity|]. split.
  - rewrite map_length, prod_app. rewrite <- (all_idx_length osh). clear - HI. induction (all_idx osh) as [|o L IH]; [reflexivity|].
    cbn [map concat length]. rewrite app_length, IH; [rewrite (HI _ (or_introl eq_refl)); lia|]. intros; apply HI; right; assumption.
  - intros oi ri Ho Hr. rewrite nth_error_map'. f_equal. apply inb_length in Ho as LO.
    rewrite rank_app by exact LO. rewrite (nth_error_concat (prod rsh)); [|exact HI|apply rank_lt; exact Hr].
    rewrite nth_error_map'. rewrite (nth_error_all_idx_rank osh oi Ho). reflexivity.
Qed.
End Along.

(* ---------- apply_over_axes ---------- *)
Lemma insert_removed_one sh axis : axis < length sh -> insert_at axis 1 (remove_at axis sh) = upd sh axis 1.
Proof.
  revert axis; induction sh as [|x sh IH]; intros [|k] H; try (cbn in H; lia); [destruct sh; reflexivity|].
  cbn in H |- *. f_equal. apply IH. lia.
Qed.
Lemma insert_at_end {A} (l : list A) v : insert_at (length l) v l = l ++ [v].
Proof. induction l as [|x l IH]; cbn; [reflexivity|]. f_equal. exact IH. Qed.
Lemma norm_axis_lt nd ax axis : norm_axis nd ax = Some axis -> axis < nd.
Proof.
  unfold norm_axis. set (z := if (ax <? 0)%Z then _ else _). destruct (_ || _)%bool eqn:E; [discriminate|]. intros [= <-].
  apply orb_false_iff in E. destruct E as [E1 E2]. apply Z.ltb_ge in E1. apply Z.leb_gt in E2. lia.
Qed.
Lemma over_axes_keep {A} (f : list nat * A -> nat -> res (list nat * A)) red axes : forall (x : list nat * A) naxes,
  (forall c axis, length (fst c) = length (fst x) -> axis < length (fst x) ->
     f c axis = Ok (remove_at axis (fst c), red c axis) \/ f c axis = Ok (upd (fst c) axis 1, red c axis)) ->
  mapM (fun ax => match norm_axis (length (fst x)) ax with Some k => Ok k | None => Err end) axes = Ok naxes ->
  apply_over_axes f axes x = Ok (over_keepdims red naxes x).
Proof.
  intros x naxes. unfold apply_over_axes, over_keepdims. remember (length (fst x)) as nd eqn:ND. intros Hf.
  revert x ND naxes. induction axes as [|ax axes IH]; intros x ND naxes HM; cbn [mapM foldM] in *.
  - injection HM as <-. reflexivity.
  - destruct (norm_axis nd ax) as [k|] eqn:EK; cbn [bind] in HM; [|discriminate].
    destruct (mapM _ axes) as [ks| | |] eqn:EM; try discriminate. injection HM as <-. cbn [fold_left].
    apply norm_axis_lt in EK.
    assert (STEP : bind (f x k) (fun r => if length (fst r) =? nd then Ok r else Ok (pad_ones (nd - length (fst r)) k (fst r), snd r)) =
                   Ok (upd (fst x) k 1, red x k)).
    { destruct (Hf x k (eq_sym ND) EK) as [E|E]; rewrite E; cbn [bind fst snd].
      - rewrite remove_at_length by lia. rewrite <- ND. destruct (Nat.eqb_spec (nd - 1) nd); [lia|].
        replace (nd - (nd - 1)) with 1 by lia. cbn [pad_ones]. rewrite remove_at_length by lia. rewrite <- ND.
        do 2 f_equal. destruct (Nat.ltb_spec k (nd - 1)); [apply insert_removed_one; lia|].
        rewrite <- insert_removed_one by lia. rewrite <- insert_at_end. rewrite remove_at_length by lia.
        replace (length (fst x) - 1) with k by lia. reflexivity.
      - rewrite upd_length, <- ND, Nat.eqb_refl. reflexivity. }
    rewrite STEP. cbn [bind]. apply IH; [cbn [fst]; rewrite upd_length; exact ND|reflexivity].
Qed.

(* ---------- vectorize ---------- *)
Section Vec.
Context {F P W : Type}.
Variable wr : F -> W.
Local Notation varg := (@varg F P).
Local Notation pyval := (@pyval F P).

Fixpoint scal_from (j : nat) (args : list varg) : list (nat * P) :=
  match args with
  | [] => []
  | inl _ :: t => scal_from (S j) t
  | inr o :: t => (j, o) :: scal_from (S j) t
  end.
Lemma scalars_of_from args : forall j, flat_map (fun '(i, g) => match g with inl _ => [] | inr o => [(i, o)] end)
           (combine (seq j (length args)) args) = scal_from j args.
Proof.
  induction args as [|[x|o] args IH]; intros j; cbn [length seq combine flat_map scal_from]; [reflexivity| |]; rewrite IH; reflexivity.
Qed.

(* arrays broadcast to the shape *)
Lemma broadcast_all_ok shape args : args_wf args ->
  (forall buf a, In (inl (buf, a)) args -> broadcastable (a_shape a) shape) ->
  exists bs, broadcast_all shape (arrays_of args) = Ok bs /\
    forall idx j, inb idx shape -> exists vals, Forall2 (arg_at idx) args vals /\
      call_args (seq j (length args)) bs (scal_from j args) idx = Ok vals.
Proof.
  unfold broadcast_all, arrays_of. induction args as [|g args IH]; intros HW HB.
  - exists []. split; [reflexivity|]. intros idx j _. exists []. split; [constructor|reflexivity].
  - destruct IH as (bs & E & HC).
    { intros b a H. apply HW. right; exact H. } { intros b a H. apply (HB b a). right; exact H. }
    destruct g as [[b a]|o]; cbn [flat_map app].
    + pose proof (HW b a (or_introl eq_refl)) as W1. pose proof (HB b a (or_introl eq_refl)) as B1.
      destruct (broadcast_to_is_view b a shape W1) as [HV _]. destruct (HV B1) as (a' & EB & (VS & VW & VG)).
      exists ((b, a') :: bs). cbn [mapM]. rewrite EB. cbn [bind]. rewrite E. cbn [bind]. split; [reflexivity|].
      intros idx j Hi. destruct (HC idx (S j) Hi) as (vals & HF & EC).
      destruct (get_element_ok b a' idx VW ltac:(rewrite VS; exact Hi)) as (x & EG & GG).
      exists (VNum x :: vals). split.
      * constructor; [|exact HF]. cbn [arg_at]. exists x. split; [reflexivity|]. rewrite <- GG. symmetry. apply VG, Hi.
      * cbn [length seq call_args scal_from].
        assert (NJ : match scal_from (S j) args with (i, _) :: _ => (i =? j) = false | [] => True end).
        { clear. assert (G : forall k, j < k -> match scal_from k args with (i, _) :: _ => (i =? j) = false | [] => True end).
          { induction args as [|[y|o] args IH]; intros k Hk; cbn [scal_from]; [exact I|apply IH; lia|]. apply Nat.eqb_neq. lia. }
          apply G. lia. }
        destruct (scal_from (S j) args) as [|[i o] sc]; [|rewrite NJ]; rewrite EG; cbn [bind]; rewrite EC; reflexivity.
    + exists bs. split; [exact E|]. intros idx j Hi. destruct (HC idx (S j) Hi) as (vals & HF & EC).
      exists (VObj o :: vals). split; [constructor; [reflexivity|exact HF]|].
      cbn [length seq call_args scal_from]. rewrite Nat.eqb_refl, EC. reflexivity.
Qed.

Lemma call_vals_fun (C : list nat -> res (list pyval)) (Q : list nat -> list pyval -> Prop) shape :
  (forall idx, inb idx shape -> exists vals, Q idx vals /\ C idx = Ok vals) ->
  exists vals, forall idx, inb idx shape -> Q idx (vals idx) /\ C idx = Ok (vals idx).
Proof.
  intros H. exists (fun idx => match C idx with Ok v => v | _ => [] end). intros idx Hi.
  destruct (H idx Hi) as (v & HQ & E). rewrite E. auto.
Qed.

Lemma vectorize_arrays (h : list pyval -> F) args shape : args_wf args ->
  arrays_of args <> [] -> joint (map (fun x => a_shape (snd x)) (arrays_of args)) shape ->
  exists vals, (forall idx, inb idx shape -> Forall2 (arg_at idx) args (vals idx)) /\
    vectorize_call wr true (logged h) [] args =
    Ok (map vals (all_idx shape), VArray shape (map (fun idx => wr (h (vals idx))) (all_idx shape))).
Proof.
  intros HW HN HJ.
  assert (HB : forall buf a, In (inl (buf, a)) args -> broadcastable (a_shape a) shape).
  { intros b a Hi. apply (proj1 HJ). apply in_map_iff. exists (b, a). split; [reflexivity|].
    unfold arrays_of. apply in_flat_map. exists (inl (b, a)). split; [exact Hi|left; reflexivity]. }
  destruct (broadcast_all_ok shape args HW HB) as (bs & EB & HC).
  destruct (call_vals_fun (call_args (seq 0 (length args)) bs (scal_from 0 args)) (fun idx v => Forall2 (arg_at idx) args v) shape) as (vals & HV).
  { intros idx Hi. exact (HC idx 0 Hi). }
  exists vals. split; [intros idx Hi; apply HV, Hi|].
  unfold vectorize_call. destruct (arrays_of args) as [|x0 xs] eqn:EA; [contradiction|]. rewrite <- EA in *. clear EA HN.
  destruct (fn_broadcast_joint (map (fun x => a_shape (snd x)) (arrays_of args))) as [(r & E & J)|(_ & NJ)]; [|exfalso; exact (NJ _ HJ)].
  rewrite (joint_unique _ _ _ J HJ) in E. rewrite E. cbn [bind]. rewrite EB. cbn [bind].
  assert (ES : scalars_of args = scal_from 0 args) by apply scalars_of_from. rewrite ES.
  rewrite (calls_log _ (fun i => vals (unrank shape i)) (fun xs i => xs ++ [h (vals (unrank shape i))])).
  - cbn [bind]. rewrite fold_snoc. cbn [app]. rewrite map_length, seq_length, Nat.eqb_refl.
    rewrite all_idx_unrank, !map_map. reflexivity.
  - intros acc i Hi. apply in_seq in Hi. rewrite flat_to_unrank by lia. cbn [bind].
    destruct (HV (unrank shape i)) as [_ EV]; [apply unrank_inb; lia|]. rewrite EV. reflexivity.
Qed.

(* ---------- frompyfunc ---------- *)
Definition to_shape (shape : list nat) (g : varg) : res varg :=
  match g with
  | inl (b, a) => bind (broadcast_to a shape) (fun a' => Ok (inl (b, a')))
  | inr o => Ok (inr o)
  end.
Lemma frompy_args_ok shape args : args_wf args ->
  (forall buf a, In (inl (buf, a)) args -> broadcastable (a_shape a) shape) ->
  exists bs, mapM (to_shape shape) args = Ok bs /\
    forall idx, inb idx shape -> exists vals, Forall2 (arg_at idx) args vals /\ frompy_args bs idx = Ok vals.
Proof.
  induction args as [|g args IH]; intros HW HB.
  - exists []. split; [reflexivity|]. intros idx _. exists []. split; [constructor|reflexivity].
  - destruct IH as (bs & E & HC).
    { intros b a H. apply HW. right; exact H. } { intros b a H. apply (HB b a). right; exact H. }
    cbn [mapM]. rewrite E. destruct g as [[b a]|o]; cbn [to_shape].
    + pose proof (HW b a (or_introl eq_refl)) as W1. pose proof (HB b a (or_introl eq_refl)) as B1.
      destruct (broadcast_to_is_view b a shape W1) as [HV _]. destruct (HV B1) as (a' & EB & (VS & VW & VG)).
      exists (inl (b, a') :: bs). rewrite EB. cbn [bind]. split; [reflexivity|].
      intros idx Hi. destruct (HC idx Hi) as (vals & HF & EC).
      destruct (get_element_ok b a' idx VW ltac:(rewrite VS; exact Hi)) as (x & EG & GG).
      exists (VNum x :: vals). split.
      * constructor; [|exact HF]. cbn [arg_at]. exists x. split; [reflexivity|]. rewrite <- GG. symmetry. apply VG, Hi.
      * unfold frompy_args in *. cbn [mapM]. rewrite EG. cbn [bind]. rewrite EC. reflexivity.
    + exists (inr o :: bs). cbn [bind]. split; [reflexivity|]. intros idx Hi. destruct (HC idx Hi) as (vals & HF & EC).
      exists (VObj o :: vals). split; [constructor; [reflexivity|exact HF]|].
      unfold frompy_args in *. cbn [mapM bind]. rewrite EC. reflexivity.
Qed.

Lemma push_all {I} (items : I -> list F) n L : (forall i, In i L -> length (items i) = n) -> forall cols, length cols = n ->
  forall d, fold_left (fun cs i => push_items cs (items i)) L cols =
  map (fun k => nth k cols [] ++ map (fun i => nth k (items i) d) L) (seq 0 n).
Proof.
  clear wr. intros HI. induction L as [|i L IH]; intros cols HC d; cbn [fold_left map].
  - rewrite <- HC. apply nth_error_ext. intros k. rewrite nth_error_map', nth_error_seq.
    destruct (Nat.ltb_spec k (length cols)); cbn [option_map plus].
    + rewrite app_nil_r. apply nth_error_nth'. exact H.
    + apply nth_error_None. exact H.
  - assert (PL : forall (cols : list (list F)) its, length its = length cols -> length (push_items cols its) = length cols /\
                 forall k, k < length cols -> nth k (push_items cols its) [] = nth k cols [] ++ [nth k its d]).
    { clear. induction cols as [|c cols IH]; intros [|x its] H; try discriminate; cbn [push_items]; [split; [reflexivity|cbn; lia]|].
      destruct (IH its ltac:(simpl in H; lia)) as [IH1 IH2]. split; [cbn; lia|]. intros [|k] Hk; cbn [nth]; [reflexivity|]. apply IH2. cbn in Hk. lia. }
    destruct (PL cols (items i)) as [P1 P2]; [rewrite HI by (left; reflexivity); congruence|].
    rewrite (IH ltac:(intros; apply HI; right; assumption) (push_items cols (items i)) ltac:(congruence) d).
    apply map_ext_in. intros k Hk. apply in_seq in Hk. rewrite P2 by lia. rewrite <- app_assoc. reflexivity.
Qed.

Lemma frompyfunc_arrays nout (h : list pyval -> list F) (d : F) args shape : args_wf args ->
  (forall vals, length (h vals) = nout) -> shape <> [] ->
  arrays_of args <> [] -> joint (map (fun x => a_shape (snd x)) (arrays_of args)) shape ->
  exists vals, (forall idx, inb idx shape -> Forall2 (arg_at idx) args (vals idx)) /\
    frompyfunc_call (length args) nout (logged h) [] args =
    Ok (map vals (all_idx shape),
        inr (map (fun k => (shape, map (fun idx => nth k (h (vals idx)) d) (all_idx shape))) (seq 0 nout))).
Proof.
  clear wr. intros HW HH HS HN HJ.
  assert (HB : forall buf a, In (inl (buf, a)) args -> broadcastable (a_shape a) shape).
  { intros b a Hi. apply (proj1 HJ). apply in_map_iff. exists (b, a). split; [reflexivity|].
    unfold arrays_of. apply in_flat_map. exists (inl (b, a)). split; [exact Hi|left; reflexivity]. }
  destruct (frompy_args_ok shape args HW HB) as (bs & EB & HC).
  destruct (call_vals_fun (frompy_args bs) (fun idx v => Forall2 (arg_at idx) args v) shape HC) as (vals & HV).
  exists vals. split; [intros idx Hi; apply HV, Hi|].
  unfold frompyfunc_call. rewrite Nat.eqb_refl. cbn [negb].
  destruct (arrays_of args) as [|x0 xs] eqn:EA; [contradiction|]. rewrite <- EA in *. clear EA HN.
  destruct (fn_broadcast_joint (map (fun x => a_shape (snd x)) (arrays_of args))) as [(r & E & J)|(_ & NJ)]; [|exfalso; exact (NJ _ HJ)].
  rewrite (joint_unique _ _ _ J HJ) in E. rewrite E. cbn [bind]. match goal with |- context [bind (mapM ?f args) _] => change (mapM f args) with (mapM (to_shape shape) args) end. rewrite EB. cbn [bind].
  rewrite (calls_log _ (fun i => vals (unrank shape i)) (fun cs i => push_items cs (h (vals (unrank shape i))))).
  - cbn [bind app].
    rewrite (push_all (fun i => h (vals (unrank shape i))) nout _ ltac:(intros; apply HH) (repeat [] nout) ltac:(apply repeat_length) d).
    assert (EM : mapM (frompy_out shape) (map (fun k => nth k (repeat [] nout) [] ++ map (fun i => nth k (h (vals (unrank shape i))) d) (seq 0 (prod shape))) (seq 0 nout)) =
                 Ok (map (fun k => (shape, map (fun idx => nth k (h (vals idx)) d) (all_idx shape))) (seq 0 nout))).
    { rewrite mapM_map. apply mapM_ok. intros k Hk.
      assert (EN : nth k (repeat (@nil F) nout) [] = []) by (clear; revert k; induction nout; intros [|k]; cbn; auto).
      rewrite EN. cbn [app]. unfold frompy_out. rewrite map_length, seq_length, Nat.eqb_refl, all_idx_unrank, map_map.
      destruct shape as [|s0 [|s1 sh]]; [contradiction| |reflexivity]. cbn [length Nat.ltb Nat.leb prod]. rewrite Nat.mul_1_r. reflexivity. }
    rewrite EM. cbn [bind]. rewrite all_idx_unrank at 1. rewrite map_map. reflexivity.
  - intros acc i Hi. apply in_seq in Hi. rewrite flat_to_unrank by lia. cbn [bind].
    destruct (HV (unrank shape i)) as [_ EV]; [apply unrank_inb; lia|]. rewrite EV. reflexivity.
Qed.

(* ---------- vectorize with a signature ---------- *)
Lemma sig_lanes (h : list (list F) -> F) (arrs : list (list F * arr)) (lead : list nat) :
  arrs <> [] -> lead <> [] -> prod lead <> 0 ->
  (forall b a, In (b, a) arrs -> wf b a /\ exists n, a_shape a = lead ++ [n]) ->
  let lanes := fun oi => map (fun '(b, a) => lane_values b a (length lead) oi) arrs in
  vectorize_sig wr (logged h) [] arrs =
  Ok (map lanes (all_idx lead), VArray lead (map (fun oi => wr (h (lanes oi))) (all_idx lead))).
Proof.
  intros NA NL PL HA lanes. unfold vectorize_sig. destruct arrs as [|[b0 a0] rest] eqn:EA; [contradiction|]. rewrite <- EA in *.
  destruct (HA b0 a0) as [_ [n0 S0]]; [rewrite EA; left; reflexivity|].
  assert (E0 : (if 1 <? ndim a0 then firstn (ndim a0 - 1) (a_shape a0) else []) = lead).
  { unfold ndim. rewrite S0, app_length. cbn [length]. destruct (Nat.ltb_spec 1 (length lead + 1)).
    - replace (length lead + 1 - 1) with (length lead + 0) by lia. rewrite firstn_app_2. cbn [firstn]. apply app_nil_r.
    - destruct lead; [contradiction|cbn in *; lia]. }
  rewrite E0. replace (Nat.max (prod lead) 1) with (prod lead) by lia.
  assert (RA : forall n : nat, remove_at (length lead) (lead ++ [n]) = lead).
  { clear. intros n. induction lead as [|x l IH]; cbn; [reflexivity|]. f_equal. exact IH. }
  rewrite (calls_log _ (fun i => lanes (unrank lead i)) (fun xs i => xs ++ [h (lanes (unrank lead i))])).
  - cbn [bind]. rewrite fold_snoc. cbn [app]. rewrite map_length, seq_length, Nat.eqb_refl, all_idx_unrank, !map_map.
    destruct lead; [contradiction|reflexivity].
  - intros acc i Hi. apply in_seq in Hi. rewrite flat_to_unrank by lia.
    assert (HU : inb (unrank lead i) lead) by (apply unrank_inb; lia).
    destruct lead as [|l0 lead'] eqn:EL; [contradiction|]. rewrite <- EL in *. cbn [bind].
    destruct (unrank lead i) as [|u0 us] eqn:EU; [apply inb_length in HU; rewrite EL in HU; discriminate|]. rewrite <- EU in *.
    assert (EM : mapM (fun '(b, a) => slice_along b a (ndim a - 1) (unrank lead i)) arrs = Ok (lanes (unrank lead i))).
    { unfold lanes. rewrite <- EA, <- EL. apply mapM_ok. intros [b a] Hb. destruct (HA b a Hb) as [Wb [n Sn]].
      assert (ND : ndim a - 1 = length lead) by (unfold ndim; rewrite Sn, app_length; cbn; lia). rewrite ND.
      assert (Hn : nth_error (a_shape a) (length lead) = Some n) by (rewrite Sn, nth_error_app2, Nat.sub_diag by lia; reflexivity).
      assert (Ho : inb (unrank lead i) (remove_at (length lead) (a_shape a))) by (rewrite Sn, RA; exact HU).
      apply (slice_along_lane b a _ _ n _ Wb Hn Ho). apply (lane_values_ok b a _ _ n Wb Hn Ho). }
    rewrite EM. reflexivity.
Qed.
End Vec.
