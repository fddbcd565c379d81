(* Proofs about trapezoid and gradient. *)
From Verif Require Import Base Lists Arr_Spec Arr_Model Arr_Wf Arr_Proofs Copy_Model Copy_Proofs Idx_Model Idx_Proofs Elem_Model Elem_Proofs Red_Spec Red_Model Red_Proofs Red_Scan Man_Props Conv_Spec Conv_Proofs Gu_Model Gu_Proofs Mat_Proofs Num_Spec Num_Model.
From Coq Require Import Ring.
Local Open Scope nat_scope.

(* ---------- left-to-right sums ---------- *)
Lemma fold_big {R} (zero : R) add f n : fold_left add (map f (seq 0 n)) zero = big zero add n f.
Proof.
  induction n as [|n IH]; [reflexivity|]. rewrite seq_S, map_app, fold_left_app, IH. reflexivity.
Qed.
Lemma trap_loop_fold {R} (half : R) add mul d ys : forall ws sum, length ws = length ys - 1 ->
  trap_loop half add mul sum ys ws =
  fold_left add (map (fun j => mul (mul (add (nth j ys d) (nth (S j) ys d)) (nth j ws d)) half) (seq 0 (length ys - 1))) sum.
Proof.
  induction ys as [|y0 ys IH]; intros ws sum HW; [reflexivity|].
  destruct ys as [|y1 ys]; [reflexivity|]. destruct ws as [|w ws]; [discriminate|].
  change (trap_loop half add mul sum (y0 :: y1 :: ys) (w :: ws)) with (trap_loop half add mul (add sum (mul (mul (add y0 y1) w) half)) (y1 :: ys) ws).
  rewrite IH by (cbn [length] in *; lia).
  replace (length (y0 :: y1 :: ys) - 1) with (S (length (y1 :: ys) - 1)) by (cbn [length]; lia).
  cbn [seq map fold_left]. rewrite <- seq_shift, map_map. reflexivity.
Qed.
Lemma diffs_length {R} (sub : R -> R -> R) xs : length (diffs sub xs) = length xs - 1.
Proof.
  induction xs as [|x0 xs IH]; [reflexivity|]. destruct xs as [|x1 xs]; [reflexivity|].
  cbn [diffs length] in *. rewrite IH. lia.
Qed.
Lemma diffs_nth {R} (sub : R -> R -> R) d xs : forall j, S j < length xs -> nth j (diffs sub xs) d = sub (nth (S j) xs d) (nth j xs d).
Proof.
  induction xs as [|x0 xs IH]; intros j Hj; [simpl in Hj; lia|]. destruct xs as [|x1 xs]; [simpl in Hj; lia|].
  destruct j as [|j]; [reflexivity|]. cbn [diffs]. cbn [nth]. apply IH. cbn [length] in *. lia.
Qed.
Lemma trap_lane_big {R} (zero half : R) add sub mul dx xs ys : (forall x, xs = Some x -> length x = length ys) ->
  trap_lane zero half add sub mul dx xs ys =
  big zero add (length ys - 1) (fun j => mul (mul (add (nth j ys zero) (nth (S j) ys zero))
     (match xs with Some x => sub (nth (S j) x zero) (nth j x zero) | None => dx end)) half).
Proof.
  intros HX. unfold trap_lane. rewrite (trap_loop_fold half add mul zero).
  2:{ destruct xs as [x|]; [rewrite diffs_length, (HX x eq_refl); reflexivity|apply repeat_length]. }
  rewrite <- fold_big. f_equal. apply map_ext_in. intros j Hj. apply in_seq in Hj. do 2 f_equal.
  destruct xs as [x|]; [apply diffs_nth; rewrite (HX x eq_refl); lia|].
  rewrite (nth_indep _ _ dx) by (rewrite repeat_length; lia). apply nth_repeat.
Qed.

(* ---------- trapezoid on arrays ---------- *)
Definition norm_axis (axis : Z) (nd : nat) (ax : nat) : Prop :=
  ax < nd /\ (axis = Z.of_nat ax \/ axis = Z.of_nat ax - Z.of_nat nd)%Z.

Section T.
Context {R V X : Type}.
Variables (zero half : R) (add sub mul : R -> R -> R) (rd : V -> R) (rdx : X -> R).
Lemma trapezoid_spec (y : list V) a (x : option (list X * arr)) dx axis ax n xs : wf y a -> norm_axis axis (ndim a) ax ->
  nth_error (a_shape a) ax = Some n ->
  (forall xa, x = Some xa -> exists v, vector xa v /\ length v = n /\ xs = Some (map rdx v)) -> (x = None -> xs = None) ->
  exists out, trapezoid zero half add sub mul rd rdx (y, a) x dx axis = Ok (reduced_shape ax (a_shape a), out) /\
    length out = prod (reduced_shape ax (a_shape a)) /\
    forall idx lv, inb idx (reduced_shape ax (a_shape a)) -> lane y a ax (outer_of (a_shape a) idx) = map Some lv ->
      get out (fresh (reduced_shape ax (a_shape a)) 8) idx = Some (trap_lane zero half add sub mul dx xs (map rd lv)).
Proof.
  intros W [HA HN] Hn HX HNone. destruct (strides_at y a ax n W Hn) as [st Hs].
  unfold trapezoid. cbn [fst snd].
  destruct (Nat.eqb_spec (ndim a) 0) as [H0|H0]; [lia|].
  assert (EA : (if (axis <? 0)%Z then (Z.of_nat (ndim a) + axis)%Z else axis) = Z.of_nat ax).
  { destruct (Z.ltb_spec axis 0); lia. }
  rewrite EA. destruct (Z.ltb_spec (Z.of_nat ax) 0); [lia|]. destruct (Z.leb_spec (Z.of_nat (ndim a)) (Z.of_nat ax)); [lia|].
  cbn [orb]. rewrite Nat2Z.id, (at_ok _ _ _ Hn). cbn [bind]. fold (reduced_shape ax (a_shape a)).
  destruct (lanes_exist y a ax n W Hn) as [L EL]. pose proof (lanes_length y a ax L EL) as LL.
  assert (GET : forall idx lv, inb idx (reduced_shape ax (a_shape a)) -> lane y a ax (outer_of (a_shape a) idx) = map Some lv ->
      get (map (fun d => trap_lane zero half add sub mul dx xs (map rd d)) L) (fresh (reduced_shape ax (a_shape a)) 8) idx
      = Some (trap_lane zero half add sub mul dx xs (map rd lv))).
  { intros idx lv Hi Hlv. apply (lanes_get y a ax n L (fun d => trap_lane zero half add sub mul dx xs (map rd d)) 8 idx lv); try assumption. reflexivity. }
  destruct (Nat.leb_spec n 1) as [Hn1|Hn1].
  { eexists. split; [reflexivity|]. split; [apply repeat_length|]. intros idx lv Hi Hlv. rewrite <- (GET idx lv Hi Hlv).
    rewrite (map_const_lanes _ L zero), LL, <- prod_reduced; [reflexivity|].
    intros d Hd. pose proof (lanes_len y a ax L d n Hn EL Hd) as HD. unfold trap_lane.
    destruct d as [|v [|w d]]; [reflexivity|reflexivity|cbn [length] in HD; lia]. }
  exists (map (fun d => trap_lane zero half add sub mul dx xs (map rd d)) L).
  split; [|split; [rewrite map_length, prod_reduced; exact LL|exact GET]].
  assert (EX : (match x with
              | Some xa => if negb (ndim (snd xa) =? 1) || negb (size (snd xa) =? n) then Ok None
                           else bind (mapM (read (fst xa) (snd xa)) (iter_offsets (snd xa))) (fun v => Ok (Some (map rdx v)))
              | None => Ok None
              end) = Ok xs).
  { destruct x as [[bx xa]|]; [|rewrite HNone; reflexivity].
    destruct (HX _ eq_refl) as (v & VV & Hv & ->). pose proof (vector_size (bx, xa) v VV) as SZ.
    pose proof VV as (WX & ND & EV). cbn [fst snd] in *. unfold ndim. rewrite ND, SZ, Hv, !Nat.eqb_refl. cbn [length]. rewrite ?Nat.eqb_refl. cbn [Nat.eqb negb orb].
    rewrite (read_offsets bx xa v WX EV). reflexivity. }
  rewrite EX. cbn [bind]. rewrite (at_ok _ _ _ Hs). cbn [bind].
  rewrite (mapM_lanes y a ax n st L (fun d => trap_lane zero half add sub mul dx xs (map rd d))) by assumption. reflexivity.
Qed.
End T.

(* ---------- gradient ---------- *)
Lemma insert_at_inj axis (j j' : nat) oi oi' : axis <= length oi -> axis <= length oi' ->
  insert_at axis j oi = insert_at axis j' oi' -> j = j' /\ oi = oi'.
Proof.
  intros H H' E. destruct (insert_at_parts axis j oi H) as [P1 P2]. destruct (insert_at_parts axis j' oi' H') as [Q1 Q2].
  split; [rewrite <- P1, <- Q1, E; reflexivity|rewrite <- P2, <- Q2, E; reflexivity].
Qed.

Lemma foldM_map' {A B S} (f : S -> B -> res S) (h : A -> B) L : forall s, foldM f (map h L) s = foldM (fun s x => f s (h x)) L s.
Proof. induction L as [|x L IH]; intros s; [reflexivity|]. cbn [map foldM]. destruct (f s (h x)); cbn [bind]; auto. Qed.

(* the source lanes start at the byte offsets of the result's lanes *)
Definition same_bases (a : arr) (axis : nat) : Prop :=
  forall oi, inb oi (remove_at axis (a_shape a)) ->
    dot oi (remove_at axis (a_strides a)) = dot oi (remove_at axis (c_strides (a_shape a) 8)).

Section G.
Context {R V : Type}.
Variables (zero : R) (sub div : R -> R -> R) (rd : V -> R).

Definition grad_val (ys : list R) (den : nat -> nat -> R) (i : nat) : R :=
  div (sub (nth (after (length ys) i) ys zero) (nth (before i) ys zero)) (den (before i) (after (length ys) i)).
Lemma grad_at_spec ys den i : i < length ys -> grad_at sub div ys den i = Ok (grad_val ys den i).
Proof.
  intros Hi. unfold grad_at, grad_val, before, after.
  replace (if i =? 0 then 0 else i - 1) with (i - 1) by (destruct (Nat.eqb_spec i 0); lia).
  replace (if i =? length ys - 1 then length ys - 1 else i + 1) with (Nat.min (i + 1) (length ys - 1)) by (destruct (Nat.eqb_spec i (length ys - 1)); lia).
  rewrite (at_ok ys (Nat.min (i + 1) (length ys - 1)) (nth (Nat.min (i + 1) (length ys - 1)) ys zero)) by (apply nth_error_nth'; lia).
  cbn [bind]. rewrite (at_ok ys (i - 1) (nth (i - 1) ys zero)) by (apply nth_error_nth'; lia). reflexivity.
Qed.
Lemma grad_lane_spec ys den : grad_lane sub div ys den = Ok (map (grad_val ys den) (seq 0 (length ys))).
Proof. unfold grad_lane. apply mapM_ok. intros i Hi. apply in_seq in Hi. apply grad_at_spec. lia. Qed.

Lemma gradient_lanes_spec (f : list V) a den axis n : wf f a -> nth_error (a_shape a) axis = Some n -> 1 < n ->
  same_bases a axis ->
  exists out, gradient_lanes zero sub div rd (f, a) den axis = Ok (a_shape a, out) /\ length out = prod (a_shape a) /\
    forall oi j lv, inb oi (remove_at axis (a_shape a)) -> j < n -> lane f a axis oi = map Some lv ->
      get out (fresh (a_shape a) 8) (insert_at axis j oi) = Some (grad_val (map rd lv) den j).
Proof.
  intros W Hn H1 SB. destruct (strides_at f a axis n W Hn) as [st Hs].
  pose proof W as (_ & _ & _ & HLS & _).
  assert (HAx : axis < length (a_shape a)) by (apply nth_error_Some; congruence).
  set (sh := a_shape a) in *. set (osh := remove_at axis sh) in *.
  set (fr := fresh sh 8). assert (HLf : length (a_strides fr) = length (a_shape fr)) by (cbn; apply c_strides_length).
  destruct (nth_error (c_strides sh 8) axis) as [ost|] eqn:Ho.
  2:{ apply nth_error_None in Ho. rewrite c_strides_length in Ho. lia. }
  unfold gradient_lanes. cbn [fst snd]. fold sh. rewrite (at_ok _ _ _ Hn). cbn [bind].
  destruct (Nat.leb_spec n 1); [lia|]. rewrite (at_ok _ _ _ Hs). cbn [bind]. rewrite (at_ok _ _ _ Ho). cbn [bind].
  rewrite axis_offsets_spec by exact HLS. fold sh osh.
  assert (EX : exists LV, forall oi, inb oi osh -> lane f a axis oi = map Some (LV oi) /\ length (LV oi) = n).
  { exists (fun oi => flat_map (fun v => match v with Some w => [w] | None => [] end) (lane f a axis oi)).
    intros oi Hoi. destruct (lane_vals f a axis oi n W Hn Hoi) as (lv & E & HL).
    assert (EE : flat_map (fun v => match v with Some w => [w] | None => [] end) (lane f a axis oi) = lv).
    { rewrite E. clear. induction lv as [|v lv IH]; cbn; [reflexivity|]. f_equal. exact IH. }
    rewrite EE. auto. }
  destruct EX as [LV HLV].
  set (val := fun (p : list nat * nat) => grad_val (map rd (LV (fst p))) den (snd p)).
  set (step := fun (b : list R) (p : list nat * nat) =>
     store b 8 (dot (fst p) (remove_at axis (a_strides a)) + Z.of_nat (snd p) * ost)%Z (val p)).
  set (body := fun buf base => bind (read_run f a base st n) (fun d => bind (grad_lane sub div (map rd d) den) (write_lane buf base ost))).
  assert (FM : forall l s, (forall oi, In oi l -> inb oi osh) ->
     foldM body (map (fun oi => dot oi (remove_at axis (a_strides a))) l) s
     = foldM (fun s oi => foldM (fun s j => step s (oi, j)) (seq 0 n) s) l s).
  { induction l as [|oi l IH]; intros s HI; [reflexivity|]. cbn [map foldM].
    destruct (HLV oi (HI oi (or_introl eq_refl))) as [EL HLn].
    assert (EB : body s (dot oi (remove_at axis (a_strides a))) = foldM (fun s j => step s (oi, j)) (seq 0 n) s).
    { unfold body. rewrite (read_lane f a axis oi n st (LV oi)) by (try assumption; apply HI; left; reflexivity). cbn [bind].
      rewrite grad_lane_spec. cbn [bind]. rewrite map_length, HLn. unfold write_lane. rewrite map_length, seq_length.
      rewrite <- (map_id (seq 0 n)) at 1. rewrite combine_map. rewrite foldM_map'.
      apply foldM_ext. intros s' j _. unfold step, val. cbn [fst snd]. reflexivity. }
    rewrite EB. destruct (foldM (fun s j => step s (oi, j)) (seq 0 n) s); cbn [bind]; try reflexivity.
    apply IH. intros; apply HI; right; assumption. }
  rewrite FM by (intros oi; apply in_all_idx).
  rewrite (foldM_nested step (fun _ => seq 0 n)).
  set (L := flat_map (fun i => map (pair i) (seq 0 n)) (all_idx osh)).
  assert (HIN : forall p, In p L <-> inb (fst p) osh /\ snd p < n).
  { intros [oi j]. unfold L. rewrite in_flat_map. cbn [fst snd]. split.
    - intros (o & Ho' & Hin). apply in_map_iff in Hin as (j' & [= -> ->] & Hj). apply in_seq in Hj. apply in_all_idx in Ho'. split; [exact Ho'|lia].
    - intros [Ho' Hj]. exists oi. split; [apply in_all_idx; exact Ho'|]. apply in_map_iff. exists j. split; [reflexivity|]. apply in_seq. lia. }
  assert (HIB : forall p, In p L -> inb (insert_at axis (snd p) (fst p)) sh).
  { intros p Hp. apply HIN in Hp as [A B]. apply (lane_inb _ _ _ _ n); assumption. }
  rewrite (foldM_write_all step (fun p => rank sh (insert_at axis (snd p) (fst p))) val (prod sh)).
  2:{ intros p Hp. pose proof (HIB p Hp) as IB. split; [apply rank_lt; exact IB|]. intros b Hb. unfold step.
      apply HIN in Hp as [Hp1 Hp2].
      replace (dot (fst p) (remove_at axis (a_strides a)) + Z.of_nat (snd p) * ost)%Z with (8 * Z.of_nat (rank sh (insert_at axis (snd p) (fst p))))%Z.
      { apply store_rank; [lia|]. rewrite Hb. apply rank_lt. exact IB. }
      rewrite (SB (fst p) Hp1). fold sh.
      pose proof (lane_dot fr axis (fst p) (snd p) ost n HLf Ho Hn Hp1) as LD. cbn [fr fresh a_strides a_shape] in LD. rewrite <- LD.
      pose proof (dot_c_strides sh 8 (insert_at axis (snd p) (fst p))) as DC. rewrite DC. lia. }
  2:{ apply repeat_length. }
  destruct (write_all_spec (map (fun p => (rank sh (insert_at axis (snd p) (fst p)), val p)) L) (repeat zero (prod sh))) as (out & E & HLen & HN).
  { intros q w Hin. apply in_map_iff in Hin as (p & [= <- <-] & Hp). rewrite repeat_length. apply rank_lt, HIB, Hp. }
  rewrite repeat_length in HLen. exists out. rewrite E. cbn [bind]. split; [reflexivity|]. split; [exact HLen|].
  intros oi j lv Hoi Hj Hlv. unfold fr; rewrite fresh_get by reflexivity.
  destruct (HLV oi Hoi) as [EL _]. rewrite EL in Hlv.
  assert (LV oi = lv) as <-. { apply (map_Some_inj _ _ Hlv). }
  apply (HN (rank sh (insert_at axis j oi))).
  - apply in_map_iff. exists (oi, j). split; [reflexivity|]. apply HIN. cbn; auto.
  - intros v' Hv'. apply in_map_iff in Hv' as ([oi' j'] & [= ER <-] & Hp). cbn [fst snd] in *.
    pose proof (HIB _ Hp) as IB'. cbn [fst snd] in IB'. apply HIN in Hp as [Hp1 Hp2]. cbn [fst snd] in *.
    apply rank_inj in ER; [|exact IB'|apply (lane_inb _ _ _ _ n); assumption].
    assert (LO : forall o, inb o osh -> axis <= length o).
    { intros o Hoo. apply inb_length in Hoo. rewrite Hoo. unfold osh. rewrite remove_at_length by exact HAx. lia. }
    apply insert_at_inj in ER as [-> ->]; [reflexivity|apply LO; exact Hp1|apply LO; exact Hoi].
Qed.

End G.

(* a one-dimensional array of any layout, and a row-major array of 8-byte items *)
Lemma same_bases_1d a : ndim a = 1 -> length (a_strides a) = 1 -> same_bases a 0.
Proof.
  unfold ndim, same_bases. destruct (a_shape a) as [|s [|]]; try discriminate. destruct (a_strides a) as [|t [|]]; try discriminate.
  intros _ _ oi Hoi. cbn [remove_at] in *. inversion Hoi. reflexivity.
Qed.
Lemma same_bases_c a axis n : length (a_strides a) = length (a_shape a) -> nth_error (a_shape a) axis = Some n -> 0 < n ->
  is_c_contiguous (a_shape a) (a_strides a) 8 = true -> same_bases a axis.
Proof.
  intros HL Hn H0 HC oi Hoi.
  assert (HA : axis < length (a_shape a)) by (apply nth_error_Some; congruence).
  assert (HA2 : axis < length (a_strides a)) by lia.
  destruct (nth_error (a_strides a) axis) as [st|] eqn:Hs; [|apply nth_error_None in Hs; lia].
  destruct (nth_error (c_strides (a_shape a) 8) axis) as [ost|] eqn:Ho.
  2:{ apply nth_error_None in Ho. rewrite c_strides_length in Ho. lia. }
  pose proof (lane_dot a axis oi 0 st n HL Hs Hn Hoi) as D1.
  pose proof (lane_dot (fresh (a_shape a) 8) axis oi 0 ost n ltac:(cbn; apply c_strides_length) Ho Hn Hoi) as D2.
  cbn [fresh a_strides a_shape] in D2.
  assert (IB : inb (insert_at axis 0 oi) (a_shape a)) by (apply (lane_inb _ _ _ _ n); [exact Hn|exact Hoi|lia]).
  pose proof (c_contig_dot _ _ _ _ HL IB HC) as D3. pose proof (dot_c_strides (a_shape a) 8 (insert_at axis 0 oi)) as D4. lia.
Qed.
