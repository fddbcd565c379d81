(* C40-C43, C45, C67, C68: array manipulation routines. *)
From Verif Require Import Base Lists Arr_Spec Arr_Model Arr_Wf Arr_Proofs Arr_Hist Wf_Check Copy_Model Copy_Proofs Idx_Model
  Int_Model F64_Model F64_Proofs Elem_Model Elem_Proofs Red_Spec Red_Model Red_Proofs Red_Scan Sort_Lanes Sort_Api
  Man_Spec Man_Model Man_Proofs Man_Ops Man_Ops2 Man_Edit.
Local Open Scope nat_scope.

Ltac wfc := apply wf_check_sound; vm_compute; reflexivity.

(* ---- C40 ------------------------------------------------------------------ *)

(* concatenate of arrays of one dtype: every lane of the result along the axis is
   the operands' lanes one after the other; shapes that differ off the axis are an
   error, and nothing else is *)
Theorem C40_concatenate_partial : forall {V} (zero : V) (l : list nd) x0 axis,
  nth_error l 0 = Some x0 -> (forall x, In x l -> wf (fst x) (snd x)) ->
  let sh := a_shape (snd x0) in
  let compatible := axis < length sh /\
    (forall x, In x l -> length (a_shape (snd x)) = length sh /\ remove_at axis (a_shape (snd x)) = remove_at axis sh) in
  let osh := upd sh axis (list_sum (map (fun x => nth axis (a_shape (snd x)) 0) l)) in
  (compatible -> exists out, concat_nd zero l axis = Ok (osh, out) /\ length out = prod osh /\
     forall item oi, (0 < item)%Z -> inb oi (remove_at axis sh) ->
       lane out (fresh osh item) axis oi = concat (map (fun x => lane (fst x) (snd x) axis oi) l)) /\
  (~ compatible -> concat_nd zero l axis = Err).
Proof. intros V zero l x0 axis E0 W. exact (concat_nd_spec zero l x0 axis E0 W). Qed.

Example C40_concatenate_nonvacuous :
  let x := ([1; 2; 3; 4; 5; 6], fresh [2; 3] 8) in
  let y := ([7; 8; 9; 10], mkArr 0 [2; 2] [8; 16]%Z 8 false true) in
  wf (fst x) (snd x) /\ wf (fst y) (snd y) /\
  concat_nd 0 [x; y] 1 = Ok ([2; 5], [1; 2; 3; 7; 9; 4; 5; 6; 8; 10]) /\ concat_nd 0 [x; y] 0 = Err.
Proof. split; [wfc|]. split; [wfc|]. split; vm_compute; reflexivity. Qed.

(* missing: operands of different dtypes.  The items of every operand are read with
   the first operand's item type.  Here an int64 array is followed by an int8 array
   of one element: the 8-byte read runs past the end of the 1-byte buffer. *)
Theorem C40_concatenate_mixed_refuted : exists (a b : arr) (bytes_a bytes_b : list Z) (read64 : list Z -> Z -> option Z),
  wf bytes_b b /\ a_shape a = [1] /\ a_shape b = [1] /\
  (forall bs addr, read64 bs addr = None <-> ~ (0 <= addr /\ addr + 8 <= Z.of_nat (length bs))%Z) /\
  concatenate 0%Z [mkOp a (read64 bytes_a); mkOp b (read64 bytes_b)] 0 = Fault.
Proof.
  exists (fresh [1] 8), (fresh [1] 1), [44; 1; 0; 0; 0; 0; 0; 0]%Z, [5]%Z,
    (fun bs addr => if ((0 <=? addr) && (addr + 8 <=? Z.of_nat (length bs)))%Z
                    then Some (fold_right (fun x acc => x + 256 * acc)%Z 0%Z (firstn 8 (skipn (Z.to_nat addr) bs))) else None).
  split; [wfc|]. split; [reflexivity|]. split; [reflexivity|]. split; [|vm_compute; reflexivity].
  intros bs addr. destruct (Z.leb_spec 0 addr), (Z.leb_spec (addr + 8) (Z.of_nat (length bs))); cbn [andb]; split; intros; try discriminate; try lia; reflexivity.
Qed.

(* stack: a new axis along which the operands are listed *)
Theorem C40_stack : forall {V} (zero : V) (l : list nd) x0 axis,
  nth_error l 0 = Some x0 -> (forall x, In x l -> wf (fst x) (snd x)) ->
  let sh := a_shape (snd x0) in
  let compatible := axis <= length sh /\ (forall x, In x l -> a_shape (snd x) = sh) in
  (compatible -> exists out, stack zero (map operand_of l) axis = Ok (insert_at axis (length l) sh, out) /\
     length out = length l * prod sh /\
     forall item idx k x, (0 < item)%Z -> inb idx sh -> nth_error l k = Some x ->
       get out (fresh (insert_at axis (length l) sh) item) (insert_at axis k idx) = get (fst x) (snd x) idx) /\
  (~ compatible -> stack zero (map operand_of l) axis = Err).
Proof.
  intros V zero l x0 axis E0 W sh compatible. destruct (stack_spec zero l x0 axis E0 W) as [S1 S2]. split; [|exact S2].
  intros [HA HS]. destruct (S1 HA HS) as (out & E & L & HN). exists out. split; [exact E|]. split; [exact L|].
  intros item idx k x HI Hi Hk. pose proof (HN item idx HI Hi) as HL.
  assert (HE := f_equal (fun z => nth_error z k) HL). cbn beta in HE. unfold lane in HE. cbn [fresh a_shape] in HE.
  unfold nd in *. rewrite !nth_error_map', Hk, nth_error_seq in HE. cbn [option_map] in HE.
  fold sh in HE. destruct (k <? nth axis (insert_at axis (length l) sh) 0); cbn [option_map Nat.add] in HE; [|discriminate]. injection HE as HE. exact HE.
Qed.
Example C40_stack_nonvacuous :
  stack 0 (map operand_of [([1; 2], fresh [2] 8); ([3; 4], fresh [2] 8); ([5; 6], fresh [2] 8)]) 1 = Ok ([2; 3], [1; 3; 5; 2; 4; 6]).
Proof. vm_compute. reflexivity. Qed.

(* array_split: k views of a; piece i starts at part_start n k i, has part_size n k i
   positions along the axis, and its lanes are the corresponding stretches of a's *)
Theorem C40_array_split_partial : forall {V} (buf : list V) a k axis n stride,
  wf buf a -> 0 < k -> nth_error (a_shape a) axis = Some n ->
  nth_error (a_strides a) axis = Some stride -> (0 <= stride)%Z ->
  exists ps, array_split a k axis = Ok ps /\ length ps = k /\
    forall i p, nth_error ps i = Some p ->
      wf buf p /\ a_shape p = upd (a_shape a) axis (part_size n k i) /\
      forall oi, inb oi (remove_at axis (a_shape a)) ->
        lane buf p axis oi = firstn (part_size n k i) (skipn (part_start n k i) (lane buf a axis oi)).
Proof.
  intros V buf a k axis n stride W Hk Hn HS HS0.
  destruct (array_split_spec buf a k axis n stride W Hk Hn HS HS0) as (ps & E & L & H).
  exists ps. split; [exact E|]. split; [exact L|]. intros i p Hp. destruct (H i p Hp) as (W' & S' & _ & HL).
  split; [exact W'|]. split; [exact S'|]. intros oi Ho. rewrite (HL oi Ho). apply lane_seq.
  rewrite (nth_error_nth _ _ _ Hn). apply nth_error_Some_lt in Hp || (assert (Hp' : nth_error ps i <> None) by congruence; apply nth_error_Some in Hp').
  pose proof (sum_parts n k i 1) as H1. pose proof (sum_parts n k (i + 1) (k - (i + 1))) as H2.
  replace (i + 1 + (k - (i + 1))) with k in H2 by lia. rewrite part_start_end in H2 by exact Hk. cbn [seq map list_sum fold_right] in H1. lia.
Qed.

(* the pieces are consecutive, cover the axis, and the first n mod k are one longer *)
Theorem C40_pieces_cover : forall n k, 0 < k ->
  part_start n k 0 = 0 /\ (forall i, part_start n k i + part_size n k i = part_start n k (S i)) /\ part_start n k k = n /\
  (forall i, i < n mod k -> part_size n k i = n / k + 1) /\ (forall i, n mod k <= i -> part_size n k i = n / k).
Proof.
  intros n k Hk. split; [reflexivity|]. split.
  { intros i. pose proof (sum_parts n k i 1) as H. cbn [seq map list_sum fold_right] in H. replace (i + 1) with (S i) in H by lia. lia. }
  split; [apply part_start_end; exact Hk|]. unfold part_size. split; intros i Hi; destruct (Nat.ltb_spec i (n mod k)); try reflexivity; lia.
Qed.
Example C40_pieces_nonvacuous : map (part_size 11 4) (seq 0 4) = [3; 3; 3; 2] /\ map (part_start 11 4) (seq 0 4) = [0; 3; 6; 9].
Proof. split; reflexivity. Qed.

(* arrays with equal lanes have equal elements *)
Lemma lanes_eq {V} (b1 b2 : list V) a1 a2 axis : a_shape a1 = a_shape a2 -> axis < length (a_shape a1) ->
  (forall oi, inb oi (remove_at axis (a_shape a1)) -> lane b1 a1 axis oi = lane b2 a2 axis oi) ->
  forall idx, inb idx (a_shape a1) -> get b1 a1 idx = get b2 a2 idx.
Proof.
  intros ES HA HL idx Hi. pose proof (inb_length _ _ Hi) as LI.
  specialize (HL (remove_at axis idx) (inb_remove_at axis _ _ Hi)).
  assert (HE := f_equal (fun z => nth_error z (nth axis idx 0)) HL). cbn beta in HE. unfold lane in HE.
  rewrite !nth_error_map', !nth_error_seq, <- ES in HE.
  assert (HB : nth axis idx 0 < nth axis (a_shape a1) 0) by (apply (nth_inb _ _ axis _ Hi); apply nth_error_nth'; exact HA).
  destruct (Nat.ltb_spec (nth axis idx 0) (nth axis (a_shape a1) 0)); [|lia]. cbn [option_map Nat.add] in HE. injection HE as HE.
  rewrite (insert_remove_at axis (nth axis idx 0) idx) in HE by (apply nth_error_nth'; lia). exact HE.
Qed.

(* concatenating the pieces gives back a *)
Theorem C40_concatenate_split_partial : forall {V} (zero : V) (buf : list V) a k axis n stride,
  wf buf a -> 0 < k -> nth_error (a_shape a) axis = Some n ->
  nth_error (a_strides a) axis = Some stride -> (0 <= stride)%Z ->
  exists ps out, array_split a k axis = Ok ps /\ concat_nd zero (map (fun p => (buf, p)) ps) axis = Ok (a_shape a, out) /\
    forall item idx, (0 < item)%Z -> inb idx (a_shape a) -> get out (fresh (a_shape a) item) idx = get buf a idx.
Proof.
  intros V zero buf a k axis n stride W Hk Hn HS HS0.
  assert (HA : axis < length (a_shape a)) by (apply nth_error_Some; congruence).
  destruct (array_split_spec buf a k axis n stride W Hk Hn HS HS0) as (ps & E & L & H).
  destruct ps as [|p0 ps]; [cbn in L; lia|]. set (P := p0 :: ps) in *.
  assert (HP : forall p, In p P -> exists i, nth_error P i = Some p) by (intros p; apply In_nth_error).
  destruct (concat_nd_spec zero (map (fun p => (buf, p)) P) (buf, p0) axis eq_refl) as [S1 _].
  { intros x Hx. apply in_map_iff in Hx as (p & <- & Hp). destruct (HP p Hp) as [i Hi]. apply (H i p Hi). }
  cbn [snd] in S1. destruct (H 0 p0 eq_refl) as (_ & SH0 & _). rewrite SH0, upd_upd, upd_length in S1.
  assert (SUM : list_sum (map (axis_len axis) (map (fun p => (buf, p)) P)) = n).
  { rewrite map_map. rewrite <- (part_start_end n k Hk). pose proof (sum_parts n k 0 k) as HSum. cbn [part_start Nat.add Nat.mul Nat.min] in HSum.
    rewrite <- HSum at 1. rewrite Nat.add_0_r. f_equal. apply nth_error_ext. intros i. rewrite !nth_error_map', nth_error_seq.
    destruct (nth_error P i) as [p|] eqn:Ep.
    - assert (Hi : i < k) by (rewrite <- L; apply nth_error_Some; congruence). destruct (Nat.ltb_spec i k); [|lia]. cbn [option_map Nat.add].
      f_equal. unfold axis_len. cbn [snd]. destruct (H i p Ep) as (_ & -> & _). apply nth_error_nth. apply nth_error_upd_eq. exact HA.
    - apply nth_error_None in Ep. destruct (Nat.ltb_spec i k); [lia|reflexivity]. }
  rewrite SUM in S1. assert (ESH : upd (a_shape a) axis n = a_shape a).
  { rewrite <- (nth_error_nth _ _ 0 Hn). apply upd_nth_same. exact HA. }
  rewrite ESH in S1. destruct S1 as (out & EO & LO & HN).
  { split; [exact HA|]. intros x Hx. apply in_map_iff in Hx as (p & <- & Hp). destruct (HP p Hp) as [i Hi].
    destruct (H i p Hi) as (_ & Sp & _). cbn [snd]. rewrite Sp, upd_length, !remove_at_upd. split; reflexivity. }
  exists P, out. split; [exact E|]. split; [exact EO|]. intros item idx HI Hi.
  apply (lanes_eq out buf (fresh (a_shape a) item) a axis eq_refl HA); [|exact Hi]. cbn [fresh a_shape]. fold (fresh (a_shape a) item). intros oi Ho.
  rewrite HN; [|exact HI|rewrite remove_at_upd; exact Ho]. rewrite map_map. cbn [fst snd].
  exact (pieces_lane buf a axis n k P oi Hk L Hn Ho H).
Qed.
Example C40_array_split_nonvacuous :
  let buf := [1; 2; 3; 4; 5; 6; 7; 8; 9; 10] in let a := fresh [2; 5] 8 in
  wf buf a /\ exists ps, array_split a 3 1 = Ok ps /\ map (fun p => elems buf p) ps =
    [map Some [1; 2; 6; 7]; map Some [3; 4; 8; 9]; map Some [5; 10]] /\
  concat_nd 0 (map (fun p => (buf, p)) ps) 1 = Ok ([2; 5], buf).
Proof. split; [wfc|]. eexists. split; [reflexivity|]. split; vm_compute; reflexivity. Qed.

(* missing: reversed views.  The second half of array_split(x[::-1], 2) is not the
   second half of the reversed sequence *)
Theorem C40_array_split_refuted : exists (buf : list nat) a ps, wf buf a /\ elems buf a = map Some [4; 3; 2; 1] /\
  array_split a 2 0 = Ok ps /\ map (fun p => elems buf p) ps <> [map Some [4; 3]; map Some [2; 1]].
Proof.
  exists [1; 2; 3; 4], (mkArr 24 [4] [-8]%Z 8 false false). eexists. split; [wfc|]. split; [vm_compute; reflexivity|].
  split; [reflexivity|]. vm_compute. discriminate.
Qed.

(* split is array_split restricted to sections of equal length *)
Theorem C40_split : forall a k axis n, nth_error (a_shape a) axis = Some n ->
  split a k axis = if (k =? 0) || negb (n mod k =? 0) then Err else array_split a k axis.
Proof.
  intros a k axis n Hn. assert (HA : axis < length (a_shape a)) by (apply nth_error_Some; congruence).
  unfold split, array_split. unfold ndim. destruct (Nat.leb_spec (length (a_shape a)) axis); [lia|]. rewrite orb_false_r.
  destruct (Nat.eqb_spec k 0); [reflexivity|]. cbn [orb]. rewrite (nth_error_nth _ _ _ Hn).
  destruct (Nat.eqb_spec (n mod k) 0) as [E|E]; [|reflexivity]. cbn [negb]. rewrite E. f_equal.
  apply nth_error_ext. intros i. rewrite nth_error_map', nth_error_seq. destruct (Nat.ltb_spec i k).
  - cbn [option_map]. destruct (Nat.ltb_spec (0 + i) 0); [lia|]. apply nth_error_repeat. assumption.
  - apply nth_error_None. rewrite repeat_length. lia.
Qed.

(* ---- C41 ------------------------------------------------------------------ *)

(* the values of a survive read_f64/write_f64 *)
Definition survives {V} (via : V -> V) (buf : list V) (a : arr) : Prop :=
  forall idx v, inb idx (a_shape a) -> get buf a idx = Some v -> via v = v.

(* integers of magnitude at most 2^53 do *)
Theorem C41_survives_small : forall t buf a, wf buf a ->
  (forall idx v, inb idx (a_shape a) -> get buf a idx = Some v -> representable t v /\ (Z.abs v <= 2 ^ 53)%Z) ->
  survives (through_f64 t) buf a.
Proof. intros t buf a W H idx v Hi Hv. destruct (H idx v Hi Hv) as [HR HB]. apply through_f64_small; assumption. Qed.

Lemma elems_survive {V} (via : V -> V) (buf : list V) a vals : survives via buf a -> elems buf a = map Some vals ->
  forall v, In v vals -> via v = v.
Proof.
  intros HS E v Hv. assert (H : In (Some v) (elems buf a)) by (rewrite E; apply in_map; exact Hv).
  unfold elems in H. apply in_map_iff in H as (idx & Ei & Hi). apply in_all_idx in Hi. exact (HS idx v Hi Ei).
Qed.

Theorem C41_repeat_flat_partial : forall {V} (zero : V) via buf a vals r,
  wf buf a -> elems buf a = map Some vals -> survives via buf a ->
  exists out, repeat_arr zero via buf a r None = Ok ([size a * r], out) /\ length out = size a * r /\
    forall i, i < size a * r -> nth_error out i = nth_error vals (i / r).
Proof.
  intros V zero via buf a vals r W E HS. destruct (Nat.eq_dec r 0) as [->|Hr].
  { exists []. rewrite Nat.mul_0_r. repeat split; try reflexivity; lia. }
  destruct (repeat_flat_spec zero via buf a vals r W E) as (out & EO & L & H); [lia|].
  exists out. split; [exact EO|]. split; [exact L|]. intros i Hi. rewrite H. destruct (nth_error vals (i / r)) as [v|] eqn:Ev; [|reflexivity].
  cbn [option_map]. f_equal. apply (elems_survive via buf a vals HS E). exact (nth_error_In _ _ Ev).
Qed.

Theorem C41_repeat_axis_partial : forall {V} (zero : V) via buf a r axis n item,
  wf buf a -> 0 < r -> (0 < item)%Z -> nth_error (a_shape a) axis = Some n -> survives via buf a ->
  let nsh := upd (a_shape a) axis (n * r) in
  exists out, repeat_arr zero via buf a r (Some (Z.of_nat axis)) = Ok (nsh, out) /\ length out = prod nsh /\
    forall idx, inb idx nsh -> get out (fresh nsh item) idx = get buf a (upd idx axis (nth axis idx 0 / r)).
Proof.
  intros V zero via buf a r axis n item W Hr HI Hn HS nsh.
  assert (HA : axis < ndim a) by (apply nth_error_Some; congruence).
  assert (EA : norm_axis (ndim a) (Z.of_nat axis) = Some axis).
  { rewrite norm_axis_spec. destruct (Z.leb_spec (- Z.of_nat (ndim a)) (Z.of_nat axis)), (Z.ltb_spec (Z.of_nat axis) (Z.of_nat (ndim a))); cbn [andb]; try lia.
    destruct (Z.ltb_spec (Z.of_nat axis) 0); [lia|]. f_equal. lia. }
  destruct (repeat_axis_spec zero via buf a r (Z.of_nat axis) axis n item W Hr HI EA Hn) as (out & EO & L & H).
  exists out. split; [exact EO|]. split; [exact L|]. intros idx Hi. destruct (H idx Hi) as [HB HG]. unfold nsh. rewrite HG.
  destruct (get buf a (upd idx axis (nth axis idx 0 / r))) as [v|] eqn:Ev; [|reflexivity]. cbn [option_map]. f_equal. exact (HS _ v HB Ev).
Qed.
Example C41_repeat_nonvacuous :
  let buf := [1; 2; 3; 4; 5; 6] in
  wf buf (fresh [2; 3] 8) /\ repeat_arr 0 id buf (fresh [2; 3] 8) 2 (Some 1%Z) = Ok ([2; 6], [1; 1; 2; 2; 3; 3; 4; 4; 5; 5; 6; 6]) /\
  repeat_arr 0 id buf (mkArr 0 [3] [16]%Z 8 false false) 2 None = Ok ([6], [1; 1; 3; 3; 5; 5]).
Proof. split; [wfc|]. split; vm_compute; reflexivity. Qed.

(* tile: coordinates are taken modulo the axis lengths of a, both shapes aligned at
   the right *)
Theorem C41_tile_partial : forall {V} (zero : V) via typed buf a reps item,
  wf buf a -> (0 < item)%Z -> (length reps <= ndim a \/ exists r, In r reps /\ r <> 1) -> survives via buf a ->
  let d := Nat.max (ndim a) (length reps) in
  let padded_shape := repeat 1 (d - ndim a) ++ a_shape a in
  let nsh := zip_with Nat.mul padded_shape (repeat 1 (d - length reps) ++ reps) in
  exists out, tile zero via typed buf a reps = Ok (nsh, out) /\ length out = prod nsh /\
    forall idx, inb idx nsh ->
      let src := skipn (d - ndim a) (zip_with Nat.modulo idx padded_shape) in
      inb src (a_shape a) /\ get out (fresh nsh item) idx = get buf a src.
Proof. intros V zero via typed buf a reps item W HI HR HS. exact (tile_spec zero via typed buf a reps item W HI HR HS). Qed.
Example C41_tile_nonvacuous :
  tile 0 id true [1; 2; 3; 4] (fresh [2; 2] 8) [2; 3] =
    Ok ([4; 6], [1; 2; 1; 2; 1; 2; 3; 4; 3; 4; 3; 4; 1; 2; 1; 2; 1; 2; 3; 4; 3; 4; 3; 4]) /\
  tile 0 id true [1; 2] (fresh [2] 8) [2; 2] = Ok ([2; 4], [1; 2; 1; 2; 1; 2; 1; 2]).
Proof. split; vm_compute; reflexivity. Qed.

Theorem C41_roll_axis_partial : forall {V} (zero : V) via typed buf a shift axis n,
  wf buf a -> nth_error (a_shape a) axis = Some n -> survives via buf a ->
  exists out, roll zero via typed buf a shift (Some (Z.of_nat axis)) = Ok (a_shape a, out) /\ length out = size a /\
    forall item idx, (0 < item)%Z -> inb idx (a_shape a) ->
      get out (fresh (a_shape a) item) (upd idx axis (rolled n shift (nth axis idx 0))) = get buf a idx.
Proof.
  intros V zero via typed buf a shift axis n W Hn HS.
  assert (HA : axis < ndim a) by (apply nth_error_Some; congruence).
  apply roll_axis_spec; try assumption. rewrite norm_axis_spec.
  destruct (Z.leb_spec (- Z.of_nat (ndim a)) (Z.of_nat axis)), (Z.ltb_spec (Z.of_nat axis) (Z.of_nat (ndim a))); cbn [andb]; try lia.
  destruct (Z.ltb_spec (Z.of_nat axis) 0); [lia|]. f_equal. lia.
Qed.

(* without an axis: the elements in row-major order are rolled *)
Theorem C41_roll_flat_partial : forall {V} (zero : V) via typed buf a vals shift,
  wf buf a -> elems buf a = map Some vals -> (a_c a = true \/ a_f a = false) ->
  (Z.of_nat (size a) * a_item a < 2 ^ 63)%Z ->
  exists out, roll zero via typed buf a shift None = Ok (a_shape a, out) /\ length out = size a /\
    forall i, i < size a -> nth_error out (rolled (size a) shift i) = nth_error vals i.
Proof. intros V zero via typed buf a vals shift W E HF HB. exact (roll_flat_spec zero via typed buf a vals shift W E HF HB). Qed.

(* roll by s, then by -s *)
Theorem C41_roll_inverse_partial : forall {V} (zero : V) via typed buf a shift axis n item,
  wf buf a -> nth_error (a_shape a) axis = Some n -> survives via buf a ->
  (0 < item)%Z -> (Z.of_nat (size a) * item < 2 ^ 63)%Z ->
  exists out back, roll zero via typed buf a shift (Some (Z.of_nat axis)) = Ok (a_shape a, out) /\
    roll zero via typed out (fresh (a_shape a) item) (- shift) (Some (Z.of_nat axis)) = Ok (a_shape a, back) /\
    forall idx, inb idx (a_shape a) -> get back (fresh (a_shape a) item) idx = get buf a idx.
Proof.
  intros V zero via typed buf a shift axis n item W Hn HS HI HB.
  assert (HA : axis < length (a_shape a)) by (apply nth_error_Some; congruence).
  destruct (C41_roll_axis_partial zero via typed buf a shift axis n W Hn HS) as (out & E & L & H).
  assert (INB : forall s idx, inb idx (a_shape a) -> inb (upd idx axis (rolled n s (nth axis idx 0))) (a_shape a)).
  { intros s idx Hi. pose proof (nth_inb _ _ axis n Hi Hn) as HX.
    rewrite <- (upd_same (a_shape a) axis n Hn). apply inb_upd; [exact Hi|]. apply rolled_lt. lia. }
  assert (LT : forall idx, inb idx (a_shape a) -> nth axis idx 0 < n).
  { intros idx Hi. exact (nth_inb _ _ axis n Hi Hn). }
  assert (RT : forall s idx, inb idx (a_shape a) ->
     upd (upd idx axis (rolled n s (nth axis idx 0))) axis (rolled n (- s) (nth axis (upd idx axis (rolled n s (nth axis idx 0))) 0)) = idx).
  { intros s idx Hi. pose proof (inb_length _ _ Hi). rewrite upd_upd, nth_upd_same, rolled_inv by (try lia; apply LT; exact Hi). apply upd_nth_same. lia. }
  destruct (C41_roll_axis_partial zero via typed out (fresh (a_shape a) item) (- shift) axis n) as (back & E2 & L2 & H2).
  { apply fresh_wf; [exact HI|rewrite L; exact HB|exact L]. }
  { exact Hn. }
  { intros idx v Hi Hv. cbn [fresh a_shape] in Hi. fold (fresh (a_shape a) item) in Hv.
    pose proof (H item _ HI (INB (- shift)%Z idx Hi)) as HX. pose proof (RT (- shift)%Z idx Hi) as HR. rewrite Z.opp_involutive in HR. rewrite HR, Hv in HX.
    exact (HS _ v (INB _ idx Hi) (eq_sym HX)). }
  exists out, back. split; [exact E|]. split; [exact E2|]. intros idx Hi.
  pose proof (H2 item _ HI (INB shift idx Hi)) as HX. cbn [fresh a_shape] in HX. rewrite (RT shift idx Hi) in HX.
  rewrite HX. apply H; assumption.
Qed.
Example C41_roll_nonvacuous :
  roll 0 id true [1; 2; 3; 4; 5; 6] (fresh [2; 3] 8) (-4) (Some 1%Z) = Ok ([2; 3], [2; 3; 1; 5; 6; 4]) /\
  roll 0 id true [1; 2; 3; 4; 5; 6] (fresh [2; 3] 8) 7 None = Ok ([2; 3], [6; 1; 2; 3; 4; 5]).
Proof. split; vm_compute; reflexivity. Qed.

(* missing, because false of the code: *)
(* values that do not fit a double are changed *)
Theorem C41_int64_refuted : let v := 9007199254740993%Z in representable int64_t v /\
  repeat_arr 0%Z (through_f64 int64_t) [v] (fresh [1] 8) 1 None = Ok ([1], [9007199254740992%Z]) /\
  tile 0%Z (through_f64 int64_t) true [v] (fresh [1; 1] 8) [1; 2] = Ok ([1; 2], [9007199254740992; 9007199254740992]%Z) /\
  roll 0%Z (through_f64 int64_t) true [v; 0]%Z (fresh [2] 8) 1 (Some 0%Z) = Ok ([2], [0; 9007199254740992]%Z).
Proof. split; [vm_compute; split; discriminate|]. repeat split; vm_compute; reflexivity. Qed.
(* zero repetitions along an axis: shape [0] instead of [2; 0] *)
Theorem C41_repeat_zero_refuted : forall {V} (zero : V) via buf, repeat_arr zero via buf (fresh [2; 3] 8) 0 (Some 1%Z) = Ok ([0], []).
Proof. reflexivity. Qed.
(* tile(x, (1, 1)) of a vector stays one-dimensional; the shape should be [1; 2] *)
Theorem C41_tile_ones_refuted : tile 0 id true [7; 8] (fresh [2] 8) [1; 1] = Ok ([2], [7; 8]) /\
  zip_with Nat.mul [1; 2] [1; 1] = [1; 2].
Proof. split; vm_compute; reflexivity. Qed.
(* roll without axis of a transposed matrix follows memory order *)
Theorem C41_roll_fortran_refuted : exists (buf : list nat) a out, wf buf a /\ elems buf a = map Some [1; 3; 2; 4] /\
  roll 0 id true buf a 1 None = Ok ([2; 2], out) /\ out <> [4; 1; 3; 2].
Proof.
  exists [1; 2; 3; 4], (mkArr 0 [2; 2] [8; 16]%Z 8 false true), [4; 1; 2; 3]. split; [wfc|].
  split; [vm_compute; reflexivity|]. split; [vm_compute; reflexivity|]. discriminate.
Qed.

(* ---- C42 ------------------------------------------------------------------ *)

(* the diagonal number does not overflow when row numbers are added to it *)
Definition diagonal_ok (n : nat) (k : Z) : Prop := (- 2 ^ 63 <= k /\ Z.of_nat n + k < 2 ^ 63)%Z.

Theorem C42_tril_triu_partial : forall {V} (zero : V) buf a k (lower : bool) n m item,
  wf buf a -> a_shape a = [n; m] -> (0 < item)%Z -> diagonal_ok n k ->
  exists out, extract_triangle zero buf a k lower = Ok ([n; m], out) /\ length out = n * m /\
    forall i j, i < n -> j < m ->
      get out (fresh [n; m] item) [i; j] =
      if (if lower then Z.of_nat j - Z.of_nat i <=? k else k <=? Z.of_nat j - Z.of_nat i)%Z then get buf a [i; j] else Some zero.
Proof. intros V zero buf a k lower n m item W S HI HK. exact (extract_triangle_spec zero (fun x => x) buf a k lower n m item W S HI HK). Qed.

(* tril(a, k) + triu(a, k + 1) = a, for any addition with zero as unit *)
Theorem C42_split_partial : forall {V} (zero : V) (add : V -> V -> V) buf a k n m item,
  (forall v, add v zero = v) -> (forall v, add zero v = v) ->
  wf buf a -> a_shape a = [n; m] -> (0 < item)%Z -> diagonal_ok n k -> diagonal_ok n (k + 1) ->
  exists lo hi, extract_triangle zero buf a k true = Ok ([n; m], lo) /\ extract_triangle zero buf a (k + 1) false = Ok ([n; m], hi) /\
    forall i j, i < n -> j < m -> exists x y,
      get lo (fresh [n; m] item) [i; j] = Some x /\ get hi (fresh [n; m] item) [i; j] = Some y /\ get buf a [i; j] = Some (add x y).
Proof.
  intros V zero add buf a k n m item A0 A1 W S HI HK HK1.
  destruct (C42_tril_triu_partial zero buf a k true n m item W S HI HK) as (lo & E1 & _ & H1).
  destruct (C42_tril_triu_partial zero buf a (k + 1) false n m item W S HI HK1) as (hi & E2 & _ & H2).
  exists lo, hi. split; [exact E1|]. split; [exact E2|]. intros i j Hi Hj. rewrite (H1 i j Hi Hj), (H2 i j Hi Hj).
  assert (HG : exists v, get buf a [i; j] = Some v) by (apply W; rewrite S; apply inb_cons; split; [exact Hi|apply inb_cons; split; [exact Hj|constructor]]).
  destruct HG as [v ->].
  destruct (Z.leb_spec (Z.of_nat j - Z.of_nat i) k), (Z.leb_spec (k + 1) (Z.of_nat j - Z.of_nat i)); try lia.
  - exists v, zero. rewrite A0. auto.
  - exists zero, v. rewrite A1. auto.
Qed.

Theorem C42_tri_partial : forall {V} (zero one : V) n m k item, (0 < item)%Z -> diagonal_ok n k ->
  exists out, tri zero one n m k = Ok ([n; m], out) /\ length out = n * m /\
    forall i j, i < n -> j < m ->
      get out (fresh [n; m] item) [i; j] = Some (if (Z.of_nat j - Z.of_nat i <=? k)%Z then one else zero).
Proof. intros V zero one n m k item HI HK. exact (tri_spec zero (fun x => x) one n m k item HI HK). Qed.

(* the index lists: the positions of the triangle, row by row *)
Theorem C42_indices_partial : forall n m k, diagonal_ok n k -> (Z.of_nat n <= 2 ^ 53)%Z -> (Z.of_nat m <= 2 ^ 53)%Z ->
  let listed lower := filter (fun p => in_tri lower k (fst p) (snd p)) (grid n m) in
  tril_indices n k m = (map (fun p => Z.of_nat (fst p)) (listed true), map (fun p => Z.of_nat (snd p)) (listed true)) /\
  triu_indices n k m = (map (fun p => Z.of_nat (fst p)) (listed false), map (fun p => Z.of_nat (snd p)) (listed false)).
Proof. intros n m k HK Hn Hm. exact (tri_indices_spec n m k HK Hn Hm). Qed.

Example C42_nonvacuous :
  let buf := [1; 2; 3; 4; 5; 6] in
  extract_triangle 0 buf (fresh [2; 3] 8) 0 true = Ok ([2; 3], [1; 0; 0; 4; 5; 0]) /\
  extract_triangle 0 buf (fresh [2; 3] 8) 1 false = Ok ([2; 3], [0; 2; 3; 0; 0; 6]) /\
  extract_triangle 0 buf (mkArr 0 [3; 2] [8; 24]%Z 8 false true) (-1) true = Ok ([3; 2], [0; 0; 2; 0; 3; 6]) /\
  tri 0 1 2 3 1 = Ok ([2; 3], [1; 1; 0; 1; 1; 1]) /\
  tril_indices 3 0 2 = ([0; 1; 1; 2; 2]%Z, [0; 0; 1; 0; 1]%Z) /\ triu_indices 2 1 3 = ([0; 0; 1]%Z, [1; 2; 2]%Z) /\
  diagonal_ok 3 (-1).
Proof. split; [vm_compute; reflexivity|]. repeat split; try (vm_compute; reflexivity); vm_compute; discriminate. Qed.

(* missing: diagonals so far out that row + k leaves isize; tril(a, 2^63-1) should be a *)
Theorem C42_overflow_refuted :
  extract_triangle 0 [1; 2; 3; 4] (fresh [2; 2] 8) (2 ^ 63 - 1) true = Ok ([2; 2], [0; 0; 0; 0]) /\
  tri 0 1 2 1 (2 ^ 63 - 1) = Ok ([2; 1], [1; 0]) /\ tril_indices 2 (2 ^ 63 - 1) 1 = ([], []).
Proof. repeat split; vm_compute; reflexivity. Qed.

(* ---- C43 ------------------------------------------------------------------ *)

(* a can be reversed along the axis: its stride is not negative *)
Definition forward (a : arr) (axis : nat) : Prop := (0 <= nth axis (a_strides a) 0)%Z \/ nth axis (a_shape a) 0 <= 1.

Lemma swap_at_length i j l : length (swap_at i j l) = length l.
Proof. unfold swap_at. rewrite !upd_length. reflexivity. Qed.
Lemma nth_upd (l : list nat) n v k d : n < length l -> nth k (upd l n v) d = if k =? n then v else nth k l d.
Proof.
  intros H. rewrite <- !nth_default_eq. unfold nth_default. rewrite nth_error_upd. destruct (Nat.eqb_spec k n) as [->|]; [|reflexivity].
  destruct (Nat.ltb_spec n (length l)); [reflexivity|lia].
Qed.
Lemma nth_swap i j l k : i < length l -> j < length l ->
  nth k (swap_at i j l) 0 = if k =? j then nth i l 0 else if k =? i then nth j l 0 else nth k l 0.
Proof. intros Hi Hj. unfold swap_at. rewrite !nth_upd by (rewrite ?upd_length; assumption). reflexivity. Qed.
Lemma nth_list_ext (l m : list nat) : length l = length m -> (forall k, nth k l 0 = nth k m 0) -> l = m.
Proof. intros HL H. apply (nth_ext _ _ 0 0 HL). intros k _. apply H. Qed.

Ltac swaps := repeat first [rewrite nth_upd by (rewrite ?upd_length, ?swap_at_length, ?upd_length; assumption) |
                            rewrite nth_swap by (rewrite ?upd_length, ?swap_at_length, ?upd_length; assumption)].
Ltac eqbs := repeat match goal with |- context [?x =? ?y] => destruct (Nat.eqb_spec x y); subst; try congruence; try lia end.

Lemma swap_swap i j l : i < length l -> j < length l -> swap_at i j (swap_at i j l) = l.
Proof. intros Hi Hj. apply nth_list_ext; [rewrite !swap_at_length; reflexivity|]. intros k. swaps. eqbs. Qed.
Lemma swap_flip i j n l : i < length l -> j < length l -> i <> j -> swap_at i j (flip_idx j n (swap_at i j l)) = flip_idx i n l.
Proof.
  intros Hi Hj Hne. unfold flip_idx. apply nth_list_ext; [rewrite !upd_length, !swap_at_length, upd_length, swap_at_length; reflexivity|].
  intros k. swaps. eqbs.
Qed.
Lemma flip_comm i j n m l : i < length l -> j < length l -> i <> j -> flip_idx i n (flip_idx j m l) = flip_idx j m (flip_idx i n l).
Proof.
  intros Hi Hj Hne. unfold flip_idx. apply nth_list_ext; [rewrite !upd_length; reflexivity|]. intros k. swaps. eqbs.
Qed.
Lemma flip_flip i n l : i < length l -> nth i l 0 < n -> flip_idx i n (flip_idx i n l) = l.
Proof. intros Hi Hn. unfold flip_idx. apply nth_list_ext; [rewrite !upd_length; reflexivity|]. intros k. swaps. eqbs. Qed.

(* q quarter turns, unfolded *)
Lemma turned_cases ax0 ax1 sh : ax0 < length sh -> ax1 < length sh -> ax0 <> ax1 ->
  let n0 := nth ax0 sh 0 in let n1 := nth ax1 sh 0 in
  turned_shape 2 ax0 ax1 sh = sh /\ turned_shape 3 ax0 ax1 sh = swap_at ax0 ax1 sh /\
  (forall idx, length idx = length sh -> turned 2 ax0 ax1 sh idx = flip_idx ax0 n0 (flip_idx ax1 n1 idx)) /\
  (forall idx, inb idx (swap_at ax0 ax1 sh) -> turned 3 ax0 ax1 sh idx = flip_idx ax0 n0 (swap_at ax0 ax1 idx)).
Proof.
  intros H0 H1 Hne n0 n1. cbn [turned_shape turned].
  assert (N0 : nth ax1 (swap_at ax0 ax1 sh) 0 = n0) by (rewrite nth_swap by assumption; rewrite Nat.eqb_refl; reflexivity).
  rewrite swap_swap by assumption. rewrite N0. fold n1. split; [reflexivity|]. split; [reflexivity|].
  assert (T2 : forall idx, length idx = length sh -> flip_idx ax1 n1 (swap_at ax0 ax1 (flip_idx ax1 n0 (swap_at ax0 ax1 idx))) = flip_idx ax0 n0 (flip_idx ax1 n1 idx)).
  { intros idx HL. rewrite swap_flip by (try assumption; lia). symmetry. apply flip_comm; try assumption; lia. }
  split; [exact T2|]. intros idx Hi. pose proof (inb_length _ _ Hi) as HL. rewrite swap_at_length in HL.
  rewrite T2 by (unfold flip_idx; rewrite upd_length, swap_at_length; exact HL). f_equal. apply flip_flip; [rewrite swap_at_length; lia|].
  pose proof (nth_inb _ _ ax0 _ Hi (nth_error_nth' _ 0 (eq_ind_r (fun z => ax0 < z) H0 (swap_at_length ax0 ax1 sh)))) as HB.
  rewrite nth_swap in HB by assumption. rewrite nth_swap by lia. rewrite Nat.eqb_refl in HB |- *. destruct (Nat.eqb_spec ax0 ax1); [contradiction|]. exact HB.
Qed.

(* rot90(a, k, (ax0, ax1)): k mod 4 quarter turns *)
Theorem C43_rot90_partial : forall {V} (buf : list V) a k ax0 ax1,
  wf buf a -> ax0 < ndim a -> ax1 < ndim a -> ax0 <> ax1 -> forward a ax0 -> forward a ax1 ->
  let q := Z.to_nat (k mod 4) in
  exists a', rot90 a k ax0 ax1 = Ok a' /\ is_view buf a a' (turned_shape q ax0 ax1 (a_shape a)) (turned q ax0 ax1 (a_shape a)).
Proof.
  intros V buf a k ax0 ax1 W H0 H1 Hne F0 F1 q.
  destruct (rot90_spec buf a k ax0 ax1 W H0 H1 Hne F0 F1) as (a' & E & C0 & C1 & C2 & C3). exists a'. split; [exact E|].
  pose proof (Z.mod_pos_bound k 4 ltac:(lia)) as HB.
  destruct (turned_cases ax0 ax1 (a_shape a) H0 H1 Hne) as (S2 & S3 & T2 & T3).
  assert (HQ : (k mod 4 = 0 \/ k mod 4 = 1 \/ k mod 4 = 2 \/ k mod 4 = 3)%Z) by lia. unfold q.
  destruct HQ as [HQ|[HQ|[HQ|HQ]]]; rewrite HQ in *.
  - exact (C0 eq_refl).
  - exact (C1 eq_refl).
  - specialize (C2 eq_refl). change (Z.to_nat 2) with 2. rewrite S2. destruct C2 as (SV & WV & GV). split; [exact SV|]. split; [exact WV|].
    intros idx Hi. rewrite T2 by exact (inb_length _ _ Hi). exact (GV idx Hi).
  - specialize (C3 eq_refl). change (Z.to_nat 3) with 3. rewrite S3. destruct C3 as (SV & WV & GV). split; [exact SV|]. split; [exact WV|].
    intros idx Hi. rewrite T3 by exact Hi. exact (GV idx Hi).
Qed.

(* a matrix, one turn *)
Theorem C43_quarter_turn_partial : forall {V} (buf : list V) a n m,
  wf buf a -> a_shape a = [n; m] -> forward a 0 -> forward a 1 ->
  exists a', rot90 a 1 0 1 = Ok a' /\ wf buf a' /\ a_shape a' = [m; n] /\
    forall i j, i < m -> j < n -> get buf a' [i; j] = get buf a [j; m - 1 - i].
Proof.
  intros V buf a n m W S F0 F1. destruct (C43_rot90_partial buf a 1 0 1 W) as (a' & E & SV & WV & GV); try assumption; try (unfold ndim; rewrite S; cbn; lia); try lia.
  change (Z.to_nat (1 mod 4)) with 1 in *. rewrite S in *. cbn [turned_shape turned swap_at nth upd] in *. exists a'. split; [exact E|]. split; [exact WV|]. split; [exact SV|].
  intros i j Hi Hj. destruct (GV [i; j]) as [_ HG]; [apply inb_cons; split; [exact Hi|apply inb_cons; split; [exact Hj|constructor]]|]. exact HG.
Qed.

(* k counts modulo 4, for every array whatsoever, and four turns return a itself *)
Theorem C43_mod4 : forall a k k' ax0 ax1, (k mod 4 = k' mod 4)%Z -> rot90 a k ax0 ax1 = rot90 a k' ax0 ax1.
Proof.
  intros a k k' ax0 ax1 H. pose proof (norm_shift_spec k 4 ltac:(lia)) as H1. pose proof (norm_shift_spec k' 4 ltac:(lia)) as H2.
  unfold rot90. replace (norm_shift k 4) with (norm_shift k' 4) by (apply Nat2Z.inj; rewrite H1, H2; symmetry; exact H). reflexivity.
Qed.
Theorem C43_four_turns : forall a k ax0 ax1, ax0 < ndim a -> ax1 < ndim a -> rot90 a (4 * k) ax0 ax1 = Ok a.
Proof.
  intros a k ax0 ax1 H0 H1. rewrite (C43_mod4 a (4 * k) 0) by (rewrite Z.mul_comm, Z.mod_mul by lia; reflexivity).
  unfold rot90. destruct (Nat.ltb_spec ax0 (ndim a)); [|lia]. destruct (Nat.ltb_spec ax1 (ndim a)); [|lia]. reflexivity.
Qed.
Example C43_nonvacuous :
  let buf := [1; 2; 3; 4; 5; 6] in let a := fresh [2; 3] 8 in
  wf buf a /\ forward a 0 /\ forward a 1 /\
  map (fun k => match rot90 a k 0 1 with Ok r => elems buf r | _ => [] end) [1; 2; -1]%Z =
    [map Some [3; 6; 2; 5; 1; 4]; map Some [6; 5; 4; 3; 2; 1]; map Some [4; 1; 5; 2; 6; 3]].
Proof. split; [wfc|]. split; [left; vm_compute; discriminate|]. split; [left; vm_compute; discriminate|]. vm_compute. reflexivity. Qed.

(* missing: views with negative strides, such as rot90 itself returns.  Turning four
   times one step at a time does not restore the matrix. *)
Theorem C43_composition_refuted : exists (buf : list nat) a a1 a2 a3, wf buf a /\ elems buf a = map Some [1; 2; 3; 4] /\
  rot90 a 1 0 1 = Ok a1 /\ wf buf a1 /\ rot90 a1 1 0 1 = Ok a2 /\ wf buf a2 /\ elems buf a2 = map Some [4; 3; 2; 1] /\
  rot90 a2 1 0 1 = Ok a3 /\ elems buf a3 <> map Some [3; 1; 4; 2].
Proof.
  exists [1; 2; 3; 4], (fresh [2; 2] 8). do 3 eexists. split; [wfc|]. split; [vm_compute; reflexivity|].
  split; [vm_compute; reflexivity|]. split; [wfc|]. split; [vm_compute; reflexivity|]. split; [wfc|]. split; [vm_compute; reflexivity|].
  split; [vm_compute; reflexivity|]. vm_compute. discriminate.
Qed.

(* ---- C45 ------------------------------------------------------------------ *)

(* one-dimensional arguments x (elements xs) and v (elements vs) *)
Definition vector {V} (x : @nd V) (xs : list V) : Prop :=
  wf (fst x) (snd x) /\ a_shape (snd x) = [length xs] /\ elems (fst x) (snd x) = map Some xs.

Lemma vector_size {V} (x : @nd V) xs : vector x xs -> size (snd x) = length xs.
Proof. intros (_ & S & _). unfold size. rewrite S. cbn. lia. Qed.
Lemma vector_row_major {V} (x : @nd V) xs : vector x xs -> row_major (snd x).
Proof. intros (_ & S & _). right. right. unfold ndim. rewrite S. reflexivity. Qed.
Lemma vector_fresh {V} (xs : list V) item : (0 < item)%Z -> (Z.of_nat (length xs) * item < 2 ^ 63)%Z -> vector (xs, fresh [length xs] item) xs.
Proof.
  intros HI HB. destruct (holds_fresh xs item HI HB) as (W & S & L). split; [exact W|]. split; [exact S|].
  rewrite <- (lane_1d_elems _ _ _ S). exact L.
Qed.

Theorem C45_insert_partial : forall {V} (zero : V) typed (x v : @nd V) xs vs i,
  vector x xs -> vector v vs -> (Z.of_nat (length xs) * a_item (snd x) < 2 ^ 63)%Z -> (Z.of_nat (length vs) * a_item (snd v) < 2 ^ 63)%Z ->
  i <= length xs ->
  insert zero typed x (Z.of_nat i) v None = Ok ([length xs + length vs], firstn i xs ++ vs ++ skipn i xs).
Proof.
  intros V zero typed x v xs vs i HX HV BX BV Hi. pose proof HX as (WX & _ & EX). pose proof HV as (WV & _ & EV).
  pose proof (insert_flat_spec zero typed x v xs vs (Z.of_nat i) WX WV EX EV (vector_row_major x xs HX) (vector_row_major v vs HV)) as H.
  cbv zeta in H. replace (insert_pos (length xs) (Z.of_nat i)) with i in H.
  - rewrite H by (unfold small; erewrite vector_size by eassumption; assumption). f_equal. f_equal. f_equal.
    rewrite !app_length, firstn_length, skipn_length. lia.
  - unfold insert_pos. destruct (Z.ltb_spec (Z.of_nat i) 0); lia.
Qed.

Theorem C45_delete_partial : forall {V} (zero : V) typed (x : @nd V) xs i,
  vector x xs -> (Z.of_nat (length xs) * a_item (snd x) < 2 ^ 63)%Z ->
  (- Z.of_nat (length xs) <= i < Z.of_nat (length xs))%Z ->
  let p := Z.to_nat (if (i <? 0)%Z then Z.of_nat (length xs) + i else i) in
  delete zero typed x i None = Ok ([length xs - 1], firstn p xs ++ skipn (p + 1) xs).
Proof.
  intros V zero typed x xs i HX BX Hi p. pose proof HX as (WX & _ & EX).
  rewrite (delete_flat_spec zero typed x xs i WX EX (vector_row_major x xs HX)) by (unfold small; rewrite (vector_size x xs HX); exact BX).
  replace (delete_pos (length xs) i) with (Some p).
  - cbv zeta. f_equal. f_equal. f_equal. rewrite app_length, firstn_length, skipn_length. unfold p. destruct (Z.ltb_spec i 0); lia.
  - unfold delete_pos, p. destruct (Nat.eqb_spec (length xs) 0); [lia|].
    destruct (Z.ltb_spec i 0) as [HN|HN]; [rewrite Z.max_l by lia|];
    (match goal with |- context [length xs <=? ?z] => destruct (Nat.leb_spec (length xs) z) end; [lia|reflexivity]).
Qed.

(* deleting the inserted element restores the vector *)
Theorem C45_delete_insert_partial : forall {V} (zero : V) typed (x v : @nd V) xs w i item,
  vector x xs -> vector v [w] -> (Z.of_nat (length xs) * a_item (snd x) < 2 ^ 63)%Z -> (a_item (snd v) < 2 ^ 63)%Z ->
  (0 < item)%Z -> (Z.of_nat (S (length xs)) * item < 2 ^ 63)%Z -> i <= length xs ->
  exists out, insert zero typed x (Z.of_nat i) v None = Ok ([length xs + 1], out) /\
    delete zero typed (out, fresh [length xs + 1] item) (Z.of_nat i) None = Ok ([length xs], xs).
Proof.
  intros V zero typed x v xs w i item HX HV BX BV HI HB Hi.
  exists (firstn i xs ++ [w] ++ skipn i xs). split; [apply (C45_insert_partial zero typed x v xs [w] i); try assumption; cbn [length]; lia|].
  set (out := firstn i xs ++ [w] ++ skipn i xs).
  assert (LO : length out = length xs + 1) by (unfold out; rewrite !app_length, firstn_length, skipn_length; cbn [length]; lia).
  rewrite <- LO.
  assert (HO : vector (out, fresh [length out] item) out) by (apply vector_fresh; [exact HI|lia]).
  rewrite (C45_delete_partial zero typed (out, fresh [length out] item) out (Z.of_nat i) HO); [|cbn [snd fresh a_item]; lia|lia].
  cbv zeta. destruct (Z.ltb_spec (Z.of_nat i) 0); [lia|]. rewrite Nat2Z.id.
  assert (LF : length (firstn i xs) = i) by (rewrite firstn_length; lia).
  replace (length out - 1) with (length xs) by lia. f_equal. f_equal. unfold out.
  rewrite firstn_app, LF, Nat.sub_diag, firstn_O, app_nil_r, firstn_all2 by lia.
  rewrite skipn_app, LF, skipn_all2 by lia. replace (i + 1 - i) with 1 by lia. cbn [app skipn]. apply firstn_skipn.
Qed.

(* the same with axis=0 on a non-empty forward vector *)
Theorem C45_insert_axis_partial : forall {V} (zero : V) typed (x v : @nd V) xs vs i stride,
  vector x xs -> vector v vs -> xs <> [] -> (Z.of_nat (length vs) * a_item (snd v) < 2 ^ 63)%Z ->
  nth_error (a_strides (snd x)) 0 = Some stride -> (0 <= stride)%Z -> i <= length xs ->
  insert zero typed x (Z.of_nat i) v (Some 0%Z) = Ok ([length xs + length vs], firstn i xs ++ vs ++ skipn i xs).
Proof.
  intros V zero typed x v xs vs i stride HX HV Hne BV HS HS0 Hi.
  assert (HH : forall y ys, vector y ys -> @holds V y ys).
  { intros y ys (W & S & E). split; [exact W|]. split; [exact S|]. rewrite (lane_1d_elems _ _ _ S). exact E. }
  pose proof (insert_axis_1d_spec zero typed x v xs vs (Z.of_nat i) 0 stride (HH _ _ HX) (HH _ _ HV)) as H. cbv zeta in H.
  replace (insert_pos (length xs) (Z.of_nat i)) with i in H by (unfold insert_pos; destruct (Z.ltb_spec (Z.of_nat i) 0); lia).
  rewrite H; try assumption; [|unfold small; rewrite (vector_size v vs HV); exact BV|reflexivity].
  f_equal. f_equal. f_equal. rewrite !app_length, firstn_length, skipn_length. lia.
Qed.

(* delete along an axis of an array of any rank: lane by lane *)
Theorem C45_delete_axis_partial : forall {V} (zero : V) typed (x : @nd V) i axis n stride item,
  wf (fst x) (snd x) -> nth_error (a_shape (snd x)) axis = Some n ->
  nth_error (a_strides (snd x)) axis = Some stride -> (0 <= stride)%Z -> (0 < item)%Z -> i < n ->
  let osh := upd (a_shape (snd x)) axis (n - 1) in
  exists out, delete zero typed x (Z.of_nat i) (Some (Z.of_nat axis)) = Ok (osh, out) /\
    forall oi, inb oi (remove_at axis (a_shape (snd x))) ->
      lane out (fresh osh item) axis oi =
      firstn i (lane (fst x) (snd x) axis oi) ++ skipn (i + 1) (lane (fst x) (snd x) axis oi).
Proof.
  intros V zero typed x i axis n stride item W Hn HS HS0 HI Hi osh.
  assert (HA : axis < ndim (snd x)) by (apply nth_error_Some; congruence).
  destruct (delete_axis_spec zero typed x (Z.of_nat i) (Z.of_nat axis) axis i stride item W) as (out & E & _ & H); try assumption.
  - rewrite norm_axis_spec. destruct (Z.leb_spec (- Z.of_nat (ndim (snd x))) (Z.of_nat axis)), (Z.ltb_spec (Z.of_nat axis) (Z.of_nat (ndim (snd x)))); cbn [andb]; try lia.
    destruct (Z.ltb_spec (Z.of_nat axis) 0); [lia|]. f_equal. lia.
  - rewrite (nth_error_nth _ _ _ Hn). unfold delete_pos. destruct (Nat.eqb_spec n 0); [lia|]. destruct (Z.ltb_spec (Z.of_nat i) 0); [lia|].
    rewrite Nat2Z.id. destruct (Nat.leb_spec n i); [lia|reflexivity].
  - rewrite (nth_error_nth _ _ _ Hn) in E, H. exists out. split; [exact E|exact H].
Qed.

Theorem C45_append : forall {V} (zero : V) typed (x v : @nd V) xs vs,
  vector x xs -> vector v vs -> (Z.of_nat (length xs) * a_item (snd x) < 2 ^ 63)%Z -> (Z.of_nat (length vs) * a_item (snd v) < 2 ^ 63)%Z ->
  append zero typed x v None = Ok ([length xs + length vs], xs ++ vs).
Proof.
  intros V zero typed x v xs vs HX HV BX BV. pose proof HX as (WX & _ & EX). pose proof HV as (WV & _ & EV).
  rewrite (append_flat_spec zero typed x v xs vs WX WV EX EV (vector_row_major x xs HX) (vector_row_major v vs HV)).
  - rewrite app_length. reflexivity.
  - unfold small. erewrite vector_size by eassumption. assumption.
  - unfold small. erewrite vector_size by eassumption. assumption.
Qed.
(* append along an axis (negative ones count from the end): the lanes of v follow those of x *)
Theorem C45_append_axis : forall {V} (zero : V) typed (x v : @nd V) (ax : Z) axis,
  wf (fst x) (snd x) -> wf (fst v) (snd v) -> axis < ndim (snd x) ->
  (ax = Z.of_nat axis \/ ax = Z.of_nat axis - Z.of_nat (ndim (snd x)))%Z ->
  ndim (snd v) = ndim (snd x) -> remove_at axis (a_shape (snd v)) = remove_at axis (a_shape (snd x)) ->
  let osh := upd (a_shape (snd x)) axis (nth axis (a_shape (snd x)) 0 + nth axis (a_shape (snd v)) 0) in
  exists out, append zero typed x v (Some ax) = Ok (osh, out) /\ length out = prod osh /\
    forall item oi, (0 < item)%Z -> inb oi (remove_at axis (a_shape (snd x))) ->
      lane out (fresh osh item) axis oi = lane (fst x) (snd x) axis oi ++ lane (fst v) (snd v) axis oi.
Proof.
  intros V zero typed x v ax axis WX WV HA HX HD HR osh.
  destruct (concat_nd_spec zero [x; v] x axis eq_refl) as [S1 _].
  { intros y [<-|[<-|[]]]; assumption. }
  destruct S1 as (out & E & HL & HN).
  { split; [exact HA|]. intros y [<-|[<-|[]]]; [split; reflexivity|split; [exact HD|exact HR]]. }
  unfold osh. cbn [map list_sum fold_right] in E, HL, HN. rewrite Nat.add_0_r in *. unfold axis_len in *.
  exists out. split; [|split; [exact HL|]].
  - unfold append. replace (norm_axis (ndim (snd x)) ax) with (Some axis); [exact E|].
    unfold norm_axis.
    replace (if (ax <? 0)%Z then (Z.of_nat (ndim (snd x)) + ax)%Z else ax) with (Z.of_nat axis) by (destruct (Z.ltb_spec ax 0); lia).
    destruct (Z.ltb_spec (Z.of_nat axis) 0); [lia|]. destruct (Z.leb_spec (Z.of_nat (ndim (snd x))) (Z.of_nat axis)); [lia|].
    cbn [orb]. rewrite Nat2Z.id. reflexivity.
  - intros item oi HI Ho. rewrite (HN item oi HI Ho). cbn [map concat]. rewrite app_nil_r. reflexivity.
Qed.

Example C45_nonvacuous :
  let x := ([9; 1; 9; 2; 9; 3], mkArr 8 [3] [16]%Z 8 false false) in let v := ([7; 8], fresh [2] 8) in
  vector x [1; 2; 3] /\ vector v [7; 8] /\
  insert 0 true x 1 v None = Ok ([5], [1; 7; 8; 2; 3]) /\ insert 0 true x 3 v (Some 0%Z) = Ok ([5], [1; 2; 3; 7; 8]) /\
  delete 0 true x (-2) None = Ok ([2], [1; 3]) /\ append 0 true x v None = Ok ([5], [1; 2; 3; 7; 8]).
Proof.
  split; [split; [wfc|split; vm_compute; reflexivity]|]. split; [split; [wfc|split; vm_compute; reflexivity]|].
  repeat split; vm_compute; reflexivity.
Qed.

(* missing, because false of the code: *)
(* negative positions are off by one: insert([1,2,3], -1, 9) should be [1,2,9,3] *)
Theorem C45_insert_negative_refuted :
  let x := ([1; 2; 3], fresh [3] 8) in let v := ([9], fresh [1] 8) in
  vector x [1; 2; 3] /\ insert 0 true x (-1) v None = Ok ([4], [1; 2; 3; 9]) /\
  let p := Z.to_nat (np_insert_pos 3 (-1)) in firstn p [1; 2; 3] ++ [9] ++ skipn p [1; 2; 3] = [1; 2; 9; 3].
Proof. split; [split; [wfc|split; vm_compute; reflexivity]|]. split; vm_compute; reflexivity. Qed.
(* an empty vector with axis=0: division by zero *)
Theorem C45_insert_empty_refuted : insert 0 true ([], fresh [0] 8) 0 ([9], fresh [1] 8) (Some 0%Z) = Panic.
Proof. vm_compute. reflexivity. Qed.
(* a position outside the vector is not an error: nothing is deleted; a very
   negative one deletes the first element *)
Theorem C45_delete_range_refuted : let x := ([1; 2; 3], fresh [3] 8) in
  delete 0 true x 5 None = Ok ([3], [1; 2; 3]) /\ delete 0 true x (-9) None = Ok ([2], [2; 3]).
Proof. split; vm_compute; reflexivity. Qed.
(* reversed vectors with axis=0 *)
Theorem C45_delete_reversed_refuted : let x := ([1; 2; 3; 4], mkArr 24 [4] [-8]%Z 8 false false) in
  vector x [4; 3; 2; 1] /\ delete 0 true x 1 (Some 0%Z) <> Ok ([3], [4; 2; 1]).
Proof. split; [split; [wfc|split; vm_compute; reflexivity]|]. vm_compute. discriminate. Qed.

(* ---- C67: pad ------------------------------------------------------------- *)

Theorem C67_pad_constant_partial : forall {V} (zero : V) via buf a pw cval item,
  wf buf a -> length pw = ndim a -> (0 < item)%Z -> survives via buf a ->
  let nsh := padded (a_shape a) pw in
  exists out, pad zero via buf a pw (PadConstant cval) = Ok (nsh, out) /\ length out = prod nsh /\
    forall idx, inb idx nsh -> get out (fresh nsh item) idx =
      if in_region (a_shape a) pw idx then get buf a (shifted_back pw idx) else Some cval.
Proof.
  intros V zero via buf a pw cval item W HL HI HS nsh.
  destruct (pad_constant_spec zero via buf a pw cval item W HL HI) as (out & E & L & H). exists out. split; [exact E|]. split; [exact L|].
  intros idx Hi. unfold nsh; rewrite (H idx Hi). destruct (in_region (a_shape a) pw idx) eqn:ER; [|reflexivity].
  destruct (region_out (a_shape a) pw idx HL Hi ER) as [HB _].
  destruct (get buf a (shifted_back pw idx)) as [v|] eqn:Ev; [|reflexivity]. cbn [option_map]. f_equal. exact (HS _ v HB Ev).
Qed.

Theorem C67_pad_edge_partial : forall {V} (zero : V) via buf a pw item,
  wf buf a -> length pw = ndim a -> (0 < item)%Z -> survives via buf a -> (forall s, In s (a_shape a) -> 0 < s) ->
  let nsh := padded (a_shape a) pw in
  exists out, pad zero via buf a pw PadEdge = Ok (nsh, out) /\ length out = prod nsh /\
    forall idx, inb idx nsh -> get out (fresh nsh item) idx = get buf a (clamped (a_shape a) pw idx).
Proof.
  intros V zero via buf a pw item W HL HI HS HP nsh.
  destruct (pad_edge_spec zero via buf a pw item W HL HI HP) as (out & E & L & H). exists out. split; [exact E|]. split; [exact L|].
  intros idx Hi. destruct (H idx Hi) as [HB HG]. unfold nsh. rewrite HG.
  destruct (get buf a (clamped (a_shape a) pw idx)) as [v|] eqn:Ev; [|reflexivity]. cbn [option_map]. f_equal. exact (HS _ v HB Ev).
Qed.
Example C67_nonvacuous :
  let buf := [1; 2; 3; 4] in wf buf (fresh [2; 2] 8) /\
  pad 0 id buf (fresh [2; 2] 8) [(1, 0); (1, 2)] (PadConstant 9) = Ok ([3; 5], [9; 9; 9; 9; 9; 9; 1; 2; 9; 9; 9; 3; 4; 9; 9]) /\
  pad 0 id buf (fresh [2; 2] 8) [(1, 0); (1, 2)] PadEdge = Ok ([3; 5], [1; 1; 2; 2; 2; 1; 1; 2; 2; 2; 3; 3; 4; 4; 4]).
Proof. split; [wfc|]. split; vm_compute; reflexivity. Qed.
(* edge padding of an empty axis reads outside the buffer *)
Theorem C67_pad_edge_empty_refuted : wf (@nil nat) (fresh [0] 8) /\ pad 0 id [] (fresh [0] 8) [(1, 1)] PadEdge = Fault.
Proof. split; [wfc|]. vm_compute. reflexivity. Qed.
(* int64 values are rounded to doubles *)
Theorem C67_pad_int64_refuted :
  pad 0%Z (through_f64 int64_t) [9007199254740993]%Z (fresh [1] 8) [(0, 1)] (PadConstant 0%Z) = Ok ([2], [9007199254740992; 0]%Z).
Proof. vm_compute. reflexivity. Qed.

(* ---- C68: diagflat -------------------------------------------------------- *)

Theorem C68_diagflat : forall {V} (zero : V) buf a vals k item,
  wf buf a -> elems buf a = map Some vals -> (0 < item)%Z ->
  let n := length vals + Z.abs_nat k in
  exists out, diagflat zero buf a k = Ok ([n; n], out) /\ length out = n * n /\
    forall i j, i < n -> j < n ->
      get out (fresh [n; n] item) [i; j] = if (Z.of_nat j - Z.of_nat i =? k)%Z then nth_error vals (Nat.min i j) else Some zero.
Proof.
  intros V zero buf a vals k item W E HI n. unfold n. rewrite (elems_len buf a vals E).
  exact (diagflat_spec zero buf a vals k item W E HI).
Qed.
Example C68_nonvacuous : diagflat 0 [1; 2; 3; 4] (mkArr 0 [2] [16]%Z 8 false false) (-1) = Ok ([3; 3], [0; 0; 0; 1; 0; 0; 0; 3; 0]).
Proof. vm_compute. reflexivity. Qed.

Print Assumptions C40_concatenate_partial.
Print Assumptions C40_concatenate_mixed_refuted.
Print Assumptions C40_stack.
Print Assumptions C40_array_split_partial.
Print Assumptions C40_pieces_cover.
Print Assumptions C40_concatenate_split_partial.
Print Assumptions C40_array_split_refuted.
Print Assumptions C40_split.
Print Assumptions C41_survives_small.
Print Assumptions C41_repeat_flat_partial.
Print Assumptions C41_repeat_axis_partial.
Print Assumptions C41_tile_partial.
Print Assumptions C41_roll_axis_partial.
Print Assumptions C41_roll_flat_partial.
Print Assumptions C41_roll_inverse_partial.
Print Assumptions C41_int64_refuted.
Print Assumptions C41_repeat_zero_refuted.
Print Assumptions C41_tile_ones_refuted.
Print Assumptions C41_roll_fortran_refuted.
Print Assumptions C42_tril_triu_partial.
Print Assumptions C42_split_partial.
Print Assumptions C42_tri_partial.
Print Assumptions C42_indices_partial.
Print Assumptions C42_overflow_refuted.
Print Assumptions C43_rot90_partial.
Print Assumptions C43_quarter_turn_partial.
Print Assumptions C43_mod4.
Print Assumptions C43_four_turns.
Print Assumptions C43_composition_refuted.
Print Assumptions C45_insert_partial.
Print Assumptions C45_delete_partial.
Print Assumptions C45_delete_insert_partial.
Print Assumptions C45_insert_axis_partial.
Print Assumptions C45_delete_axis_partial.
Print Assumptions C45_append.
Print Assumptions C45_append_axis.
Print Assumptions C45_insert_negative_refuted.
Print Assumptions C45_insert_empty_refuted.
Print Assumptions C45_delete_range_refuted.
Print Assumptions C45_delete_reversed_refuted.
Print Assumptions C67_pad_constant_partial.
Print Assumptions C67_pad_edge_partial.
Print Assumptions C67_pad_edge_empty_refuted.
Print Assumptions C67_pad_int64_refuted.
Print Assumptions C68_diagflat.
