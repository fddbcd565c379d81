From Verif Require Import Base Lists Arr_Spec Arr_Model Arr_Wf Arr_Proofs Copy_Model Copy_Proofs
  Idx_Model Idx_Assign Elem_Proofs Red_Model Red_Spec Red_Proofs Red_Scan Man_Model Man_Proofs Man_Ops Man_Ops2 Man_Edit
  Sel_Proofs Sel_Ops Bits_Spec Bits_Model.
Local Open Scope nat_scope.

(* one byte from at most eight bits *)
Definition pk (big : bool) (l : list bool) : Z :=
  fold_left (fun byte p => or_bit big byte (snd p) (fst p)) (combine (seq 0 (length l)) l) 0%Z.
Definition pack_list (big : bool) (bits : list bool) : list Z :=
  map (fun j => pk big (firstn 8 (skipn (j * 8) bits))) (seq 0 ((length bits + 7) / 8)).

Lemma pk_bits big l : length l <= 8 -> is_byte (pk big l) /\ bits_of big (pk big l) = l ++ repeat false (8 - length l).
Proof.
  intros H. do 9 (destruct l as [|? l]; [
    repeat match goal with b : bool |- _ => destruct b end; vm_compute; (split; [split; congruence|reflexivity])|]).
  cbn in H. lia.
Qed.

Lemma ceil_step n : (8 + n + 7) / 8 = S ((n + 7) / 8).
Proof. replace (8 + n + 7) with (n + 7 + 1 * 8) by lia. rewrite Nat.div_add by lia. lia. Qed.
Lemma list8 {A} (l : list A) : 8 <= length l -> exists b0 b1 b2 b3 b4 b5 b6 b7 r, l = b0 :: b1 :: b2 :: b3 :: b4 :: b5 :: b6 :: b7 :: r.
Proof. intros H. do 8 (destruct l as [|? l]; [cbn in H; lia|]). repeat eexists. Qed.

Lemma pack_list_step big l r : length l = 8 -> pack_list big (l ++ r) = pk big l :: pack_list big r.
Proof.
  intros HL. unfold pack_list. rewrite app_length, HL, ceil_step. cbn [seq map]. f_equal.
  - cbn [Nat.mul skipn]. rewrite <- HL, firstn_app, Nat.sub_diag, firstn_all. cbn [firstn]. rewrite app_nil_r. reflexivity.
  - rewrite <- seq_shift, map_map. apply map_ext. intros j. f_equal. f_equal. cbn [Nat.mul].
    rewrite <- HL at 1. rewrite skipn_app. rewrite skipn_all2 by lia. cbn [app]. f_equal. lia.
Qed.
Lemma pack_list_short big l : length l < 8 -> pack_list big l = match l with [] => [] | _ => [pk big l] end.
Proof.
  intros H. unfold pack_list. destruct l as [|b l]; [reflexivity|]. set (m := b :: l) in *. assert (1 <= length m) by (unfold m; cbn; lia).
  replace ((length m + 7) / 8) with 1; [|apply Nat.div_unique with (r := length m - 1); lia].
  cbn [seq map Nat.mul skipn]. rewrite firstn_all2 by lia. reflexivity.
Qed.

Lemma pack_loop_list big : forall n l, length l <= n -> pack_loop big l 0%Z 0 = pack_list big l.
Proof.
  induction n as [n IH] using lt_wf_ind. intros l HL.
  destruct (Nat.lt_ge_cases (length l) 8) as [H8|H8].
  - rewrite pack_list_short by exact H8. do 8 (destruct l as [|? l]; [reflexivity|]). cbn in H8. lia.
  - destruct (list8 l H8) as (b0 & b1 & b2 & b3 & b4 & b5 & b6 & b7 & r & ->).
    change (b0 :: b1 :: b2 :: b3 :: b4 :: b5 :: b6 :: b7 :: r) with ([b0; b1; b2; b3; b4; b5; b6; b7] ++ r) at 2.
    rewrite pack_list_step by reflexivity. rewrite <- (IH (length r)); [reflexivity|cbn in HL; lia|lia].
Qed.

Lemma pack_list_ok big : forall n l, length l <= n -> packed big l (pack_list big l) /\ length (pack_list big l) = (length l + 7) / 8.
Proof.
  intros n l HL. split; [|unfold pack_list; rewrite map_length, seq_length; reflexivity].
  revert l HL. induction n as [n IH] using lt_wf_ind. intros l HL.
  destruct (Nat.lt_ge_cases (length l) 8) as [H8|H8].
  - rewrite pack_list_short by exact H8. destruct l as [|b l].
    + split; [constructor|]. exists 0. split; [lia|reflexivity].
    + destruct (pk_bits big (b :: l)) as [HB HE]; [lia|]. split; [constructor; [exact HB|constructor]|].
      exists (8 - length (b :: l)). split; [cbn [length]; lia|]. cbn [flat_map]. rewrite app_nil_r. exact HE.
  - rewrite <- (firstn_skipn 8 l). assert (L8 : length (firstn 8 l) = 8) by (rewrite firstn_length; lia).
    rewrite pack_list_step by exact L8. destruct (IH (length (skipn 8 l))) with (l := skipn 8 l) as [HF (pad & HP & HE)];
      [rewrite skipn_length; lia|lia|].
    destruct (pk_bits big (firstn 8 l)) as [HB HE']; [lia|]. split; [constructor; assumption|].
    exists pad. split; [exact HP|]. cbn [flat_map]. rewrite HE, HE', L8. cbn [Nat.sub repeat]. rewrite app_nil_r, app_assoc. reflexivity.
Qed.

Lemma write_fresh {T} (z : T) ws n : length ws = n -> write_all (combine (seq 0 (length ws)) ws) (repeat z n) = Ok ws.
Proof. intros H. apply write_all_enum. rewrite repeat_length. symmetry. exact H. Qed.

Section P.
Context {V : Type} (truthy : V -> bool).
Lemma packbits_flat_spec big (buf : list V) a vals : wf buf a -> elems buf a = map Some vals ->
  packbits_flat truthy big buf a = Ok ([(size a + 7) / 8], pack_list big (map truthy vals)).
Proof.
  intros W E. unfold packbits_flat. pose proof (elems_length _ _ _ E) as HL.
  assert (LP : length (pack_list big (map truthy vals)) = (size a + 7) / 8).
  { unfold pack_list. rewrite map_length, seq_length, map_length, HL. reflexivity. }
  destruct (Nat.eqb_spec ((size a + 7) / 8) 0) as [H0|H0].
  - rewrite H0 in LP |- *. destruct (pack_list big (map truthy vals)); [reflexivity|discriminate].
  - rewrite (read_offsets buf a vals W E). cbn [bind]. rewrite (pack_loop_list big (length (map truthy vals))) by lia.
    rewrite write_fresh by exact LP. reflexivity.
Qed.

(* ---- along an axis ---- *)
Lemma fold_map_snd {A B C} (f : A -> B -> nat -> A) (g : C -> B) l : forall s z,
  fold_left (fun x p => f x (g (snd p)) (fst p)) (combine (seq s (length l)) l) z
  = fold_left (fun x p => f x (snd p) (fst p)) (combine (seq s (length (map g l))) (map g l)) z.
Proof. induction l as [|x l IH]; intros s z; [reflexivity|]. cbn [length map seq combine fold_left fst snd]. apply IH. Qed.

Lemma lane_vals (buf : list V) a axis n oi : wf buf a -> nth_error (a_shape a) axis = Some n -> inb oi (remove_at axis (a_shape a)) ->
  exists vals, lane buf a axis oi = map Some vals /\ length vals = n.
Proof.
  intros W Hn Ho. unfold lane. rewrite (nth_error_nth _ _ _ Hn).
  assert (H : forall j, In j (seq 0 n) -> exists v, get buf a (insert_at axis j oi) = Some v).
  { intros j Hj. apply in_seq in Hj. apply wf_get; [exact W|]. apply (lane_inb _ _ _ _ n Hn Ho). lia. }
  assert (G : forall l, (forall j, In j l -> exists v, get buf a (insert_at axis j oi) = Some v) ->
    exists vals, map (fun j => get buf a (insert_at axis j oi)) l = map Some vals /\ length vals = length l).
  { induction l as [|j l IH]; intros HJ; [exists []; split; reflexivity|].
    destruct (HJ j (or_introl eq_refl)) as [v Ev]. destruct IH as (vs & Evs & L); [intros; apply HJ; right; assumption|].
    exists (v :: vs). cbn [map length]. rewrite Ev, Evs, L. split; reflexivity. }
  destruct (G _ H) as (vals & E & L). exists vals. split; [exact E|]. rewrite L, seq_length. reflexivity.
Qed.
Lemma lane_read (buf : list V) a axis oi vals j v : lane buf a axis oi = map Some vals -> nth_error vals j = Some v ->
  read buf a (byte_offset_for a (insert_at axis j oi)) = Ok v.
Proof.
  intros E Hj. assert (H : nth_error (lane buf a axis oi) j = Some (Some v)) by (rewrite E, nth_error_map', Hj; reflexivity).
  unfold lane in H. rewrite nth_error_map', nth_error_seq in H. destruct (j <? _); [|discriminate]. cbn [option_map Nat.add] in H. injection H as H.
  unfold read. fold (get buf a (insert_at axis j oi)). rewrite H. reflexivity.
Qed.

Lemma mapM_stretch {A} (f : nat -> res A) (vals : list A) start len : (forall j v, nth_error vals j = Some v -> f j = Ok v) ->
  start + len <= length vals -> mapM f (seq start len) = Ok (firstn len (skipn start vals)).
Proof.
  intros H. revert start. induction len as [|len IH]; intros start HL; [reflexivity|]. cbn [seq mapM].
  destruct (nth_error vals start) as [v|] eqn:Ev; [|apply nth_error_None in Ev; lia].
  rewrite (H _ _ Ev). cbn [bind]. rewrite IH by lia. cbn [bind].
  assert (ES : skipn start vals = v :: skipn (S start) vals).
  { clear -Ev. revert start Ev. induction vals as [|x l IH]; intros [|s] Ev; try discriminate; [injection Ev as ->; reflexivity|]. cbn [skipn]. apply IH. exact Ev. }
  rewrite ES. reflexivity.
Qed.

Lemma packbits_axis_spec big (buf : list V) a axis n : wf buf a -> nth_error (a_shape a) axis = Some n ->
  let osh := upd (a_shape a) axis ((n + 7) / 8) in
  exists out, packbits_axis truthy big buf a axis = Ok (osh, out) /\ length out = prod osh /\
    forall item oi vals, (0 < item)%Z -> inb oi (remove_at axis (a_shape a)) -> lane buf a axis oi = map Some vals ->
      lane out (fresh osh item) axis oi = map Some (pack_list big (map truthy vals)).
Proof.
  intros W Hn osh. assert (Hax : axis < ndim a) by (apply nth_error_Some; unfold ndim; congruence).
  assert (Hnth : nth axis (a_shape a) 0 = n) by (apply nth_error_nth with (1 := Hn)).
  assert (HO : nth_error osh axis = Some ((n + 7) / 8)) by (apply nth_error_upd_eq; exact Hax).
  unfold packbits_axis. destruct (Nat.leb_spec (ndim a) axis); [lia|]. rewrite Hnth. fold osh.
  destruct (Nat.eqb_spec (prod osh) 0) as [H0|H0].
  { exists []. split; [reflexivity|]. split; [cbn; lia|]. intros item oi vals _ Hoi EL.
    unfold lane. cbn [fresh a_shape]. rewrite (nth_error_nth _ _ _ HO).
    assert (LV : length vals = n).
    { apply (f_equal (@length _)) in EL. unfold lane in EL. rewrite !map_length, seq_length, Hnth in EL. symmetry; exact EL. }
    destruct ((n + 7) / 8) as [|k] eqn:Ek.
    - unfold pack_list. rewrite map_length, LV, Ek. reflexivity.
    - exfalso. assert (Hin : inb (insert_at axis 0 oi) osh).
      { apply (lane_inb osh axis oi 0 (S k) HO); [|lia]. unfold osh. rewrite remove_at_upd by exact Hax. exact Hoi. }
      pose proof (rank_lt _ _ Hin). lia. }
  assert (LO : length osh = ndim a) by apply upd_length.
  set (v := fun oi => match pack_byte truthy big buf a axis n oi with Ok z => z | _ => 0%Z end).
  assert (PB : forall oi j vals, inb oi (remove_at axis (a_shape a)) -> lane buf a axis oi = map Some vals -> j < (n + 7) / 8 ->
     pack_byte truthy big buf a axis n (insert_at axis j oi) = Ok (pk big (firstn 8 (skipn (j * 8) (map truthy vals))))).
  { intros oi j vals Hoi EL Hj. assert (HOL : axis <= length oi).
    { rewrite (inb_length _ _ Hoi), remove_at_length by exact Hax. unfold ndim in Hax. lia. }
    assert (LV : length vals = n).
    { apply (f_equal (@length _)) in EL. unfold lane in EL. rewrite !map_length, seq_length, Hnth in EL. symmetry; exact EL. }
    unfold pack_byte.
    assert (EJ : nth axis (insert_at axis j oi) 0 = j).
    { apply nth_error_nth with (d := 0). rewrite nth_error_insert_at by exact HOL. rewrite Nat.ltb_irrefl, Nat.eqb_refl. reflexivity. }
    rewrite EJ.
    rewrite (mapM_stretch _ vals).
    - cbn [bind]. f_equal. rewrite (fold_map_snd (fun x b i => or_bit big x b i) truthy). unfold pk. rewrite skipn_map, firstn_map.
      assert (HLe : j * 8 < n).
      { assert ((n + 7) / 8 * 8 <= n + 7) by (rewrite Nat.mul_comm; apply Nat.mul_div_le; lia). nia. }
      replace (firstn (Nat.min (j * 8 + 8) n - j * 8) (skipn (j * 8) vals)) with (firstn 8 (skipn (j * 8) vals)); [reflexivity|].
      destruct (Nat.min_spec (j * 8 + 8) n) as [[Hm ->]|[Hm ->]]; [f_equal; lia|].
      rewrite !firstn_all2 by (rewrite skipn_length; lia). reflexivity.
    - intros i w Hi. rewrite upd_insert_at by exact HOL. apply (lane_read buf a axis oi vals); assumption.
    - lia. }
  assert (OK : forall idx, inb idx osh -> pack_byte truthy big buf a axis n idx = Ok (v idx)).
  { intros idx Hi. pose proof (inb_remove_at axis _ _ Hi) as Hr. unfold osh in Hr. rewrite remove_at_upd in Hr by exact Hax.
    pose proof (nth_inb _ _ _ _ Hi HO) as Hj.
    destruct (lane_vals buf a axis n _ W Hn Hr) as (vals & EL & _).
    pose proof (PB _ (nth axis idx 0) vals Hr EL Hj) as HP.
    rewrite (insert_remove_at axis (nth axis idx 0) idx) in HP by (apply nth_error_nth'; rewrite (inb_length _ _ Hi), LO; exact Hax).
    unfold v. rewrite HP. reflexivity. }
  rewrite <- LO. rewrite (gather_all osh _ v OK). cbn [bind]. eexists. split; [reflexivity|]. split; [apply gather_len|].
  intros item oi vals HI Hoi EL.
  assert (LV : length vals = n).
  { apply (f_equal (@length _)) in EL. unfold lane in EL. rewrite !map_length, seq_length, Hnth in EL. symmetry; exact EL. }
  unfold lane, pack_list. cbn [fresh a_shape]. rewrite (nth_error_nth _ _ _ HO), map_length, LV, map_map.
  apply map_ext_in. intros j Hj. apply in_seq in Hj.
  assert (Hin : inb (insert_at axis j oi) osh).
  { apply (lane_inb osh axis oi j _ HO); [|lia]. unfold osh. rewrite remove_at_upd by exact Hax. exact Hoi. }
  rewrite gather_get by assumption. unfold v. rewrite (PB oi j vals Hoi EL) by lia. reflexivity.
Qed.
End P.

(* ---- unpacking ---- *)
Lemma bit_at_spec big byte i : i < 8 -> bit_at big byte i = Z.b2z (nth i (bits_of big byte) false).
Proof.
  intros Hi. unfold bits_of. rewrite (nth_indep _ false (Z.testbit byte (Z.of_nat (if big then 7 - 0 else 0)))) by (rewrite map_length, seq_length; exact Hi).
  rewrite (map_nth (fun i => Z.testbit byte (Z.of_nat (if big then 7 - i else i)))), seq_nth by exact Hi. cbn [Nat.add].
  unfold bit_at. rewrite Z.testbit_spec' by lia. rewrite Z.shiftr_div_pow2 by lia.
  rewrite (Z.land_ones _ 1) by lia. reflexivity.
Qed.
Lemma bits_of_length big b : length (bits_of big b) = 8.
Proof. unfold bits_of. rewrite map_length. apply seq_length. Qed.

Lemma unpack_bits_spec big byte : forall bits i n, unpack_bits big byte bits i n = firstn (n - i) (map (bit_at big byte) bits).
Proof.
  induction bits as [|b bits IH]; intros i n; cbn [unpack_bits map]; [rewrite firstn_nil; reflexivity|].
  destruct (Nat.leb_spec n i) as [H|H]; [replace (n - i) with 0 by lia; reflexivity|].
  replace (n - i) with (S (n - S i)) by lia. cbn [firstn]. f_equal. apply IH.
Qed.
Lemma byte_bits big byte : map (bit_at big byte) (seq 0 8) = map Z.b2z (bits_of big byte).
Proof.
  apply nth_error_ext. intros i. rewrite !nth_error_map', nth_error_seq. destruct (Nat.ltb_spec i 8) as [H|H]; cbn [option_map Nat.add].
  - rewrite (nth_error_nth' _ false) by (rewrite bits_of_length; exact H). cbn [option_map]. f_equal. apply bit_at_spec. exact H.
  - rewrite (proj2 (nth_error_None _ _)) by (rewrite bits_of_length; exact H). reflexivity.
Qed.
Lemma unpack_loop_spec big : forall bytes i n, unpack_loop big bytes i n = firstn (n - i) (map Z.b2z (flat_map (bits_of big) bytes)).
Proof.
  induction bytes as [|b bytes IH]; intros i n; cbn [unpack_loop flat_map map]; [rewrite firstn_nil; reflexivity|].
  rewrite unpack_bits_spec, byte_bits, IH, map_app, firstn_app. f_equal. f_equal.
  rewrite firstn_length, map_length, bits_of_length. lia.
Qed.
Lemma flat_bits_length big bytes : length (flat_map (bits_of big) bytes) = length bytes * 8.
Proof. rewrite (flat_map_const_length _ _ 8) by (intros; apply bits_of_length). lia. Qed.
Lemma unpacked_length big bytes count : length (unpacked big bytes count) = Nat.min (match count with Some c => c | None => length bytes * 8 end) (length bytes * 8).
Proof. unfold unpacked. destruct count; rewrite ?firstn_length, map_length, flat_bits_length; lia. Qed.
Lemma unpacked_firstn big bytes count :
  firstn (Nat.min (match count with Some c => c | None => length bytes * 8 end) (length bytes * 8)) (map Z.b2z (flat_map (bits_of big) bytes)) = unpacked big bytes count.
Proof.
  unfold unpacked. pose proof (flat_bits_length big bytes) as HL. destruct count as [c|].
  - destruct (Nat.min_spec c (length bytes * 8)) as [[_ ->]|[H ->]]; [reflexivity|]. rewrite !firstn_all2 by (rewrite map_length; lia). reflexivity.
  - rewrite Nat.min_id. apply firstn_all2. rewrite map_length. lia.
Qed.

Lemma unpackbits_flat_spec big (buf : list Z) a count vals : wf buf a -> elems buf a = map Some vals ->
  unpackbits_flat big buf a count = Ok ([length (unpacked big vals count)], unpacked big vals count).
Proof.
  intros W E. unfold unpackbits_flat. pose proof (elems_length _ _ _ E) as HL. rewrite <- HL.
  rewrite <- (unpacked_length big vals count).
  destruct (Nat.eqb_spec (length (unpacked big vals count)) 0) as [H0|H0].
  - rewrite H0. destruct (unpacked big vals count); [reflexivity|discriminate].
  - rewrite (read_offsets buf a vals W E). cbn [bind]. rewrite unpack_loop_spec, Nat.sub_0_r. rewrite unpacked_length at 1 2. rewrite unpacked_firstn.
    rewrite write_fresh by reflexivity. reflexivity.
Qed.

Lemma nth_error_flat_bits big bytes j : nth_error (flat_map (bits_of big) bytes) j =
  match nth_error bytes (j / 8) with Some b => Some (nth (j mod 8) (bits_of big b) false) | None => None end.
Proof.
  pose proof (Nat.div_mod j 8 ltac:(lia)) as DM. pose proof (Nat.mod_upper_bound j 8 ltac:(lia)) as MB.
  rewrite DM at 1. rewrite (Nat.mul_comm 8). rewrite flat_map_concat_map, (nth_error_concat 8).
  - rewrite nth_error_map'. destruct (nth_error bytes (j / 8)) as [b|]; [|reflexivity]. cbn [option_map].
    apply nth_error_nth'. rewrite bits_of_length. exact MB.
  - intros l Hl. apply in_map_iff in Hl as (b & <- & _). apply bits_of_length.
  - exact MB.
Qed.

Lemma unpackbits_axis_spec big (buf : list Z) a axis count n : wf buf a -> nth_error (a_shape a) axis = Some n ->
  let m := Nat.min (match count with Some c => c | None => n * 8 end) (n * 8) in
  let osh := upd (a_shape a) axis m in
  exists out, unpackbits_axis big buf a axis count = Ok (osh, out) /\ length out = prod osh /\
    forall item oi vals, (0 < item)%Z -> inb oi (remove_at axis (a_shape a)) -> lane buf a axis oi = map Some vals ->
      lane out (fresh osh item) axis oi = map Some (unpacked big vals count).
Proof.
  intros W Hn m osh. assert (Hax : axis < ndim a) by (apply nth_error_Some; unfold ndim; congruence).
  assert (Hnth : nth axis (a_shape a) 0 = n) by (apply nth_error_nth with (1 := Hn)).
  assert (HO : nth_error osh axis = Some m) by (apply nth_error_upd_eq; exact Hax).
  assert (LVF : forall oi (vals : list Z), lane buf a axis oi = map Some vals -> length vals = n).
  { intros oi vals EL. apply (f_equal (@length _)) in EL. unfold lane in EL. rewrite !map_length, seq_length, Hnth in EL. symmetry; exact EL. }
  unfold unpackbits_axis. destruct (Nat.leb_spec (ndim a) axis); [lia|]. rewrite Hnth. fold m. fold osh.
  destruct (Nat.eqb_spec (prod osh) 0) as [H0|H0].
  { exists []. split; [reflexivity|]. split; [cbn; lia|]. intros item oi vals _ Hoi EL.
    unfold lane. cbn [fresh a_shape]. rewrite (nth_error_nth _ _ _ HO). pose proof (LVF oi vals EL) as LV.
    destruct m as [|k] eqn:Ek.
    - pose proof (unpacked_length big vals count) as U. rewrite LV in U. fold m in U. rewrite Ek in U.
      destruct (unpacked big vals count); [reflexivity|discriminate].
    - exfalso. assert (Hin : inb (insert_at axis 0 oi) osh).
      { apply (lane_inb osh axis oi 0 (S k) HO); [|lia]. unfold osh. rewrite remove_at_upd by exact Hax. exact Hoi. }
      pose proof (rank_lt _ _ Hin). lia. }
  assert (LO : length osh = ndim a) by apply upd_length.
  set (F := fun oi : list nat => bind (read buf a (byte_offset_for a (upd oi axis (nth axis oi 0 / 8)))) (fun byte => Ok (bit_at big byte (nth axis oi 0 mod 8)))).
  set (v := fun oi => match F oi with Ok z => z | _ => 0%Z end).
  assert (PB : forall oi j vals, inb oi (remove_at axis (a_shape a)) -> lane buf a axis oi = map Some vals -> j < m ->
     exists z, F (insert_at axis j oi) = Ok z /\ nth_error (unpacked big vals count) j = Some z).
  { intros oi j vals Hoi EL Hj. assert (HOL : axis <= length oi).
    { rewrite (inb_length _ _ Hoi), remove_at_length by exact Hax. unfold ndim in Hax. lia. }
    pose proof (LVF oi vals EL) as LV. unfold F.
    assert (EJ : nth axis (insert_at axis j oi) 0 = j).
    { apply nth_error_nth with (d := 0). rewrite nth_error_insert_at by exact HOL. rewrite Nat.ltb_irrefl, Nat.eqb_refl. reflexivity. }
    rewrite EJ, upd_insert_at by exact HOL.
    assert (HJ8 : j / 8 < n) by (apply Nat.div_lt_upper_bound; unfold m in Hj; lia).
    destruct (nth_error vals (j / 8)) as [b|] eqn:Eb; [|apply nth_error_None in Eb; lia].
    rewrite (lane_read buf a axis oi vals (j / 8) b EL Eb). cbn [bind]. eexists. split; [reflexivity|].
    rewrite <- unpacked_firstn, LV. fold m. rewrite nth_error_firstn_lt by exact Hj.
    rewrite nth_error_map', nth_error_flat_bits, Eb. cbn [option_map]. f_equal. symmetry. apply bit_at_spec. apply Nat.mod_upper_bound. lia. }
  assert (OK : forall idx, inb idx osh -> F idx = Ok (v idx)).
  { intros idx Hi. pose proof (inb_remove_at axis _ _ Hi) as Hr. unfold osh in Hr. rewrite remove_at_upd in Hr by exact Hax.
    pose proof (nth_inb _ _ _ _ Hi HO) as Hj.
    destruct (lane_vals buf a axis n _ W Hn Hr) as (vals & EL & _).
    destruct (PB _ (nth axis idx 0) vals Hr EL Hj) as (z & HP & _).
    rewrite (insert_remove_at axis (nth axis idx 0) idx) in HP by (apply nth_error_nth'; rewrite (inb_length _ _ Hi), LO; exact Hax).
    unfold v. rewrite HP. reflexivity. }
  rewrite <- LO. change (mapM _ _) with (mapM F (odometer (prod osh) (repeat 0 (length osh)) osh)).
  rewrite (gather_all osh F v OK). cbn [bind]. eexists. split; [reflexivity|]. split; [apply gather_len|].
  intros item oi vals HI Hoi EL. pose proof (LVF oi vals EL) as LV.
  apply nth_error_ext. intros j. unfold lane. cbn [fresh a_shape]. rewrite (nth_error_nth _ _ _ HO).
  rewrite !nth_error_map', nth_error_seq. destruct (Nat.ltb_spec j m) as [Hj|Hj]; cbn [option_map Nat.add].
  - destruct (PB oi j vals Hoi EL Hj) as (z & E1 & E2). rewrite E2. cbn [option_map]. f_equal.
    rewrite gather_get; [unfold v; rewrite E1; reflexivity|exact HI|].
    apply (lane_inb osh axis oi j _ HO); [|lia]. unfold osh. rewrite remove_at_upd by exact Hax. exact Hoi.
  - rewrite (proj2 (nth_error_None _ _)); [reflexivity|]. rewrite unpacked_length, LV. exact Hj.
Qed.

(* a byte is determined by its bits *)
Lemma bits_of_inj big b c : is_byte b -> is_byte c -> bits_of big b = bits_of big c -> b = c.
Proof.
  intros Hb Hc E. apply Z.bits_inj'. intros k Hk. destruct (Z_lt_le_dec k 8) as [H|H].
  - assert (N : forall i, i < 8 -> Z.testbit b (Z.of_nat (if big then 7 - i else i)) = Z.testbit c (Z.of_nat (if big then 7 - i else i))).
    { intros i Hi. apply (f_equal (fun l => nth_error l i)) in E. unfold bits_of in E. rewrite !nth_error_map', nth_error_seq in E.
      destruct (Nat.ltb_spec i 8); [|lia]. cbn [option_map Nat.add] in E. injection E as E. exact E. }
    destruct big.
    + specialize (N (7 - Z.to_nat k) ltac:(lia)). replace (Z.of_nat (7 - (7 - Z.to_nat k))) with k in N by lia. exact N.
    + specialize (N (Z.to_nat k) ltac:(lia)). rewrite Z2Nat.id in N by exact Hk. exact N.
  - assert (T : forall z, is_byte z -> Z.testbit z k = false).
    { intros z [H1 H2]. destruct (Z.eq_dec z 0) as [->|Hz]; [apply Z.bits_0|]. apply Z.bits_above_log2; [lia|].
      assert (Z.log2 z < 8)%Z by (apply Z.log2_lt_pow2; lia). lia. }
    rewrite !T by assumption. reflexivity.
Qed.
Lemma flat_bits_inj big : forall x y, Forall is_byte x -> Forall is_byte y -> flat_map (bits_of big) x = flat_map (bits_of big) y -> x = y.
Proof.
  induction x as [|b x IH]; intros [|c y] Hx Hy E; [reflexivity| | |].
  - apply (f_equal (@length _)) in E. rewrite !flat_bits_length in E. discriminate.
  - apply (f_equal (@length _)) in E. rewrite !flat_bits_length in E. discriminate.
  - cbn [flat_map] in E. inversion Hx; inversion Hy; subst.
    assert (E1 : bits_of big b = bits_of big c).
    { apply (f_equal (firstn 8)) in E. rewrite !firstn_app, !bits_of_length, Nat.sub_diag in E. rewrite !firstn_O in E.
      rewrite !app_nil_r, !firstn_all2 in E by (rewrite bits_of_length; lia). exact E. }
    f_equal; [apply (bits_of_inj big); assumption|]. apply IH; try assumption. rewrite E1 in E. apply app_inv_head in E. exact E.
Qed.

Lemma elems_fresh {V} (buf : list V) sh item : (0 < item)%Z -> length buf = prod sh -> elems buf (fresh sh item) = map Some buf.
Proof.
  intros HI HL. unfold elems. cbn [fresh a_shape]. apply nth_error_ext. intros k. rewrite !nth_error_map'.
  destruct (Nat.lt_ge_cases k (prod sh)) as [H|H].
  - rewrite nth_error_all_idx by exact H. cbn [option_map]. rewrite fresh_get by exact HI. rewrite rank_unrank by exact H.
    destruct (nth_error buf k) eqn:E; [reflexivity|apply nth_error_None in E; lia].
  - rewrite (proj2 (nth_error_None _ _)) by (rewrite all_idx_length; exact H). rewrite (proj2 (nth_error_None buf k)) by lia. reflexivity.
Qed.
