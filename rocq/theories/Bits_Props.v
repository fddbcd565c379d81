(* C50: packbits and unpackbits. *)
From Verif Require Import Base Lists Arr_Spec Arr_Model Arr_Wf Arr_Proofs Wf_Check Copy_Model Copy_Proofs
  Idx_Model Elem_Proofs Red_Model Red_Spec Red_Proofs Man_Proofs Sel_Proofs Sel_Ops Bits_Spec Bits_Model Bits_Proofs.
Local Open Scope nat_scope.

(* packbits: ceil(n/8) bytes that hold the truth values in row-major order, the last
   byte filled up with zeros *)
Theorem C50_packbits : forall {V} (truthy : V -> bool) big (buf : list V) a vals, wf buf a -> elems buf a = map Some vals ->
  exists out, packbits_flat truthy big buf a = Ok ([(size a + 7) / 8], out) /\ length out = (size a + 7) / 8 /\
    packed big (map truthy vals) out.
Proof.
  intros V truthy big buf a vals W E. exists (pack_list big (map truthy vals)). split; [apply packbits_flat_spec; assumption|].
  destruct (pack_list_ok big _ (map truthy vals) (le_n _)) as [H1 H2]. split; [|exact H1].
  rewrite H2, map_length, (elems_length _ _ _ E). reflexivity.
Qed.

(* unpackbits of a uint8 array: the bits of its bytes, the first count of them *)
Theorem C50_unpackbits : forall big (buf : list Z) a count vals, wf buf a -> elems buf a = map Some vals ->
  unpackbits_flat big buf a count = Ok ([length (unpacked big vals count)], unpacked big vals count).
Proof. intros big buf a count vals W E. apply unpackbits_flat_spec; assumption. Qed.

(* the same along an axis, lane by lane *)
Theorem C50_packbits_axis : forall {V} (truthy : V -> bool) big (buf : list V) a axis n, wf buf a -> nth_error (a_shape a) axis = Some n ->
  let osh := upd (a_shape a) axis ((n + 7) / 8) in
  exists out, packbits_axis truthy big buf a axis = Ok (osh, out) /\ length out = prod osh /\
    forall item oi vals, (0 < item)%Z -> inb oi (remove_at axis (a_shape a)) -> lane buf a axis oi = map Some vals ->
      exists bytes, lane out (fresh osh item) axis oi = map Some bytes /\ packed big (map truthy vals) bytes.
Proof.
  intros V truthy big buf a axis n W Hn osh. destruct (packbits_axis_spec truthy big buf a axis n W Hn) as (out & E & L & H).
  exists out. split; [exact E|]. split; [exact L|]. intros item oi vals HI Ho EL. exists (pack_list big (map truthy vals)).
  split; [apply H; assumption|]. exact (proj1 (pack_list_ok big _ (map truthy vals) (le_n _))).
Qed.
Theorem C50_unpackbits_axis : forall big (buf : list Z) a axis count n, wf buf a -> nth_error (a_shape a) axis = Some n ->
  let osh := upd (a_shape a) axis (Nat.min (match count with Some c => c | None => n * 8 end) (n * 8)) in
  exists out, unpackbits_axis big buf a axis count = Ok (osh, out) /\ length out = prod osh /\
    forall item oi vals, (0 < item)%Z -> inb oi (remove_at axis (a_shape a)) -> lane buf a axis oi = map Some vals ->
      lane out (fresh osh item) axis oi = map Some (unpacked big vals count).
Proof. intros big buf a axis count n W Hn. apply unpackbits_axis_spec; assumption. Qed.

(* there is one way to pack *)
Theorem C50_packed_unique : forall big bits x y, packed big bits x -> packed big bits y -> x = y.
Proof.
  intros big bits x y [Hx (p & Hp & Ex)] [Hy (q & Hq & Ey)]. apply (flat_bits_inj big); [exact Hx|exact Hy|].
  assert (p = q); [|congruence].
  apply (f_equal (@length _)) in Ex. apply (f_equal (@length _)) in Ey. rewrite flat_bits_length, app_length, repeat_length in Ex, Ey. lia.
Qed.

(* unpackbits(packbits(b), count=len(b)) = b, if the results fit in memory *)
Theorem C50_unpack_pack : forall {V} (truthy : V -> bool) big (buf : list V) a vals, wf buf a -> elems buf a = map Some vals ->
  (Z.of_nat (size a) < 2 ^ 63)%Z ->
  exists sh bytes, packbits_flat truthy big buf a = Ok (sh, bytes) /\
    unpackbits_flat big bytes (fresh sh 1) (Some (length vals)) = Ok ([length vals], map (fun v => Z.b2z (truthy v)) vals).
Proof.
  intros V truthy big buf a vals W E HM. destruct (C50_packbits truthy big buf a vals W E) as (out & EP & HL & HB & (pad & Hp & EB)).
  exists [(size a + 7) / 8], out. split; [exact EP|].
  assert (FW : wf out (fresh [(size a + 7) / 8] 1)) by (apply fresh_wf; [lia|rewrite HL; lia|cbn [prod]; lia]).
  assert (FE : elems out (fresh [(size a + 7) / 8] 1) = map Some out) by (apply elems_fresh; [lia|cbn [prod]; lia]).
  rewrite (C50_unpackbits big _ _ (Some (length vals)) out FW FE). f_equal.
  assert (EU : unpacked big out (Some (length vals)) = map (fun v => Z.b2z (truthy v)) vals).
  { unfold unpacked. rewrite EB, map_app, firstn_app, !map_length, Nat.sub_diag. rewrite firstn_O, app_nil_r, map_map.
    apply firstn_all2. rewrite map_length. lia. }
  rewrite EU, map_length. reflexivity.
Qed.

(* packbits(unpackbits(x)) = x for bytes x *)
Theorem C50_pack_unpack : forall big (buf : list Z) a vals, wf buf a -> elems buf a = map Some vals -> Forall is_byte vals ->
  (Z.of_nat (size a) * 8 < 2 ^ 63)%Z ->
  exists sh bits, unpackbits_flat big buf a None = Ok (sh, bits) /\
    packbits_flat (fun b => negb (b =? 0)%Z) big bits (fresh sh 1) = Ok ([length vals], vals).
Proof.
  intros big buf a vals W E HB HM. rewrite (C50_unpackbits big buf a None vals W E). set (bits := unpacked big vals None).
  exists [length bits], bits. split; [reflexivity|].
  assert (FW : wf bits (fresh [length bits] 1)) by (apply fresh_wf; [lia|unfold bits; rewrite unpacked_length, (elems_length _ _ _ E); lia|cbn [prod]; lia]).
  assert (FE : elems bits (fresh [length bits] 1) = map Some bits) by (apply elems_fresh; [lia|cbn [prod]; lia]).
  destruct (C50_packbits (fun b => negb (b =? 0)%Z) big bits _ bits FW FE) as (out & EP & HL & HP). rewrite EP.
  assert (EB : map (fun b => negb (b =? 0)%Z) bits = flat_map (bits_of big) vals).
  { unfold bits, unpacked. rewrite map_map. rewrite <- (map_id (flat_map (bits_of big) vals)) at 2. apply map_ext. intros []; reflexivity. }
  rewrite EB in HP. assert (out = vals).
  { apply (C50_packed_unique big (flat_map (bits_of big) vals)); [exact HP|]. split; [exact HB|]. exists 0. split; [lia|]. cbn [repeat]. rewrite app_nil_r. reflexivity. }
  subst out. rewrite HL. reflexivity.
Qed.
Example C50_nonvacuous :
  let t := fun b => negb (b =? 0)%Z in
  let bits := [1; 0; 1; 1; 0; 0; 0; 0; 7; 1]%Z in
  wf bits (fresh [10] 8) /\
  packbits_flat t true bits (fresh [10] 8) = Ok ([2], [176; 192]%Z) /\
  packbits_flat t false bits (fresh [10] 8) = Ok ([2], [13; 3]%Z) /\
  unpackbits_flat true [176; 192]%Z (fresh [2] 1) (Some 10) = Ok ([10], [1; 0; 1; 1; 0; 0; 0; 0; 1; 1]%Z) /\
  packbits_axis t true bits (mkArr 0 [2; 5] [8; 16]%Z 8 false true) 1 = Ok ([2; 1], [200; 72]%Z) /\
  unpackbits_axis false [200; 72]%Z (fresh [2; 1] 1) 1 (Some 4) = Ok ([2; 4], [0; 0; 0; 1; 0; 0; 0; 1]%Z).
Proof. split; [apply wf_check_sound; vm_compute; reflexivity|]. repeat split; vm_compute; reflexivity. Qed.

(* an axis that does not exist: the array is flattened *)
Theorem C50_axis_out_of_range : forall {V} (truthy : V -> bool) big (buf : list V) a axis, ndim a <= axis ->
  packbits_axis truthy big buf a axis = packbits_flat truthy big buf a.
Proof. intros V truthy big buf a axis H. unfold packbits_axis. destruct (Nat.leb_spec (ndim a) axis); [reflexivity|lia]. Qed.

Print Assumptions C50_packbits.
Print Assumptions C50_unpackbits.
Print Assumptions C50_packbits_axis.
Print Assumptions C50_unpackbits_axis.
Print Assumptions C50_packed_unique.
Print Assumptions C50_unpack_pack.
Print Assumptions C50_pack_unpack.
Print Assumptions C50_axis_out_of_range.
