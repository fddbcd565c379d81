(* C103: array, asarray, ascontiguousarray, asfortranarray, require.  C104: copyto.
   C105: the array interface. *)
From Coq Require Import SpecFloat Ascii String.
From Verif Require Import Base Lists Int_Model Arr_Spec Arr_Model Arr_Wf Arr_Proofs Copy_Model Copy_Proofs Idx_Model Idx_Wf Wf_Check Rng_Model SF_Proofs SF_Arith
  New_Spec New_Model New_Proofs Span_Proofs Grid_Model Date_Spec Promo_Spec Promo_Model Io_Spec Io_Model Io_Proofs Lay_Spec Lay_Model Lay_Proofs Lay_Copy Lay_Iface.
Local Open Scope nat_scope.
Local Open Scope list_scope.
Ltac wfc := apply wf_check_sound; vm_compute; reflexivity.

(* ---- C103 ----------------------------------------------------------------------------- *)

(* the array the caller sees, and its dtype *)
Definition seen (buf : list cell) (r : placed) : list cell * arr := match r with Shared _ a => (buf, a) | New _ b a => (b, a) end.
Definition seen_dt (r : placed) : ldt := match r with Shared d _ => d | New d _ _ => d end.
(* r has the shape of a, dtype d', and at every index the converted element of a *)
Definition same_array (d : ldt) (buf : list cell) (a : arr) (d' : ldt) (r : placed) : Prop :=
  seen_dt r = d' /\ a_shape (snd (seen buf r)) = a_shape a /\ wf (fst (seen buf r)) (snd (seen buf r)) /\
  forall idx, inb idx (a_shape a) -> exists c c', get buf a idx = Some c /\ get (fst (seen buf r)) (snd (seen buf r)) idx = Some c' /\ converts d c d' c'.

Lemma shared_same d buf a : wf buf a -> same_array d buf a d (Shared d a).
Proof.
  intros W. split; [reflexivity|]. split; [reflexivity|]. split; [exact W|]. intros idx Hi. pose proof W as (_ & _ & _ & _ & G & _).
  destruct (G idx Hi) as (c & Hc). exists c, c. split; [exact Hc|]. split; [exact Hc|]. apply same_converts.
Qed.
Lemma to_new_same d d' buf a : wf buf a -> std d' -> (Z.of_nat (size a) * ld_item d' < 2 ^ 63)%Z ->
  exists b, to_new d d' buf a = Ok (New d' b (fresh (a_shape a) (ld_item d'))) /\ same_array d buf a d' (New d' b (fresh (a_shape a) (ld_item d'))).
Proof.
  intros W HS HB. destruct (astype_ok d d' buf a W HS HB) as (b & E & W' & G). exists b. unfold to_new. rewrite E. split; [reflexivity|].
  split; [reflexivity|]. split; [reflexivity|]. split; [exact W'|exact G].
Qed.

(* array(a, dtype), asarray(a, dtype): the elements of a in the requested dtype.  Missing:
   integers from 2^53 on when the dtype changes, and that array() copies (refuted below) *)
Theorem C103_array_partial : forall d buf a dtype, wf buf a -> std (choose d dtype) -> (Z.of_nat (size a) * ld_item (choose d dtype) < 2 ^ 63)%Z ->
  exists r, array_of d buf a dtype = Ok r /\ same_array d buf a (choose d dtype) r.
Proof.
  intros d buf a dtype W HS HB. unfold array_of. destruct (ldt_eqb d (choose d dtype)) eqn:E.
  - apply ldt_eqb_eq in E. eexists. split; [reflexivity|]. rewrite <- E. apply shared_same. exact W.
  - destruct (to_new_same d (choose d dtype) buf a W HS HB) as (b & E1 & S'). eexists. split; [exact E1|exact S'].
Qed.
Definition ex_buf : list cell := map CInt [1; 2; 3; 4; 5; 6]%Z.
Definition ex_view : arr := mkArr 0 [2; 2] [8; 16]%Z 8 false false.
Example C103_array_nonvacuous : wf ex_buf ex_view /\
  array_of (LInt i64_ty) ex_buf ex_view (Some LF64) = Ok (New LF64 (map (fun z => CFlt (f64_int z)) [1; 3; 2; 4]%Z) (fresh [2; 2] 8)).
Proof. split; [wfc|vm_compute; reflexivity]. Qed.

(* ascontiguousarray: the same, and the result is laid out in row-major order *)
Theorem C103_contiguous_partial : forall d buf a dtype, wf buf a -> std (choose d dtype) -> (Z.of_nat (size a) * ld_item (choose d dtype) < 2 ^ 63)%Z ->
  exists r, ascontiguousarray d buf a dtype = Ok r /\ same_array d buf a (choose d dtype) r /\
    a_c (snd (seen buf r)) = true /\ row_major (snd (seen buf r)).
Proof.
  intros d buf a dtype W HS HB. unfold ascontiguousarray. destruct (a_c a && ldt_eqb d (choose d dtype)) eqn:E.
  - apply andb_true_iff in E as [E1 E]. apply ldt_eqb_eq in E. eexists. split; [reflexivity|]. rewrite <- E. split; [apply shared_same; exact W|].
    split; [exact E1|]. apply (c_flag_row buf); assumption.
  - destruct (to_new_same d (choose d dtype) buf a W HS HB) as (b & E1 & S'). eexists. split; [exact E1|]. split; [exact S'|]. split; [reflexivity|].
    destruct S' as (_ & _ & W' & _). apply (c_flag_row b); [exact W'|reflexivity].
Qed.
Example C103_contiguous_nonvacuous :
  ascontiguousarray (LInt i64_ty) ex_buf ex_view None = Ok (New (LInt i64_ty) (map CInt [1; 3; 2; 4]%Z) (fresh [2; 2] 8)).
Proof. vm_compute. reflexivity. Qed.

(* asfortranarray: the same, and the result is laid out in column-major order *)
Theorem C103_fortran_partial : forall d buf a dtype, wf buf a -> std (choose d dtype) -> (Z.of_nat (size a) * ld_item (choose d dtype) < 2 ^ 63)%Z ->
  exists r, asfortranarray d buf a dtype = Ok r /\ same_array d buf a (choose d dtype) r /\
    a_f (snd (seen buf r)) = true /\ col_major (snd (seen buf r)).
Proof.
  intros d buf a dtype W HS HB. destruct (fortran_ok d (choose d dtype) buf a W HS HB) as (b & r & E & R1 & R2 & R3 & R4).
  exists (New (choose d dtype) b r). split; [exact E|]. split; [split; [reflexivity|split; [exact R1|split; [exact R2|exact R4]]]|].
  split; [exact R3|]. apply (f_flag_col b); assumption.
Qed.
Example C103_fortran_nonvacuous : exists r,
  asfortranarray (LInt i64_ty) ex_buf (fresh [2; 3] 8) None = Ok (New (LInt i64_ty) (map CInt [1; 4; 2; 5; 3; 6]%Z) r) /\ a_shape r = [2; 3] /\ a_strides r = [8; 16]%Z.
Proof. eexists. split; [vm_compute; reflexivity|]. split; reflexivity. Qed.

(* require(a, dtype, flags): the layout asked for, when only one is asked for *)
Theorem C103_require_partial : forall d buf a dtype reqs, wf buf a -> std (choose d dtype) -> (Z.of_nat (size a) * ld_item (choose d dtype) < 2 ^ 63)%Z ->
  exists r, require d buf a dtype reqs = Ok r /\ same_array d buf a (choose d dtype) r /\
    (In "C"%char reqs -> ~ In "F"%char reqs -> row_major (snd (seen buf r))) /\
    (In "F"%char reqs -> ~ In "C"%char reqs -> col_major (snd (seen buf r))).
Proof.
  intros d buf a dtype reqs W HS HB.
  assert (HH : forall c, has c reqs = true <-> In c reqs).
  { intros c. unfold has. rewrite existsb_exists. split; [intros (x & Hx & E); apply Ascii.eqb_eq in E; subst; exact Hx|intros H; exists c; split; [exact H|apply Ascii.eqb_refl]]. }
  unfold require. pose proof (HH "C"%char) as HC. pose proof (HH "F"%char) as HF. destruct (has "C"%char reqs), (has "F"%char reqs).
  - assert (I1 : In "C"%char reqs) by (apply HC; reflexivity). assert (I2 : In "F"%char reqs) by (apply HF; reflexivity).
    destruct (a_c a && ldt_eqb d (choose d dtype)) eqn:E.
    + apply andb_true_iff in E as [E1 E]. apply ldt_eqb_eq in E. eexists. split; [reflexivity|]. rewrite <- E. split; [apply shared_same; exact W|]. split; intros; contradiction.
    + destruct (C103_fortran_partial d buf a dtype W HS HB) as (r & E1 & S' & _). exists r. split; [exact E1|]. split; [exact S'|]. split; intros; contradiction.
  - assert (N2 : ~ In "F"%char reqs) by (rewrite <- HF; discriminate). destruct (C103_contiguous_partial d buf a dtype W HS HB) as (r & E & S' & _ & R).
    exists r. split; [exact E|]. split; [exact S'|]. split; [intros; exact R|intros; contradiction].
  - assert (N1 : ~ In "C"%char reqs) by (rewrite <- HC; discriminate). destruct (a_f a && ldt_eqb d (choose d dtype)) eqn:E.
    + apply andb_true_iff in E as [E1 E]. apply ldt_eqb_eq in E. eexists. split; [reflexivity|]. rewrite <- E. split; [apply shared_same; exact W|].
      split; [intros; contradiction|]. intros _ _. apply (f_flag_col buf); assumption.
    + destruct (C103_fortran_partial d buf a dtype W HS HB) as (r & E1 & S' & _ & R). exists r. split; [exact E1|]. split; [exact S'|]. split; [intros; contradiction|intros; exact R].
  - destruct (C103_array_partial d buf a dtype W HS HB) as (r & E & S'). exists r. split; [exact E|]. split; [exact S'|].
    assert (N1 : ~ In "C"%char reqs) by (rewrite <- HC; discriminate). assert (N2 : ~ In "F"%char reqs) by (rewrite <- HF; discriminate). split; intros; contradiction.
Qed.
Example C103_require_nonvacuous :
  require (LInt i64_ty) ex_buf ex_view None (txt "C") = Ok (New (LInt i64_ty) (map CInt [1; 3; 2; 4]%Z) (fresh [2; 2] 8)) /\ In "C"%char (txt "C") /\ ~ In "F"%char (txt "C").
Proof. split; [vm_compute; reflexivity|]. split; [left; reflexivity|]. intros [H|[]]. discriminate. Qed.

(* array(a) does not copy: writing to the result changes a *)
Theorem C103_copy_refuted : exists buf a b buf', wf buf a /\ array_of (LInt i64_ty) buf a None = Ok (Shared (LInt i64_ty) b) /\
  fill_scalar buf b (CInt 9) = Ok buf' /\ get buf a [0] = Some (CInt 1) /\ get buf' a [0] = Some (CInt 9).
Proof. exists (map CInt [1; 2]%Z), (fresh [2] 8). eexists _, _. split; [wfc|]. split; [vm_compute; reflexivity|]. split; [vm_compute; reflexivity|]. split; vm_compute; reflexivity. Qed.
(* require(a, requirements='O') returns an array on a's memory *)
Theorem C103_owndata_refuted : exists buf a, wf buf a /\ require (LInt i64_ty) buf a None (txt "O") = Ok (Shared (LInt i64_ty) a).
Proof. exists ex_buf, ex_view. split; [wfc|vm_compute; reflexivity]. Qed.
(* require(a, requirements='CF') returns an array that is not row-major *)
Theorem C103_both_refuted : exists r, require (LInt i64_ty) ex_buf (mkArr 0 [2; 2] [8; 24]%Z 8 false false) None (txt "CF") = Ok r /\ ~ row_major (snd (seen ex_buf r)).
Proof. eexists. split; [vm_compute; reflexivity|]. intros H. specialize (H [0; 1] ltac:(repeat constructor)). vm_compute in H. discriminate. Qed.
(* ascontiguousarray promises at least one axis; a 0-d array stays 0-d *)
Theorem C103_zero_d_refuted : exists buf a r, wf buf a /\ ascontiguousarray (LInt i64_ty) buf a None = Ok r /\ a_shape (snd (seen buf r)) = [].
Proof. exists [CInt 5], (fresh [] 8). eexists. split; [wfc|]. split; [vm_compute; reflexivity|reflexivity]. Qed.
(* int64 to uint64: 2^53+1 changes although both dtypes hold it *)
Theorem C103_large_refuted : exists r, array_of (LInt i64_ty) [CInt (2 ^ 53 + 1)] (fresh [1] 8) (Some (LInt (mkIty 64 false))) = Ok r /\
  get (fst (seen [] r)) (snd (seen [] r)) [0] = Some (CInt (2 ^ 53)).
Proof. eexists. split; [vm_compute; reflexivity|vm_compute; reflexivity]. Qed.

(* ---- C104 ------------------------------------------------------------------------------- *)

(* copyto(dst, src, where=mask): where the mask holds, dst gets the broadcast element of
   src (an integer below 2^53 that dst's dtype holds is stored exactly, a float64 element
   exactly in a float64 dst); elsewhere, and outside dst, nothing changes.  src and mask
   may be views of dst's buffer as long as they do not touch dst's elements.  Missing:
   larger integers, overlapping memory, the casting rule (refuted below) *)
Theorem C104_copyto_partial : forall dd dbuf dst src mask, wf dbuf dst -> injective dst ->
  apart dst dbuf src -> (op_dt src = dd -> a_item (op_arr src) = a_item dst) -> broadcastable (a_shape (op_arr src)) (a_shape dst) -> mask_ok mask dst dbuf ->
  exists buf', copyto dd dbuf dst src mask = Ok buf' /\ List.length buf' = List.length dbuf /\
    (forall idx, inb idx (a_shape dst) ->
       (chosen mask dbuf idx -> exists c c', get (op_buf src dbuf) (op_arr src) (unbroadcast (a_shape (op_arr src)) idx) = Some c /\
          get buf' dst idx = Some c' /\
          (forall z, is_int (op_dt src) c z -> (Z.abs z < 2 ^ 53)%Z -> holds dd z -> is_int dd c' z) /\
          (op_dt src = LF64 -> dd = LF64 -> cell_ok LF64 c -> c' = c)) /\
       (spared mask dbuf idx -> get buf' dst idx = get dbuf dst idx)) /\
    (forall ad, (forall idx, inb idx (a_shape dst) -> ad <> addr dst idx) -> load buf' (a_item dst) ad = load dbuf (a_item dst) ad).
Proof.
  intros dd dbuf dst src mask W HJ HP HI HB HM. destruct (copyto_ok dd dbuf dst src mask W HJ HP HI HB HM) as (buf' & bs & E & _ & L & S' & O).
  exists buf'. split; [exact E|]. split; [exact L|]. split; [|exact O]. intros idx Hi. destruct (S' idx Hi) as [S1 S2]. split; [|exact S2].
  intros HC. destruct (S1 HC) as (c & Hc & Hc'). eexists c, _. split; [exact Hc|]. split; [exact Hc'|].
  destruct (fast dd dst src mask bs) eqn:EF.
  - assert (ED : dd = op_dt src).
    { unfold fast in EF. destruct mask; [discriminate|]. apply andb_true_iff in EF as [EF _]. apply andb_true_iff in EF as [EF _]. apply ldt_eqb_eq. exact EF. }
    rewrite ED. split; [intros z Hz _ _; exact Hz|reflexivity].
  - split.
    + intros z Hz Hs Hh. apply write_is; [|exact Hh]. apply read_is; assumption.
    + intros ES -> HK. rewrite ES. destruct c; [contradiction|reflexivity].
Qed.
Definition ex_dst : arr := fresh [2; 3] 8.
Definition ex_row : operand := (LBool, Some (map CInt [1; 0; 1]%Z), fresh [3] 1).
Definition ex_mask : operand := (LBool, Some (map CInt [0; 1]%Z), fresh [2; 1] 1).
Example C104_copyto_nonvacuous : wf ex_buf ex_dst /\ apart ex_dst ex_buf ex_row /\ broadcastable [3] [2; 3] /\ broadcastable [2; 1] [2; 3] /\
  copyto (LInt i64_ty) ex_buf ex_dst ex_row (Some ex_mask) = Ok (map CInt [1; 2; 3; 1; 0; 1]%Z).
Proof.
  split; [wfc|]. split; [unfold apart; cbn; wfc|]. split; [split; [cbn; lia|cbn; repeat constructor]|]. split; [split; [cbn; lia|cbn; repeat constructor; right; reflexivity]|].
  vm_compute. reflexivity.
Qed.

(* same dtype, both contiguous, no mask: the elements themselves, whatever they are *)
Theorem C104_contiguous : forall dd dbuf dst sbuf s, wf dbuf dst -> injective dst -> wf sbuf s ->
  a_item s = a_item dst -> a_shape s = a_shape dst -> a_c dst = true -> a_c s = true ->
  exists buf', copyto dd dbuf dst (dd, Some sbuf, s) None = Ok buf' /\
    forall idx, inb idx (a_shape dst) -> get buf' dst idx = get sbuf s idx.
Proof.
  intros dd dbuf dst sbuf s W HJ WS HI HS C1 C2.
  destruct (copyto_ok dd dbuf dst (dd, Some sbuf, s) None W HJ WS (fun _ => HI)) as (buf' & bs & E & EB & _ & S' & _);
    [cbn; rewrite HS; apply Gu_Proofs.broadcastable_refl|exact I|].
  exists buf'. split; [exact E|]. intros idx Hi. destruct (S' idx Hi) as [S1 _]. destruct (S1 I) as (c & Hc & Hc').
  unfold shape_to, op_arr in EB. cbn [snd] in EB. rewrite HS, Idx_Assign.list_eqb_refl in EB. injection EB as <-.
  unfold op_arr, op_buf in Hc. cbn [fst snd] in Hc. rewrite unbroadcast_same in Hc by (rewrite HS; exact Hi).
  unfold fast, op_dt in Hc'. cbn [fst snd] in Hc'. rewrite ldt_eqb_refl, C1, C2 in Hc'. cbn [andb] in Hc'. congruence.
Qed.
Example C104_contiguous_nonvacuous :
  copyto (LInt i64_ty) ex_buf ex_dst (LInt i64_ty, Some (map CInt [2 ^ 60 + 1; 0; 0; 0; 0; 7]%Z), ex_dst) None = Ok (map CInt [2 ^ 60 + 1; 0; 0; 0; 0; 7]%Z).
Proof. vm_compute. reflexivity. Qed.

(* a source that cannot be broadcast to dst is rejected *)
Theorem C104_rejects : forall dd dbuf dst src mask, wf (op_buf src dbuf) (op_arr src) -> ~ broadcastable (a_shape (op_arr src)) (a_shape dst) ->
  copyto dd dbuf dst src mask = Err.
Proof.
  intros dd dbuf dst src mask W HN. unfold copyto, shape_to. destruct (list_eqb (a_shape (op_arr src)) (a_shape dst)) eqn:E.
  - apply Idx_Assign.list_eqb_eq in E. rewrite E in HN. exfalso. apply HN. apply Gu_Proofs.broadcastable_refl.
  - destruct (broadcast_to_is_view _ _ (a_shape dst) W) as [_ H]. rewrite (H HN). reflexivity.
Qed.
Example C104_rejects_nonvacuous : ~ broadcastable [2] [2; 3].
Proof. intros [_ H]. cbn in H. inversion H; subst. lia. Qed.

(* int64 to int64 between strided views: 2^53+1 arrives as 2^53 *)
Theorem C104_large_refuted : exists src, copyto (LInt i64_ty) (map CInt [0; 0; 0]%Z) (mkArr 0 [2] [16]%Z 8 false false) (LInt i64_ty, Some src, fresh [2] 8) None
   = Ok (map CInt [2 ^ 53; 0; 5]%Z) /\ get src (fresh [2] 8) [0] = Some (CInt (2 ^ 53 + 1)).
Proof. exists (map CInt [2 ^ 53 + 1; 5]%Z). split; vm_compute; reflexivity. Qed.
(* copyto(a[1:], a[:-1]): overlapping memory is passed to copy_nonoverlapping *)
Theorem C104_overlap_refuted : copyto (LInt i64_ty) (map CInt [1; 2; 3]%Z) (mkArr 8 [2] [8]%Z 8 true true) (LInt i64_ty, None, mkArr 0 [2] [8]%Z 8 true true) None = Fault.
Proof. vm_compute. reflexivity. Qed.
(* copyto(a[::-1], a) gives [1, 2, 1] instead of [3, 2, 1] *)
Theorem C104_reverse_refuted : copyto (LInt i64_ty) (map CInt [1; 2; 3]%Z) (mkArr 16 [3] [-8]%Z 8 false false) (LInt i64_ty, None, fresh [3] 8) None = Ok (map CInt [1; 2; 1]%Z).
Proof. vm_compute. reflexivity. Qed.
(* a float source is truncated into an integer dst: the casting rule is not checked *)
Theorem C104_casting_refuted : exists f, sf_is f 3 (-1) /\ copyto (LInt i64_ty) [CInt 0] (fresh [1] 8) (LF64, Some [CFlt f], fresh [1] 8) None = Ok [CInt 1].
Proof. exists (S754_finite false 6755399441055744 (-52)). split; [vm_compute; reflexivity|vm_compute; reflexivity]. Qed.

(* ---- C105 --------------------------------------------------------------------------------- *)

(* exporting an array through __array_interface__ and importing the dictionary gives the
   same dtype, shape and elements, for every layout.  Missing: string dtypes (refuted below) *)
Theorem C105_round_trip_partial : forall k buf a, fixed k -> wf buf a -> a_item a = itemsize k -> sized (Z.to_nat (itemsize k)) buf ->
  (Z.of_nat (size a) * itemsize k < 2 ^ 63)%Z ->
  exists vals, import (concat buf) (export k a) None = Ok (k, vals, fresh (a_shape a) (itemsize k)) /\ wf vals (fresh (a_shape a) (itemsize k)) /\
    forall idx, inb idx (a_shape a) -> get vals (fresh (a_shape a) (itemsize k)) idx = get buf a idx.
Proof. exact round_trip_ok. Qed.
Definition b2 (x y : Z) : bytes := [byte x; byte y].
Example C105_round_trip_nonvacuous : fixed Int16 /\ wf [b2 1 0; b2 2 0; b2 3 0] (mkArr 4 [2] [-4]%Z 2 false false) /\
  import (concat [b2 1 0; b2 2 0; b2 3 0]) (export Int16 (mkArr 4 [2] [-4]%Z 2 false false)) None = Ok (Int16, [b2 3 0; b2 1 0], fresh [2] 2).
Proof. split; [exact I|]. split; [wfc|]. vm_compute. reflexivity. Qed.

(* any exporter's dictionary: element idx is the itemsize bytes at data + idx . strides,
   row-major when no strides are given *)
Theorem C105_import_partial : forall mem i k, dtype_from_typestr (if_type i) = Ok k -> (0 < itemsize k)%Z -> (Z.of_nat (prod (if_shape i)) * itemsize k < 2 ^ 63)%Z ->
  let place := fun idx => (if_data i + match if_strides i with Some st => dot idx st | None => itemsize k * Z.of_nat (rm_rank (if_shape i) idx) end)%Z in
  (forall idx, inb idx (if_shape i) -> (0 <= place idx /\ place idx + itemsize k <= Z.of_nat (List.length mem))%Z) ->
  exists vals, import mem i None = Ok (k, vals, fresh (if_shape i) (itemsize k)) /\ wf vals (fresh (if_shape i) (itemsize k)) /\
    forall idx, inb idx (if_shape i) ->
      get vals (fresh (if_shape i) (itemsize k)) idx = Some (firstn (Z.to_nat (itemsize k)) (skipn (Z.to_nat (place idx)) mem)).
Proof.
  intros mem i k HK HI HB place HM.
  assert (EP : forall idx, (if_data i + dot idx (match if_strides i with Some st => st | None => c_strides (if_shape i) (itemsize k) end))%Z = place idx).
  { intros idx. unfold place. destruct (if_strides i); [reflexivity|]. rewrite dot_c_strides. reflexivity. }
  destruct (import_ok mem i None k HK HI HB) as (vals & E & W & G).
  - intros idx Hi. rewrite EP. apply HM. exact Hi.
  - exists vals. split; [exact E|]. split; [exact W|]. intros idx Hi. rewrite (G idx Hi), EP. reflexivity.
Qed.
Example C105_import_nonvacuous : dtype_from_typestr (txt "|u1") = Ok Uint8 /\
  import (map byte [10; 11; 12; 13]%Z) (mkIface [2; 2] (txt "|u1") 0 None) None = Ok (Uint8, map (fun z => [byte z]) [10; 11; 12; 13]%Z, fresh [2; 2] 1).
Proof. split; vm_compute; reflexivity. Qed.

(* array(x, dtype=int64) of an exporter of int16: the dtype is applied to the bytes, and
   memory behind the exporter's is read *)
Theorem C105_dtype_refuted : import (concat [b2 1 0; b2 2 0]) (mkIface [2] (txt "<i2") 0 (Some [2%Z])) (Some Int64) = Fault.
Proof. vm_compute. reflexivity. Qed.
(* the same with dtype=uint8: 257 becomes 1 without a conversion *)
Theorem C105_bytes_refuted : import (concat [b2 1 1; b2 2 0]) (mkIface [2] (txt "<i2") 0 (Some [2%Z])) (Some Uint8) = Ok (Uint8, [[byte 1]; [byte 2]], fresh [2] 1).
Proof. vm_compute. reflexivity. Qed.
(* a big-endian exporter: the bytes 0, 1 (the number 1) are read as 256 *)
Theorem C105_byte_order_refuted : exists v, import (b2 0 1) (mkIface [1] (txt ">i2") 0 None) None = Ok (Int16, [v], fresh [1] 2) /\ le_value v = 256%Z.
Proof. eexists. split; [vm_compute; reflexivity|vm_compute; reflexivity]. Qed.
(* a string array is exported as "<U0": every element comes back empty *)
Theorem C105_string_refuted : exists e, List.length e = 4 /\
  import (concat [e]) (export (Str 1) (fresh [1] 4)) None = Ok (Str 0, [[]], fresh [1] 0).
Proof. exists (map byte [65; 0; 0; 0]%Z). split; [reflexivity|vm_compute; reflexivity]. Qed.

Print Assumptions C103_array_partial.
Print Assumptions C103_contiguous_partial.
Print Assumptions C103_fortran_partial.
Print Assumptions C103_require_partial.
Print Assumptions C103_copy_refuted.
Print Assumptions C103_owndata_refuted.
Print Assumptions C103_both_refuted.
Print Assumptions C103_zero_d_refuted.
Print Assumptions C103_large_refuted.
Print Assumptions C104_copyto_partial.
Print Assumptions C104_contiguous.
Print Assumptions C104_rejects.
Print Assumptions C104_large_refuted.
Print Assumptions C104_overlap_refuted.
Print Assumptions C104_reverse_refuted.
Print Assumptions C104_casting_refuted.
Print Assumptions C105_round_trip_partial.
Print Assumptions C105_import_partial.
Print Assumptions C105_dtype_refuted.
Print Assumptions C105_bytes_refuted.
Print Assumptions C105_byte_order_refuted.
Print Assumptions C105_string_refuted.
