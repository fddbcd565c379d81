(* C93: array(list) describes the list.  C94: tolist() inverts it. *)
From Coq Require Import SpecFloat.
From Verif Require Import Base Lists Int_Model Int_Proofs Arr_Spec Arr_Model Arr_Wf Arr_Proofs Rng_Model SF_Proofs SF_Arith New_Spec New_Model Span_Proofs New_Proofs.

(* ---- C93 -------------------------------------------------------------------- *)

(* array(o, dtype=d) of a rectangular nested list whose numbers fit d: the array has
   the list's shape and stores each number exactly.  Missing: integers of uint64
   from 2^63 on, numbers of another type than d, ragged lists (refuted below). *)
Theorem C93_dtype_partial : forall o n sh d,
  rect o (n :: sh) -> std d -> (Z.of_nat (prod (n :: sh)) * ld_item d < 2 ^ 63)%Z ->
  (forall idx v, inb idx (n :: sh) -> at_ o idx = Some v -> fits d v /\ (forall z, v = PInt z -> representable i64_ty z)) ->
  exists buf a, array_of_list (Some d) o = Ok (d, (buf, a)) /\ a_shape a = n :: sh /\ wf buf a /\
    forall idx, inb idx (n :: sh) -> exists v c, at_ o idx = Some v /\ get buf a idx = Some c /\ stores d v c.
Proof.
  intros o n sh d R Hd HB HF.
  destruct (array_ok (Some d) o n sh d R Hd eq_refl) as (buf & a & E & S1 & W & _ & P & G); [|exact HB|].
  - intros v Hv. destruct (leaves_in _ o v R Hv) as (idx & Hi & Ev). destruct (HF idx v Hi Ev) as [F1 F2]. split; [exact F1|].
    destruct d, v; try exact I. now apply F2.
  - exists buf, a. ssplit; try assumption. intros idx Hi. destruct (at_leaf _ o idx R Hi) as (v & Ev & _).
    destruct (Forall2_nth _ _ _ (rank (n :: sh) idx) v P) as (c & Ec & Sc); [now rewrite leaves_at|].
    exists v, c. ssplit; try assumption. now rewrite G.
Qed.
Example C93_dtype_nonvacuous :
  rect (PList [PList [PInt 1; PInt (-2)]; PList [PInt 3; PInt 127]]) [2; 2] /\
  match array_of_list (Some (LInt (mkIty 8 true))) (PList [PList [PInt 1; PInt (-2)]; PList [PInt 3; PInt 127]]) with
  | Ok (_, (buf, a)) => buf = map CInt [1; -2; 3; 127]%Z /\ a_shape a = [2; 2]
  | _ => False
  end.
Proof.
  split; [|vm_compute; split; reflexivity].
  apply (R_list [PList [PInt 1; PInt (-2)]; PList [PInt 3; PInt 127]] [2]); [discriminate|].
  repeat constructor; try discriminate; apply (R_list [PInt _; PInt _] []); try discriminate; repeat constructor.
Qed.

(* array(o) without dtype, all numbers of one Python type: int64, bool or float64 *)
Theorem C93_array_partial : forall o n sh d,
  rect o (n :: sh) -> (Z.of_nat (prod (n :: sh)) * 8 < 2 ^ 63)%Z ->
  (forall idx v, inb idx (n :: sh) -> at_ o idx = Some v -> natural v d) ->
  (prod (n :: sh) = 0 -> d = LF64) ->
  exists buf a, array_of_list None o = Ok (d, (buf, a)) /\ a_shape a = n :: sh /\ wf buf a /\
    forall idx, inb idx (n :: sh) -> exists v c, at_ o idx = Some v /\ get buf a idx = Some c /\ stores d v c.
Proof.
  intros o n sh d R HB HN H0.
  assert (forall v, In v (leaves o) -> natural v d) as HL.
  { intros v Hv. destruct (leaves_in _ o v R Hv) as (idx & Hi & Ev). eauto. }
  assert (std d /\ infer o = d) as [Hd Hi].
  { rewrite (infer_leaves _ o R). pose proof (leaves_length _ o R) as LL. destruct (leaves o) as [|v l].
    - rewrite H0 by (now rewrite <- LL). now split.
    - pose proof (HL v (or_introl eq_refl)) as Hv. split; [|now apply infer_natural].
      destruct v; cbn [natural] in Hv; try contradiction; [destruct Hv as [_ ->]|subst|subst]; cbn; auto. unfold std_int. auto. }
  pose proof (ld_item_pos d Hd) as BI.
  destruct (array_ok None o n sh d R Hd Hi) as (buf & a & E & S1 & W & _ & P & G); [|nia|].
  - intros v Hv. specialize (HL v Hv). destruct v; cbn [natural] in HL; try contradiction; [destruct HL as [HR ->]; split; exact HR|subst; split; exact I|subst; split; exact I].
  - exists buf, a. ssplit; try assumption. intros idx Hx. destruct (at_leaf _ o idx R Hx) as (v & Ev & _).
    destruct (Forall2_nth _ _ _ (rank (n :: sh) idx) v P) as (c & Ec & Sc); [now rewrite leaves_at|].
    exists v, c. ssplit; try assumption. now rewrite G.
Qed.
Example C93_array_nonvacuous :
  match array_of_list None (PList [PList [PBool true]; PList [PBool false]; PList [PBool true]]) with
  | Ok (d, (buf, a)) => d = LBool /\ buf = map CInt [1; 0; 1]%Z /\ a_shape a = [3; 1]
  | _ => False
  end.
Proof. vm_compute. repeat split. Qed.

(* [1, 2.5] becomes the int64 array [1, 2] *)
Theorem C93_mixed_refuted : exists o f buf a,
  rect o [2] /\ o = PList [PInt 1; PFloat f] /\ sf_is f 5 (-1) /\
  array_of_list None o = Ok (LInt i64_ty, (buf, a)) /\ buf = [CInt 1; CInt 2].
Proof.
  exists (PList [PInt 1; PFloat (S754_finite false 5 (-1))]), (S754_finite false 5 (-1)).
  eexists _, _. split; [apply (R_list [PInt 1; PFloat _] []); [discriminate|repeat constructor]|].
  split; [reflexivity|]. split; [reflexivity|]. split; [vm_compute; reflexivity|reflexivity].
Qed.

(* a ragged list is silently flattened, a list mixing depths is accepted *)
Theorem C93_ragged_refuted :
  (exists o buf a, (forall sh, ~ rect o sh) /\ array_of_list None o = Ok (LInt i64_ty, (buf, a)) /\ a_shape a = [3]) /\
  (exists o buf a, (forall sh, ~ rect o sh) /\ array_of_list None o = Ok (LInt i64_ty, (buf, a)) /\ a_shape a = [2; 1]).
Proof.
  split.
  - exists (PList [PList [PInt 1; PInt 2]; PList [PInt 3]]). eexists _, _. split; [|split; [vm_compute; reflexivity|reflexivity]].
    intros sh H. inversion H as [? HL| |l s Hl F]; subst; [exact HL|]. inversion F as [|? ? H1 F1]; subst. inversion F1 as [|? ? H2 _]; subst.
    destruct s as [|m s]; [exact (rect_nil_inv _ H1)|].
    destruct (rect_list_inv _ m s H1) as [(E1 & _)|(l1 & E1 & _ & L1 & _)]; [discriminate|]. injection E1 as <-.
    destruct (rect_list_inv _ m s H2) as [(E2 & _)|(l2 & E2 & _ & L2 & _)]; [discriminate|]. injection E2 as <-. cbn in L1, L2. congruence.
  - exists (PList [PList [PInt 1]; PInt 2]). eexists _, _. split; [|split; [vm_compute; reflexivity|reflexivity]].
    intros sh H. inversion H as [? HL| |l s Hl F]; subst; [exact HL|]. inversion F as [|? ? H1 F1]; subst. inversion F1 as [|? ? H2 _]; subst.
    destruct s as [|m s]; [exact (rect_nil_inv _ H1)|].
    destruct (rect_list_inv _ m s H2) as [(E2 & _)|(l2 & E2 & _)]; discriminate.
Qed.

(* array([2^63 + 1], dtype=uint64) stores 2^63 *)
Theorem C93_uint64_refuted : exists z buf a,
  representable (mkIty 64 false) z /\ fits (LInt (mkIty 64 false)) (PInt z) /\
  array_of_list (Some (LInt (mkIty 64 false))) (PList [PInt z]) = Ok (LInt (mkIty 64 false), (buf, a)) /\ buf = [CInt (z - 1)].
Proof.
  exists (2 ^ 63 + 1)%Z. eexists _, _. split; [vm_compute; split; discriminate|]. split; [vm_compute; split; discriminate|]. split; [vm_compute; reflexivity|reflexivity].
Qed.
(* and without dtype [2^64] is stored as 2^63 - 1 *)
Theorem C93_saturates_refuted : exists buf a,
  array_of_list None (PList [PInt (2 ^ 64)]) = Ok (LInt i64_ty, (buf, a)) /\ buf = [CInt (2 ^ 63 - 1)].
Proof. eexists _, _. split; [vm_compute; reflexivity|reflexivity]. Qed.

(* ---- C94 -------------------------------------------------------------------- *)

(* tolist() of any view: nested lists of the view's shape holding its elements.
   Missing: bool arrays and uint64 values from 2^63 on (refuted below). *)
Theorem C94_tolist_partial : forall d buf a, wf buf a -> d <> LBool ->
  (forall idx c, inb idx (a_shape a) -> get buf a idx = Some c -> cell_ok d c /\ (forall z, c = CInt z -> representable i64_ty z)) ->
  exists o, tolist d buf a = Ok o /\ nests (a_shape a) o /\
    forall idx, inb idx (a_shape a) -> exists v c, at_ o idx = Some v /\ get buf a idx = Some c /\ stores d v c.
Proof.
  intros d buf a W Hd HC. destruct (tolist_ok d buf a W) as (o & E & N & G). exists o. ssplit; try assumption.
  intros idx Hi. destruct (G idx Hi) as (c & Ec & Ev). exists (read_py d c), c. ssplit; try assumption.
  destruct (HC idx c Hi Ec) as [H1 H2]. destruct d as [t| |]; [|congruence|]; destruct c as [z|f]; cbn [cell_ok read_py stores] in *; try contradiction.
  - rewrite wrap_id; [split; [exact H1|reflexivity]|reflexivity|now apply H2].
  - reflexivity.
Qed.
Example C94_tolist_nonvacuous :
  tolist (LInt i64_ty) (map CInt [1; 2; 3; 4; 5; 6]%Z) (transpose (fresh [2; 3] 8)) =
  Ok (PList [PList [PInt 1; PInt 4]; PList [PInt 2; PInt 5]; PList [PInt 3; PInt 6]]).
Proof. vm_compute. reflexivity. Qed.

(* array(o).tolist() is o *)
Theorem C94_roundtrip_partial : forall o n sh d,
  rect o (n :: sh) -> (Z.of_nat (prod (n :: sh)) * 8 < 2 ^ 63)%Z ->
  (forall idx v, inb idx (n :: sh) -> at_ o idx = Some v -> natural v d) ->
  (prod (n :: sh) = 0 -> d = LF64) -> d <> LBool ->
  exists buf a, array_of_list None o = Ok (d, (buf, a)) /\ tolist d buf a = Ok o.
Proof.
  intros o n sh d R HB HN H0 Hd. destruct (C93_array_partial o n sh d R HB HN H0) as (buf & a & E & S1 & W & G).
  exists buf, a. split; [exact E|]. destruct (tolist_ok d buf a W) as (o' & E' & N & G'). rewrite E'. f_equal.
  rewrite S1 in *. apply (nests_ext (n :: sh)); [exact N|now apply rect_nests|].
  intros idx Hi. destruct (G idx Hi) as (v & c & Ev & Ec & Sc). destruct (G' idx Hi) as (c' & Ec' & Ev'). rewrite Ev, Ev'. f_equal.
  assert (c' = c) as -> by congruence. pose proof (HN idx v Hi Ev) as Nv.
  destruct d as [t| |]; [|congruence|]; destruct v; cbn [natural] in Nv; try contradiction; try congruence; destruct c; cbn [stores read_py] in *; try contradiction; try (now destruct Nv).
  - destruct Nv as [Nv Et]. injection Et as ->. destruct Sc as [_ ->]. rewrite wrap_id; [reflexivity|reflexivity|exact Nv].
  - now subst.
Qed.
Example C94_roundtrip_nonvacuous :
  match array_of_list None (PList [PList [PInt 1; PInt 2]; PList [PInt 3; PInt 4]]) with
  | Ok (d, (buf, a)) => tolist d buf a
  | _ => Err
  end = Ok (PList [PList [PInt 1; PInt 2]; PList [PInt 3; PInt 4]]).
Proof. vm_compute. reflexivity. Qed.

(* array(a.tolist()) has a's shape and elements, whatever view a is *)
Theorem C94_back_partial : forall d buf a n sh, wf buf a -> d = LInt i64_ty \/ d = LF64 ->
  a_shape a = n :: sh -> prod (a_shape a) <> 0 -> (Z.of_nat (prod (a_shape a)) * 8 < 2 ^ 63)%Z ->
  (forall idx c, inb idx (a_shape a) -> get buf a idx = Some c -> cell_ok d c) ->
  exists o buf' a', tolist d buf a = Ok o /\ array_of_list None o = Ok (d, (buf', a')) /\ a_shape a' = a_shape a /\ wf buf' a' /\
    forall idx, inb idx (a_shape a) -> get buf' a' idx = get buf a idx.
Proof.
  intros d buf a n sh W Hd ES HP HB HC. assert (d <> LBool) as HnB by (destruct Hd; subst; discriminate).
  destruct (C94_tolist_partial d buf a W HnB) as (o & E & N & G).
  { intros idx c Hi Ec. specialize (HC idx c Hi Ec). split; [exact HC|]. intros z ->. destruct Hd; subst; cbn in HC; [exact HC|contradiction]. }
  pose proof (nests_rect _ o HP N) as R. rewrite ES in *.
  assert (forall idx v, inb idx (n :: sh) -> at_ o idx = Some v -> natural v d) as HN.
  { intros idx v Hi Ev. destruct (tolist_ok d buf a W) as (o' & E' & _ & G'). assert (o' = o) as -> by congruence. rewrite ES in G'.
    destruct (G' idx Hi) as (c & Ec & Ev'). assert (v = read_py d c) as -> by congruence. specialize (HC idx c Hi Ec).
    destruct Hd as [->| ->]; destruct c; cbn [cell_ok read_py natural] in *; try contradiction; [|reflexivity].
    rewrite wrap_id; [split; [exact HC|reflexivity]|reflexivity|exact HC]. }
  destruct (C93_array_partial o n sh d R HB HN ltac:(congruence)) as (buf' & a' & E' & S' & W' & G').
  exists o, buf', a'. ssplit; try assumption. intros idx Hi. destruct (G idx Hi) as (v & c & Ev & Ec & Sc). destruct (G' idx Hi) as (v' & c' & Ev' & Ec' & Sc').
  rewrite Ec, Ec'. f_equal. assert (v' = v) as -> by congruence. pose proof (HN idx v Hi Ev) as Nv.
  destruct Hd as [->| ->]; destruct v, c, c'; cbn [stores natural] in *; try contradiction; try congruence.
  - destruct Sc as [_ ->], Sc' as [_ ->]. reflexivity.
  - destruct Nv; discriminate.
Qed.
Example C94_back_nonvacuous :
  wf (map CInt [1; 2; 3; 4]%Z) (transpose (fresh [2; 2] 8)) /\ cell_ok (LInt i64_ty) (CInt 4) /\ prod [2; 2] <> 0.
Proof.
  split; [|split; [vm_compute; split; discriminate|discriminate]].
  pose proof (fresh_wf (map CInt [1; 2; 3; 4]%Z) [2; 2] 8 ltac:(lia) ltac:(reflexivity) ltac:(reflexivity)) as W.
  apply (transpose_is_view _ _ W).
Qed.

(* array([True]).tolist() is [1.0] *)
Theorem C94_bool_refuted : exists buf a o,
  array_of_list None (PList [PBool true]) = Ok (LBool, (buf, a)) /\ tolist LBool buf a = Ok (PList [o]) /\ o = PFloat (f64_int 1).
Proof. eexists _, _, _. split; [vm_compute; reflexivity|]. split; [vm_compute; reflexivity|]. reflexivity. Qed.
(* a uint64 element from 2^63 on comes back negative *)
Theorem C94_uint64_refuted : exists z,
  representable (mkIty 64 false) z /\ tolist (LInt (mkIty 64 false)) [CInt z] (fresh [1] 8) = Ok (PList [PInt (z - 2 ^ 64)]).
Proof. exists (2 ^ 63)%Z. split; [vm_compute; split; discriminate|vm_compute; reflexivity]. Qed.

Print Assumptions C93_dtype_partial.
Print Assumptions C93_array_partial.
Print Assumptions C93_mixed_refuted.
Print Assumptions C93_ragged_refuted.
Print Assumptions C93_uint64_refuted.
Print Assumptions C93_saturates_refuted.
Print Assumptions C94_tolist_partial.
Print Assumptions C94_roundtrip_partial.
Print Assumptions C94_back_partial.
Print Assumptions C94_bool_refuted.
Print Assumptions C94_uint64_refuted.
