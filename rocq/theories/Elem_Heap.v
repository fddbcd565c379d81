(* Temporary elision: what a binary operator does to the heap. *)
From Verif Require Import Base Lists Arr_Spec Arr_Model Arr_Wf Arr_Proofs Bcast_Model Bcast_Proofs
  Copy_Model Copy_Proofs Idx_Model Idx_Assign Elem_Model Elem_Proofs.
Local Open Scope nat_scope.

Section Heap.
Context {V : Type}.
Variables (kern : option (V -> V -> res V)) (trait_ mixed : V -> V -> res V)
  (promote : nat -> nat -> nat) (isz : nat -> Z).
Implicit Types h : heap V.

(* the candidate's buffer is referenced at least three times when get_mut runs *)
Lemma candidate_shared h rc x y sh dt :
  elision_candidate h rc x sh dt = true ->
  Nat.eqb (strong_of (retain (retain (retain h (o_buf x)) (o_buf x)) (o_buf y)) (o_buf x)) 1 = false.
Proof.
  unfold elision_candidate. intros H. repeat (apply andb_true_iff in H as [H ?]).
  repeat match goal with H : _ && _ = true |- _ => apply andb_true_iff in H as [? H] end.
  match goal with H : Nat.eqb (strong_of _ _) 1 = true |- _ => apply Nat.eqb_eq in H; rename H into HS end.
  assert (HL : o_buf x < length h).
  { unfold strong_of in HS. apply nth_error_Some. destruct (nth_error h (o_buf x)); congruence. }
  rewrite !strong_retain, !retain_length, HS, !Nat.eqb_refl.
  destruct (Nat.ltb_spec (o_buf x) (length h)); [|lia].
  destruct (Nat.eqb (o_buf x) (o_buf y)); apply Nat.eqb_neq; lia.
Qed.

Definition chosen (cand same : bool) (out_is_x : bool) : V -> V -> res V :=
  match (if negb cand && same then kern else None) with
  | Some k => k
  | None => if same && out_is_x then trait_ else mixed
  end.
Definition chosen_dtype (cand same : bool) (dx dout : nat) : nat :=
  match (if negb cand && same then kern else None) with Some _ => dx | None => dout end.

Theorem binary_with_elision_spec h rc x y :
  wf (data_of h (o_buf x)) (o_arr x) -> wf (data_of h (o_buf y)) (o_arr y) ->
  match broadcast_shapes (a_shape (o_arr x)) (a_shape (o_arr y)) with
  | None => binary_with_elision kern trait_ mixed promote isz h rc x y = Err
  | Some sh =>
      let dout := promote (o_dtype x) (o_dtype y) in
      let cand := elision_candidate h rc x sh dout in
      let same := Nat.eqb (o_dtype x) (o_dtype y) in
      let dt := chosen_dtype cand same (o_dtype x) dout in
      binary_with_elision kern trait_ mixed promote isz h rc x y =
      bind (mapM (fun idx =>
              bind (of_load (get (data_of h (o_buf x)) (o_arr x) (unbroadcast (a_shape (o_arr x)) idx))) (fun u =>
              bind (of_load (get (data_of h (o_buf y)) (o_arr y) (unbroadcast (a_shape (o_arr y)) idx))) (fun v =>
              chosen cand same (Nat.eqb (o_dtype x) dout) u v))) (all_idx sh))
        (fun vals => Ok (h ++ [mkAlloc vals 1], mkObj (length h) dt (fresh sh (isz dt))))
  end.
Proof.
  intros WA WB. unfold binary_with_elision.
  destruct (broadcast_shapes (a_shape (o_arr x)) (a_shape (o_arr y))) as [sh|] eqn:E; [|reflexivity].
  cbv beta zeta.
  destruct (bshape_upper _ _ _ E) as [UA UB].
  destruct (proj1 (broadcast_to_is_view _ _ sh WA) UA) as (a' & Ea & SA & WA' & GA).
  destruct (proj1 (broadcast_to_is_view _ _ sh WB) UB) as (b' & Eb & SB & WB' & GB).
  rewrite Ea, Eb. cbn [bind].
  set (cand := elision_candidate h rc x sh (promote (o_dtype x) (o_dtype y))) in *.
  set (h1 := if cand then retain h (o_buf x) else h).
  set (h3 := retain (retain h1 (o_buf x)) (o_buf y)).
  assert (HD : forall i, data_of h3 i = data_of h i).
  { intros i. unfold h3. rewrite !retain_data. unfold h1. destruct cand; [apply retain_data|reflexivity]. }
  assert (HLen : length h3 = length h).
  { unfold h3. rewrite !retain_length. unfold h1. destruct cand; [apply retain_length|reflexivity]. }
  assert (HR : (if cand then release (release (release h3 (o_buf y)) (o_buf x)) (o_buf x)
                else release (release h3 (o_buf y)) (o_buf x)) = h).
  { unfold h3. rewrite !release_retain. unfold h1. destruct cand; [apply release_retain|reflexivity]. }
  rewrite !HD, HR, HLen.
  assert (EQ : forall g : V -> V -> res V, mapM (lift2 g (data_of h (o_buf x)) (data_of h (o_buf y)) a' b') (all_idx sh) =
    mapM (fun idx =>
       bind (of_load (get (data_of h (o_buf x)) (o_arr x) (unbroadcast (a_shape (o_arr x)) idx))) (fun u =>
       bind (of_load (get (data_of h (o_buf y)) (o_arr y) (unbroadcast (a_shape (o_arr y)) idx))) (fun v =>
       g u v))) (all_idx sh)).
  { intros g. apply mapM_ext. intros idx Hi. apply in_all_idx in Hi. unfold lift2.
    rewrite (proj2 (GA idx Hi)), (proj2 (GB idx Hi)). reflexivity. }
  unfold chosen, chosen_dtype.
  destruct (if negb cand && Nat.eqb (o_dtype x) (o_dtype y) then kern else None) as [k|].
  - rewrite dispatch_zip_spec by assumption. rewrite EQ. reflexivity.
  - assert (HC : cand && Nat.eqb (strong_of h3 (o_buf x)) 1 = false).
    { destruct cand eqn:EC; [|reflexivity]. cbn [andb]. unfold h3, h1.
      exact (candidate_shared h rc x y sh _ EC). }
    rewrite HC, trait_zip_spec, EQ. reflexivity.
Qed.

(* independent of well-formedness: nothing that existed before is written *)
Theorem binary_with_elision_grows h rc x y h' r :
  binary_with_elision kern trait_ mixed promote isz h rc x y = Ok (h', r) ->
  exists vals, h' = h ++ [mkAlloc vals 1] /\ o_buf r = length h.
Proof.
  unfold binary_with_elision.
  destruct (broadcast_shapes (a_shape (o_arr x)) (a_shape (o_arr y))) as [sh|] eqn:E; [|discriminate].
  cbv beta zeta.
  destruct (broadcast_to (o_arr x) sh) as [a'| | |]; try discriminate.
  destruct (broadcast_to (o_arr y) sh) as [b'| | |]; try discriminate. cbn [bind].
  set (cand := elision_candidate h rc x sh (promote (o_dtype x) (o_dtype y))) in *.
  set (h1 := if cand then retain h (o_buf x) else h).
  set (h3 := retain (retain h1 (o_buf x)) (o_buf y)).
  assert (HLen : length h3 = length h).
  { unfold h3. rewrite !retain_length. unfold h1. destruct cand; [apply retain_length|reflexivity]. }
  assert (HR : (if cand then release (release (release h3 (o_buf y)) (o_buf x)) (o_buf x)
                else release (release h3 (o_buf y)) (o_buf x)) = h).
  { unfold h3. rewrite !release_retain. unfold h1. destruct cand; [apply release_retain|reflexivity]. }
  rewrite !HR, HLen.
  destruct (if negb cand && Nat.eqb (o_dtype x) (o_dtype y) then kern else None) as [k|].
  - destruct (dispatch_zip _ _ _ _ _ _) as [vals| | |]; try discriminate. cbn [bind].
    intros H; injection H as <- <-. exists vals; split; reflexivity.
  - assert (HC : cand && Nat.eqb (strong_of h3 (o_buf x)) 1 = false).
    { destruct cand eqn:EC; [|reflexivity]. cbn [andb]. unfold h3, h1.
      exact (candidate_shared h rc x y sh _ EC). }
    rewrite HC. destruct (trait_zip _ _ _ _ _ _) as [vals| | |]; try discriminate. cbn [bind].
    intros H; injection H as <- <-. exists vals; split; reflexivity.
Qed.
End Heap.
