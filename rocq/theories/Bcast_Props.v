(* Claim C08. *)
From Verif Require Import Base Lists Arr_Spec Bcast_Model Bcast_Proofs.
From Coq Require Import Permutation.

(* the NumPy rule, stated on the i-th lengths counted from the right (absent = 1):
   rdim sh i = nth i (rev sh) 1 *)
Theorem C08_rule : forall a b r,
  broadcast_shapes a b = Some r <->
  length r = Nat.max (length a) (length b) /\
  forall i,
    let x := nth i (rev a) 1 in let y := nth i (rev b) 1 in
    (x = y \/ x = 1 \/ y = 1) /\ nth i (rev r) 1 = (if Nat.eqb x 1 then y else x).
Proof.
  intros a b r. rewrite bshape_iff_all. unfold rdim. split; intros [HL H]; (split; [exact HL|]); intros i.
  - specialize (H i). unfold bdim in H. cbv zeta.
    destruct (Nat.eqb_spec (nth i (rev a) 1) (nth i (rev b) 1));
      destruct (Nat.eqb_spec (nth i (rev a) 1) 1);
      destruct (Nat.eqb_spec (nth i (rev b) 1) 1); try discriminate; injection H as H;
      (split; [tauto|congruence]).
  - destruct (H i) as [H1 H2]. rewrite H2. unfold bdim.
    destruct (Nat.eqb_spec (nth i (rev a) 1) (nth i (rev b) 1));
      destruct (Nat.eqb_spec (nth i (rev a) 1) 1);
      destruct (Nat.eqb_spec (nth i (rev b) 1) 1); try congruence; tauto.
Qed.

(* rejected exactly when some aligned pair differs with neither equal to 1 *)
Theorem C08_rejects : forall a b,
  broadcast_shapes a b = None <->
  exists i, nth i (rev a) 1 <> nth i (rev b) 1 /\ nth i (rev a) 1 <> 1 /\ nth i (rev b) 1 <> 1.
Proof.
  intros a b. split.
  - intros E.
    destruct (Exists_dec (fun i => bdim (rdim a i) (rdim b i) = None)
                (seq 0 (Nat.max (length a) (length b)))) as [H|H].
    { intros i. destruct (bdim _ _); [right; discriminate|left; reflexivity]. }
    + apply Exists_exists in H as (i & _ & Hi). exists i. unfold bdim, rdim in Hi.
      destruct (Nat.eqb_spec (nth i (rev a) 1) (nth i (rev b) 1)); [discriminate|].
      destruct (Nat.eqb_spec (nth i (rev a) 1) 1); [discriminate|].
      destruct (Nat.eqb_spec (nth i (rev b) 1) 1); [discriminate|]. auto.
    + exfalso. assert (HE : exists r, broadcast_shapes a b = Some r).
      { apply bshape_exists. intros i.
        destruct (Nat.lt_ge_cases i (Nat.max (length a) (length b))) as [Hi|Hi].
        - destruct (bdim (rdim a i) (rdim b i)) as [d|] eqn:Ed; [eexists; reflexivity|].
          exfalso; apply H, Exists_exists. exists i. split; [apply in_seq; lia|exact Ed].
        - rewrite !rdim_beyond by lia. exists 1; reflexivity. }
      destruct HE; congruence.
  - intros (i & H1 & H2 & H3). destruct (broadcast_shapes a b) as [r|] eqn:E; [|reflexivity].
    apply bshape_iff_all in E as [_ HN]. specialize (HN i). unfold bdim, rdim in HN.
    destruct (Nat.eqb_spec (nth i (rev a) 1) (nth i (rev b) 1)); [contradiction|].
    destruct (Nat.eqb_spec (nth i (rev a) 1) 1); [contradiction|].
    destruct (Nat.eqb_spec (nth i (rev b) 1) 1); [contradiction|discriminate].
Qed.

Theorem C08_commutative : forall a b, broadcast_shapes a b = broadcast_shapes b a.
Proof. exact bshape_comm. Qed.
Theorem C08_associative : forall a b c,
  (match broadcast_shapes a b with Some r => broadcast_shapes r c | None => None end) =
  (match broadcast_shapes b c with Some r => broadcast_shapes a r | None => None end).
Proof. exact bshape_assoc. Qed.
Theorem C08_idempotent : forall a, broadcast_shapes a a = Some a.
Proof. exact bshape_idem. Qed.
Theorem C08_unit : forall a, broadcast_shapes [] a = Some a /\ broadcast_shapes a [] = Some a.
Proof. intros a; split; [|rewrite bshape_comm]; apply bshape_unit. Qed.

(* the result is the least shape both operands can be broadcast to *)
Theorem C08_least_upper_bound : forall a b,
  (forall r, broadcast_shapes a b = Some r -> broadcastable a r /\ broadcastable b r) /\
  (forall c, broadcastable a c -> broadcastable b c ->
     exists r, broadcast_shapes a b = Some r /\ broadcastable r c).
Proof. intros a b; split; [apply bshape_upper|intros c; apply bshape_least]. Qed.

(* folding over many operands does not depend on their order *)
Theorem C08_multi_order_independent : forall l l',
  Permutation l l' -> broadcast_multi_shapes l = broadcast_multi_shapes l'.
Proof. exact broadcast_multi_perm. Qed.

Example C08_nonvacuous :
  broadcast_shapes [8; 1; 6; 1] [7; 1; 5] = Some [8; 7; 6; 5] /\
  broadcast_shapes [3; 0] [1] = Some [3; 0] /\ broadcast_shapes [2; 3] [3; 2] = None /\
  broadcast_multi_shapes [[3; 1]; [1; 4]; [5; 1; 1]] = Some [5; 3; 4].
Proof. repeat split. Qed.

Print Assumptions C08_rule.
Print Assumptions C08_rejects.
Print Assumptions C08_commutative.
Print Assumptions C08_associative.
Print Assumptions C08_idempotent.
Print Assumptions C08_unit.
Print Assumptions C08_least_upper_bound.
Print Assumptions C08_multi_order_independent.
