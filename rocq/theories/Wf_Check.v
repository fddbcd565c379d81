(* A decision procedure for well-formedness of small concrete views, used by the
   non-vacuity examples and counterexamples. *)
From Verif Require Import Base Lists Arr_Spec Arr_Model Arr_Wf.
Local Open Scope nat_scope.

Definition wf_check {V} (buf : list V) (a : arr) : bool :=
  ((0 <? a_item a) && (Z.of_nat (length buf) * a_item a <? 2 ^ 63) && (0 <=? a_off a) && (a_off a <? two64))%Z
  && (length (a_strides a) =? length (a_shape a))
  && forallb (fun idx => match get buf a idx with Some _ => true | None => false end) (all_idx (a_shape a))
  && (negb (a_c a) || is_c_contiguous (a_shape a) (a_strides a) (a_item a))
  && (negb (a_f a) || is_f_contiguous (a_shape a) (a_strides a) (a_item a)).

Lemma wf_check_sound {V} (buf : list V) a : wf_check buf a = true -> wf buf a.
Proof.
  unfold wf_check. rewrite !andb_true_iff, !Z.ltb_lt, Z.leb_le, Nat.eqb_eq, forallb_forall.
  intros H. destruct H as [[[[[[[H1 H2] H3] H4] H5] H6] H7] H8].
  split; [exact H1|]. split; [exact H2|]. split; [lia|]. split; [exact H5|]. split.
  - intros idx Hi. specialize (H6 idx (proj2 (in_all_idx _ _) Hi)). destruct (get buf a idx); [eexists; reflexivity|discriminate].
  - split; intros E; rewrite E in *; cbn [negb orb] in *; assumption.
Qed.
