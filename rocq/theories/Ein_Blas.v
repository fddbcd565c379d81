(* einsum: contraction of two operands through a matrix product. *)
From Coq Require Import Ascii String Ring Permutation.
From Verif Require Import Base Lists Arr_Spec Arr_Model Arr_Wf Arr_Proofs Copy_Model Elem_Model Int_Model Red_Model Red_Scan Conv_Spec Conv_Proofs Promo_Spec Promo_Model Num_Calc Gu_Spec Gu_Model Gu_Proofs Mat_Spec Mat_Model Mat_Proofs Mat_Batch Mat_Laws Prod_Model Prod_Proofs Ein_Spec Ein_Model Ein_Parse Ein_Proofs.
Local Open Scope nat_scope.
Local Open Scope list_scope.

(* ---------- letters as coordinates ---------- *)
Lemma at_letter_map g c ls : In c ls -> at_letter ls (map g ls) c = g c.
Proof.
  induction ls as [|d ls IH]; [intros []|]. cbn [map at_letter]. destruct (Ascii.eqb_spec d c) as [->|N]; [reflexivity|].
  intros [->|H]; [contradiction|]. apply IH, H.
Qed.
Lemma at_letter_self ls idx : NoDup ls -> length idx = length ls -> map (at_letter ls idx) ls = idx.
Proof.
  intros HD. revert idx. induction HD as [|c ls HN HD IH]; intros [|i idx] HL; try discriminate; [reflexivity|].
  cbn [map at_letter]. rewrite Ascii.eqb_refl. f_equal. transitivity (map (at_letter ls idx) ls); [|apply IH; cbn in HL; lia].
  apply map_ext_in. intros d Hd. cbn [at_letter]. destruct (Ascii.eqb_spec c d) as [->|]; [contradiction|reflexivity].
Qed.
Lemma at_letter_nth ls idx c : In c ls -> length idx = length ls -> at_letter ls idx c = nth (pos ls c) idx 0.
Proof.
  revert idx. induction ls as [|d ls IH]; intros [|i idx] Hin HL; try contradiction; try discriminate.
  unfold pos. cbn [at_letter position]. destruct (Ascii.eqb_spec d c) as [->|N]; [reflexivity|].
  destruct Hin as [->|Hin]; [contradiction|]. rewrite IH by (try assumption; cbn in HL; lia). unfold pos.
  destruct (position_in c ls Hin) as [p ->]. reflexivity.
Qed.
Lemma pos_nth ls c : In c ls -> nth_error ls (pos ls c) = Some c.
Proof. intros H. unfold pos. destruct (position_in c ls H) as [p E]. rewrite E. apply position_nth, E. Qed.
Lemma pos_inj ls c d : In c ls -> In d ls -> pos ls c = pos ls d -> c = d.
Proof. intros H1 H2 E. pose proof (pos_nth ls c H1) as P1. rewrite E, (pos_nth ls d H2) in P1. congruence. Qed.
Lemma pos_lt ls c : In c ls -> pos ls c < length ls.
Proof. intros H. apply nth_error_Some. rewrite pos_nth by exact H. discriminate. Qed.
Lemma pos_perm sa l : NoDup sa -> Permutation l sa -> Permutation (map (pos sa) l) (seq 0 (length sa)).
Proof.
  intros HD HP. apply NoDup_Permutation.
  - assert (HL : NoDup l) by (apply (Permutation_NoDup (Permutation_sym HP)); exact HD).
    assert (HI : incl l sa) by (intros c; apply Permutation_in, HP). clear HP. induction HL as [|c l HN HL IH]; cbn [map]; constructor.
    + intros H. apply in_map_iff in H as (d & E & Hd). apply HN. rewrite <- (pos_inj sa d c); auto. { apply HI. right. exact Hd. } { apply HI. left. reflexivity. }
    + apply IH. intros d Hd. apply HI. right. exact Hd.
  - apply seq_NoDup.
  - intros p. rewrite in_map_iff, in_seq. split.
    + intros (c & <- & Hc). split; [lia|]. apply pos_lt. apply (Permutation_in _ HP), Hc.
    + intros [_ Hp]. destruct (nth_error sa p) as [c|] eqn:E; [|apply nth_error_None in E; cbn in Hp; lia].
      exists c. split; [unfold pos; rewrite (position_nodup sa p c HD E); reflexivity|]. apply (Permutation_in _ (Permutation_sym HP)). eapply nth_error_In, E.
Qed.
Lemma index_of_pos sa l c : NoDup sa -> incl l sa -> In c l -> index_of (pos sa c) (map (pos sa) l) = pos l c.
Proof.
  intros HD. induction l as [|d l IH]; intros HI Hc; [destruct Hc|]. cbn [map index_of].
  change (pos (d :: l) c) with (match (if Ascii.eqb d c then Some 0 else option_map S (position c l)) with Some i => i | None => 0 end).
  destruct (Ascii.eqb_spec d c) as [->|N]; [rewrite Nat.eqb_refl; reflexivity|].
  destruct Hc as [->|Hc]; [contradiction|].
  destruct (Nat.eqb_spec (pos sa d) (pos sa c)) as [E|_].
  { exfalso. apply N. apply (pos_inj sa); auto; apply HI; [left; reflexivity|right; exact Hc]. }
  rewrite IH by (try assumption; intros e He; apply HI; right; exact He). unfold pos. destruct (position_in c l Hc) as [p ->]. reflexivity.
Qed.
Lemma unpermute_letters sa l idx : NoDup sa -> Permutation l sa -> length idx = length l ->
  unpermute (map (pos sa) l) idx = map (at_letter l idx) sa.
Proof.
  intros HD HP HL. unfold unpermute. rewrite map_length, (Permutation_length HP).
  apply nth_error_ext. intros p. rewrite !nth_error_map', nth_error_seq. destruct (Nat.ltb_spec p (length sa)) as [Hp|Hp]; cbn [option_map Nat.add].
  - destruct (nth_error sa p) as [c|] eqn:E; [|apply nth_error_None in E; lia]. cbn [option_map]. f_equal.
    assert (HC : In c l) by (apply (Permutation_in _ (Permutation_sym HP)); eapply nth_error_In, E).
    assert (EP : pos sa c = p) by (unfold pos; rewrite (position_nodup sa p c HD E); reflexivity).
    rewrite <- EP, index_of_pos, at_letter_nth; auto. intros d. apply Permutation_in, HP.
  - rewrite (proj2 (nth_error_None _ _)) by lia. reflexivity.
Qed.
Lemma pos_map_id sa l : NoDup sa -> Permutation l sa -> is_identity (map (pos sa) l) = true -> l = sa.
Proof.
  intros HD HP H. unfold is_identity in H. destruct (list_eq_dec Nat.eq_dec _ _) as [E|]; [|discriminate]. rewrite map_length in E.
  apply nth_error_ext. intros p.
  assert (HL : length l = length sa) by (apply Permutation_length, HP).
  assert (EP : nth_error (map (pos sa) l) p = nth_error (seq 0 (length l)) p) by (rewrite E; reflexivity).
  rewrite nth_error_map', nth_error_seq in EP. destruct (Nat.ltb_spec p (length l)) as [Hp|Hp]; cbn [Nat.add] in EP.
  - destruct (nth_error l p) as [c|] eqn:EC; [|discriminate]. cbn in EP. injection EP as EP.
    assert (HC : In c sa) by (apply (Permutation_in _ HP); eapply nth_error_In, EC). pose proof (pos_nth sa c HC) as H'. rewrite EP in H'. symmetry. exact H'.
  - rewrite !(proj2 (nth_error_None _ _)) by lia. reflexivity.
Qed.

Section Views.
Context {V : Type}.
(* the axes of an operand in another order *)
Lemma arranged size sa l (x : @operand V) k f : NoDup sa -> Permutation l sa -> array_of x k (map size sa) f ->
  exists pa, permuted (o_arr x) (map (pos sa) l) = Ok pa /\ array_of (with_arr x pa) k (map size l) (fun idx => f (map (at_letter l idx) sa)).
Proof.
  intros HD HP HX. pose proof HX as (K & W & S1 & I1 & G). unfold permuted.
  destruct (is_identity (map (pos sa) l)) eqn:EI.
  - apply pos_map_id in EI; [|exact HD|exact HP]. subst l. exists (o_arr x). split; [reflexivity|].
    do 4 (split; [assumption|]). intros idx Hi. cbn [with_arr fst snd o_arr]. rewrite at_letter_self by (try exact HD; apply inb_length in Hi; rewrite Hi; apply map_length).
    apply G, Hi.
  - destruct (transpose_axes_is_view (fst (snd x)) (o_arr x) (map (pos sa) l) W) as (a & E & ES & W' & HG).
    { unfold ndim. rewrite S1, map_length. apply pos_perm; assumption. }
    exists a. split; [exact E|].
    assert (EI2 : a_item a = itemsize k).
    { unfold transpose_axes in E. destruct (negb _); [discriminate|]. destruct (gather (a_shape _) _); try discriminate. destruct (gather (a_strides _) _); try discriminate. injection E as <-. exact I1. }
    assert (ESH : map (fun i => nth i (a_shape (o_arr x)) 0) (map (pos sa) l) = map size l).
    { rewrite map_map, S1. apply map_ext_in. intros c Hc. apply (Permutation_in _ HP) in Hc.
      apply nth_error_nth. rewrite nth_error_map', pos_nth by exact Hc. reflexivity. }
    rewrite ESH in *. split; [exact K|]. split; [exact W'|]. split; [exact ES|]. split; [exact EI2|].
    intros idx Hi. cbn [with_arr fst snd o_arr]. destruct (HG idx Hi) as [HI2 ->].
    rewrite unpermute_letters in * by (try assumption; apply inb_length in Hi; rewrite Hi; apply map_length).
    apply G. rewrite S1 in HI2. exact HI2.
Qed.

Lemma unrank_1 n i : i < n -> unrank [n] i = [i].
Proof. intros H. cbn [unrank prod]. rewrite Nat.div_1_r. reflexivity. Qed.
(* an array as a matrix of leading by trailing axes *)
Lemma as_matrix (x : @operand V) k sh1 sh2 f : array_of x k (sh1 ++ sh2) f ->
  a_c (o_arr x) = true \/ (a_f (o_arr x) = true /\ length sh1 <= 1 /\ length sh2 <= 1) ->
  exists a, reshape (o_arr x) [prod sh1; prod sh2] = Ok a /\
    matrix_of (with_arr x a) k (prod sh1) (prod sh2) (fun i c => f (unrank sh1 i ++ unrank sh2 c)).
Proof.
  intros (K & W & S1 & I1 & G) HL.
  assert (HP : prod (a_shape (o_arr x)) = prod [prod sh1; prod sh2]) by (rewrite S1, prod_app; cbn [prod]; lia).
  assert (HIB : forall i c, i < prod sh1 -> c < prod sh2 -> inb (unrank sh1 i ++ unrank sh2 c) (sh1 ++ sh2)).
  { intros i c Hi Hc. apply inb_app; [apply unrank_length|]. split; apply unrank_inb; assumption. }
  destruct (a_c (o_arr x)) eqn:EC.
  - destruct (reshape_c_is_view (fst (snd x)) (o_arr x) _ W EC HP) as (a & E & ES & W' & HG). exists a. split; [exact E|].
    assert (EI : a_item a = itemsize k).
    { unfold reshape in E. destruct (negb _); [discriminate|]. destruct (_ && _); [discriminate|]. injection E as <-. exact I1. }
    split; [exact K|]. split; [exact W'|]. split; [exact ES|]. split; [exact EI|].
    intros idx Hi. cbn [with_arr fst snd o_arr]. destruct (HG idx Hi) as [_ ->]. inversion Hi as [|i u c1 w Hi1 Hc1]; subst. inversion Hc1 as [|c u' c2 w' Hc Hc2]; subst. inversion Hc2; subst.
    cbn [nth]. rewrite S1. unfold rm_unrank, rm_rank. cbn [rank prod].
    replace (i * (prod sh2 * 1) + (c * 1 + 0)) with (rank (sh1 ++ sh2) (unrank sh1 i ++ unrank sh2 c)).
    + rewrite unrank_rank by (apply HIB; assumption). apply G, HIB; assumption.
    + rewrite rank_app by (apply unrank_length). rewrite !rank_unrank by assumption. rewrite !Nat.mul_1_r, Nat.add_0_r. reflexivity.
  - destruct HL as [HL|(HF & HL1 & HL2)]; [discriminate|].
    unfold reshape, usize_prod. rewrite HP, Z.eqb_refl, EC, HF. cbn [negb andb]. eexists. split; [reflexivity|].
    pose proof W as (_ & _ & _ & W4 & _ & _ & WF). specialize (WF HF).
    assert (HV : is_view (fst (snd x)) (o_arr x) (view_with (o_arr x) 0 [prod sh1; prod sh2] (f_strides [prod sh1; prod sh2] (a_item (o_arr x)))) [prod sh1; prod sh2]
              (fun idx => unrank sh1 (nth 0 idx 0) ++ unrank sh2 (nth 1 idx 0))).
    { apply view0_is_view; [exact W|apply f_strides_from_length|]. intros idx Hi.
      inversion Hi as [|i u c1 w Hi1 Hc1]; subst. inversion Hc1 as [|c u' c2 w' Hc Hc2]; subst. inversion Hc2; subst. cbn [nth].
      rewrite S1. split; [apply HIB; assumption|].
      rewrite (f_contig_dot _ _ (a_item (o_arr x)) _ W4) by (try exact WF; rewrite S1; apply HIB; assumption).
      unfold f_strides. rewrite dot_f_strides_from. do 2 f_equal. rewrite S1. cbn [frank].
      destruct sh1 as [|s1 [|? ?]]; [| |cbn in HL1; lia]; (destruct sh2 as [|s2 [|? ?]]; [| |cbn in HL2; lia]); cbn [prod] in *; rewrite ?Nat.mul_1_r in *;
        cbn [unrank prod app frank]; rewrite ?Nat.div_1_r; lia. }
    destruct HV as (ES & W' & HG). split; [exact K|]. split; [exact W'|]. split; [exact ES|]. split; [exact I1|].
    intros idx Hi. cbn [with_arr fst snd o_arr]. destruct (HG idx Hi) as [HI2 ->]. cbn [with_arr fst snd o_arr] in *. apply G. rewrite S1 in HI2. exact HI2.
Qed.
Lemma as_matrix_refused (a : arr) sh : a_c a = false -> a_f a = false -> reshape a sh = Err.
Proof. intros HC HF. unfold reshape. rewrite HC, HF. destruct (negb _); reflexivity. Qed.

(* raw copy of a C-contiguous result *)
Lemma raw_copy_ok (o : @operand V) k sh f : array_of o k sh f -> a_c (o_arr o) = true -> raw_copy o (itemsize k) (prod sh) = Ok (map f (all_idx sh)).
Proof.
  intros (K & W & S1 & I1 & G) HC. unfold raw_copy. rewrite all_idx_unrank, map_map.
  apply mapM_ok. intros i Hi. apply in_seq in Hi. assert (HU : inb (unrank sh i) sh) by (apply unrank_inb; lia).
  specialize (G _ HU). unfold get, byte_offset_for in G. pose proof W as (_ & _ & _ & W4 & _ & WC & _).
  rewrite (c_contig_dot (a_shape (o_arr o)) _ (a_item (o_arr o))) in G by (try apply WC; try assumption; rewrite ?S1; assumption).
  rewrite S1, I1, rank_unrank in G by lia. rewrite (Z.mul_comm (Z.of_nat i)), G. reflexivity.
Qed.
End Views.
