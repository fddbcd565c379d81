(* einsum: contraction of two operands is the Einstein sum. *)
From Coq Require Import Ascii String Ring Permutation.
From Verif Require Import Base Lists Arr_Spec Arr_Model Arr_Wf Arr_Proofs Copy_Model Elem_Model Int_Model Red_Model Red_Scan Conv_Spec Conv_Proofs Promo_Spec Promo_Model Num_Calc Gu_Spec Gu_Model Gu_Proofs Mat_Spec Mat_Model Mat_Proofs Mat_Batch Mat_Laws Prod_Model Prod_Proofs Ein_Spec Ein_Model Ein_Parse Ein_Proofs Ein_Blas.
Local Open Scope nat_scope.
Local Open Scope list_scope.

Lemma repeated_nodup l : repeated l = false <-> NoDup l.
Proof.
  induction l as [|c l IH]; [split; [constructor|reflexivity]|]. cbn [repeated]. rewrite orb_false_iff, IH, has_not. split.
  - intros [H1 H2]. constructor; assumption.
  - intros H. inversion H; auto.
Qed.
Lemma prod_perm l l' : Permutation l l' -> prod l = prod l'.
Proof. induction 1; cbn [prod]; lia. Qed.
Lemma prod_nonzero l : prod l <> 0 <-> (forall n, In n l -> n <> 0).
Proof.
  induction l as [|n l IH]; cbn [prod]; [split; [intros _ ? []|lia]|]. split.
  - intros H k [<-|Hk]; [lia|]. apply IH; [lia|exact Hk].
  - intros H. assert (n <> 0) by (apply H; left; reflexivity). assert (prod l <> 0) by (apply IH; intros k Hk; apply H; right; exact Hk). lia.
Qed.

(* all values of the letters, in another order of the letters *)
Lemma reorder_all size cs con : NoDup cs -> Permutation cs con ->
  Permutation (all_idx (map size con)) (map (fun c => map (at_letter cs c) con) (all_idx (map size cs))).
Proof.
  intros HD HP. assert (HD2 : NoDup con) by (apply (Permutation_NoDup HP); exact HD).
  apply NoDup_Permutation_bis.
  - apply all_idx_nodup.
  - rewrite map_length, !all_idx_length. apply Nat.eq_le_incl. apply prod_perm, Permutation_map, HP.
  - intros ci Hci. apply in_all_idx in Hci. apply in_map_iff. exists (map (at_letter con ci) cs). split.
    + transitivity (map (at_letter con ci) con).
      * apply map_ext_in. intros d Hd. apply at_letter_map. apply (Permutation_in _ (Permutation_sym HP)), Hd.
      * apply at_letter_self; [exact HD2|]. apply inb_length in Hci. rewrite Hci. apply map_length.
    + apply in_all_idx. apply at_letter_inb; [exact Hci|]. intros d. apply Permutation_in, HP.
Qed.

Section OutList.
Context {V : Type}.
Variables (vzero : V).
Lemma output_list k osh fill (f : list nat -> V) :
  (0 < itemsize k)%Z -> (Z.of_nat (prod osh) * itemsize k < 2 ^ 63)%Z ->
  (prod osh <> 0 -> forall buf, List.length buf = prod osh -> fill buf = Ok (map f (all_idx osh))) ->
  exists o, with_output vzero k osh fill = Ok o /\ array_of o k osh f /\ a_off (o_arr o) = 0%Z /\ a_c (o_arr o) = true.
Proof.
  intros HI HB HF. unfold with_output. rewrite or_one_prod. destruct (Nat.eqb_spec (prod osh) 0) as [HZ|HZ].
  - exists (array k osh (repeat vzero (prod osh))). split; [reflexivity|]. split; [|split; reflexivity].
    apply fresh_array; [exact HI|exact HB|apply repeat_length|]. intros idx Hi. apply inb_prod_pos in Hi. lia.
  - rewrite HF by (try exact HZ; apply repeat_length). cbn [bind].
    assert (HL : List.length (map f (all_idx osh)) = prod osh) by (rewrite map_length; apply all_idx_length).
    assert (HA : forall idx, inb idx osh -> nth_error (map f (all_idx osh)) (rank osh idx) = Some (f idx)).
    { intros idx Hi. rewrite nth_error_map', nth_error_all_idx_rank by exact Hi. reflexivity. }
    destruct osh as [|s osh].
    + set (out := map f (all_idx [])) in *.
      assert (W1 : wf out (fresh [1] (itemsize k))) by (apply fresh_wf; [exact HI|rewrite HL; exact HB|exact HL]).
      destruct (reshape_c_is_view out (fresh [1] (itemsize k)) [] W1 eq_refl eq_refl) as (a' & ER & ES & W' & HG).
      rewrite ER. cbn [bind]. eexists. split; [reflexivity|].
      assert (EO : a_off a' = 0%Z /\ a_c a' = true /\ a_item a' = itemsize k).
      { unfold reshape in ER. cbn in ER. injection ER as <-. cbn. auto. }
      split; [|split; apply EO]. split; [reflexivity|]. cbn [o_arr fst snd]. split; [exact W'|]. split; [exact ES|]. split; [apply EO|].
      intros idx Hi. destruct (HG idx Hi) as [_ ->]. rewrite fresh_get by exact HI. inversion Hi; subst. exact (HA [] Hi).
    + eexists. split; [reflexivity|]. split; [|split; reflexivity]. apply fresh_array; assumption.
Qed.
End OutList.

(* the free and the summed letters of an operand, in the order in which it has them *)
Definition free (con sub : letters) : letters := filter (fun c => negb (has c con)) sub.
Definition bound (con sub : letters) : letters := filter (fun c => has c con) sub.
Lemma free_in con sub c : In c (free con sub) <-> In c sub /\ ~ In c con.
Proof. unfold free. rewrite filter_In, negb_true_iff, has_not. reflexivity. Qed.
Lemma bound_in con sub c : In c (bound con sub) <-> In c sub /\ In c con.
Proof. unfold bound. rewrite filter_In, has_in. reflexivity. Qed.
Lemma free_bound con sub : Permutation (free con sub ++ bound con sub) sub.
Proof.
  unfold free, bound. induction sub as [|c sub IH]; [reflexivity|]. cbn [filter]. destruct (has c con); cbn [negb app].
  - etransitivity; [symmetry; apply Permutation_middle|]. constructor. exact IH.
  - constructor. exact IH.
Qed.
Lemma bound_con con sub : NoDup con -> NoDup sub -> incl con sub -> Permutation (bound con sub) con.
Proof.
  intros DC DS HI. apply NoDup_Permutation; [apply NoDup_filter; exact DS|exact DC|]. intros c. rewrite bound_in. split; [tauto|auto].
Qed.

Section Ring.
Context {R : Type}.
Variables (zero one : R) (add mul sub : R -> R -> R) (opp : R -> R).
Hypothesis RT : ring_theory zero one add mul sub opp (@eq R).

Lemma sum_perm l l' : Permutation l l' -> sum_of zero add l = sum_of zero add l'.
Proof using RT.
  unfold sum_of. intros HP. generalize zero. induction HP as [|x l l' HP IH|x y l|l1 l2 l3 H1 IH1 H2 IH2]; intros z; cbn [fold_left].
  - reflexivity.
  - apply IH.
  - f_equal. rewrite <- !(Radd_assoc RT). f_equal. apply (Radd_comm RT).
  - rewrite IH1. apply IH2.
Qed.
Lemma sum_big h n : sum_of zero add (map h (seq 0 n)) = big zero add n h.
Proof. apply fold_big. Qed.

(* the matrix product of the rearranged operands is the Einstein sum *)
Lemma contraction_value size sa sb out (f g : list nat -> R) fa fb cs con :
  NoDup sa -> NoDup sb -> NoDup out -> Permutation (fa ++ cs) sa -> Permutation (cs ++ fb) sb -> out = fa ++ fb ->
  con = summed [sa; sb] out -> Permutation cs con ->
  forall i j, inb i (map size fa) -> inb j (map size fb) ->
  product zero add mul (prod (map size cs))
    (fun p c => f (map (at_letter (fa ++ cs) (unrank (map size fa) p ++ unrank (map size cs) c)) sa))
    (fun c q => g (map (at_letter (cs ++ fb) (unrank (map size cs) c ++ unrank (map size fb) q)) sb))
    (rank (map size fa) i) (rank (map size fb) j) =
  einstein zero add mul size [(sa, f); (sb, g)] out (i ++ j).
Proof using RT.
  intros DA DB DO PA PB EO EC PC i j Hi Hj. unfold einstein. cbn [map fst].
  match goal with |- context [summed ?s ?o] => replace (summed s o) with con by exact EC end. unfold product. rewrite !unrank_rank by assumption.
  assert (DAC : NoDup (fa ++ cs)) by (apply (Permutation_NoDup (Permutation_sym PA)); exact DA).
  assert (DBC : NoDup (cs ++ fb)) by (apply (Permutation_NoDup (Permutation_sym PB)); exact DB).
  assert (DC : NoDup cs) by (clear - DBC; induction cs as [|c cs IH]; [constructor|]; inversion DBC; subst; constructor; [intros H; apply H1, in_app_iff; auto|auto]).
  rewrite (sum_perm _ _ (Permutation_map _ (reorder_all size cs con DC PC))). rewrite map_map, all_idx_unrank, map_map, sum_big.
  apply big_ext. intros c Hc. unfold product_of. cbn [fold_left]. unfold operand_at. cbn [fst snd].
  assert (HLi : length i = length fa) by (apply inb_length in Hi; rewrite Hi; apply map_length).
  assert (HLj : length j = length fb) by (apply inb_length in Hj; rewrite Hj; apply map_length).
  assert (HLc : length (unrank (map size cs) c) = length cs) by (rewrite unrank_length; apply map_length).
  set (cv := unrank (map size cs) c) in *.
  assert (HX : forall d, In d fa -> ~ In d cs).
  { intros d H1 H2. apply in_split in H2 as (l1 & l2 & E). rewrite E in DAC. rewrite app_assoc in DAC. apply NoDup_remove_2 in DAC. apply DAC. rewrite !in_app_iff. auto. }
  assert (HY : forall d, In d fb -> ~ In d cs).
  { intros d H1 H2. apply in_split in H1 as (l1 & l2 & E). rewrite E in DBC. rewrite app_assoc in DBC. apply NoDup_remove_2 in DBC. apply DBC. rewrite !in_app_iff. auto. }
  assert (HCO : forall d, In d cs -> ~ In d out) by (subst out; intros d Hd; rewrite in_app_iff; intros [H|H]; [apply (HX d H Hd)|apply (HY d H Hd)]).
  assert (HOI : length (i ++ j) = length out) by (subst out; rewrite !app_length; lia).
  f_equal; f_equal; apply map_ext_in; intros d Hd.
  - apply (Permutation_in _ (Permutation_sym PA)) in Hd. apply in_app_iff in Hd as [Hd|Hd].
    + rewrite (at_letter_app_l fa cs) by assumption. rewrite (at_letter_app_l out con) by (try assumption; subst out; apply in_app_iff; auto).
      subst out. rewrite (at_letter_app_l fa fb) by assumption. reflexivity.
    + rewrite (at_letter_app_r fa cs) by (try assumption; intros H; exact (HX d H Hd)). rewrite (at_letter_app_r out con) by (try assumption; apply HCO, Hd).
      rewrite at_letter_map by (apply (Permutation_in _ PC), Hd). reflexivity.
  - apply (Permutation_in _ (Permutation_sym PB)) in Hd. apply in_app_iff in Hd as [Hd|Hd].
    + rewrite (at_letter_app_l cs fb) by assumption. rewrite (at_letter_app_r out con) by (try assumption; apply HCO, Hd).
      rewrite at_letter_map by (apply (Permutation_in _ PC), Hd). reflexivity.
    + rewrite (at_letter_app_r cs fb) by (try assumption; apply HY, Hd).
      rewrite (at_letter_app_l out con) by (try assumption; subst out; apply in_app_iff; auto).
      assert (HN : ~ In d fa).
      { intros H1. apply in_split in Hd as (l1 & l2 & E). subst out. rewrite E in DO. rewrite app_assoc in DO. apply NoDup_remove_2 in DO. apply DO. rewrite !in_app_iff. auto. }
      subst out. rewrite (at_letter_app_r fa fb) by assumption. reflexivity.
Qed.

Variables (truthy : R -> bool) (of_bool : bool -> R) (iadd imul : ity -> R -> R -> R).
Local Notation mm := (matmul zero truthy of_bool iadd imul add mul).
Local Notation id := (fun (_ : kind) (v : R) => v).
Lemma mm_c x y out m n p q : a_shape (o_arr x) = [m; n] -> a_shape (o_arr y) = [p; q] -> mm x y = Ok out -> a_c (o_arr out) = true.
Proof.
  intros SX SY. rewrite mm_unfold. unfold expand_for_matmul, ndim. rewrite SX, SY. cbn [length bind].
  unfold mm_core, gufunc_call. destruct (resolve _ _) as [d|]; [|discriminate]. destruct (d_out_core d) as [|core [|? ?]]; try discriminate.
  match goal with |- context [foldM ?a ?b ?c] => destruct (foldM a b c) as [buf| | |] end; cbn [bind]; try discriminate.
  intros E. injection E as <-. reflexivity.
Qed.

(* which layouts the reshaping treats properly *)
Definition suits (x : @operand R) (perm : list nat) (rows cols : letters) : Prop :=
  forall pa, permuted (o_arr x) perm = Ok pa -> a_c pa = true \/ a_f pa = false \/ (length rows <= 1 /\ length cols <= 1).

Lemma max_prod size m L l : fits size m L -> incl l L -> prod (map size l) <> 0 -> Nat.max (prod (map (dim m) l)) 1 = prod (map size l).
Proof. intros HF HI HZ. rewrite (fits_map size m L l HF HI). lia. Qed.

Lemma blas_ok size m sa sb out k x y f g :
  lib_kind k -> fits size m (sa ++ sb) ->
  NoDup sa -> NoDup sb -> NoDup out ->
  let con := summed [sa; sb] out in
  let fa := free con sa in let fb := free con sb in
  incl con sa -> incl con sb -> bound con sa = bound con sb -> out = fa ++ fb ->
  prod (map size con) <> 0 -> prod (map size out) <> 0 ->
  (Z.of_nat (prod (map size out)) * itemsize k < 2 ^ 63)%Z ->
  array_of x k (map size sa) f -> array_of y k (map size sb) g ->
  suits x (map (pos sa) (fa ++ bound con sa)) fa (bound con sa) ->
  suits y (map (pos sb) (bound con sb ++ fb)) (bound con sb) fb ->
  blas_contraction mm x y sa sb out m con = Ok None \/
  exists r, blas_contraction mm x y sa sb out m con = Ok (Some r) /\
    raw_copy r (itemsize k) (prod (map size out)) =
    Ok (map (einstein zero add mul size [(sa, f); (sb, g)] out) (all_idx (map size out))).
Proof using RT.
  intros HK HF DA DB DO con fa fb HCA HCB ECS EO HZC HZO HB HX HY HSX HSY.
  set (cs := bound con sa) in *.
  assert (DC : NoDup con) by apply summed_nodup.
  assert (PC : Permutation cs con) by (apply bound_con; assumption).
  assert (PA : Permutation (fa ++ cs) sa) by apply free_bound.
  assert (PB : Permutation (cs ++ fb) sb) by (rewrite ECS; etransitivity; [apply Permutation_app_comm|apply free_bound]).
  assert (HIA : incl (fa ++ cs) (sa ++ sb)) by (intros c Hc; apply in_app_iff; left; apply (Permutation_in _ PA), Hc).
  assert (HIB : incl (cs ++ fb) (sa ++ sb)) by (intros c Hc; apply in_app_iff; right; apply (Permutation_in _ PB), Hc).
  assert (I1 : incl fa (sa ++ sb)) by (intros c Hc; apply HIA, in_app_iff; auto).
  assert (I2 : incl fb (sa ++ sb)) by (intros c Hc; apply HIB, in_app_iff; auto).
  assert (I3 : incl cs (sa ++ sb)) by (intros c Hc; apply HIA, in_app_iff; auto).
  assert (HPO : prod (map size out) = prod (map size fa) * prod (map size fb)) by (rewrite EO, map_app, prod_app; reflexivity).
  assert (ZC : prod (map size cs) <> 0) by (rewrite (prod_perm _ _ (Permutation_map size PC)); exact HZC).
  unfold blas_contraction. fold (free con sa) (free con sb) (bound con sa) (bound con sb). fold fa fb cs. rewrite <- ECS in *.
  rewrite !(max_prod size m (sa ++ sb)) by (try assumption; lia). rewrite Nat.eqb_refl. cbn [negb].
  destruct (arranged size sa (fa ++ cs) x k f DA PA HX) as (pa & EPA & HPA). rewrite EPA. cbn [bind].
  destruct (arranged size sb (cs ++ fb) y k g DB PB HY) as (pb & EPB & HPB).
  assert (LA : (a_c pa = false /\ a_f pa = false) \/ (a_c pa = true \/ (a_f pa = true /\ length (map size fa) <= 1 /\ length (map size cs) <= 1))).
  { rewrite !map_length. destruct (HSX pa EPA) as [H|[H|H]]; [auto| |]; destruct (a_c pa), (a_f pa); auto; discriminate. }
  assert (LB : (a_c pb = false /\ a_f pb = false) \/ (a_c pb = true \/ (a_f pb = true /\ length (map size cs) <= 1 /\ length (map size fb) <= 1))).
  { rewrite !map_length. destruct (HSY pb EPB) as [H|[H|H]]; [auto| |]; destruct (a_c pb), (a_f pb); auto; discriminate. }
  destruct LA as [[LA1 LA2]|LA]; [left; rewrite as_matrix_refused by assumption; reflexivity|].
  rewrite map_app in HPA, HPB.
  destruct (as_matrix (with_arr x pa) k _ _ _ HPA LA) as (a2 & EA2 & HA2). change (o_arr (with_arr x pa)) with pa in EA2. rewrite EA2. cbn [opt]. rewrite EPB. cbn [bind].
  destruct LB as [[LB1 LB2]|LB]; [left; rewrite as_matrix_refused by assumption; reflexivity|]. right.
  destruct (as_matrix (with_arr y pb) k _ _ _ HPB LB) as (b2 & EB2 & HB2). change (o_arr (with_arr y pb)) with pb in EB2. rewrite EB2. cbn [opt].
  change (with_arr (with_arr x pa) a2) with (with_arr x a2) in HA2. change (with_arr (with_arr y pb) b2) with (with_arr y b2) in HB2.
  destruct (ring_product zero one add mul sub opp RT truthy of_bool iadd imul k _ _ _ _ _ _ _ HK HA2 HB2) as (r & ER & HR).
  { rewrite <- HPO. exact HB. }
  rewrite ER. cbn [opt].
  assert (HRC : a_c (o_arr r) = true).
  { eapply mm_c; [| |exact ER]; [exact (proj1 (proj2 (proj2 HA2)))|exact (proj1 (proj2 (proj2 HB2)))]. }
  assert (HV : forall i j, inb i (map size fa) -> inb j (map size fb) -> _) by exact (contraction_value size sa sb out f g fa fb cs con DA DB DO PA PB EO eq_refl PC).
  rewrite (fits_map size m (sa ++ sb) fa HF I1), (fits_map size m (sa ++ sb) fb HF I2), <- map_app, <- EO, map_length.
  destruct (Nat.eqb_spec (length out) 0) as [EL|EL].
  - exists r. split; [reflexivity|]. destruct out as [|? ?]; [|discriminate].
    symmetry in EO. apply app_eq_nil in EO as [EFA EFB]. rewrite EFA, EFB in *. cbn [map prod] in *.
    pose proof (raw_copy_ok r k [1; 1] _ HR HRC) as HRW. cbn [prod Nat.mul Nat.add] in HRW. rewrite HRW. cbn [all_idx map prod flat_map seq app nth]. f_equal. f_equal. exact (HV [] [] (Forall2_nil _) (Forall2_nil _)).
  - pose proof HR as (KR & WR & SR & IR & GR).
    destruct (reshape_c_is_view (fst (snd r)) (o_arr r) (map size out) WR HRC) as (a & EA & ES & W' & HG).
    { rewrite SR, HPO. cbn [prod]. lia. }
    rewrite EA. cbn [opt].
    assert (HCE : chars_eq out out = true) by (unfold chars_eq; destruct (list_eq_dec ascii_dec out out); [reflexivity|contradiction]).
    rewrite HCE. exists (with_arr r a). split; [reflexivity|].
    assert (EI : a_item a = itemsize k /\ a_c a = true).
    { unfold reshape in EA. destruct (negb _); [discriminate|]. destruct (_ && _); [discriminate|]. rewrite HRC in EA. injection EA as <-.
      split; [exact IR|]. cbn [view_with a_c]. apply c_contig_c_strides. }
    apply (raw_copy_ok (with_arr r a) k (map size out)); [|apply EI].
    split; [exact KR|]. split; [exact W'|]. split; [exact ES|]. split; [apply EI|].
    intros idx Hi. cbn [with_arr fst snd o_arr]. destruct (HG idx Hi) as [HI2 ->]. change rm_unrank with unrank in *. change rm_rank with rank in *. rewrite SR in *.
    rewrite GR by exact HI2. f_equal. clear HG GR.
    rewrite EO, map_app in Hi. 
    rewrite <- (firstn_skipn (length (map size fa)) idx) in Hi.
    assert (HLi : length (firstn (length (map size fa)) idx) = length (map size fa)).
    { rewrite firstn_skipn in Hi. apply inb_length in Hi. rewrite app_length in Hi. apply firstn_length_le. lia. }
    apply inb_app in Hi as [Hi Hj]; [|exact HLi].
    rewrite <- (firstn_skipn (length (map size fa)) idx). set (i := firstn _ idx) in *. set (j := skipn _ idx) in *. rewrite <- HV by assumption.
    assert (ERK : rank (map size out) (i ++ j) = rank (map size fa) i * prod (map size fb) + rank (map size fb) j).
    { rewrite EO, map_app. apply rank_app, HLi. }
    rewrite ERK.
    pose proof (rank_lt _ _ Hi) as Ri. pose proof (rank_lt _ _ Hj) as Rj.
    assert (EU : unrank [prod (map size fa); prod (map size fb)] (rank (map size fa) i * prod (map size fb) + rank (map size fb) j) = [rank (map size fa) i; rank (map size fb) j]).
    { transitivity (unrank [prod (map size fa); prod (map size fb)] (rank [prod (map size fa); prod (map size fb)] [rank (map size fa) i; rank (map size fb) j])).
      - f_equal. cbn [rank prod]. rewrite !Nat.mul_1_r, Nat.add_0_r. reflexivity.
      - apply unrank_rank. repeat constructor; assumption. }
    rewrite EU. reflexivity.
Qed.
End Ring.
