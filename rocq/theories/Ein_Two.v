(* einsum with two float64 operands over exact arithmetic. *)
From Coq Require Import Ascii String Ring Permutation.
From Verif Require Import Base Lists Arr_Spec Arr_Model Arr_Wf Arr_Proofs Bcast_Model Bcast_Proofs Copy_Model Elem_Model Elem_Proofs Int_Model Red_Model Red_Scan Conv_Spec Conv_Proofs Promo_Spec Promo_Model Num_Calc Gu_Spec Gu_Model Gu_Proofs Mat_Spec Mat_Model Mat_Proofs Mat_Batch Mat_Laws Prod_Model Prod_Proofs Ein_Spec Ein_Model Ein_Parse Ein_Proofs Ein_Blas Ein_Contract.
Local Open Scope nat_scope.
Local Open Scope list_scope.

Lemma flat_vector {V} (x : @operand V) k n f : vector_of x k n f -> a_c (o_arr x) = true \/ a_f (o_arr x) = true ->
  exists a, reshape (o_arr x) [n] = Ok a /\ vector_of (with_arr x a) k n f.
Proof.
  intros (K & W & S1 & I1 & G) HL. unfold reshape, usize_prod. rewrite S1, Z.eqb_refl. cbn [negb].
  assert (HN : negb (a_c (o_arr x)) && negb (a_f (o_arr x)) = false) by (destruct HL as [-> | ->]; [reflexivity|apply andb_false_r]).
  rewrite HN. eexists. split; [reflexivity|].
  assert (HV : is_view (fst (snd x)) (o_arr x) (view_with (o_arr x) 0 [n] (if a_c (o_arr x) then c_strides [n] (a_item (o_arr x)) else f_strides [n] (a_item (o_arr x)))) [n] (fun idx => idx)).
  { pose proof W as (_ & _ & _ & W4 & _ & WC & WF). apply view0_is_view; [exact W|destruct (a_c (o_arr x)); reflexivity|].
    intros idx Hi. rewrite S1. split; [exact Hi|]. destruct (a_c (o_arr x)) eqn:EC.
    - rewrite dot_c_strides. rewrite (c_contig_dot (a_shape (o_arr x)) _ (a_item (o_arr x))) by (try exact W4; try (apply WC; reflexivity); rewrite S1; exact Hi). rewrite S1. reflexivity.
    - destruct HL as [HL|HL]; [discriminate|]. unfold f_strides. rewrite dot_f_strides_from.
      rewrite (f_contig_dot (a_shape (o_arr x)) _ (a_item (o_arr x)) _ W4) by (try exact (WF HL); rewrite S1; exact Hi). rewrite S1. reflexivity. }
  destruct HV as (ES & W' & HG). split; [exact K|]. split; [exact W'|]. split; [exact ES|]. split; [exact I1|].
  intros idx Hi. cbn [with_arr fst snd o_arr]. destruct (HG idx Hi) as [_ ->]. apply G, Hi.
Qed.

Section Two.
Context {R : Type}.
Variables (zero one : R) (add mul sub : R -> R -> R) (opp : R -> R).
Hypothesis RT : ring_theory zero one add mul sub opp (@eq R).
Local Notation id := (fun (_ : kind) (v : R) => v).

Lemma add_0_l v : add zero v = v.
Proof using RT. apply (Radd_0_l RT). Qed.
(* no letter is summed over *)
Lemma einstein_nosum size xs out idx : summed (map fst xs) out = [] ->
  einstein zero add mul size xs out idx = product_of zero mul (map (operand_at out idx) xs).
Proof using RT.
  intros E. unfold einstein. rewrite E. cbn [map all_idx]. unfold sum_of. cbn [fold_left]. rewrite !app_nil_r. apply add_0_l.
Qed.

Lemma outer_ok raw x y n p f g : vector_of x Float64 n f -> vector_of y Float64 p g -> (Z.of_nat (n * p) * 8 < 2 ^ 63)%Z ->
  outer zero mul id id raw x y = Err \/
  exists o, outer zero mul id id raw x y = Ok o /\ matrix_of o Float64 n p (fun i j => mul (f i) (g j)).
Proof.
  intros HX HY HB. pose proof HX as (KX & WX & SX & IX & GX). pose proof HY as (KY & WY & SY & IY & GY).
  unfold outer, Arr_Model.size. rewrite SX, SY. cbn [prod]. rewrite !Nat.mul_1_r.
  destruct (a_c (o_arr x)) eqn:CX; [|destruct (a_f (o_arr x)) eqn:FX; [|left; rewrite as_matrix_refused by assumption; reflexivity]].
  1, 2: (destruct (flat_vector x Float64 n f HX) as (a & EA & HA); [auto|]; rewrite EA; cbn [bind];
    destruct (a_c (o_arr y)) eqn:CY; [|destruct (a_f (o_arr y)) eqn:FY; [|left; rewrite as_matrix_refused by assumption; reflexivity]];
    (destruct (flat_vector y Float64 p g HY) as (b & EB & HBv); [auto|]; rewrite EB; cbn [bind]; right;
     destruct (outer_core zero mul id id raw Float64 Float64 Float64 (with_arr x a) (with_arr y b) n p f g ltac:(cbn; lia) HA HBv HB) as (buf & EC & HM);
     rewrite KX, KY; change (promote Float64 Float64) with Float64; change (fst (snd x), a) with (snd (with_arr x a)); change (fst (snd y), b) with (snd (with_arr y b));
     rewrite EC; cbn [bind]; eexists; split; [reflexivity|exact HM])).
Qed.
Lemma hadamard_ok x y sh f g : array_of x Float64 sh f -> array_of y Float64 sh g -> (Z.of_nat (prod sh) * 8 < 2 ^ 63)%Z ->
  exists o, hadamard id id (fun _ => mul) x y = Ok o /\ array_of o Float64 sh (fun idx => mul (f idx) (g idx)).
Proof.
  intros (KX & WX & SX & IX & GX) (KY & WY & SY & IY & GY) HB. unfold hadamard. rewrite KX, KY. change (promote Float64 Float64) with Float64. rewrite !kind_eqb_refl. 
  pose proof (elementwise2_spec (fun u v => Ok (mul u v)) PKernel (fst (snd x)) (o_arr x) (fst (snd y)) (o_arr y) WX WY) as H.
  rewrite SX, SY in H.
  rewrite bshape_idem in H.
  assert (HU : forall idx, inb idx sh -> unbroadcast sh idx = idx).
  { intros idx Hi. unfold unbroadcast. pose proof (inb_length _ _ Hi) as HL. rewrite HL, Nat.sub_diag. cbn [skipn]. apply unstretch_id, Hi. }
  rewrite (mapM_ok _ (fun idx => mul (f idx) (g idx))) in H.
  2:{ intros idx Hi. apply in_all_idx in Hi. rewrite !HU, GX, GY by exact Hi. reflexivity. }
  cbn [bind] in H. rewrite H. cbn [bind]. eexists. split; [reflexivity|].
  apply fresh_array; [reflexivity|exact HB|rewrite map_length; apply all_idx_length|].
  intros idx Hi. rewrite nth_error_map', nth_error_all_idx_rank by exact Hi. reflexivity.
Qed.

Variable raw : kind -> R -> R.
Variables (truthy : R -> bool) (of_bool : bool -> R) (iadd imul : ity -> R -> R -> R).
Local Notation mm := (matmul zero truthy of_bool iadd imul add mul).
Local Notation e2 := (einsum2 zero zero add mul id id raw (fun _ => mul) mm).

Lemma chars_eq_iff a b : chars_eq a b = true <-> a = b.
Proof. unfold chars_eq. destruct (list_eq_dec ascii_dec a b); split; congruence. Qed.

(* no letter summed over: products of elements, any layout *)
Theorem two_nosum size m sa sb out x y f g :
  lowercase (sa ++ sb) -> knows size (sa ++ sb) m -> incl out (sa ++ sb) ->
  NoDup sa -> NoDup sb -> NoDup out -> summed [sa; sb] out = [] ->
  array_of x Float64 (map size sa) f -> array_of y Float64 (map size sb) g ->
  (Z.of_nat (prod (map size out)) * 8 < 2 ^ 63)%Z ->
  exists o, e2 sa sb out x y m = Ok o /\ array_of o Float64 (map size out) (einstein zero add mul size [(sa, f); (sb, g)] out).
Proof using RT.
  intros HL HK HIO DA DB DO HS HX HY HB.
  pose proof HX as (KX & WX & SX & IX & GX). pose proof HY as (KY & WY & SY & IY & GY).
  assert (HC : contraction m out = []).
  { rewrite (contraction_ok size [sa; sb] out m) by (cbn [concat]; rewrite app_nil_r; assumption). exact HS. }
  assert (HSub : forall c, In c (sa ++ sb) -> In c out).
  { intros c Hc. destruct (in_dec ascii_dec c out) as [|N]; [assumption|]. exfalso.
    assert (H : In c (summed [sa; sb] out)) by (apply summed_in; cbn [concat]; rewrite app_nil_r; auto). rewrite HS in H. destruct H. }
  assert (HSlow : exists o, with_output zero Float64 (map (dim m) out) (einsum_binary zero add mul id id mm sa sb out x y Float64 m []) = Ok o /\
     array_of o Float64 (map size out) (einstein zero add mul size [(sa, f); (sb, g)] out)).
  { unfold einsum_binary. cbn [length Nat.eqb negb]. rewrite andb_false_r.
    pose proof (elementwise_ok zero zero add mul id id size m sa sb out Float64 Float64 Float64 x y f g HL (knows_fits _ _ _ HK) HIO DA DB DO) as H. cbv zeta in H. rewrite HS in H.
    destruct H as (o & E & HA & _); try assumption; try reflexivity; try (intros c []). { left. cbn. lia. }
    exists o. split; [exact E|]. exact HA. }
  unfold einsum2. rewrite KX, KY, HC. change (promote Float64 Float64) with Float64.
  set (slow := with_output _ _ _ _) in *. destruct HSlow as (o & ES & HO). unfold binary_fast. unfold ndim. rewrite SX, SY, !map_length.
  destruct (forallb (fun c => negb (has c sb)) sa && (length sa =? 1) && (length sb =? 1) && (length out =? 2)) eqn:EF.
  - rewrite !andb_true_iff, !Nat.eqb_eq in EF. destruct EF as (((HD & La) & Lb) & Lo).
    destruct sa as [|a [|? ?]]; try discriminate La. destruct sb as [|b [|? ?]]; try discriminate Lb. destruct out as [|c [|d [|? ?]]]; try discriminate Lo.
    cbn [forallb] in HD. rewrite andb_true_r, negb_true_iff, has_not in HD. cbn [In] in HD.
    assert (HN : a <> b) by (intros ->; apply HD; auto). clear HD.
    cbn [map] in HX, HY.
    assert (VX : vector_of x Float64 (size a) (fun i => f [i])).
    { eapply array_of_ext; [|exact HX]. intros idx Hi. inversion Hi as [|i u c1 w Hi1 Hc1]; subst. inversion Hc1; subst. reflexivity. }
    assert (VY : vector_of y Float64 (size b) (fun i => g [i])).
    { eapply array_of_ext; [|exact HY]. intros idx Hi. inversion Hi as [|i u c1 w Hi1 Hc1]; subst. inversion Hc1; subst. reflexivity. }
    assert (HB2 : (Z.of_nat (size a * size b) * 8 < 2 ^ 63)%Z).
    { assert (HE : [c; d] = [a; b] \/ [c; d] = [b; a]).
      { pose proof (HIO c (or_introl eq_refl)) as H1. pose proof (HIO d (or_intror (or_introl eq_refl))) as H2. 
        assert (HCD : c <> d) by (intros ->; inversion DO as [|? ? HX1 HX2]; apply HX1; left; reflexivity). clear - H1 H2 HCD.
        cbn [app In] in H1, H2. destruct H1 as [<-|[<-|[]]], H2 as [<-|[<-|[]]]; auto; contradiction. }
      clear - HB HE. destruct HE as [E|E]; injection E as -> ->; cbn [map prod] in HB; rewrite Nat.mul_1_r in HB; [exact HB|rewrite Nat.mul_comm; exact HB]. }
    destruct (outer_ok raw x y _ _ _ _ VX VY HB2) as [E|(o' & E & HM)]; rewrite E; [exists o; auto|].
    destruct (chars_eq ([a] ++ [b]) [c; d]) eqn:EQ.
    + apply chars_eq_iff in EQ. injection EQ as <- <-. exists o'. split; [reflexivity|]. cbn [map]. eapply array_of_ext; [|exact HM].
      intros idx Hi. inversion Hi as [|i u c1 w Hi1 Hc1]; subst. inversion Hc1 as [|j u' c2 w' Hj Hc2]; subst. inversion Hc2; subst.
      rewrite einstein_nosum by exact HS. unfold product_of, operand_at. cbn [map fold_left fst snd nth at_letter]. rewrite !Ascii.eqb_refl.
      destruct (Ascii.eqb_spec a b); [contradiction|]. reflexivity.
    + assert (HE : c = b /\ d = a).
      { assert (H1 : In a [c; d]) by (apply HSub; left; reflexivity). assert (H2 : In b [c; d]) by (apply HSub; right; left; reflexivity).
        assert (H3 : ~ (c = a /\ d = b)). { intros [-> ->]. rewrite (proj2 (chars_eq_iff _ _) eq_refl) in EQ. discriminate. }
        clear - H1 H2 H3 HN. cbn [In] in H1, H2. destruct H1 as [<-|[<-|[]]], H2 as [<-|[<-|[]]]; auto; exfalso; auto. }
      destruct HE as [-> ->]. eexists. split; [reflexivity|].
      pose proof HM as (KM & WM & SM & IM & GM). destruct (transpose_is_view (fst (snd o')) (o_arr o') WM) as (ST & WT & HG). rewrite SM in *. cbn [rev app] in *.
      split; [exact KM|]. split; [exact WT|]. split; [exact ST|]. split; [exact IM|].
      intros idx Hi. cbn [with_arr fst snd o_arr]. destruct (HG idx Hi) as [HI2 ->]. inversion Hi as [|i u c1 w Hi1 Hc1]; subst. inversion Hc1 as [|j u' c2 w' Hj Hc2]; subst. inversion Hc2; subst.
      rewrite GM by exact HI2. f_equal.
      rewrite einstein_nosum by exact HS. unfold product_of, operand_at. cbn [map fold_left fst snd nth at_letter rev app]. rewrite !Ascii.eqb_refl.
      destruct (Ascii.eqb_spec b a) as [E2|]; [symmetry in E2; contradiction|]. reflexivity.
  - destruct (chars_eq sa sb && chars_eq sa out) eqn:EH; [|exists o; auto].
    apply andb_true_iff in EH as [E1 E2]. apply chars_eq_iff in E1, E2. subst sb out.
    destruct (hadamard_ok x y (map size sa) f g HX HY HB) as (o' & E & HM). rewrite E. cbn [or_else]. exists o'. split; [reflexivity|].
    eapply array_of_ext; [|exact HM]. intros idx Hi. rewrite einstein_nosum by exact HS. unfold product_of, operand_at. cbn [map fold_left fst snd].
    assert (HLi : length idx = length sa) by (apply inb_length in Hi; rewrite Hi; apply map_length).
    rewrite !at_letter_self by assumption. reflexivity.
Qed.

(* letters summed over *)
Theorem two_contract size m sa sb out x y f g :
  lowercase (sa ++ sb) -> knows size (sa ++ sb) m -> incl out (sa ++ sb) ->
  NoDup sa -> NoDup sb -> NoDup out ->
  let con := summed [sa; sb] out in
  con <> [] -> incl con sa -> incl con sb -> prod (map size con) <> 0 ->
  (bound con sa = bound con sb /\ out = free con sa ++ free con sb /\
   suits x (map (pos sa) (free con sa ++ bound con sa)) (free con sa) (bound con sa) /\
   suits y (map (pos sb) (bound con sb ++ free con sb)) (bound con sb) (free con sb)) \/
  (blas_contraction mm x y sa sb out m con = Ok None) ->
  array_of x Float64 (map size sa) f -> array_of y Float64 (map size sb) g ->
  (Z.of_nat (prod (map size out)) * 8 < 2 ^ 63)%Z ->
  exists o, e2 sa sb out x y m = Ok o /\ array_of o Float64 (map size out) (einstein zero add mul size [(sa, f); (sb, g)] out) /\
    a_off (o_arr o) = 0%Z /\ a_c (o_arr o) = true.
Proof using RT.
  intros HL HK HIO DA DB DO con HNE HCA HCB HZ HG HX HY HB.
  pose proof HX as (KX & WX & SX & IX & GX). pose proof HY as (KY & WY & SY & IY & GY).
  assert (HCE : contraction m out = con) by (apply (contraction_ok size); cbn [concat]; rewrite app_nil_r; assumption).
  assert (HCO : forall c, In c con -> ~ In c out) by (intros c Hc; apply summed_in in Hc; [tauto|cbn [concat]; rewrite app_nil_r; exact HL]).
  destruct (elementwise_ok zero zero add mul id id size m sa sb out Float64 Float64 Float64 x y f g HL (knows_fits _ _ _ HK) HIO DA DB DO HCA HCB (or_introl HZ) HX HY eq_refl eq_refl HB)
    as (os & ES & HAS & HOS & HCS). fold con in ES.
  unfold einsum2. rewrite KX, KY, HCE. change (promote Float64 Float64) with Float64. unfold binary_fast.
  assert (EF : forallb (fun c => negb (has c sb)) sa = false).
  { destruct con as [|c con']; [contradiction|]. apply not_true_iff_false. intros H. rewrite forallb_forall in H.
    specialize (H c (HCA c (or_introl eq_refl))). rewrite negb_true_iff, has_not in H. apply H, HCB. left. reflexivity. }
  rewrite EF. cbn [andb].
  assert (EH : chars_eq sa out = false).
  { apply not_true_iff_false. intros H. apply chars_eq_iff in H. destruct con as [|c con']; [contradiction|].
    apply (HCO c (or_introl eq_refl)). rewrite <- H. apply HCA. left. reflexivity. }
  rewrite EH, andb_false_r.
  assert (ER : negb (repeated sa) && negb (repeated sb) && negb (length con =? 0) = true).
  { rewrite (proj2 (repeated_nodup sa) DA), (proj2 (repeated_nodup sb) DB). destruct con; [contradiction|reflexivity]. }
  unfold einsum_binary. rewrite ER.
  assert (ESlow : blas_contraction mm x y sa sb out m con = Ok None ->
    exists o, with_output zero Float64 (map (dim m) out) (fun buf => bind (blas_contraction mm x y sa sb out m con) (fun r => match r with Some o => raw_copy o (itemsize Float64) (List.length buf) | None => einsum_elementwise zero add mul id id sa sb out x y Float64 m con buf end)) = Ok o /\
      array_of o Float64 (map size out) (einstein zero add mul size [(sa, f); (sb, g)] out) /\ a_off (o_arr o) = 0%Z /\ a_c (o_arr o) = true).
  { intros E. rewrite E. cbn [bind]. exists os. split; [exact ES|]. split; [exact HAS|]. split; assumption. }
  destruct HG as [(E1 & E2 & H1 & H2)|HN]; [|exact (ESlow HN)].
  destruct (Nat.eq_dec (prod (map size out)) 0) as [HZO|HZO].
  - rewrite (fits_map size m (sa ++ sb) out (knows_fits _ _ _ HK) HIO). apply output_list; [reflexivity|exact HB|]. intros H. contradiction.
  - destruct (blas_ok zero one add mul sub opp RT truthy of_bool iadd imul size m sa sb out Float64 x y f g (or_introl eq_refl) (knows_fits _ _ _ HK) DA DB DO HCA HCB E1 E2 HZ HZO HB HX HY H1 H2) as [E|(r & E & HR)].
    + exact (ESlow E).
    + fold con in E. rewrite E. cbn [bind]. rewrite (fits_map size m (sa ++ sb) out (knows_fits _ _ _ HK) HIO). apply output_list; [reflexivity|exact HB|].
      intros _ buf HLb. rewrite HLb. exact HR.
Qed.
End Two.
