(* einsum with one float64 operand over exact arithmetic. *)
From Coq Require Import Ascii String Ring Permutation.
From Verif Require Import Base Lists Arr_Spec Arr_Model Arr_Wf Arr_Proofs Arr_Hist Copy_Model Copy_Proofs Elem_Model Int_Model Red_Spec Red_Model Red_Proofs Red_Scan Red_Props Conv_Spec Conv_Proofs Promo_Spec Promo_Model Num_Calc Gu_Spec Gu_Model Mat_Model Mat_Proofs Mat_Batch Prod_Model Prod_Proofs Ein_Spec Ein_Model Ein_Parse Ein_Proofs Ein_Blas Ein_Contract Ein_Two.
Local Open Scope nat_scope.
Local Open Scope list_scope.

Lemma at_letter_notin ls idx c : ~ In c ls -> at_letter ls idx c = 0.
Proof.
  revert idx. induction ls as [|d ls IH]; intros [|i idx] H; try reflexivity. cbn [at_letter].
  destruct (Ascii.eqb_spec d c) as [->|]; [exfalso; apply H; left; reflexivity|]. apply IH. intros H2. apply H. right. exact H2.
Qed.
Lemma set_eqb_perm a b : NoDup a -> NoDup b -> set_eqb a b = true -> Permutation b a.
Proof.
  intros DA DB H. unfold set_eqb in H. apply andb_true_iff in H as [H1 H2]. rewrite forallb_forall in H1, H2.
  apply NoDup_Permutation; [exact DB|exact DA|]. intros c. split; intros Hc; [apply has_in, H2, Hc|apply has_in, H1, Hc].
Qed.
Lemma set_eqb_false a b : set_eqb a b = false -> incl b a -> exists c, In c a /\ ~ In c b.
Proof.
  intros H HI. unfold set_eqb in H. apply andb_false_iff in H as [H|H].
  - assert (E : existsb (fun c => negb (has c b)) a = true).
    { apply not_false_iff_true. intros E. apply not_true_iff_false in H. apply H. apply forallb_forall. intros c Hc.
      destruct (has c b) eqn:EB; [reflexivity|]. assert (T : existsb (fun c => negb (has c b)) a = true) by (apply existsb_exists; exists c; rewrite EB; auto). congruence. }
    apply existsb_exists in E as (c & Hc & E). exists c. split; [exact Hc|]. apply has_not, negb_true_iff, E.
  - exfalso. apply not_true_iff_false in H. apply H. apply forallb_forall. intros c Hc. apply has_in, HI, Hc.
Qed.

Section One.
Context {R : Type}.
Variables (zero one : R) (add mul sub : R -> R -> R) (opp : R -> R).
Hypothesis RT : ring_theory zero one add mul sub opp (@eq R).
Local Notation id := (fun (_ : kind) (v : R) => v).

Lemma ring_laws : kernel_laws (fun _ : R => True) zero add.
Proof using RT.
  split; [exact I|]. split; [auto|]. split; [intros; apply (Radd_assoc RT)|]. split; [intros; apply (Radd_comm RT)|]. intros; apply (Radd_0_l RT).
Qed.
(* the sum over the letters in any order *)
Lemma einstein_order size xs out cs idx : length idx = length out -> NoDup cs -> Permutation cs (summed (map fst xs) out) ->
  einstein zero add mul size xs out idx =
  sum_of zero add (map (fun c => product_of zero mul (map (operand_at (out ++ cs) (idx ++ c)) xs)) (all_idx (map size cs))).
Proof using RT.
  intros HL HD HP. unfold einstein. set (con := summed (map fst xs) out) in *. cbv zeta.
  rewrite (sum_perm zero one add mul sub opp RT _ _ (Permutation_map _ (reorder_all size cs con HD HP))). rewrite map_map. f_equal.
  apply map_ext_in. intros c Hc. f_equal. apply map_ext. intros x. unfold operand_at. f_equal. apply map_ext. intros d.
  destruct (in_dec ascii_dec d out) as [Ho|Ho]; [rewrite !at_letter_app_l by assumption; reflexivity|]. rewrite !at_letter_app_r by assumption.
  destruct (in_dec ascii_dec d con) as [Hd|Hd]; [apply at_letter_map, Hd|]. rewrite !at_letter_notin; try assumption; [reflexivity|].
  intros H. apply Hd. apply (Permutation_in _ HP), H.
Qed.
Lemma einstein_by size xs out cs idx v : length idx = length out ->
  sum_of zero add (map (fun c => product_of zero mul (map (operand_at (out ++ cs) (idx ++ c)) xs)) (all_idx (map size cs))) = v ->
  NoDup cs -> Permutation cs (summed (map fst xs) out) -> einstein zero add mul size xs out idx = v.
Proof using RT. intros H1 <- H2 H3. apply einstein_order; assumption. Qed.
Lemma sum_all_ok x sh f : array_of x Float64 sh f -> sum_all zero id id (fun _ => add) x = Ok (sum_of zero add (map f (all_idx sh))).
Proof using RT.
  intros (K & W & S1 & I1 & G). unfold sum_all. cbv beta zeta.
  assert (E : elems (fst (snd x)) (o_arr x) = map Some (map f (all_idx sh))).
  { unfold elems. rewrite S1, map_map. apply map_ext_in. intros idx Hi. apply G, in_all_idx, Hi. }
  rewrite (dispatch_reduce_spec zero add (fst (snd x)) (o_arr x) _ W E). cbn [bind].
  destruct (_ || _ || _).
  - rewrite (C23_lanes_invisible (fun _ => True) zero add _ ring_laws) by (apply Forall_forall; auto). reflexivity.
  - rewrite (trait_reduce_spec zero add (fst (snd x)) (o_arr x) _ W E). reflexivity.
Qed.
Lemma full0_ok s f : f [] = s -> array_of (full0 id Float64 s) Float64 [] f.
Proof.
  intros <-. apply fresh_array; [reflexivity|reflexivity|reflexivity|]. intros idx Hi. inversion Hi. reflexivity.
Qed.
Lemma summed1 ls out : summed (map fst [(ls, @nil nat)]) out = summed [ls] out.
Proof. reflexivity. Qed.
Lemma in_summed1 ls out c : lowercase ls -> (In c (summed [ls] out) <-> In c ls /\ ~ In c out).
Proof. intros HL. rewrite summed_in by (cbn [concat]; rewrite app_nil_r; exact HL). cbn [concat]. rewrite app_nil_r. reflexivity. Qed.

Local Notation e1 := (einsum1 zero zero add id id (fun _ => add)).
Local Notation ein := (einstein zero add mul).

Theorem one_ok size m ls out x f :
  lowercase ls -> knows size ls m -> incl out ls -> NoDup out ->
  (summed [ls] out = [] \/ forall p q c, nth_error ls p = Some c -> nth_error ls q = Some c -> In c out -> p = q) ->
  array_of x Float64 (map size ls) f -> (Z.of_nat (prod (map size out)) * 8 < 2 ^ 63)%Z ->
  exists o, e1 ls out x m = Ok o /\ array_of o Float64 (map size out) (ein size [(ls, f)] out).
Proof using RT.
  intros HL HK HIO DO HR HX HB. pose proof HX as (K & W & S1 & I1 & G).
  assert (HLC : lowercase (concat [ls])) by (cbn [concat]; rewrite app_nil_r; exact HL).
  assert (HKC : knows size (concat [ls]) m) by (cbn [concat]; rewrite app_nil_r; exact HK).
  pose proof (contraction_ok size [ls] out m HLC HKC) as HC.
  pose proof (knows_fits _ _ _ HK) as HF.
  unfold einsum1. destruct (single_fast zero id id (fun _ => add) ls out x) as [r|] eqn:EF.
  - unfold single_fast in EF.
    destruct (negb (repeated ls) && negb (repeated out) && set_eqb ls out) eqn:E1.
    { (* transpose *)
      injection EF as <-. rewrite !andb_true_iff, !negb_true_iff in E1. destruct E1 as ((R1 & R2) & E1).
      apply repeated_nodup in R1. pose proof (set_eqb_perm ls out R1 DO E1) as HP.
      destruct (transpose_axes_is_view (fst (snd x)) (o_arr x) (map (pos ls) out) W) as (a & E & ES & W' & HG).
      { unfold ndim. rewrite S1, map_length. apply pos_perm; assumption. }
      rewrite E. cbn [bind]. eexists. split; [reflexivity|].
      assert (EI2 : a_item a = itemsize Float64).
      { unfold transpose_axes in E. destruct (negb _); [discriminate|]. destruct (gather (a_shape _) _); try discriminate. destruct (gather (a_strides _) _); try discriminate. injection E as <-. exact I1. }
      assert (ESH : map (fun i => nth i (a_shape (o_arr x)) 0) (map (pos ls) out) = map size out).
      { rewrite map_map, S1. apply map_ext_in. intros c Hc. apply (Permutation_in _ HP) in Hc.
        apply nth_error_nth. rewrite nth_error_map', pos_nth by exact Hc. reflexivity. }
      rewrite ESH in *. split; [exact K|]. split; [exact W'|]. split; [exact ES|]. split; [exact EI2|].
      intros idx Hi. cbn [with_arr fst snd o_arr]. destruct (HG idx Hi) as [HI2 ->].
      rewrite unpermute_letters in * by (try assumption; apply inb_length in Hi; rewrite Hi; apply map_length).
      rewrite S1 in HI2. rewrite G by exact HI2. f_equal. rewrite (einstein_nosum zero one add mul sub opp RT).
      - reflexivity.
      - cbn [map fst]. match goal with |- ?s = [] => destruct s as [|c l] eqn:ES2 end; [reflexivity|]. exfalso.
        assert (Hc : In c (summed [ls] out)) by (change (In c (summed (map fst [(ls, f)]) out)); cbn [map fst]; rewrite ES2; left; reflexivity).
        apply in_summed1 in Hc; [|exact HL]. destruct Hc as [H1 H2]. apply H2. apply (Permutation_in _ (Permutation_sym HP)), H1. }
    set (pair := match ls with [c; d] => Ascii.eqb c d | _ => false end) in EF.
    destruct (pair && (length out =? 0)) eqn:E2.
    { (* trace *)
      injection EF as <-. apply andb_true_iff in E2 as [E2 E3]. apply Nat.eqb_eq in E3. destruct out as [|? ?]; [|discriminate].
      unfold pair in E2. destruct ls as [|c [|d [|? ?]]]; try discriminate. apply Ascii.eqb_eq in E2. subst d. cbn [map] in S1.
      destruct (diagonal_is_view (fst (snd x)) (o_arr x) (size c) (size c) W S1) as (a & E & ES & W' & HG). rewrite E. cbn [bind].
      assert (EI : a_item a = itemsize Float64).
      { unfold diagonal in E. destruct (a_shape (o_arr x)) as [|? [|? ?]], (a_strides (o_arr x)) as [|? [|? ?]]; try discriminate. injection E as <-. exact I1. }
      rewrite Nat.min_id in *.
      assert (HA : array_of (with_arr x a) Float64 [size c] (fun idx => f [nth 0 idx 0; nth 0 idx 0])).
      { split; [exact K|]. split; [exact W'|]. split; [exact ES|]. split; [exact EI|]. intros idx Hi. cbn [with_arr fst snd o_arr].
        destruct (HG idx Hi) as [HI2 ->]. inversion Hi as [|i u c1 w Hi1 Hc1]; subst. inversion Hc1; subst. cbn [nth]. apply G. rewrite S1 in HI2. exact HI2. }
      rewrite (sum_all_ok _ _ _ HA). cbn [bind]. rewrite K. eexists. split; [reflexivity|]. apply full0_ok.
      apply (einstein_by size [([c; c], f)] [] [c] [] _ eq_refl).
      - f_equal. apply map_ext_in. intros idx Hi. apply in_all_idx in Hi. inversion Hi as [|i u c1 w Hi1 Hc1]; subst. inversion Hc1; subst.
        unfold product_of, operand_at. cbn [map fold_left fst snd app at_letter nth]. rewrite !Ascii.eqb_refl. reflexivity.
      - repeat constructor. intros [].
      - apply NoDup_Permutation; [repeat constructor; intros []|apply summed_nodup|]. intros e.
        change (In e [c] <-> In e (summed [[c; c]] [])). rewrite in_summed1 by exact HL. cbn [In]. tauto. }
    destruct (pair && (match ls, out with c :: _, [d] => Ascii.eqb d c | _, _ => false end)) eqn:E3.
    { (* diagonal *)
      injection EF as <-. apply andb_true_iff in E3 as [E3 E4].
      unfold pair in E3. destruct ls as [|c [|d [|? ?]]]; try discriminate. destruct out as [|o [|? ?]]; try discriminate.
      apply Ascii.eqb_eq in E3, E4. subst d o. cbn [map] in S1.
      destruct (diagonal_is_view (fst (snd x)) (o_arr x) (size c) (size c) W S1) as (a & E & ES & W' & HG). rewrite E. cbn [bind].
      assert (EI : a_item a = itemsize Float64).
      { unfold diagonal in E. destruct (a_shape (o_arr x)) as [|? [|? ?]], (a_strides (o_arr x)) as [|? [|? ?]]; try discriminate. injection E as <-. exact I1. }
      rewrite Nat.min_id in *. eexists. split; [reflexivity|]. cbn [map].
      split; [exact K|]. split; [exact W'|]. split; [exact ES|]. split; [exact EI|]. intros idx Hi. cbn [with_arr fst snd o_arr].
      destruct (HG idx Hi) as [HI2 ->]. inversion Hi as [|i u c1 w Hi1 Hc1]; subst. inversion Hc1; subst. rewrite S1 in HI2. rewrite G by exact HI2. f_equal.
      symmetry. apply (einstein_by size [([c; c], f)] [c] [] [i] _ eq_refl).
      - unfold sum_of, product_of, operand_at. cbn [map fold_left fst snd app at_letter nth all_idx]. rewrite !Ascii.eqb_refl. apply (Radd_0_l RT).
      - constructor.
      - apply NoDup_Permutation; [constructor|apply summed_nodup|]. intros e.
        change (In e [] <-> In e (summed [[c; c]] [c])). rewrite in_summed1 by exact HL. cbn [In]. tauto. }
    destruct ls as [|c ls']; [destruct out; discriminate|].
    assert (HTOT : out = [] -> repeated (c :: ls') = false ->
      exists o, bind (sum_all zero id id (fun _ => add) x) (fun s => Ok (full0 id (o_kind x) s)) = Ok o /\ array_of o Float64 (map size out) (ein size [(c :: ls', f)] out)).
    { intros -> HRp. apply repeated_nodup in HRp. rewrite (sum_all_ok _ _ _ HX), K. cbn [bind]. eexists. split; [reflexivity|]. apply full0_ok.
      apply (einstein_by size [(c :: ls', f)] [] (c :: ls') [] _ eq_refl); [|exact HRp|].
      - f_equal. apply map_ext_in. intros idx Hi. apply in_all_idx in Hi. unfold product_of, operand_at. cbn [fold_left]. cbn [map]. cbn [fst snd app].
        cbn [fold_left]. f_equal. apply at_letter_self; [exact HRp|]. apply inb_length in Hi. rewrite Hi. apply map_length.
      - apply NoDup_Permutation; [exact HRp|apply summed_nodup|]. intros e.
        change (In e (c :: ls') <-> In e (summed [c :: ls'] [])). rewrite in_summed1 by exact HL. cbn [In]. tauto. }
    destruct ls' as [|d [|e ls']].
    + destruct out as [|? [|? ?]]; try discriminate. destruct (negb (repeated [c])) eqn:ER; [|discriminate]. injection EF as <-. apply HTOT; [reflexivity|]. apply negb_true_iff, ER.
    + destruct out as [|o [|? ?]]; try discriminate.
      * destruct (negb (repeated [c; d])) eqn:ER; [|discriminate]. injection EF as <-. apply HTOT; [reflexivity|]. apply negb_true_iff, ER.
      * (* sum over one axis *)
        destruct (negb (Ascii.eqb c d)) eqn:ER; [|discriminate]. injection EF as <-. apply negb_true_iff, Ascii.eqb_neq in ER. cbn [map] in S1.
        set (axis := if Ascii.eqb o c then 1 else 0).
        assert (HO : (o = c /\ axis = 1) \/ (o = d /\ axis = 0)).
        { unfold axis. destruct (Ascii.eqb_spec o c) as [->|N]; [left; auto|right]. split; [|reflexivity].
          destruct (HIO o (or_introl eq_refl)) as [H|[H|[]]]; [congruence|auto]. }
        clearbody axis.
        assert (Hn : exists n, nth_error (a_shape (o_arr x)) axis = Some n) by (rewrite S1; destruct HO as [[_ ->]|[_ ->]]; eexists; reflexivity).
        destruct Hn as [n Hn].
        destruct (C26_axis_fold (fun _ => True) zero add (fst (snd x)) (o_arr x) axis n ring_laws W Hn (fun _ _ _ _ => I)) as (vals & E & HLv & HG).
        unfold sum_axis. rewrite K, E. cbn [bind]. eexists. split; [reflexivity|].
        assert (ERS : reduced_shape axis (a_shape (o_arr x)) = [size o]) by (rewrite S1; destruct HO as [[-> ->]|[-> ->]]; reflexivity).
        rewrite ERS in *. cbn [map]. apply fresh_array; [reflexivity|exact HB|exact HLv|]. intros idx Hi.
        rewrite I1 in HG. inversion Hi as [|i u c1 w Hi1 Hc1]; subst. inversion Hc1; subst.
        pose (other := if axis =? 1 then d else c).
        set (lv := map (fun j => f (if axis =? 1 then [i; j] else [j; i])) (seq 0 (size other))).
        specialize (HG [i] lv Hi).
        rewrite (fresh_get vals [size o] (itemsize Float64) [i]) in HG by reflexivity.
        rewrite HG.
        -- f_equal. symmetry. apply (einstein_by size [([c; d], f)] [o] [other] [i] _ eq_refl).
           ++ unfold sum_of, lv. cbn [map]. f_equal. rewrite all_idx_unrank, map_map. cbn [prod]. rewrite Nat.mul_1_r. apply map_ext_in. intros j Hj.
              apply in_seq in Hj. rewrite unrank_1 by lia. unfold product_of, operand_at. cbn [map fold_left fst snd app at_letter].
              unfold other. destruct HO as [[-> ->]|[-> ->]]; cbn [Nat.eqb]; rewrite ?Ascii.eqb_refl; [destruct (Ascii.eqb_spec c d)|destruct (Ascii.eqb_spec d c)]; try congruence; reflexivity.
           ++ repeat constructor. intros [].
           ++ apply NoDup_Permutation; [repeat constructor; intros []|apply summed_nodup|]. intros e.
              change (In e [other] <-> In e (summed [[c; d]] [o])). rewrite in_summed1 by exact HL. cbn [In]. unfold other. destruct HO as [[-> ->]|[-> ->]]; cbn [Nat.eqb]; intuition congruence.
        -- unfold lane, lv, outer_of. rewrite S1. rewrite map_map. unfold other.
           destruct HO as [[-> ->]|[-> ->]]; cbn [nth Nat.eqb insert_at]; apply map_ext_in; intros j Hj; apply in_seq in Hj; cbn [nth] in Hj; apply G; repeat constructor; lia.
    + destruct out as [|? [|? ?]]; try discriminate. destruct (negb (repeated (c :: d :: e :: ls'))) eqn:ER; [|discriminate]. injection EF as <-. apply HTOT; [reflexivity|]. apply negb_true_iff, ER.
  - (* the element loop *)
    clear EF. rewrite K, HC. unfold einsum_single. rewrite (fits_map size m ls out HF HIO).
    set (con := summed [ls] out) in *.
    assert (EC : map (dim m) con = map size con).
    { apply (fits_map size m ls); [exact HF|]. intros c Hc. apply in_summed1 in Hc; [tauto|exact HL]. }
    rewrite EC. set (osh := map size out) in *. set (cdims := map size con) in *.
    match goal with |- exists o, ?w = Ok o /\ _ => assert (HH : exists o, w = Ok o /\ array_of o Float64 osh (ein size [(ls, f)] out) /\ a_off (o_arr o) = 0%Z /\ a_c (o_arr o) = true); [|destruct HH as (o & Ho & HA & _); exists o; split; assumption] end.
    apply (output_ok zero id Float64 osh _ (fun i => ein size [(ls, f)] out (unrank osh i))); try reflexivity; try exact HB.
    + intros i buf Hi HLb. rewrite decode_div_ok by (rewrite or_one_prod; lia). cbn [bind].
      assert (HLo : length (unrank osh i) = length out) by (rewrite unrank_length; apply map_length).
      assert (HSub : forall c, In c ls -> In c out \/ In c con).
      { intros c Hc. destruct (in_dec ascii_dec c out); [left; assumption|right]. apply in_summed1; auto. }
      destruct (Nat.eqb_spec (length con) 0) as [EZ|EZ].
      * assert (EN : con = []) by (apply length_zero_iff_nil, EZ).
        assert (HI2 : incl ls out) by (intros c Hc; destruct (HSub c Hc) as [|H]; [assumption|rewrite EN in H; destruct H]).
        assert (EOI : copy_index ls out (unrank (or_one osh) i) = map (at_letter out (unrank osh i)) ls).
        { rewrite <- copy_index_ok by assumption. unfold osh. destruct out as [|o out']; [|reflexivity]. destruct ls as [|c ls']; [reflexivity|]. exfalso. apply (HI2 c). left. reflexivity. }
        rewrite EOI. rewrite (value_at_ok id x Float64 (map size ls) f) by (first [exact HX|apply at_letter_inb; [apply unrank_inb; exact Hi|exact HI2]]). cbn [bind].
        rewrite (einstein_nosum zero one add mul sub opp RT); [reflexivity|]. exact EN.
      * assert (HRs : forall p q c, nth_error ls p = Some c -> nth_error ls q = Some c -> In c out -> p = q) by (destruct HR as [HR|HR]; [rewrite HR in EZ; contradiction|exact HR]).
        rewrite (sum_loop zero zero add mul id id _ (fun ci => f (map (at_letter (out ++ con) (unrank osh i ++ ci)) ls))).
        -- cbn [bind]. apply f_equal. unfold einstein. cbn [map fst]. fold con. cbv zeta. fold cdims. reflexivity.
        -- intros s c Hc. unfold decode_mod. rewrite decode_mod_ok by exact Hc. cbn [bind fst].
           assert (HLc : length (unrank cdims c) = length con) by (rewrite unrank_length; apply map_length).
           assert (EOW : out_writes ls out (unrank (or_one osh) i) = out_writes ls out (unrank osh i)) by (unfold osh; destruct out; reflexivity).
           rewrite EOW, single_index; [|assumption|apply summed_nodup|intros e He; apply in_summed1 in He; [tauto|exact HL]|assumption..].
           rewrite consistent_map, andb_false_r.
           rewrite (value_at_ok id x Float64 (map size ls) f); [reflexivity|exact HX|]. apply at_letter_inb; [|intros e He; apply in_app_iff, HSub, He].
           rewrite map_app. apply inb_app; [rewrite HLo; symmetry; apply map_length|]. split; apply unrank_inb; assumption.
    + intros idx Hi. rewrite unrank_rank by exact Hi. reflexivity.
Qed.
End One.
