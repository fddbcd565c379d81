(* Theorems on einsum (C83, C84, C85). *)
From Coq Require Import Ascii String Ring Permutation Sorted.
From Verif Require Import Base Lists Arr_Spec Arr_Model Arr_Wf Arr_Proofs Copy_Model Int_Model Promo_Spec Promo_Model Num_Calc Gu_Model Mat_Model Mat_Proofs Mat_Batch Prod_Model Prod_Proofs Ein_Spec Ein_Model Ein_Parse Ein_Proofs Ein_Blas Ein_Contract Ein_Two Ein_One Ein_Multi.
Local Open Scope nat_scope.
Local Open Scope list_scope.
Local Notation "$ s" := (list_ascii_of_string s) (at level 1).

Definition zarr k sh (l : list Z) : @operand Z := (k, (l, fresh sh 8)).
(* dtype, shape and elements in row-major order *)
Definition contents (r : res (@operand Z)) : res (kind * list nat * list (option Z)) :=
  bind r (fun o => Ok (o_kind o, a_shape (o_arr o), map (get (fst (snd o)) (o_arr o)) (all_idx (a_shape (o_arr o))))).
Definition zein (size : nat) xs out := map (einstein 0%Z Z.add Z.mul (fun _ => size) xs out) (all_idx (map (fun _ => size) out)).
Definition m1 := zarr Float64 [2; 2] [1; 2; 3; 4]%Z.
Definition m2 := zarr Float64 [2; 2] [5; 6; 7; 8]%Z.
Definition f1 (i : list nat) : Z := nth (rank [2; 2] i) [1; 2; 3; 4]%Z 0%Z.
Definition f2 (i : list nat) : Z := nth (rank [2; 2] i) [5; 6; 7; 8]%Z 0%Z.
Definition v1 := zarr Float64 [2] [1; 2]%Z.
Definition w1 := zarr Float64 [3] [1; 2; 3]%Z.
Definition g1 (i : list nat) : Z := nth (rank [2] i) [1; 2]%Z 0%Z.

(* ============ C83: subscripts ============ *)

Lemma in_implicit ins c : In c (implicit ins) <-> 97 <= nat_of_ascii c <= 122 /\ occurrences c (concat ins) = 1.
Proof. unfold implicit. rewrite filter_In, in_alphabet, Nat.eqb_eq. reflexivity. Qed.
Lemma implicit_lower ins : lowercase (implicit ins).
Proof. apply Forall_forall. intros c Hc. rewrite in_implicit in Hc. apply Hc. Qed.
Lemma implicit_incl ins : incl (implicit ins) (concat ins).
Proof.
  intros c Hc. rewrite in_implicit in Hc. destruct Hc as [_ Hc]. unfold occurrences in Hc.
  destruct (filter (Ascii.eqb c) (concat ins)) as [|d l] eqn:E; [discriminate|].
  assert (H : In d (filter (Ascii.eqb c) (concat ins))) by (rewrite E; left; reflexivity). apply filter_In in H as [H1 H2]. apply Ascii.eqb_eq in H2. subst d. exact H1.
Qed.

(* the accepted calls are those whose text says what the operands are and whose shapes fit *)
Theorem C83_accepted_partial : forall s shapes,
  (exists ins out m, parse_subscript s = Ok (ins, out) /\ validate ins out shapes = Ok m) <->
  (exists ins out size, says s ins out /\ agrees size ins out shapes).
Proof.
  intros s shapes. split.
  - intros (ins & out & m & EP & EV). apply parse_sound in EP as (HN & HI & HO). apply validate_sound in EV as (size & HS & HIn).
    exists ins, out, size. split; [|split; assumption]. split; [exact HN|]. split; [exact HI|].
    destruct HO as [[E [HO|HO]]|[E ->]].
    + split; [exact HO|left; exact E].
    + exfalso. apply HIn in HO. pose proof (proj1 (lowercase_concat ins) HI) as HL. unfold lowercase in HL. rewrite Forall_forall in HL. specialize (HL _ HO). vm_compute in HL. lia.
    + split; [apply implicit_lower|right; auto].
  - intros (ins & out & size & (HN & HI & HO & HT) & HS & HIn).
    destruct (validate_complete size ins out shapes HS HIn) as (m & EV & _). exists ins, out, m. split; [|exact EV].
    destruct HT as [HT|[HT ->]]; [apply parse_explicit; assumption|apply parse_implicit; assumption].
Qed.
(* the reading is the one the text says *)
Theorem C83_reading : forall s ins out, says s ins out -> parse_subscript s = Ok (ins, out).
Proof. intros s ins out (HN & HI & HO & [HT|[HT ->]]); [apply parse_explicit; assumption|apply parse_implicit; assumption]. Qed.
Theorem C83_unambiguous : forall s ins out ins' out', says s ins out -> says s ins' out' -> ins = ins' /\ out = out'.
Proof. intros s ins out ins' out' H H'. apply C83_reading in H, H'. rewrite H in H'. injection H' as -> ->. auto. Qed.
(* any other call is an error: no panic, no result *)
Lemma foldM_err {A B} (f : A -> B -> res A) l : (forall a b, (exists a', f a b = Ok a') \/ f a b = Err) -> forall a, (exists a', foldM f l a = Ok a') \/ foldM f l a = Err.
Proof.
  intros H. induction l as [|b l IH]; intros a; [left; exists a; reflexivity|]. cbn [foldM].
  destruct (H a b) as [[a' E]|E]; rewrite E; cbn [bind]; [apply IH|right; reflexivity].
Qed.
Theorem C83_rejected : forall (s : letters) (xs : list (@operand Z)),
  ~ (exists ins out size, says s ins out /\ agrees size ins out (map (fun x => a_shape (o_arr x)) xs)) ->
  einsum 0%Z 0%Z zf_add zf_mul z_rd z_wr z_raw z_vadd z_vmul z_mm s xs = Err.
Proof.
  intros s xs HN. unfold einsum.
  assert (HP : (exists io, parse_subscript s = Ok io) \/ parse_subscript s = Err).
  { unfold parse_subscript. destruct (split_arrow _) as [|i [|o [|]]]; auto.
    - destruct (forallb _ _); [left; eexists; reflexivity|auto].
    - destruct (forallb _ _); [|auto]. destruct (forallb _ o); [left; eexists; reflexivity|auto]. }
  destruct HP as [[[ins out] EP]|EP]; rewrite EP; [|reflexivity]. cbn [bind].
  assert (HV : (exists m, validate ins out (map (fun x => a_shape (o_arr x)) xs) = Ok m) \/ validate ins out (map (fun x => a_shape (o_arr x)) xs) = Err).
  { unfold validate. destruct (negb _); [auto|].
    destruct (foldM_err add_operand (combine ins (map (fun x => a_shape (o_arr x)) xs))) with (a := @nil (ascii * nat)) as [[m E]|E].
    - intros a b. unfold add_operand. destruct (negb _); [auto|]. apply foldM_err. intros d e. unfold add_dim. destruct (lookup _ _); [|left; eexists; reflexivity]. destruct (_ =? _); [left; eexists; reflexivity|auto].
    - match goal with |- context [foldM ?f ?l ?b] => replace (foldM f l b) with (@Ok dim_map m) by (symmetry; exact E) end. cbn [bind]. destruct (forallb _ out); [left; eexists; reflexivity|auto].
    - match goal with |- context [foldM ?f ?l ?b] => replace (foldM f l b) with (@Err dim_map) by (symmetry; exact E) end. auto. }
  destruct HV as [[m EV]|EV]; rewrite EV; [|reflexivity]. exfalso. apply HN. apply C83_accepted_partial. exists ins, out, m. auto.
Qed.
Lemma lower_check s : forallb is_lower s = true -> lowercase s.
Proof. apply lower_all. Qed.
Example C83_nonvacuous :
  says ($" i j, jk -> ik") [$"ij"; $"jk"] ($"ik") /\ says ($"bc,ab") [$"bc"; $"ab"] ($"ac") /\
  agrees (fun c => if Ascii.eqb c "j"%char then 3 else 2) [$"ij"; $"jk"] ($"ik") [[2; 3]; [3; 2]] /\
  ~ (exists ins out size, says ($"ij,jk->i->k") ins out /\ agrees size ins out [[2; 3]; [3; 2]]) /\
  ~ (exists ins out size, says ($"ij,jk->ik") ins out /\ agrees size ins out [[2; 3]; [2; 2]]).
Proof.
  assert (HL : Forall lowercase [$"ij"; $"jk"]) by (constructor; [apply lower_check; reflexivity|constructor; [apply lower_check; reflexivity|constructor]]).
  split; [|split; [|split; [|split]]].
  - split; [discriminate|]. split; [exact HL|]. split; [apply lower_check; reflexivity|]. left. reflexivity.
  - split; [discriminate|]. split; [constructor; [apply lower_check; reflexivity|constructor; [apply lower_check; reflexivity|constructor]]|]. split; [apply lower_check; reflexivity|]. right. split; reflexivity.
  - split; [reflexivity|]. intros c Hc. cbn in *. tauto.
  - intros (ins & out & size & H & _). apply C83_reading in H. vm_compute in H. discriminate.
  - intros H. apply C83_accepted_partial in H as (ins & out & m & E1 & E2). vm_compute in E1. injection E1 as <- <-. vm_compute in E2. discriminate.
Qed.
(* a result letter that occurs twice is accepted *)
Theorem C83_repeated_output_refuted : exists o, z_einsum "i->ii" [v1] = Ok o /\ a_shape (o_arr o) = [2; 2].
Proof. eexists. split; [vm_compute; reflexivity|reflexivity]. Qed.

(* ============ C84: the value of einsum, one and two operands ============ *)

Section Ring.
Context {R : Type}.
Variables (zero one : R) (add mul sub : R -> R -> R) (opp : R -> R).
Hypothesis RT : ring_theory zero one add mul sub opp (@eq R).
Variable raw : kind -> R -> R.
Variables (truthy : R -> bool) (of_bool : bool -> R) (iadd imul : ity -> R -> R -> R).
Local Notation id := (fun (_ : kind) (v : R) => v).
(* einsum on float64 arrays, with the arithmetic of a ring *)
Definition ring_einsum := einsum zero zero add mul id id raw (fun _ => add) (fun _ => mul) (matmul zero truthy of_bool iadd imul add mul).
Local Notation ein := (einstein zero add mul).

Theorem one_operand_partial s ls out size x f :
  says s [ls] out -> incl out ls -> NoDup out ->
  (incl ls out \/ forall p q c, nth_error ls p = Some c -> nth_error ls q = Some c -> In c out -> p = q) ->
  array_of x Float64 (map size ls) f -> (Z.of_nat (prod (map size out)) * 8 < 2 ^ 63)%Z ->
  exists o, ring_einsum s [x] = Ok o /\ array_of o Float64 (map size out) (ein size [(ls, f)] out).
Proof using RT.
  intros HS HI DO HR HX HB. pose proof (C83_reading _ _ _ HS) as EP. destruct HS as (_ & HL & HLo & _). inversion HL as [|? ? HL1 _]; subst.
  pose proof HX as (_ & _ & SX & _).
  destruct (validate_complete size [ls] out [a_shape (o_arr x)]) as (m & EV & HK).
  { cbn [map]. rewrite SX. reflexivity. } { cbn [concat]. rewrite app_nil_r. exact HI. }
  cbn [concat] in HK. rewrite app_nil_r in HK. unfold ring_einsum, einsum. rewrite EP. cbn [bind map]. rewrite EV. cbn [bind].
  apply (one_ok zero one add mul sub opp RT size m ls out x f); try assumption. destruct HR as [HR|HR]; [left|right; exact HR].
  destruct (summed [ls] out) as [|c t] eqn:E; [reflexivity|]. exfalso.
  assert (H : In c (summed [ls] out)) by (rewrite E; left; reflexivity). apply in_summed1 in H; [|exact HL1]. destruct H as [H1 H2]. apply H2, HR, H1.
Qed.
Lemma two_reading s sa sb out size x y f g : says s [sa; sb] out -> incl out (sa ++ sb) ->
  array_of x Float64 (map size sa) f -> array_of y Float64 (map size sb) g ->
  exists m, lowercase (sa ++ sb) /\ knows size (sa ++ sb) m /\
    ring_einsum s [x; y] = einsum2 zero zero add mul id id raw (fun _ => mul) (matmul zero truthy of_bool iadd imul add mul) sa sb out x y m.
Proof.
  intros HS HI (_ & _ & SX & _) (_ & _ & SY & _). pose proof (C83_reading _ _ _ HS) as EP. destruct HS as (_ & HL & HLo & _).
  apply lowercase_concat in HL. cbn [concat] in HL. rewrite app_nil_r in HL.
  destruct (validate_complete size [sa; sb] out [a_shape (o_arr x); a_shape (o_arr y)]) as (m & EV & HK).
  { cbn [map]. rewrite SX, SY. reflexivity. } { cbn [concat]. rewrite app_nil_r. exact HI. }
  cbn [concat] in HK. rewrite app_nil_r in HK. exists m. split; [exact HL|]. split; [exact HK|].
  unfold ring_einsum, einsum. rewrite EP. cbn [bind map]. rewrite EV. reflexivity.
Qed.
Theorem two_products_partial s sa sb out size x y f g :
  says s [sa; sb] out -> NoDup sa -> NoDup sb -> NoDup out -> (forall c, In c out <-> In c sa \/ In c sb) ->
  array_of x Float64 (map size sa) f -> array_of y Float64 (map size sb) g -> (Z.of_nat (prod (map size out)) * 8 < 2 ^ 63)%Z ->
  exists o, ring_einsum s [x; y] = Ok o /\
    array_of o Float64 (map size out) (fun idx => mul (f (map (at_letter out idx) sa)) (g (map (at_letter out idx) sb))).
Proof using RT.
  intros HS DA DB DO HO HX HY HB.
  destruct (two_reading s sa sb out size x y f g HS) as (m & HL & HK & E); try assumption. { intros c Hc. apply in_app_iff, HO, Hc. }
  assert (ES : summed [sa; sb] out = []).
  { destruct (summed [sa; sb] out) as [|c t] eqn:ET; [reflexivity|]. exfalso.
    assert (H : In c (summed [sa; sb] out)) by (rewrite ET; left; reflexivity). apply summed_in in H; cbn [concat] in *; rewrite app_nil_r in *; [|exact HL].
    destruct H as [H1 H2]. apply H2, HO, in_app_iff, H1. }
  rewrite E. destruct (two_nosum zero one add mul sub opp RT raw truthy of_bool iadd imul size m sa sb out x y f g) as (o & EO & HA); try assumption.
  { intros c Hc. apply in_app_iff, HO, Hc. }
  exists o. split; [exact EO|]. eapply array_of_ext; [|exact HA]. intros idx Hi. cbv beta. rewrite (einstein_nosum zero one add mul sub opp RT).
  - reflexivity.
  - exact ES.
Qed.
Theorem two_small_partial s j sa sb size x y f g : let out := without j sa ++ without j sb in
  says s [sa; sb] out -> NoDup sa -> NoDup sb -> NoDup out -> In j sa -> In j sb ->
  length sa <= 2 -> length sb <= 2 -> size j <> 0 ->
  array_of x Float64 (map size sa) f -> array_of y Float64 (map size sb) g -> (Z.of_nat (prod (map size out)) * 8 < 2 ^ 63)%Z ->
  exists o, ring_einsum s [x; y] = Ok o /\ array_of o Float64 (map size out) (ein size [(sa, f); (sb, g)] out).
Proof using RT.
  intros out HS DA DB DO HA HB LA LB HZ HX HY HBd. destruct HS as (_ & HL & HLo & HT). inversion HL as [|? ? HL1 HL2]; subst. inversion HL2 as [|? ? HL3 _]; subst.
  destruct HT as [HT|[HT HI]].
  - destruct (pair_one zero one add mul sub opp RT raw truthy of_bool iadd imul size s j sa sb x y f g) as (o & [_ E] & HO & _); try assumption.
    exists o. split; assumption.
  - (* the implicit result is the same request *)
    destruct (pair_one zero one add mul sub opp RT raw truthy of_bool iadd imul size (arrow [sa; sb] out) j sa sb x y f g) as (o & [_ E] & HO & _); try assumption.
    { apply unspaced_arrow; assumption. }
    exists o. split; [|exact HO]. rewrite <- E. unfold ring_einsum, einsum.
    assert (E1 : parse_subscript s = Ok ([sa; sb], out)) by (apply C83_reading; split; [discriminate|]; split; [exact HL|]; split; [exact HLo|right; auto]).
    assert (E2 : parse_subscript (arrow [sa; sb] out) = Ok ([sa; sb], out)) by (apply C83_reading; split; [discriminate|]; split; [exact HL|]; split; [exact HLo|left; apply unspaced_arrow; assumption]).
    rewrite E1, E2. reflexivity.
Qed.
Lemma permuted_self (x : arr) l : NoDup l -> permuted x (map (pos l) l) = Ok x.
Proof.
  intros HD. unfold permuted. replace (is_identity (map (pos l) l)) with true; [reflexivity|]. symmetry. unfold is_identity.
  destruct (list_eq_dec _ _ _) as [|N]; [reflexivity|]. exfalso. apply N. rewrite map_length. apply nth_error_ext. intros i. rewrite nth_error_map', nth_error_seq.
  destruct (Nat.ltb_spec i (length l)) as [Hi|Hi].
  - destruct (nth_error l i) as [c|] eqn:E; [|apply nth_error_None in E; lia]. cbn [option_map]. f_equal. unfold pos. rewrite (position_nodup l i c HD E). reflexivity.
  - replace (nth_error l i) with (@None ascii) by (symmetry; apply nth_error_None; exact Hi). reflexivity.
Qed.
Lemma filter_all {A} p (l : list A) : (forall c, In c l -> p c = true) -> filter p l = l.
Proof. induction l as [|c l IH]; intros H; [reflexivity|]. cbn [filter]. rewrite (H c (or_introl eq_refl)), IH; [reflexivity|]. intros d Hd. apply H. right. exact Hd. Qed.
Lemma filter_none {A} p (l : list A) : (forall c, In c l -> p c = false) -> filter p l = [].
Proof. induction l as [|c l IH]; intros H; [reflexivity|]. cbn [filter]. rewrite (H c (or_introl eq_refl)), IH; [reflexivity|]. intros d Hd. apply H. right. exact Hd. Qed.
Theorem two_blocks_partial s fa cs fb size x y f g :
  says s [fa ++ cs; cs ++ fb] (fa ++ fb) -> NoDup (fa ++ cs ++ fb) -> cs <> [] -> prod (map size cs) <> 0 ->
  a_c (o_arr x) = true -> a_c (o_arr y) = true ->
  array_of x Float64 (map size (fa ++ cs)) f -> array_of y Float64 (map size (cs ++ fb)) g -> (Z.of_nat (prod (map size (fa ++ fb))) * 8 < 2 ^ 63)%Z ->
  exists o, ring_einsum s [x; y] = Ok o /\ array_of o Float64 (map size (fa ++ fb)) (ein size [(fa ++ cs, f); (cs ++ fb, g)] (fa ++ fb)).
Proof using RT.
  intros HS HD HN HZ CX CY HX HY HB.
  assert (HIO : incl (fa ++ fb) ((fa ++ cs) ++ cs ++ fb)) by (intros c; rewrite !in_app_iff; tauto).
  destruct (two_reading s (fa ++ cs) (cs ++ fb) (fa ++ fb) size x y f g HS HIO HX HY) as (m & HL & HK & E). rewrite E.
  set (con := summed [fa ++ cs; cs ++ fb] (fa ++ fb)).
  assert (DP : forall c, (In c fa -> ~ In c cs /\ ~ In c fb) /\ (In c cs -> ~ In c fb)).
  { clear -HD. induction fa as [|a fa IH]; cbn [app] in HD.
    - intros c. split; [intros []|]. induction cs as [|d cs IHc]; [intros []|]. cbn [app] in HD. inversion HD; subst. intros [<-|Hc]; [intros H; apply H1, in_app_iff; auto|]. apply IHc; assumption.
    - inversion HD as [|? ? H1 H2]; subst. intros c. specialize (IH H2 c). split; [|tauto]. intros [<-|Hc]; [|tauto]. rewrite !in_app_iff in H1. tauto. }
  assert (DA : NoDup (fa ++ cs)) by (rewrite app_assoc in HD; clear -HD; induction (fa ++ cs) as [|c l IH]; [constructor|]; inversion HD as [|? ? H1 H2]; subst; constructor; [intros H; apply H1, in_app_iff; auto|apply IH, H2]).
  assert (DB : NoDup (cs ++ fb)) by (clear -HD; induction fa as [|c l IH]; [exact HD|]; inversion HD; apply IH; assumption).
  assert (DO : NoDup (fa ++ fb)).
  { apply nodup_app; [clear -HD| |intros c H1; apply DP in H1; tauto].
    - induction fa as [|c l IH]; [constructor|]. inversion HD as [|? ? H1 H2]; subst. constructor; [intros H; apply H1, in_app_iff; auto|apply IH, H2].
    - clear -DB. induction cs as [|c l IH]; [exact DB|]. inversion DB; apply IH; assumption. }
  assert (HC : forall c, In c con <-> In c cs).
  { intros c. unfold con. rewrite summed_in; cbn [concat]; rewrite app_nil_r; [|exact HL]. rewrite !in_app_iff. specialize (DP c). tauto. }
  assert (EF : forall l, (forall c, In c l -> ~ In c cs) -> free con (l ++ cs) = l /\ free con (cs ++ l) = l /\ bound con (l ++ cs) = cs /\ bound con (cs ++ l) = cs).
  { intros l Hl. unfold free, bound. rewrite !filter_app.
    assert (F1 : filter (fun c => negb (has c con)) l = l /\ filter (fun c => has c con) l = []).
    { split; [apply filter_all|apply filter_none]; intros c Hc; [apply negb_true_iff|]; apply has_not; rewrite HC; apply Hl, Hc. }
    assert (F2 : filter (fun c => negb (has c con)) cs = [] /\ filter (fun c => has c con) cs = cs).
    { split; [apply filter_none|apply filter_all]; intros c Hc; [apply negb_false_iff|]; apply has_in, HC, Hc. }
    destruct F1 as [-> ->], F2 as [-> ->]. rewrite !app_nil_r. auto. }
  destruct (EF fa) as (A1 & _ & A2 & _); [intros c Hc; apply DP; exact Hc|].
  destruct (EF fb) as (_ & B1 & _ & B2); [intros c Hc Hc'; apply DP in Hc'; contradiction|].
  assert (PC : Permutation cs con).
  { apply NoDup_Permutation; [|apply summed_nodup|intros c; symmetry; apply HC]. clear -DA. induction fa as [|c l IH]; [exact DA|]. inversion DA; apply IH; assumption. }
  pose proof (two_contract zero one add mul sub opp RT raw truthy of_bool iadd imul size m (fa ++ cs) (cs ++ fb) (fa ++ fb) x y f g HL HK HIO DA DB DO) as H.
  cbv zeta in H. match type of H with context [summed ?u ?v] => change (summed u v) with con in H end.
  assert (NC : con <> []) by (intros E0; rewrite E0 in PC; apply Permutation_sym, Permutation_nil in PC; contradiction).
  assert (ZC : prod (map size con) <> 0) by (rewrite <- (prod_perm _ _ (Permutation_map size PC)); exact HZ).
  clearbody con.
  destruct H as (o & EO & HO & _); try assumption.
  - intros c Hc. apply in_app_iff. right. apply HC, Hc.
  - intros c Hc. apply in_app_iff. left. apply HC, Hc.
  - left. rewrite A1, A2, B1, B2. split; [reflexivity|]. split; [reflexivity|]. split; intros pa; rewrite permuted_self by assumption; intros H; injection H as <-; left; assumption.
  - exists o. split; assumption.
Qed.
End Ring.

(* one operand, any layout: diagonals, sums over axes, traces, permutations.  Missing: a letter
   of the result that is repeated in the operand while another letter is summed *)
Theorem C84_one_partial : forall {R} (zero one : R) add mul sub opp raw truthy of_bool iadd imul s ls out size x f,
  ring_theory zero one add mul sub opp (@eq R) ->
  says s [ls] out -> incl out ls -> NoDup out ->
  (incl ls out \/ forall p q c, nth_error ls p = Some c -> nth_error ls q = Some c -> In c out -> p = q) ->
  array_of x Float64 (map size ls) f -> (Z.of_nat (prod (map size out)) * 8 < 2 ^ 63)%Z ->
  exists o, ring_einsum zero add mul raw truthy of_bool iadd imul s [x] = Ok o /\
    array_of o Float64 (map size out) (einstein zero add mul size [(ls, f)] out).
Proof. intros. eapply one_operand_partial; eassumption. Qed.
(* two operands, every letter in the result: products of elements, any layout *)
Theorem C84_products_partial : forall {R} (zero one : R) add mul sub opp raw truthy of_bool iadd imul s sa sb out size x y f g,
  ring_theory zero one add mul sub opp (@eq R) ->
  says s [sa; sb] out -> NoDup sa -> NoDup sb -> NoDup out -> (forall c, In c out <-> In c sa \/ In c sb) ->
  array_of x Float64 (map size sa) f -> array_of y Float64 (map size sb) g -> (Z.of_nat (prod (map size out)) * 8 < 2 ^ 63)%Z ->
  exists o, ring_einsum zero add mul raw truthy of_bool iadd imul s [x; y] = Ok o /\
    array_of o Float64 (map size out) (fun idx => mul (f (map (at_letter out idx) sa)) (g (map (at_letter out idx) sb))).
Proof. intros. eapply two_products_partial; eassumption. Qed.
(* vectors and matrices with one summed letter, transposed or not, any layout; the result has
   the letters of the first operand and then those of the second *)
Theorem C84_matrices_partial : forall {R} (zero one : R) add mul sub opp raw truthy of_bool iadd imul s j sa sb size x y f g,
  ring_theory zero one add mul sub opp (@eq R) -> let out := without j sa ++ without j sb in
  says s [sa; sb] out -> NoDup sa -> NoDup sb -> NoDup out -> In j sa -> In j sb ->
  length sa <= 2 -> length sb <= 2 -> size j <> 0 ->
  array_of x Float64 (map size sa) f -> array_of y Float64 (map size sb) g -> (Z.of_nat (prod (map size out)) * 8 < 2 ^ 63)%Z ->
  exists o, ring_einsum zero add mul raw truthy of_bool iadd imul s [x; y] = Ok o /\
    array_of o Float64 (map size out) (einstein zero add mul size [(sa, f); (sb, g)] out).
Proof. intros. eapply two_small_partial; eassumption. Qed.
(* contraction of the last axes of one with the first of the other: C-contiguous operands *)
Theorem C84_blocks_partial : forall {R} (zero one : R) add mul sub opp raw truthy of_bool iadd imul s fa cs fb size x y f g,
  ring_theory zero one add mul sub opp (@eq R) ->
  says s [fa ++ cs; cs ++ fb] (fa ++ fb) -> NoDup (fa ++ cs ++ fb) -> cs <> [] -> prod (map size cs) <> 0 ->
  a_c (o_arr x) = true -> a_c (o_arr y) = true ->
  array_of x Float64 (map size (fa ++ cs)) f -> array_of y Float64 (map size (cs ++ fb)) g -> (Z.of_nat (prod (map size (fa ++ fb))) * 8 < 2 ^ 63)%Z ->
  exists o, ring_einsum zero add mul raw truthy of_bool iadd imul s [x; y] = Ok o /\
    array_of o Float64 (map size (fa ++ fb)) (einstein zero add mul size [(fa ++ cs, f); (cs ++ fb, g)] (fa ++ fb)).
Proof. intros. eapply two_blocks_partial; eassumption. Qed.

Lemma m_array l : length l = 4 -> array_of (zarr Float64 [2; 2] l) Float64 [2; 2] (fun i => nth (rank [2; 2] i) l 0%Z).
Proof.
  intros H. apply fresh_array; [reflexivity|vm_compute; reflexivity|exact H|]. intros idx Hi. apply nth_error_nth'. rewrite H. apply (rank_lt [2; 2]), Hi.
Qed.
Example C84_nonvacuous : exists size,
  (says ($"ji,kj->ik") [$"ji"; $"kj"] (without "j" ($"ji") ++ without "j" ($"kj")) /\
   array_of m1 Float64 (map size ($"ji")) f1 /\ array_of m2 Float64 (map size ($"kj")) f2 /\
   contents (z_einsum "ji,kj->ik" [m1; m2]) = Ok (Float64, [2; 2], [Some 23; Some 31; Some 34; Some 46]%Z) /\
   zein 2 [($"ji", f1); ($"kj", f2)] ($"ik") = [23; 31; 34; 46]%Z).
Proof.
  exists (fun _ => 2). split; [|split; [apply m_array; reflexivity|split; [apply m_array; reflexivity|split; vm_compute; reflexivity]]].
  split; [discriminate|]. split; [constructor; [apply lower_check; reflexivity|constructor; [apply lower_check; reflexivity|constructor]]|]. split; [apply lower_check; reflexivity|]. left. reflexivity.
Qed.
Example C84_one_nonvacuous :
  says ($"ij->j") [$"ij"] ($"j") /\ contents (z_einsum "ij->j" [m1]) = Ok (Float64, [2], [Some 4; Some 6]%Z) /\ zein 2 [($"ij", f1)] ($"j") = [4; 6]%Z /\
  contents (z_einsum "ii->" [m1]) = Ok (Float64, [], [Some 5]%Z) /\ zein 2 [($"ii", f1)] [] = [5]%Z.
Proof.
  split; [|repeat split; vm_compute; reflexivity].
  split; [discriminate|]. split; [constructor; [apply lower_check; reflexivity|constructor]|]. split; [apply lower_check; reflexivity|]. left. reflexivity.
Qed.

(* "ij,jk->ki": the product comes back with the axes in the wrong order *)
Theorem C84_order_refuted :
  contents (z_einsum "ij,jk->ki" [m1; m2]) = Ok (Float64, [2; 2], [Some 19; Some 22; Some 43; Some 50]%Z) /\
  zein 2 [($"ij", f1); ($"jk", f2)] ($"ki") = [19; 43; 22; 50]%Z.
Proof. split; vm_compute; reflexivity. Qed.
(* "ij,ji->": the axes of the second operand are not matched with those of the first *)
Theorem C84_double_contraction_refuted :
  contents (z_einsum "ij,ji->" [m1; m2]) = Ok (Float64, [], [Some 70]%Z) /\ zein 2 [($"ij", f1); ($"ji", f2)] [] = [69]%Z.
Proof. split; vm_compute; reflexivity. Qed.
(* "ij,ij->i": row by row products panic *)
Theorem C84_shared_refuted : z_einsum "ij,ij->i" [m1; m2] = Panic /\ zein 2 [($"ij", f1); ($"ij", f2)] ($"i") = [17; 53]%Z.
Proof. split; vm_compute; reflexivity. Qed.
(* "i,k->": a letter that only one operand has: wrong sum, or a read outside the array *)
Theorem C84_lonely_refuted :
  contents (z_einsum "i,k->" [v1; w1]) = Ok (Float64, [], [Some 15]%Z) /\ ((1 + 2) * (1 + 2 + 3) = 18)%Z /\ z_einsum "i,k->" [w1; v1] = Fault.
Proof. split; [vm_compute; reflexivity|]. split; [reflexivity|vm_compute; reflexivity]. Qed.
(* "iij->i" and "ii,i->i": a repeated letter of the result *)
Theorem C84_repeated_refuted :
  contents (z_einsum "iij->i" [zarr Float64 [2; 2; 2] [1; 2; 3; 4; 5; 6; 7; 8]%Z]) = Ok (Float64, [2], [Some 3; Some 0]%Z) /\
  zein 2 [($"iij", fun i => nth (rank [2; 2; 2] i) [1; 2; 3; 4; 5; 6; 7; 8]%Z 0%Z)] ($"i") = [3; 15]%Z /\
  contents (z_einsum "ii,i->i" [m1; v1]) = Ok (Float64, [2], [Some 1; Some 6]%Z) /\ zein 2 [($"ii", f1); ($"i", g1)] ($"i") = [1; 8]%Z.
Proof. repeat split; vm_compute; reflexivity. Qed.
(* a summed letter of size 0 panics *)
Theorem C84_empty_refuted : z_einsum "ij,jk->ik" [zarr Float64 [2; 0] []; zarr Float64 [0; 2] []] = Panic.
Proof. vm_compute. reflexivity. Qed.
(* a batched product with one batch panics *)
Theorem C84_batch_refuted : z_einsum "bij,bjk->bik" [zarr Float64 [1; 2; 2] [1; 2; 3; 4]%Z; zarr Float64 [1; 2; 2] [5; 6; 7; 8]%Z] = Panic.
Proof. vm_compute. reflexivity. Qed.
(* "i,k->ki" on integers: the bit patterns of doubles *)
Theorem C84_integers_refuted :
  contents (z_einsum "i,k->ki" [zarr Int64 [2] [1; 2]%Z; zarr Int64 [2] [1; 2]%Z]) =
  Ok (Int64, [2; 2], [Some 4607182418800017408; Some 4611686018427387904; Some 4611686018427387904; Some 4616189618054758400]%Z).
Proof. vm_compute. reflexivity. Qed.

(* ============ C85: three and more operands ============ *)

(* a chain of matrices ab,bc,cd,...->az with increasing letters, any layouts *)
Theorem C85_chain_partial : forall {R} (zero one : R) add mul sub opp raw truthy of_bool iadd imul size s a b c d l xs fs,
  ring_theory zero one add mul sub opp (@eq R) ->
  let ls := a :: b :: c :: d :: l in let out := [a; last l d] in
  StronglySorted (fun e e' => nat_of_ascii e < nat_of_ascii e') ls -> lowercase ls -> unspaced s = arrow (links ls) out ->
  (forall e, In e (b :: c :: d :: l) -> size e <> 0 /\ (Z.of_nat (size a * size e) * 8 < 2 ^ 63)%Z) ->
  length xs = length (links ls) -> length fs = length (links ls) ->
  (forall i u x f, nth_error (links ls) i = Some u -> nth_error xs i = Some x -> nth_error fs i = Some f -> array_of x Float64 (map size u) f) ->
  exists r, ring_einsum zero add mul raw truthy of_bool iadd imul s xs = Ok r /\
    array_of r Float64 (map size out) (einstein zero add mul size (combine (links ls) fs) out).
Proof. intros. eapply chain_ok; eassumption. Qed.
Example C85_nonvacuous :
  links ($"ijkl") = [$"ij"; $"jk"; $"kl"] /\ unspaced ($"ij, jk, kl -> il") = arrow (links ($"ijkl")) ($"il") /\
  contents (z_einsum "ij, jk, kl -> il" [m1; m2; m1]) = Ok (Float64, [2; 2], [Some 85; Some 126; Some 193; Some 286]%Z) /\
  zein 2 [($"ij", f1); ($"jk", f2); ($"kl", f1)] ($"il") = [85; 126; 193; 286]%Z.
Proof. repeat split; vm_compute; reflexivity. Qed.
(* the same chain with other letters: the intermediate result has its axes in the wrong order *)
Theorem C85_letters_refuted :
  contents (z_einsum "zj,ja,ab->zb" [m1; m2; m1]) = Ok (Float64, [2; 2], [Some 148; Some 210; Some 172; Some 244]%Z) /\
  zein 2 [($"zj", f1); ($"ja", f2); ($"ab", f1)] ($"zb") = [85; 126; 193; 286]%Z.
Proof. split; vm_compute; reflexivity. Qed.
Print Assumptions C83_accepted_partial.
Print Assumptions C83_reading.
Print Assumptions C83_unambiguous.
Print Assumptions C83_rejected.
Print Assumptions C83_repeated_output_refuted.
Print Assumptions C84_one_partial.
Print Assumptions C84_products_partial.
Print Assumptions C84_matrices_partial.
Print Assumptions C84_blocks_partial.
Print Assumptions C84_order_refuted.
Print Assumptions C84_double_contraction_refuted.
Print Assumptions C84_shared_refuted.
Print Assumptions C84_lonely_refuted.
Print Assumptions C84_repeated_refuted.
Print Assumptions C84_empty_refuted.
Print Assumptions C84_batch_refuted.
Print Assumptions C84_integers_refuted.
Print Assumptions C85_chain_partial.
Print Assumptions C85_letters_refuted.
