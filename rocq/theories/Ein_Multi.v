(* einsum from text: pairs, and chains of operands contracted from the left. *)
From Coq Require Import Ascii String Ring Permutation Sorted.
From Verif Require Import Base Lists Arr_Spec Arr_Model Arr_Wf Arr_Proofs Copy_Model Int_Model Promo_Spec Promo_Model Num_Calc Gu_Model Mat_Model Mat_Proofs Mat_Batch Prod_Model Prod_Proofs Ein_Spec Ein_Model Ein_Parse Ein_Proofs Ein_Blas Ein_Contract Ein_Two Ein_One.
Local Open Scope nat_scope.
Local Open Scope list_scope.

Lemma unspaced_lower s : lowercase s -> unspaced s = s.
Proof.
  induction 1 as [|c s Hc Hs IH]; [reflexivity|]. cbn [unspaced filter].
  assert (E : blank c = false).
  { unfold blank. destruct (nat_of_ascii c) as [|n]; [reflexivity|]. do 33 (destruct n as [|n]; [exfalso; lia|]). reflexivity. }
  rewrite E. cbn [negb]. f_equal. exact IH.
Qed.
Lemma unspaced_app s t : unspaced (s ++ t) = unspaced s ++ unspaced t.
Proof. apply filter_app. Qed.
Lemma unspaced_commas subs : Forall lowercase subs -> unspaced (commas subs) = commas subs.
Proof.
  induction 1 as [|s subs Hs HF IH]; [reflexivity|]. cbn [commas]. destruct subs as [|t subs]; [apply unspaced_lower, Hs|].
  rewrite unspaced_app, (unspaced_lower _ Hs). f_equal.
  change (unspaced (","%char :: commas (t :: subs))) with (","%char :: unspaced (commas (t :: subs))). rewrite IH. reflexivity.
Qed.
Lemma unspaced_arrow subs out : Forall lowercase subs -> lowercase out -> unspaced (arrow subs out) = arrow subs out.
Proof.
  intros HS HO. unfold arrow. rewrite unspaced_app, unspaced_commas by exact HS. f_equal.
  change (unspaced ("-"%char :: ">"%char :: out)) with ("-"%char :: ">"%char :: unspaced out). rewrite unspaced_lower by exact HO. reflexivity.
Qed.
Lemma fmt_arrow a b o : fmt a b o = arrow [a; b] o.
Proof. unfold fmt, arrow. cbn [commas]. rewrite <- app_assoc. reflexivity. Qed.
Lemma lower_app s t : lowercase (s ++ t) <-> lowercase s /\ lowercase t.
Proof. apply Forall_app. Qed.
Lemma all_idx_app s t : all_idx (s ++ t) = flat_map (fun i => map (app i) (all_idx t)) (all_idx s).
Proof.
  induction s as [|n s IH]; cbn [app all_idx flat_map].
  - rewrite app_nil_r. symmetry. apply map_id.
  - rewrite IH. clear. induction (seq 0 n) as [|k l IHl]; [reflexivity|]. cbn [flat_map]. rewrite IHl, flat_map_app. f_equal.
    generalize (all_idx s) as L. induction L as [|i L IHL]; [reflexivity|]. cbn [flat_map map]. rewrite map_app, map_map, IHL. reflexivity.
Qed.
Lemma nodup_app {A} (l m : list A) : NoDup l -> NoDup m -> (forall c, In c l -> ~ In c m) -> NoDup (l ++ m).
Proof.
  intros HL HM H. induction HL as [|c l HN HL IH]; [exact HM|]. cbn [app]. constructor.
  - rewrite in_app_iff. intros [|Hc]; [contradiction|]. exact (H c (or_introl eq_refl) Hc).
  - apply IH. intros d Hd. apply H. right. exact Hd.
Qed.
Lemma in_kept a b rest out c : In c (kept a b rest out) <-> In c (a ++ b) /\ (In c (concat rest) \/ In c out).
Proof. unfold kept. rewrite in_sort, nodup_In, filter_In, has_in, (in_app_iff (concat rest)). reflexivity. Qed.
Lemma kept_ordered a b rest out : ordered (kept a b rest out).
Proof. apply ordered_sort, NoDup_nodup. Qed.

Section Multi.
Context {R : Type}.
Variables (zero one : R) (add mul sub : R -> R -> R) (opp : R -> R).
Hypothesis RT : ring_theory zero one add mul sub opp (@eq R).
Add Ring RR : RT.
Local Notation id := (fun (_ : kind) (v : R) => v).
Local Notation ein := (einstein zero add mul).
Local Notation sum_of := (sum_of zero add).
Local Notation product_of := (product_of zero mul).

Lemma fold_add_start l z : fold_left add l z = add z (sum_of l).
Proof using RT.
  unfold Ein_Spec.sum_of. revert z. induction l as [|v l IH]; intros z; cbn [fold_left].
  - rewrite (Radd_comm RT), (Radd_0_l RT). reflexivity.
  - rewrite IH, (IH (add zero v)), (Radd_0_l RT), (Radd_assoc RT). reflexivity.
Qed.
Lemma sum_cons v l : sum_of (v :: l) = add v (sum_of l).
Proof using RT. unfold Ein_Spec.sum_of at 1. cbn [fold_left]. rewrite fold_add_start, (Radd_0_l RT). reflexivity. Qed.
Lemma sum_app l l' : sum_of (l ++ l') = add (sum_of l) (sum_of l').
Proof using RT.
  induction l as [|v l IH]; [cbn [app]; unfold Ein_Spec.sum_of at 2; cbn; rewrite (Radd_0_l RT); reflexivity|].
  cbn [app]. rewrite !sum_cons, IH, (Radd_assoc RT). reflexivity.
Qed.
Lemma sum_nested {A B} (h : A -> B -> R) (g : A -> list B) L : sum_of (flat_map (fun i => map (h i) (g i)) L) = sum_of (map (fun i => sum_of (map (h i) (g i))) L).
Proof using RT. induction L as [|i L IH]; [reflexivity|]. cbn [flat_map map]. rewrite sum_app, sum_cons, IH. reflexivity. Qed.
Lemma sum_mul l v : mul (sum_of l) v = sum_of (map (fun u => mul u v) l).
Proof using RT.
  induction l as [|u l IH]; [unfold Ein_Spec.sum_of; cbn; ring|]. cbn [map]. rewrite !sum_cons, (Rdistr_l RT), IH. reflexivity.
Qed.
Lemma fold_mul_sum l L : fold_left mul l (sum_of L) = sum_of (map (fun u => fold_left mul l u) L).
Proof using RT.
  revert L. induction l as [|v l IH]; intros L; cbn [fold_left]; [rewrite map_id; reflexivity|].
  rewrite sum_mul, IH, map_map. reflexivity.
Qed.
Lemma product_cons v l : product_of (v :: l) = fold_left mul l v.
Proof. reflexivity. Qed.
Lemma operand_at_pair ls idx o (F : list nat -> R) : operand_at ls idx (o, F) = F (map (at_letter ls idx) o).
Proof. reflexivity. Qed.

(* contracting the first two operands first *)
Lemma nest size a b rest o out idx : let subs := fst a :: fst b :: map fst rest in
  lowercase (concat subs) -> NoDup o -> incl o (fst a ++ fst b) ->
  (forall c, In c (fst a ++ fst b) -> In c (concat (map fst rest)) \/ In c out -> In c o) ->
  length idx = length out ->
  ein size ((o, ein size [a; b] o) :: rest) out idx = ein size (a :: b :: rest) out idx.
Proof using RT.
  intros subs HL DO HI HK HLi. symmetry.
  set (con1 := summed [fst a; fst b] o). set (con2 := summed (o :: map fst rest) out).
  unfold subs in HL. cbn [concat] in HL. apply lower_app in HL as [HLa HL]. apply lower_app in HL as [HLb HLr].
  assert (HLo : lowercase o) by (apply Forall_forall; intros c Hc; apply HI, in_app_iff in Hc; unfold lowercase in HLa, HLb; rewrite Forall_forall in HLa, HLb; destruct Hc; auto).
  assert (I1 : forall c, In c con1 <-> In c (fst a ++ fst b) /\ ~ In c o).
  { intros c. unfold con1. rewrite summed_in; cbn [concat]; rewrite app_nil_r; [reflexivity|]. apply lower_app; auto. }
  assert (I2 : forall c, In c con2 <-> In c (o ++ concat (map fst rest)) /\ ~ In c out).
  { intros c. unfold con2. rewrite summed_in; cbn [concat]; [reflexivity|]. apply lower_app; auto. }
  assert (I3 : forall c, In c (summed (map fst (a :: b :: rest)) out) <-> In c (fst a ++ fst b ++ concat (map fst rest)) /\ ~ In c out).
  { intros c. rewrite summed_in; cbn [map concat]; [reflexivity|]. apply lower_app. split; [auto|]. apply lower_app. auto. }
  apply (einstein_by zero one add mul sub opp RT size (a :: b :: rest) out (con2 ++ con1) idx _ HLi).
  - rewrite map_app, all_idx_app. rewrite flat_map_concat_map, concat_map, map_map, <- flat_map_concat_map.
    rewrite (flat_map_ext _ (fun i => map (fun c1 => product_of (map (operand_at (out ++ con2 ++ con1) (idx ++ i ++ c1)) (a :: b :: rest))) (all_idx (map size con1)))) by (intros i; apply map_map).
    rewrite sum_nested. unfold einstein at 1. cbn [map fst]. fold con2. cbv zeta. f_equal. apply map_ext_in. intros c2 Hc2. apply in_all_idx in Hc2.
    assert (L2 : length c2 = length con2) by (apply inb_length in Hc2; rewrite Hc2; apply map_length).
    assert (LO : length (idx ++ c2) = length (out ++ con2)) by (rewrite !app_length; congruence).
    match goal with |- context [summed ?l ?m] => change (summed l m) with con2 in * end.
    rewrite product_cons, operand_at_pair. unfold einstein. cbn [map]. fold con1. cbv zeta.
    rewrite fold_mul_sum, map_map. f_equal. apply map_ext_in. intros c1 Hc1. apply in_all_idx in Hc1.
    assert (L1 : length c1 = length con1) by (apply inb_length in Hc1; rewrite Hc1; apply map_length).
    cbn [map]. rewrite !product_cons. cbn [fold_left].
    assert (HB : forall c, In c (fst a ++ fst b) -> at_letter (out ++ con2 ++ con1) (idx ++ c2 ++ c1) c = at_letter (o ++ con1) (map (at_letter (out ++ con2) (idx ++ c2)) o ++ c1) c).
    { intros c Hc. rewrite (app_assoc out), (app_assoc idx). destruct (in_dec ascii_dec c o) as [Ho|Ho].
      - rewrite (at_letter_app_l (out ++ con2) con1); [|exact LO|].
        + rewrite (at_letter_app_l o con1) by (first [exact Ho|apply map_length]). rewrite at_letter_map by exact Ho. reflexivity.
        + apply in_app_iff. destruct (in_dec ascii_dec c out); [left; assumption|right]. apply I2. rewrite in_app_iff. auto.
      - assert (Hr : ~ In c (out ++ con2)).
        { rewrite in_app_iff, I2, in_app_iff. intros [H|[[H|H] _]]; [|contradiction|]; apply Ho, HK; auto. }
        rewrite (at_letter_app_r (out ++ con2)), (at_letter_app_r o) by (first [assumption|apply map_length]). reflexivity. }
    assert (HC : forall c, In c (concat (map fst rest)) -> at_letter (out ++ con2 ++ con1) (idx ++ c2 ++ c1) c = at_letter (out ++ con2) (idx ++ c2) c).
    { intros c Hc. rewrite (app_assoc out), (app_assoc idx). apply at_letter_app_l; [exact LO|]. apply in_app_iff.
      destruct (in_dec ascii_dec c out); [left; assumption|right]. apply I2. rewrite in_app_iff. auto. }
    f_equal.
    + apply map_ext_in. intros r Hr. unfold operand_at. f_equal. apply map_ext_in. intros c Hc. apply HC. apply in_concat. exists (fst r). split; [apply in_map, Hr|exact Hc].
    + f_equal; unfold operand_at; f_equal; apply map_ext_in; intros c Hc; apply HB, in_app_iff; auto.
  - apply nodup_app; [apply summed_nodup|apply summed_nodup|]. intros c H2 H1. apply I1 in H1 as [H1 N1]. apply I2 in H2 as [H2 N2].
    apply in_app_iff in H2 as [H2|H2]; [contradiction|]. apply N1, HK; auto.
  - apply NoDup_Permutation.
    + apply nodup_app; [apply summed_nodup|apply summed_nodup|]. intros c H2 H1. apply I1 in H1 as [H1 N1]. apply I2 in H2 as [H2 N2].
      apply in_app_iff in H2 as [H2|H2]; [contradiction|]. apply N1, HK; auto.
    + apply summed_nodup.
    + intros c. rewrite in_app_iff, I1, I2, I3, !in_app_iff. split.
      * intros [[[H|H] N]|[H N]]; [apply HI, in_app_iff in H; tauto|tauto|]. split; [tauto|]. intros Ho. apply N, HK; [apply in_app_iff, H|auto].
      * intros [H N]. destruct (in_dec ascii_dec c o); [tauto|]. destruct H as [H|[H|H]]; tauto.
Qed.

Variable raw : kind -> R -> R.
Variables (truthy : R -> bool) (of_bool : bool -> R) (iadd imul : ity -> R -> R -> R).
Local Notation mm := (matmul zero truthy of_bool iadd imul add mul).
Local Notation e2 := (einsum2 zero zero add mul id id raw (fun _ => mul) mm).
Local Notation pair := (einsum_pair zero zero add mul id id raw (fun _ => mul) mm).
Local Notation full := (einsum zero zero add mul id id raw (fun _ => add) (fun _ => mul) mm).

(* from text to the pair of operands *)
Lemma pair_text size s sa sb out x y f g : lowercase sa -> lowercase sb -> lowercase out -> unspaced s = arrow [sa; sb] out -> incl out (sa ++ sb) ->
  array_of x Float64 (map size sa) f -> array_of y Float64 (map size sb) g ->
  exists m, knows size (sa ++ sb) m /\ pair s x y = e2 sa sb out x y m /\ full s [x; y] = e2 sa sb out x y m.
Proof.
  intros HA HB HO HS HI (_ & _ & SX & _) (_ & _ & SY & _).
  assert (EP : parse_subscript s = Ok ([sa; sb], out)) by (apply parse_explicit; [discriminate|repeat constructor; assumption|exact HO|exact HS]).
  destruct (validate_complete size [sa; sb] out [a_shape (o_arr x); a_shape (o_arr y)]) as (m & EV & HK).
  { cbn [map]. rewrite SX, SY. reflexivity. }
  { cbn [concat]. rewrite app_nil_r. exact HI. }
  cbn [concat] in HK. rewrite app_nil_r in HK. exists m. split; [exact HK|]. unfold einsum_pair, einsum. rewrite EP. cbn [bind map]. rewrite EV. split; reflexivity.
Qed.
Lemma without_in j s c : In c (without j s) <-> In c s /\ c <> j.
Proof. unfold without. rewrite filter_In, negb_true_iff, Ascii.eqb_neq. reflexivity. Qed.
Lemma summed_one j sa sb : lowercase (sa ++ sb) -> In j sa -> In j sb -> summed [sa; sb] (without j sa ++ without j sb) = [j].
Proof.
  intros HL HA HB. apply Permutation_length_1_inv. apply NoDup_Permutation; [repeat constructor; intros []|apply summed_nodup|].
  intros c. rewrite summed_in; cbn [concat]; rewrite app_nil_r; [|exact HL]. rewrite !in_app_iff, !without_in. cbn [In]. split.
  - intros [<-|[]]. tauto.
  - intros [H N]. left. destruct (ascii_dec c j) as [E|E]; [congruence|]. exfalso. tauto.
Qed.
Lemma bound_one j sa : NoDup sa -> In j sa -> bound [j] sa = [j].
Proof.
  intros HD HI. apply Permutation_length_1_inv. symmetry. apply bound_con; [repeat constructor; intros []|exact HD|]. intros c [<-|[]]. exact HI.
Qed.
Lemma free_one j sa : free [j] sa = without j sa.
Proof. unfold free, without. apply filter_ext. intros c. cbn [has existsb]. rewrite orb_false_r. reflexivity. Qed.
Lemma without_length j s : NoDup s -> In j s -> S (length (without j s)) = length s.
Proof.
  intros HD HI. rewrite <- (Permutation_length (free_bound [j] s)), app_length, bound_one, free_one by assumption. cbn [length]. lia.
Qed.
(* one summed letter, operands with at most two axes, any layout *)
Lemma pair_one size s j sa sb x y f g : lowercase sa -> lowercase sb -> NoDup sa -> NoDup sb -> NoDup (without j sa ++ without j sb) ->
  In j sa -> In j sb -> length sa <= 2 -> length sb <= 2 -> size j <> 0 ->
  let out := without j sa ++ without j sb in
  unspaced s = arrow [sa; sb] out ->
  array_of x Float64 (map size sa) f -> array_of y Float64 (map size sb) g -> (Z.of_nat (prod (map size out)) * 8 < 2 ^ 63)%Z ->
  exists o, (pair s x y = Ok o /\ full s [x; y] = Ok o) /\ array_of o Float64 (map size out) (ein size [(sa, f); (sb, g)] out) /\ a_c (o_arr o) = true.
Proof using RT.
  intros HLa HLb DA DB DO HA HB LA LB HZ out HS HX HY HN.
  assert (HL : lowercase (sa ++ sb)) by (apply lower_app; auto).
  assert (HIO : incl out (sa ++ sb)) by (intros c Hc; unfold out in Hc; rewrite in_app_iff, !without_in in Hc; rewrite in_app_iff; tauto).
  assert (HLo : lowercase out) by (apply Forall_forall; intros c Hc; unfold lowercase in HL; rewrite Forall_forall in HL; apply HL, HIO, Hc).
  destruct (pair_text size s sa sb out x y f g HLa HLb HLo HS HIO HX HY) as (m & HK & E1 & E2).
  pose proof (summed_one j sa sb HL HA HB) as EC. fold out in EC.
  destruct (two_contract zero one add mul sub opp RT raw truthy of_bool iadd imul size m sa sb out x y f g HL HK HIO DA DB DO) as (o & E & HO & _ & HC); try assumption.
  - rewrite EC. discriminate.
  - rewrite EC. intros c [<-|[]]. exact HA.
  - rewrite EC. intros c [<-|[]]. exact HB.
  - rewrite EC. cbn [map prod]. lia.
  - left. rewrite EC, !bound_one, !free_one by assumption. split; [reflexivity|]. split; [reflexivity|].
    pose proof (without_length j sa DA HA). pose proof (without_length j sb DB HB).
    split; intros pa _; right; right; cbn [length]; lia.
  - exists o. rewrite E1, E2. split; [split; exact E|]. split; [exact HO|exact HC].
Qed.

(* chains l0 l1, l1 l2, ... *)
Lemma links_in c l : In c (concat (links l)) -> In c l.
Proof.
  induction l as [|a l IH]; [intros []|]. cbn [links]. destruct l as [|b l]; [intros []|]. cbn [concat app]. intros [<-|[<-|H]]; [left; reflexivity|right; left; reflexivity|].
  right. apply IH, H.
Qed.
Lemma links_head a b l : In a (concat (links (a :: b :: l))).
Proof. left. reflexivity. Qed.
Lemma last_in (a : ascii) l : l <> [] -> In (last l a) l.
Proof. induction l as [|b l IH]; [congruence|]. intros _. destruct l as [|c l]; [left; reflexivity|]. right. apply IH. discriminate. Qed.
Lemma links_lower l : lowercase l -> lowercase (concat (links l)).
Proof. unfold lowercase. rewrite !Forall_forall. intros H c Hc. apply H, links_in, Hc. Qed.

Lemma summed_self ls : lowercase ls -> summed [ls] ls = [].
Proof.
  intros HL. destruct (summed [ls] ls) as [|c t] eqn:E; [reflexivity|]. exfalso.
  assert (H : In c (summed [ls] ls)) by (rewrite E; left; reflexivity). apply summed_in in H; cbn [concat] in *; rewrite app_nil_r in *; [tauto|exact HL].
Qed.
Lemma lower_incl s t : lowercase t -> incl s t -> lowercase s.
Proof. unfold lowercase. rewrite !Forall_forall. auto. Qed.
Lemma ordered2 a b : before a b -> ordered [a; b].
Proof. intros H. constructor; [constructor; constructor|constructor; [exact H|constructor]]. Qed.
Lemma links_length a l : length (links (a :: l)) = length l.
Proof. revert a. induction l as [|b l IH]; intros a; [reflexivity|]. change (links (a :: b :: l)) with ([a; b] :: links (b :: l)). cbn [length]. f_equal. apply IH. Qed.
Lemma last_cons (b c : ascii) l : last (c :: l) b = last l c.
Proof. revert b c. induction l as [|d l IH]; intros b c; [reflexivity|]. change (last (c :: d :: l) b) with (last (d :: l) b). rewrite !IH. reflexivity. Qed.
Lemma fst_combine {A B} (l : list A) (m : list B) : length l = length m -> map fst (combine l m) = l.
Proof. revert m. induction l as [|x l IH]; intros [|y m] H; try discriminate; [reflexivity|]. cbn [combine map fst]. f_equal. apply IH. injection H as H. exact H. Qed.

Lemma chain_loop size l : forall a b cur F xs fs, ordered (a :: b :: l) -> lowercase (a :: b :: l) -> (forall c, In c (b :: l) -> size c <> 0) ->
  (forall c, In c (b :: l) -> (Z.of_nat (size a * size c) * 8 < 2 ^ 63)%Z) ->
  array_of cur Float64 [size a; size b] F -> (l = [] -> a_c (o_arr cur) = true) ->
  length xs = length l -> length fs = length l ->
  (forall i s x f, nth_error (links (b :: l)) i = Some s -> nth_error xs i = Some x -> nth_error fs i = Some f -> array_of x Float64 (map size s) f) ->
  let out := [a; last l b] in
  exists r, multi_loop zero zero add mul id id raw (fun _ => mul) mm cur [a; b] (combine (links (b :: l)) xs) out = Ok r /\
    array_of r Float64 (map size out) (ein size (([a; b], F) :: combine (links (b :: l)) fs) out) /\ a_c (o_arr r) = true.
Proof using RT.
  induction l as [|c l IH]; intros a b cur F xs fs HO HL HZ HN HX HC LX LF HA out.
  - exists cur. split; [reflexivity|]. split; [|apply HC; reflexivity]. cbn [links combine]. unfold out. cbn [last map].
    eapply array_of_ext; [|exact HX]. intros idx Hi. cbv beta. symmetry. rewrite (einstein_nosum zero one add mul sub opp RT).
    + cbn [map]. rewrite product_cons, operand_at_pair. cbn [fold_left]. f_equal. apply at_letter_self; [apply ordered_nodup, HO|]. apply inb_length in Hi. exact Hi.
    + exact (summed_self [a; b] HL).
  - destruct xs as [|y xs]; [discriminate|]. destruct fs as [|g fs]; [discriminate|]. injection LX as LX. injection LF as LF.
    assert (HAC : ordered (a :: c :: l)).
    { inversion HO as [|? ? H1 H2]; subst. inversion H1; subst. constructor; [assumption|]. inversion H2; assumption. }
    assert (Hab : before a b /\ before b c /\ before a c).
    { inversion HO as [|? ? H1 H2]; subst. inversion H1 as [|? ? H3 H4]; subst. inversion H2 as [|? ? H5 H6]; subst. inversion H4; subst. inversion H6; subst. auto. }
    destruct Hab as (Hab & Hbc & Hac).
    assert (Nab : a <> b) by (intros ->; unfold before in Hab; lia). assert (Nbc : b <> c) by (intros ->; unfold before in Hbc; lia). assert (Nac : a <> c) by (intros ->; unfold before in Hac; lia).
    assert (EW : without b [a; b] ++ without b [b; c] = [a; c]).
    { unfold without. cbn [filter]. rewrite Ascii.eqb_refl. destruct (Ascii.eqb_spec a b), (Ascii.eqb_spec c b); try congruence. reflexivity. }
    assert (HLac : lowercase (a :: c :: l)) by (apply (lower_incl _ _ HL); intros e He; cbn [In] in *; tauto).
    assert (HLab : lowercase [a; b]) by (apply (lower_incl _ _ HL); intros e He; cbn [In] in *; tauto).
    assert (HLbc : lowercase [b; c]) by (apply (lower_incl _ _ HL); intros e He; cbn [In] in *; tauto).
    assert (HLac2 : lowercase [a; c]) by (apply (lower_incl _ _ HL); intros e He; cbn [In] in *; tauto).
    pose proof (last_cons b c l) as EOUT.
    assert (HNc : ~ In b (c :: l)).
    { intros Hd. inversion HO as [|? ? H1 H2]; subst. apply ordered_nodup in H1. inversion H1; contradiction. }
    change (links (b :: c :: l)) with ([b; c] :: links (c :: l)). cbn [combine]. cbn [multi_loop].
    assert (EKeep : (match combine (links (c :: l)) xs with [] => out | _ :: _ => kept [a; b] [b; c] (map fst (combine (links (c :: l)) xs)) out end) = [a; c]).
    { destruct l as [|d l].
      - cbn [links combine]. unfold out. cbn [last]. reflexivity.
      - destruct xs as [|z xs]; [discriminate|]. change (links (c :: d :: l)) with ([c; d] :: links (d :: l)). cbn [combine].
        apply ordered_ext; [apply kept_ordered|apply ordered2; assumption|]. intros e. rewrite in_kept. cbn [map fst].
        assert (EM : concat ([c; d] :: map fst (combine (links (d :: l)) xs)) = concat (links (c :: d :: l))).
        { rewrite fst_combine; [reflexivity|]. rewrite links_length. injection LX as LX. symmetry. exact LX. }
        match goal with |- context [In e (concat ?L)] => replace (concat L) with (concat (links (c :: d :: l))) by (symmetry; exact EM) end. unfold out. split.
        + intros [H1 H2]. assert (NB : e <> b).
          { intros ->. apply HNc. destruct H2 as [H2|[H2|[H2|[]]]]; [apply links_in, H2|congruence|]. rewrite <- H2, EOUT. right. apply last_in. discriminate. }
          cbn [In app] in H1 |- *. destruct H1 as [H1|[H1|[H1|[H1|[]]]]]; subst; tauto.
        + intros [<-|[<-|[]]]; (split; [cbn [In app]; tauto|]); [right; left; reflexivity|left; apply links_head]. }
    cbv zeta. match goal with |- context [fmt _ _ ?o] => replace o with [a; c] by (symmetry; exact EKeep) end. rewrite fmt_arrow.
    assert (HYY : array_of y Float64 (map size [b; c]) g) by (apply (HA 0); reflexivity).
    destruct (pair_one size (arrow [[a; b]; [b; c]] [a; c]) b [a; b] [b; c] cur y F g) as (o & [EP _] & HOA & HOC); try assumption; try (cbn [length]; lia).
    { apply ordered_nodup, ordered2; assumption. }
    { apply ordered_nodup, ordered2; assumption. }
    { rewrite EW. apply ordered_nodup, ordered2; assumption. }
    { right. left. reflexivity. } { left. reflexivity. } { apply HZ. left. reflexivity. }
    { rewrite EW. apply unspaced_arrow; [constructor; [exact HLab|constructor; [exact HLbc|constructor]]|exact HLac2]. }
    { rewrite EW. cbn [map prod]. rewrite Nat.mul_1_r. apply HN. right. left. reflexivity. }
    rewrite EW in HOA. match goal with |- context [bind ?p _] => replace p with (@Ok (@operand R) o) by (symmetry; exact EP) end. cbn [bind].
    destruct (IH a c o (ein size [([a; b], F); ([b; c], g)] [a; c]) xs fs HAC HLac
      (fun d Hd => HZ d (or_intror Hd)) (fun d Hd => HN d (or_intror Hd)) HOA (fun _ => HOC) LX LF (fun i s x f H1 H2 H3 => HA (S i) s x f H1 H2 H3)) as (r & ER & HR & HRC).
    exists r. unfold out. rewrite EOUT. split; [exact ER|]. split; [|exact HRC]. cbn [combine].
    eapply array_of_ext; [|exact HR]. intros idx Hi. cbv beta. apply (nest size ([a; b], F) ([b; c], g) (combine (links (c :: l)) fs) [a; c] [a; last l c] idx); cbn [fst].
    + rewrite fst_combine by (rewrite links_length; symmetry; exact LF).
      apply (lower_incl _ _ HL). intros e He. cbn [concat app] in He. destruct He as [He|[He|[He|[He|He]]]]; cbn [In]; try tauto. apply links_in in He. cbn [In] in He. tauto.
    + apply ordered_nodup, ordered2; assumption.
    + intros e He. cbn [In app] in *. tauto.
    + rewrite fst_combine by (rewrite links_length; symmetry; exact LF). intros e He H.
      assert (NB : e <> b).
      { intros ->. apply HNc. destruct H as [H|[H|[H|[]]]]; [apply links_in, H|congruence|]. rewrite <- H, <- EOUT. apply (last_in b (c :: l)). discriminate. }
      cbn [In app] in He |- *. destruct He as [He|[He|[He|[He|[]]]]]; subst; tauto.
    + apply inb_length in Hi. exact Hi.
Qed.

Lemma links_all e t : forall a, t <> [] -> In e (a :: t) -> In e (concat (links (a :: t))).
Proof.
  induction t as [|b t IH]; intros a HN He; [congruence|]. change (links (a :: b :: t)) with ([a; b] :: links (b :: t)). cbn [concat app].
  destruct He as [<-|[<-|He]]; [left; reflexivity|right; left; reflexivity|]. right. right. destruct t as [|c t]; [destruct He|]. apply IH; [discriminate|right; exact He].
Qed.
Lemma fold_float k xs : (forall x, In x xs -> @o_kind R x = Float64) -> k = Float64 -> fold_left (fun k y => promote k (o_kind y)) xs k = Float64.
Proof.
  revert k. induction xs as [|x xs IH]; intros k H Hk; [exact Hk|]. cbn [fold_left]. apply IH; [intros y Hy; apply H; right; exact Hy|].
  rewrite (H x (or_introl eq_refl)), Hk. reflexivity.
Qed.
Theorem chain_ok size s a b c d l xs fs :
  let ls := a :: b :: c :: d :: l in let out := [a; last l d] in
  ordered ls -> lowercase ls -> unspaced s = arrow (links ls) out ->
  (forall e, In e (b :: c :: d :: l) -> size e <> 0 /\ (Z.of_nat (size a * size e) * 8 < 2 ^ 63)%Z) ->
  length xs = length (links ls) -> length fs = length (links ls) ->
  (forall i u x f, nth_error (links ls) i = Some u -> nth_error xs i = Some x -> nth_error fs i = Some f -> array_of x Float64 (map size u) f) ->
  exists r, full s xs = Ok r /\ array_of r Float64 (map size out) (ein size (combine (links ls) fs) out).
Proof using RT.
  intros ls out HO HL HS HZ LX LF HA. unfold ls in LX, LF. rewrite links_length in LX, LF.
  destruct xs as [|x xs]; [discriminate|]. destruct fs as [|f fs]; [discriminate|]. injection LX as LX. injection LF as LF.
  assert (HLS : Forall lowercase (links ls)).
  { apply Forall_forall. intros u Hu. apply (lower_incl _ _ HL). intros e He. apply links_in. apply in_concat. exists u. auto. }
  assert (HOin : incl out ls).
  { intros e [<-|[<-|[]]]; [left; reflexivity|]. right. right. right. destruct l as [|e l]; [left; reflexivity|]. right. apply last_in. discriminate. }
  assert (HLO : lowercase out) by (apply (lower_incl _ _ HL), HOin).
  assert (EP : parse_subscript s = Ok (links ls, out)) by (apply parse_explicit; [discriminate|exact HLS|exact HLO|exact HS]).
  assert (HX0 : array_of x Float64 [size a; size b] f) by (apply (HA 0 [a; b]); reflexivity).
  assert (HR : forall i u y g, nth_error (links (b :: c :: d :: l)) i = Some u -> nth_error xs i = Some y -> nth_error fs i = Some g -> array_of y Float64 (map size u) g)
    by (intros i u y g H1 H2 H3; apply (HA (S i) u y g); assumption).
  assert (LXL : length (x :: xs) = length (links ls)) by (unfold ls; rewrite links_length; cbn [length]; f_equal; exact LX).
  assert (LFL : length (f :: fs) = length (links ls)) by (unfold ls; rewrite links_length; cbn [length]; f_equal; exact LF).
  assert (HSh : map (fun y => a_shape (o_arr y)) (x :: xs) = map (map size) (links ls)).
  { apply nth_error_ext. intros i. rewrite !nth_error_map'.
    destruct (nth_error (x :: xs) i) as [y|] eqn:EY.
    - assert (Hi : i < length (x :: xs)) by (apply nth_error_Some; congruence).
      destruct (nth_error (links ls) i) as [u|] eqn:EU; [|apply nth_error_None in EU; lia].
      destruct (nth_error (f :: fs) i) as [g|] eqn:EG; [|apply nth_error_None in EG; lia].
      destruct (HA i u y g EU EY EG) as (_ & _ & E & _). cbn [option_map]. rewrite E. symmetry. match goal with |- option_map _ ?t = _ => replace t with (Some u) by (symmetry; exact EU) end. reflexivity.
    - apply nth_error_None in EY. rewrite LXL in EY. apply nth_error_None in EY. symmetry. match goal with |- option_map _ ?t = _ => replace t with (@None letters) by (symmetry; exact EY) end. reflexivity. }
  assert (HKd : forall y, In y (x :: xs) -> o_kind y = Float64).
  { intros y Hy. apply In_nth_error in Hy as [i EY]. assert (Hi : i < length (x :: xs)) by (apply nth_error_Some; congruence).
    destruct (nth_error (links ls) i) as [u|] eqn:EU; [|apply nth_error_None in EU; lia].
    destruct (nth_error (f :: fs) i) as [g|] eqn:EG; [|apply nth_error_None in EG; lia]. exact (proj1 (HA i u y g EU EY EG)). }
  destruct (validate_complete size (links ls) out (map (fun y => a_shape (o_arr y)) (x :: xs)) HSh) as (m & EV & HK).
  { intros e He. apply links_all; [discriminate|]. apply HOin, He. }
  unfold einsum. rewrite EP. cbn [bind]. rewrite EV. cbn [bind].
  destruct xs as [|y [|z xs]]; try discriminate.
  change (links ls) with ([a; b] :: [b; c] :: [c; d] :: links (d :: l)). cbv iota.
  rewrite (fold_float (o_kind x) (y :: z :: xs)) by (first [intros u Hu; apply HKd; right; exact Hu|apply HKd; left; reflexivity]).
  destruct (chain_loop size (c :: d :: l) a b x f (y :: z :: xs) fs HO HL (fun e He => proj1 (HZ e He)) (fun e He => proj2 (HZ e He)) HX0 ltac:(discriminate) LX LF HR) as (r & ER & HRA & HRC).
  change (last (c :: d :: l) b) with (last (d :: l) b) in *. rewrite last_cons in *. fold out in ER, HRA.
  assert (EO : map (dim m) out = map size out).
  { apply (fits_map size m (concat (links ls))); [apply knows_fits, HK|]. intros e He. apply links_all; [discriminate|]. apply HOin, He. }
  rewrite EO. set (osh := map size out) in *.
  assert (HB : (Z.of_nat (prod osh) * itemsize Float64 < 2 ^ 63)%Z).
  { unfold osh, out. cbn [map prod]. rewrite Nat.mul_1_r. apply HZ. right. right. destruct l as [|e l]; [left; reflexivity|]. right. apply last_in. discriminate. }
  unfold with_output. change (or_one osh) with osh. destruct (Nat.eqb_spec (prod osh) 0) as [HE|HE].
  - eexists. split; [reflexivity|]. apply fresh_array; [reflexivity|exact HB|apply repeat_length|]. intros idx Hi. apply inb_prod_pos in Hi. lia.
  - rewrite repeat_length.
    assert (EM : einsum_multi zero zero add mul id id raw (fun _ => mul) mm ([a; b] :: [b; c] :: [c; d] :: links (d :: l)) out (x :: y :: z :: xs) Float64 (prod osh) =
      bind (multi_loop zero zero add mul id id raw (fun _ => mul) mm x [a; b] (combine ([b; c] :: [c; d] :: links (d :: l)) (y :: z :: xs)) out) (fun r => raw_copy r 8 (prod osh))).
    { unfold einsum_multi. cbn [combine multi_loop]. cbv zeta. cbn [map fst].
      match goal with |- bind ?p _ = bind (bind ?p2 _) _ => change p2 with p; destruct p; reflexivity end. }
    match goal with |- context [bind ?p _] => replace p with (@Ok (list R) (map (ein size (combine (links ls) (f :: fs)) out) (all_idx osh))) end.
    + cbn [bind]. eexists. split; [reflexivity|]. apply fresh_array; [reflexivity|exact HB|rewrite map_length; apply all_idx_length|].
      intros idx Hi. rewrite nth_error_map', nth_error_all_idx_rank by exact Hi. reflexivity.
    + symmetry. etransitivity; [exact EM|]. match goal with |- bind ?p _ = _ => replace p with (@Ok (@operand R) r) by (symmetry; exact ER) end. cbn [bind].
      apply (raw_copy_ok r Float64 osh); assumption.
Qed.
End Multi.
