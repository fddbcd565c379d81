(* einsum: the element loops. *)
From Coq Require Import Ascii String.
From Verif Require Import Base Lists Arr_Spec Arr_Model Arr_Wf Arr_Proofs Copy_Model Elem_Model Red_Model Red_Scan Promo_Spec Promo_Model Gu_Model Mat_Model Mat_Proofs Mat_Batch Prod_Model Prod_Proofs Ein_Spec Ein_Model Ein_Parse.
Local Open Scope nat_scope.
Local Open Scope list_scope.

(* ---------- decoding positions ---------- *)
Lemma compute_strides_cons s sh : compute_strides (s :: sh) = prod sh :: compute_strides sh.
Proof.
  revert s. induction sh as [|d sh IH]; intros s; [reflexivity|].
  change (compute_strides (s :: d :: sh)) with (match compute_strides (d :: sh) with x :: _ => x * hd 1 (d :: sh) :: compute_strides (d :: sh) | [] => [1] end).
  rewrite (IH d). cbn [hd prod]. f_equal. lia.
Qed.
Lemma decode_div_ok sh : forall k, 0 < prod sh -> decode_div (compute_strides sh) k = Ok (unrank sh k).
Proof.
  induction sh as [|s sh IH]; intros k HP; [reflexivity|]. rewrite compute_strides_cons. cbn [decode_div unrank]. cbn [prod] in HP.
  destruct (Nat.eqb_spec (prod sh) 0); [lia|]. rewrite IH by lia. reflexivity.
Qed.
Lemma decode_mod_ok sh : forall k, k < prod sh -> decode_mod_aux sh k = Ok (unrank sh k, 0).
Proof.
  assert (G : forall sh k, 0 < prod sh -> decode_mod_aux sh k = Ok (unrank sh (k mod prod sh), k / prod sh)).
  { clear. induction sh as [|s sh IH]; intros k HP; [cbn [decode_mod_aux unrank prod]; rewrite Nat.div_1_r; reflexivity|]. cbn [decode_mod_aux]. cbn [prod] in *.
    rewrite IH by lia. cbn [bind]. destruct (Nat.eqb_spec s 0); [lia|]. cbn [unrank]. f_equal. f_equal; [f_equal|].
    - rewrite (Nat.mul_comm s), Nat.mod_mul_r by lia. rewrite Nat.mul_comm, Nat.div_add by lia. rewrite (Nat.div_small (k mod prod sh)); [lia|]. apply Nat.mod_upper_bound. lia.
    - f_equal. rewrite (Nat.mul_comm s), Nat.mod_mul_r by lia. rewrite Nat.mul_comm, Nat.mod_add by lia. rewrite Nat.mod_mod by lia. reflexivity.
    - rewrite (Nat.mul_comm s), Nat.div_div by lia. reflexivity. }
  intros k HK. rewrite G by lia. rewrite Nat.mod_small, Nat.div_small by exact HK. reflexivity.
Qed.

(* ---------- index tuples built by writes ---------- *)
Lemma nth_combine {A B} (l : list A) (m : list B) k a b : nth_error (combine l m) k = Some (a, b) <-> nth_error l k = Some a /\ nth_error m k = Some b.
Proof.
  revert m k. induction l as [|x l IH]; intros [|y m] [|k]; cbn; split; try (intros [? ?]); try discriminate.
  - intros E. injection E as -> ->. auto.
  - congruence.
  - apply IH.
  - apply IH. auto.
Qed.
Lemma position_nth c l p : position c l = Some p -> nth_error l p = Some c.
Proof.
  revert p. induction l as [|d l IH]; intros p; cbn; [discriminate|]. destruct (Ascii.eqb_spec d c) as [->|]; [intros E; injection E as <-; reflexivity|].
  destruct (position c l) as [q|]; [|discriminate]. intros E. injection E as <-. cbn. apply IH. reflexivity.
Qed.
Lemma position_in c l : In c l -> exists p, position c l = Some p.
Proof.
  induction l as [|d l IH]; [intros []|]. cbn. intros [->|H]; [rewrite Ascii.eqb_refl; eexists; reflexivity|].
  destruct (Ascii.eqb d c); [eexists; reflexivity|]. destruct (IH H) as [p ->]. eexists; reflexivity.
Qed.
Lemma position_nodup l p c : NoDup l -> nth_error l p = Some c -> position c l = Some p.
Proof.
  intros H. revert p. induction H as [|d l HN HD IH]; intros [|p]; cbn; try discriminate.
  - intros E. injection E as ->. rewrite Ascii.eqb_refl. reflexivity.
  - intros E. destruct (Ascii.eqb_spec d c) as [->|]; [exfalso; apply HN; eapply nth_error_In; exact E|]. rewrite (IH p E). reflexivity.
Qed.
Lemma position_lt c l p : position c l = Some p -> p < length l.
Proof. intros E. apply position_nth in E. apply nth_error_Some. congruence. Qed.

Lemma set_all_length ps : forall l, length (set_all ps l) = length l.
Proof. unfold set_all. induction ps as [|[p v] ps IH]; intros l; [reflexivity|]. cbn [fold_left]. rewrite IH. apply upd_length. Qed.
Lemma set_all_miss ps p : (forall v, ~ In (p, v) ps) -> forall l, nth_error (set_all ps l) p = nth_error l p.
Proof.
  unfold set_all. induction ps as [|[q w] ps IH]; intros H l; [reflexivity|]. cbn [fold_left fst snd].
  rewrite IH by (intros v Hv; apply (H v); right; exact Hv). apply nth_error_upd_neq. intros ->. apply (H w). left. reflexivity.
Qed.
Lemma set_all_hit ps p v : In (p, v) ps -> (forall w, In (p, w) ps -> w = v) -> forall l, p < length l -> nth_error (set_all ps l) p = Some v.
Proof.
  unfold set_all. induction ps as [|[q w] ps IH]; intros Hin HU l HL; [destruct Hin|]. cbn [fold_left fst snd].
  destruct (in_dec Nat.eq_dec p (map fst ps)) as [Hp|Hp].
  - apply in_map_iff in Hp as ((p' & v') & E & Hp). cbn in E. subst p'. pose proof (HU v' (or_intror Hp)) as ->.
    apply IH; [exact Hp|intros w' Hw'; apply HU; right; exact Hw'|rewrite upd_length; exact HL].
  - assert (EQ : (q, w) = (p, v)).
    { destruct Hin as [E|Hin]; [exact E|]. exfalso. apply Hp. apply in_map_iff. exists (p, v). auto. }
    injection EQ as -> ->. change (nth_error (set_all ps (upd l p v)) p = Some v).
    rewrite set_all_miss; [apply nth_error_upd_eq; exact HL|]. intros u Hu. apply Hp. apply in_map_iff. exists (p, u). auto.
Qed.

Lemma at_letter_combine ls : forall idx c v, NoDup ls -> In (c, v) (combine ls idx) -> at_letter ls idx c = v.
Proof.
  induction ls as [|d ls IH]; intros [|i idx] c v HD Hin; cbn in Hin; try contradiction. inversion HD; subst.
  destruct Hin as [E|Hin]; cbn [at_letter].
  - injection E as -> ->. rewrite Ascii.eqb_refl. reflexivity.
  - destruct (Ascii.eqb_spec d c) as [->|]; [apply in_combine_l in Hin; contradiction|]. apply IH; assumption.
Qed.
Lemma combine_has {A} (ls : list ascii) : forall (idx : list A) c, length idx = length ls -> In c ls -> exists v, In (c, v) (combine ls idx).
Proof.
  induction ls as [|d ls IH]; intros [|i idx] c HL Hin; cbn in *; try contradiction; try discriminate.
  destruct Hin as [->|Hin]; [exists i; left; reflexivity|]. destruct (IH idx c ltac:(lia) Hin) as [v Hv]. exists v. right. exact Hv.
Qed.
Lemma combine_unique (ls : list ascii) (idx : list nat) c v w : NoDup ls -> In (c, v) (combine ls idx) -> In (c, w) (combine ls idx) -> w = v.
Proof. intros HD H1 H2. rewrite <- (at_letter_combine ls idx c v HD H1). symmetry. apply at_letter_combine; assumption. Qed.
Lemma at_letter_app_l ls ms idx ci c : length idx = length ls -> In c ls -> at_letter (ls ++ ms) (idx ++ ci) c = at_letter ls idx c.
Proof.
  revert idx. induction ls as [|d ls IH]; intros [|i idx] HL Hin; cbn in *; try contradiction; try discriminate.
  destruct (Ascii.eqb_spec d c) as [|N]; [reflexivity|]. apply IH; [lia|]. destruct Hin; [contradiction|assumption].
Qed.
Lemma at_letter_app_r ls ms idx ci c : length idx = length ls -> ~ In c ls -> at_letter (ls ++ ms) (idx ++ ci) c = at_letter ms ci c.
Proof.
  revert idx. induction ls as [|d ls IH]; intros [|i idx] HL Hin; cbn in *; try reflexivity; try discriminate.
  destruct (Ascii.eqb_spec d c) as [->|N]; [exfalso; apply Hin; left; reflexivity|]. apply IH; [lia|]. intros H. apply Hin. right. exact H.
Qed.

Lemma out_writes_in sub out oi p v : In (p, v) (out_writes sub out oi) <-> exists c, In (c, v) (combine out oi) /\ position c sub = Some p.
Proof.
  unfold out_writes. rewrite in_flat_map. split.
  - intros ([c w] & Hin & H). cbn [fst snd] in H. destruct (position c sub) as [q|] eqn:E; [|destruct H]. destruct H as [H|[]]. injection H as -> ->. exists c. auto.
  - intros (c & Hin & E). exists (c, v). split; [exact Hin|]. cbn [fst snd]. rewrite E. left. reflexivity.
Qed.
Lemma binary_writes_eq sub con : incl con sub -> forall ci, binary_writes sub con ci = map (fun cv => (pos sub (fst cv), snd cv)) (combine con ci).
Proof.
  unfold binary_writes. induction con as [|c con IH]; intros HI ci; [reflexivity|]. cbn [flat_map].
  destruct (position_in c sub (HI c (or_introl eq_refl))) as [p E]. rewrite E. cbn [app]. destruct ci as [|i ci]; [reflexivity|]. cbn [combine map fst snd].
  rewrite IH by (intros d Hd; apply HI; right; exact Hd). unfold pos at 2. rewrite E. reflexivity.
Qed.
Lemma binary_writes_in sub con ci p v : incl con sub ->
  In (p, v) (binary_writes sub con ci) <-> exists c, In (c, v) (combine con ci) /\ position c sub = Some p.
Proof.
  intros HI. rewrite binary_writes_eq by exact HI. rewrite in_map_iff. split.
  - intros ([c w] & E & Hin). cbn [fst snd] in E. injection E as E ->. exists c. split; [exact Hin|].
    destruct (position_in c sub (HI c (in_combine_l _ _ _ _ Hin))) as [q EQ]. unfold pos in E. rewrite EQ in *. congruence.
  - intros (c & Hin & E). exists (c, v). split; [|exact Hin]. cbn [fst snd]. unfold pos. rewrite E. reflexivity.
Qed.
Lemma single_writes_in sub con ci p v :
  In (p, v) (single_writes sub con ci) <-> exists c, In (c, v) (combine con ci) /\ nth_error sub p = Some c.
Proof.
  unfold single_writes. rewrite in_flat_map. split.
  - intros ([c w] & Hin & H). apply in_map_iff in H as ([q d] & E & H). cbn [fst snd] in *. injection E as -> ->.
    apply filter_In in H as [H HE]. cbn [fst snd] in HE. apply Ascii.eqb_eq in HE. subst d. exists c. split; [exact Hin|].
    apply In_nth_error in H as [k Hk]. apply nth_combine in Hk as [H1 H2]. rewrite nth_error_seq in H1.
    destruct (k <? length sub); [|discriminate]. injection H1 as <-. exact H2.
  - intros (c & Hin & E). exists (c, v). split; [exact Hin|]. apply in_map_iff. exists (p, c). split; [reflexivity|].
    apply filter_In. split; [|cbn; apply Ascii.eqb_refl]. apply (nth_error_In _ p). apply nth_combine. split; [|exact E].
    rewrite nth_error_seq. assert (p < length sub) by (apply nth_error_Some; congruence). destruct (Nat.ltb_spec p (length sub)); [reflexivity|lia].
Qed.

(* the tuple that the two-operand loop builds *)
Lemma binary_index sub out con oi ci : NoDup sub -> NoDup out -> NoDup con -> incl con sub ->
  (forall c, In c con -> ~ In c out) -> (forall c, In c sub -> In c out \/ In c con) ->
  length oi = length out -> length ci = length con ->
  set_all (binary_writes sub con ci) (set_all (out_writes sub out oi) (repeat 0 (length sub))) =
  map (at_letter (out ++ con) (oi ++ ci)) sub.
Proof.
  intros DS DO DC HI HX HS HLo HLc. apply nth_error_ext. intros p. rewrite nth_error_map'.
  destruct (nth_error sub p) as [c|] eqn:EP; cbn [option_map].
  - pose proof (position_nodup sub p c DS EP) as EQ. assert (HP : p < length sub) by (apply nth_error_Some; congruence).
    destruct (HS c (nth_error_In _ _ EP)) as [HO|HC].
    + destruct (combine_has out oi c HLo HO) as [v Hv].
      rewrite set_all_miss.
      2:{ intros w Hw. apply binary_writes_in in Hw as (d & Hd & ED); [|exact HI]. apply position_nth in ED. rewrite EP in ED. injection ED as <-.
          apply in_combine_l in Hd. exact (HX c Hd HO). }
      rewrite (set_all_hit _ p v).
      * rewrite at_letter_app_l by assumption. rewrite (at_letter_combine out oi c v DO Hv). reflexivity.
      * apply out_writes_in. exists c. auto.
      * intros w Hw. apply out_writes_in in Hw as (d & Hd & ED). apply position_nth in ED. rewrite EP in ED. injection ED as <-. apply (combine_unique out oi c); assumption.
      * rewrite repeat_length. exact HP.
    + destruct (combine_has con ci c HLc HC) as [v Hv].
      rewrite (set_all_hit _ p v).
      * rewrite at_letter_app_r by (auto). rewrite (at_letter_combine con ci c v DC Hv). reflexivity.
      * apply binary_writes_in; [exact HI|]. exists c. auto.
      * intros w Hw. apply binary_writes_in in Hw as (d & Hd & ED); [|exact HI]. apply position_nth in ED. rewrite EP in ED. injection ED as <-. apply (combine_unique con ci c); assumption.
      * rewrite set_all_length, repeat_length. exact HP.
  - apply nth_error_None. rewrite !set_all_length, repeat_length. apply nth_error_None. exact EP.
Qed.
(* the tuple that the one-operand loop builds *)
Lemma single_index sub out con oi ci : NoDup out -> NoDup con ->
  (forall c, In c con -> ~ In c out) -> (forall c, In c sub -> In c out \/ In c con) ->
  (forall p q c, nth_error sub p = Some c -> nth_error sub q = Some c -> In c out -> p = q) ->
  length oi = length out -> length ci = length con ->
  set_all (single_writes sub con ci) (set_all (out_writes sub out oi) (repeat 0 (length sub))) =
  map (at_letter (out ++ con) (oi ++ ci)) sub.
Proof.
  intros DO DC HX HS HR HLo HLc. apply nth_error_ext. intros p. rewrite nth_error_map'.
  destruct (nth_error sub p) as [c|] eqn:EP; cbn [option_map].
  - assert (HP : p < length sub) by (apply nth_error_Some; congruence).
    destruct (HS c (nth_error_In _ _ EP)) as [HO|HC].
    + destruct (combine_has out oi c HLo HO) as [v Hv].
      rewrite set_all_miss.
      2:{ intros w Hw. apply single_writes_in in Hw as (d & Hd & ED). rewrite EP in ED. injection ED as <-.
          apply in_combine_l in Hd. exact (HX c Hd HO). }
      rewrite (set_all_hit _ p v).
      * rewrite at_letter_app_l by assumption. rewrite (at_letter_combine out oi c v DO Hv). reflexivity.
      * apply out_writes_in. exists c. split; [exact Hv|]. destruct (position_in c sub (nth_error_In _ _ EP)) as [q EQ]. rewrite EQ. f_equal.
        apply position_nth in EQ. apply (HR q p c); assumption.
      * intros w Hw. apply out_writes_in in Hw as (d & Hd & ED). apply position_nth in ED. rewrite EP in ED. injection ED as <-. apply (combine_unique out oi c); assumption.
      * rewrite repeat_length. exact HP.
    + destruct (combine_has con ci c HLc HC) as [v Hv].
      rewrite (set_all_hit _ p v).
      * rewrite at_letter_app_r by (auto). rewrite (at_letter_combine con ci c v DC Hv). reflexivity.
      * apply single_writes_in. exists c. auto.
      * intros w Hw. apply single_writes_in in Hw as (d & Hd & ED). rewrite EP in ED. injection ED as <-. apply (combine_unique con ci c); assumption.
      * rewrite set_all_length, repeat_length. exact HP.
  - apply nth_error_None. rewrite !set_all_length, repeat_length. apply nth_error_None. exact EP.
Qed.
Lemma consistent_map sub g : consistent sub (map g sub) = true.
Proof.
  unfold consistent. apply forallb_forall. intros [c v] Hin. cbn [fst snd]. apply Nat.eqb_eq.
  assert (EV : v = g c).
  { clear - Hin. induction sub as [|d sub IH]; [destruct Hin|]. destruct Hin as [E|Hin]; [congruence|auto]. }
  destruct (position_in c sub (in_combine_l _ _ _ _ Hin)) as [p EP]. unfold pos. rewrite EP.
  apply position_nth in EP. rewrite (nth_error_nth _ _ 0 (map_nth_error g p sub EP)). exact EV.
Qed.
Lemma copy_index_ok sub out oi : NoDup out -> incl sub out -> length oi = length out -> copy_index sub out oi = map (at_letter out oi) sub.
Proof.
  intros DO HI HL. unfold copy_index. apply map_ext_in. intros c Hc.
  destruct (combine_has out oi c HL (HI c Hc)) as [v Hv].
  rewrite (at_letter_combine out oi c v DO Hv).
  destruct (lookup c (rev (combine out oi))) as [w|] eqn:E.
  - apply lookup_in in E. apply in_rev in E. apply (combine_unique out oi c); assumption.
  - apply lookup_none in E. exfalso. apply E. rewrite map_rev, <- in_rev. apply in_map_iff. exists (c, v). auto.
Qed.

(* ---------- the output array ---------- *)
Lemma or_one_prod sh : prod (or_one sh) = prod sh.
Proof. destruct sh; reflexivity. Qed.

Section Out.
Context {V R : Type}.
Variables (vzero : V) (wr : kind -> R -> V).
Lemma output_ok k osh body (val : nat -> R) (f : list nat -> V) :
  (0 < itemsize k)%Z -> (itemsize k < 2 ^ 63)%Z -> (Z.of_nat (prod osh) * itemsize k < 2 ^ 63)%Z ->
  (forall i buf, i < prod osh -> List.length buf = prod osh -> body buf i = write_at wr k buf i (val i)) ->
  (forall idx, inb idx osh -> wr k (val (rank osh idx)) = f idx) ->
  exists o, with_output vzero k osh (fun buf => foldM body (seq 0 (prod (or_one osh))) buf) = Ok o /\ array_of o k osh f /\
    a_off (o_arr o) = 0%Z /\ a_c (o_arr o) = true.
Proof.
  intros HI HI2 HB HW HF. unfold with_output. rewrite or_one_prod.
  destruct (Nat.eqb_spec (prod osh) 0) as [HZ|HZ].
  - exists (array k osh (repeat vzero (prod osh))). split; [reflexivity|]. split; [|split; reflexivity].
    apply fresh_array; [exact HI|exact HB|apply repeat_length|]. intros idx Hi. apply inb_prod_pos in Hi. lia.
  - rewrite (foldM_writes body (fun i => [(i, wr k (val i))]) (prod osh)); [| |apply repeat_length].
    2:{ intros i Hi buf HLb. apply in_seq in Hi. rewrite HW by (assumption || lia). reflexivity. }
    destruct (write_fill (flat_map (fun i => [(i, wr k (val i))]) (seq 0 (prod osh))) (fun p => wr k (val p)) (repeat vzero (prod osh))) as (out & E & HL & HN).
    + rewrite repeat_length. intros p v Hin. apply in_flat_map in Hin as (i & Hi & [H|[]]). injection H as <- <-. apply in_seq in Hi. split; [lia|reflexivity].
    + rewrite repeat_length. intros p Hp. exists (wr k (val p)). apply in_flat_map. exists p. split; [apply in_seq; lia|left; reflexivity].
    + rewrite repeat_length in *. rewrite E. cbn [bind].
      assert (HA : forall idx, inb idx osh -> nth_error out (rank osh idx) = Some (f idx)).
      { intros idx Hi. rewrite HN by (apply rank_lt; exact Hi). rewrite HF by exact Hi. reflexivity. }
      destruct osh as [|s osh].
      * assert (W1 : wf out (fresh [1] (itemsize k))) by (apply fresh_wf; [exact HI|rewrite HL; exact HB|exact HL]).
        destruct (reshape_c_is_view out (fresh [1] (itemsize k)) [] W1 eq_refl eq_refl) as (a' & ER & ES & W' & HG).
        rewrite ER. cbn [bind]. eexists. split; [reflexivity|].
        assert (EO : a_off a' = 0%Z /\ a_c a' = true /\ a_item a' = itemsize k).
        { unfold reshape in ER. cbn in ER. injection ER as <-. cbn. auto. }
        split; [|split; apply EO]. split; [reflexivity|]. cbn [o_arr fst snd]. split; [exact W'|]. split; [exact ES|]. split; [apply EO|].
        intros idx Hi. destruct (HG idx Hi) as [_ ->]. rewrite fresh_get by exact HI. inversion Hi; subst. exact (HA [] Hi).
      * eexists. split; [reflexivity|]. split; [|split; reflexivity]. apply fresh_array; assumption.
Qed.
End Out.

Lemma at_letter_inb size ls idx sub : inb idx (map size ls) -> incl sub ls -> inb (map (at_letter ls idx) sub) (map size sub).
Proof.
  intros Hi HS. induction sub as [|c sub IH]; cbn [map]; constructor.
  - clear IH. specialize (HS c (or_introl eq_refl)). clear sub. revert idx Hi HS. induction ls as [|d ls IH]; intros idx Hi HS; [destruct HS|].
    inversion Hi; subst. cbn [at_letter]. destruct (Ascii.eqb_spec d c) as [->|N]; [assumption|]. apply IH; [assumption|]. destruct HS; [contradiction|assumption].
  - apply IH. intros d Hd. apply HS. right. exact Hd.
Qed.

Definition fits (size : ascii -> nat) (m : dim_map) (L : letters) : Prop := forall c, In c L -> dim m c = size c.
Lemma knows_fits size L m : knows size L m -> fits size m L.
Proof. intros HK c Hc. unfold dim. rewrite (knows_lookup size L m c HK Hc). reflexivity. Qed.
Lemma fits_map size m L l : fits size m L -> incl l L -> map (dim m) l = map size l.
Proof. intros HF HI. apply map_ext_in. intros c Hc. apply HF, HI, Hc. Qed.
Lemma summed_in ins out c : lowercase (concat ins) -> (In c (summed ins out) <-> In c (concat ins) /\ ~ In c out).
Proof.
  intros HL. unfold summed. rewrite filter_In, andb_true_iff, is_in_in, in_alphabet, negb_true_iff. unfold lowercase in HL. rewrite Forall_forall in HL.
  unfold is_in. change (existsb (Ascii.eqb c) out) with (has c out). rewrite has_not. split; [tauto|]. intros [H1 H2]. auto.
Qed.
Lemma summed_nodup ins out : NoDup (summed ins out).
Proof. apply ordered_nodup, ordered_filter, alphabet_ordered. Qed.

Section Elem.
Context {V R : Type}.
Variables (vzero : V) (rzero : R) (radd rmul : R -> R -> R).
Variables (rd : kind -> V -> R) (wr : kind -> R -> V).
Lemma value_at_ok (x : @operand V) k sh f idx : array_of x k sh f -> inb idx sh -> value_at rd x idx = Ok (rd k (f idx)).
Proof.
  intros (K & W & S1 & I1 & G) Hi. unfold value_at, read. specialize (G idx Hi). unfold get, byte_offset_for in G. rewrite G. cbn [of_load bind]. rewrite K. reflexivity.
Qed.
Lemma sum_loop (body : R -> nat -> res R) (t : list nat -> R) cdims :
  (forall s c, c < prod cdims -> body s c = Ok (radd s (t (unrank cdims c)))) ->
  foldM body (seq 0 (prod cdims)) rzero = Ok (sum_of rzero radd (map t (all_idx cdims))).
Proof.
  intros H. rewrite (foldM_ext _ (fun s c => bind (Ok c) (fun c => Ok (radd s (t (unrank cdims c)))))).
  - rewrite (foldM_acc (fun c => Ok c) (fun c => c) (fun s c => radd s (t (unrank cdims c)))) by reflexivity. f_equal.
    unfold sum_of. rewrite all_idx_unrank, map_map. generalize rzero. generalize (seq 0 (prod cdims)).
    induction l as [|c l IH]; intros z; [reflexivity|]. cbn [map fold_left]. apply IH.
  - intros s c Hc. apply in_seq in Hc. apply H. lia.
Qed.
(* two operands, element by element: every summed letter occurs in both operands and no
   letter is repeated *)
Lemma elementwise_ok size m sa sb out ka kb kout x y f g :
  lowercase (sa ++ sb) -> fits size m (sa ++ sb) -> incl out (sa ++ sb) ->
  NoDup sa -> NoDup sb -> NoDup out ->
  let con := summed [sa; sb] out in
  incl con sa -> incl con sb -> (prod (map size con) <> 0 \/ prod (map size out) = 0) ->
  array_of x ka (map size sa) f -> array_of y kb (map size sb) g ->
  (0 < itemsize kout)%Z -> (itemsize kout < 2 ^ 63)%Z -> (Z.of_nat (prod (map size out)) * itemsize kout < 2 ^ 63)%Z ->
  exists o, with_output vzero kout (map (dim m) out) (einsum_elementwise rzero radd rmul rd wr sa sb out x y kout m con) = Ok o /\
    array_of o kout (map size out) (fun idx => wr kout (einstein rzero radd rmul size [(sa, fun i => rd ka (f i)); (sb, fun i => rd kb (g i))] out idx)) /\
    a_off (o_arr o) = 0%Z /\ a_c (o_arr o) = true.
Proof.
  intros HL HF HIO DA DB DO con HCA HCB HZ HX HY HI HI2 HB.
  assert (DC : NoDup con) by apply summed_nodup.
  assert (HCo : forall c, In c con -> ~ In c out) by (intros c Hc; apply summed_in in Hc; [tauto|cbn [concat]; rewrite app_nil_r; exact HL]).
  assert (HSA : forall c, In c sa -> In c out \/ In c con).
  { intros c Hc. destruct (in_dec ascii_dec c out); [left; assumption|right]. apply summed_in; [cbn [concat]; rewrite app_nil_r; exact HL|]. split; [|assumption].
    cbn [concat]. rewrite app_nil_r, in_app_iff. auto. }
  assert (HSB : forall c, In c sb -> In c out \/ In c con).
  { intros c Hc. destruct (in_dec ascii_dec c out); [left; assumption|right]. apply summed_in; [cbn [concat]; rewrite app_nil_r; exact HL|]. split; [|assumption].
    cbn [concat]. rewrite app_nil_r, in_app_iff. auto. }
  assert (EO : map (dim m) out = map size out) by (apply (fits_map size m (sa ++ sb)); assumption).
  assert (EC : map (dim m) con = map size con).
  { apply (fits_map size m (sa ++ sb)); [assumption|]. intros c Hc. apply in_app_iff. left. apply HCA, Hc. }
  rewrite EO. unfold einsum_elementwise. rewrite EO, EC.
  set (osh := map size out) in *. set (cdims := map size con) in *.
  set (term := fun idx ci => rmul (rd ka (f (map (at_letter (out ++ con) (idx ++ ci)) sa))) (rd kb (g (map (at_letter (out ++ con) (idx ++ ci)) sb)))).
  apply (output_ok vzero wr kout osh _ (fun i => sum_of rzero radd (map (term (unrank osh i)) (all_idx cdims)))); try assumption.
  - intros i buf Hi HLb.
    rewrite decode_div_ok by (rewrite or_one_prod; lia). cbn [bind].
    set (oi := unrank (or_one osh) i).
    assert (EOW : forall sub, out_writes sub out oi = out_writes sub out (unrank osh i)).
    { intros sub. unfold oi, osh. destruct out as [|c out']; [reflexivity|]. reflexivity. }
    assert (EZ : (if prod cdims =? 0 then 1 else prod cdims) = prod cdims) by (destruct (Nat.eqb_spec (prod cdims) 0); [lia|reflexivity]).
    rewrite EZ. rewrite (sum_loop _ (term (unrank osh i))); [reflexivity|].
    intros s c Hc. unfold decode_mod. rewrite decode_mod_ok by exact Hc. cbn [bind fst].
    assert (HLo : length (unrank osh i) = length out) by (rewrite unrank_length; apply map_length).
    assert (HLc : length (unrank cdims c) = length con) by (rewrite unrank_length; apply map_length).
    assert (HIN : inb (unrank osh i ++ unrank cdims c) (map size (out ++ con))).
    { rewrite map_app. apply inb_app; [rewrite HLo, map_length; reflexivity|]. split; apply unrank_inb; assumption. }
    rewrite !EOW, !binary_index by assumption.
    rewrite (value_at_ok x ka (map size sa) f) by (first [exact HX|apply at_letter_inb; [exact HIN|intros d Hd; apply in_app_iff, HSA, Hd]]). cbn [bind].
    rewrite (value_at_ok y kb (map size sb) g) by (first [exact HY|apply at_letter_inb; [exact HIN|intros d Hd; apply in_app_iff, HSB, Hd]]). reflexivity.
  - intros idx Hi. rewrite unrank_rank by exact Hi. unfold einstein. cbn [map fst]. fold con. fold cdims. unfold term. unfold product_of. cbn [fold_left]. unfold operand_at. cbn [fst snd]. reflexivity.
Qed.
End Elem.
