From Coq Require Import SpecFloat.
From Verif Require Import Base Lists Int_Model Int_Proofs F64_Model Arr_Spec Arr_Model Arr_Wf Arr_Proofs Copy_Model Copy_Proofs Elem_Model Elem_Proofs Rng_Model New_Model Promo_Spec Promo_Model Promo_Proofs SF_Proofs SF_Arith Cast_Spec Cast_Model Cast_SF Cast_Proofs Cast_Laws Close_Proofs Bitw_Spec Bitw_Model Bitw_Proofs Rnd_Spec Rnd_Model Rnd_Proofs Ari_Spec SF_Round Ari_Model Ari_Proofs Cpx_Spec Cpx_Model Cpx_Proofs Tra_Spec Tra_Model.
Local Open Scope Z_scope.

(* the kernels give numbers of their format *)
Definition kernels (ff : kind -> spec_float -> spec_float) (fc : kind -> cpx -> cpx) : Prop :=
  (forall k x, real k = true -> is_float_kind k = true -> valid_in k x -> valid_in k (ff k x)) /\
  (forall k a b, is_complex_kind k = true -> valid_in k a -> valid_in k b -> valid_in k (fst (fc k (a, b))) /\ valid_in k (snd (fc k (a, b)))).

Section Functions.
Variables (ff : kind -> spec_float -> spec_float) (fc : kind -> cpx -> cpx).
Hypothesis HK : kernels ff fc.
Definition fun_out (k : kind) (v : scalar) : scalar :=
  match v with
  | SFlt x => SFlt (ff k x)
  | SCpx a b => SCpx (fst (fc k (a, b))) (snd (fc k (a, b)))
  | SInt z => match int_of k with Some t => SInt (as_int t (ff Float64 (as_f64 v))) | None => v end
  end.
Lemma fun_elem_out k v : numeric k = true -> element k v -> fun_elem ff fc k v = Ok (fun_out k v) /\ element k (fun_out k v).
Proof.
  intros N E. destruct HK as [HF HC]. destruct v as [z|x|a b]; cbn [fun_elem fun_out].
  - destruct (int_of k) as [t|] eqn:ET; [|split; [reflexivity|exact E]]. split; [reflexivity|].
    assert (is_integer k = true) as K by (destruct k; try discriminate ET; reflexivity). apply int_element; [left; exact K|].
    destruct (int_of_integer k K) as (t' & E' & _ & _ & _ & HL & HU). rewrite ET in E'. injection E' as <-. rewrite <- HL, <- HU. apply as_int_range. rewrite HL, HU. destruct k; try discriminate K; cbn; lia.
  - split; [reflexivity|]. destruct k; try contradiction; apply HF; (reflexivity || exact E).
  - split; [reflexivity|]. destruct k; try contradiction; destruct E as [EA EB]; apply HC; (reflexivity || assumption).
Qed.
Lemma fun_plain_spec x : good x -> exists z, fun_plain ff fc x = Ok z /\ good z /\ n_kind z = n_kind x /\ shape_of z = shape_of x /\
  forall idx, inb idx (shape_of x) -> exists v, item_at x idx = Some v /\ element (n_kind x) v /\ item_at z idx = Some (fun_out (n_kind x) v).
Proof.
  intros G. set (k := n_kind x).
  destruct (map_good k (fun_elem ff fc k) (fun_out k) x (if is_float_kind k then dispatch_map (fun_elem ff fc k) (n_buf x) (n_arr x) else trait_map (fun_elem ff fc k) (n_buf x) (n_arr x)) G (proj1 G)) as (z & E & EZ & GZ & HZ).
  - intros v EV. apply fun_elem_out; [apply G|exact EV].
  - pose proof (proj1 (proj2 G)) as W. destruct (is_float_kind k); [apply dispatch_map_spec|apply trait_map_spec]; exact W.
  - exists z. split; [|split; [exact GZ|split; [rewrite EZ; reflexivity|split; [rewrite EZ; reflexivity|exact HZ]]]].
    unfold fun_plain. fold k. rewrite E. cbn [bind]. f_equal. symmetry. exact EZ.
Qed.
End Functions.

(* ---- conversion ------------------------------------------------------------------ *)
Lemma write_element' k x : numeric k = true -> valid_binary 53 1024 x = true -> element k (write_f64 k x).
Proof.
  intros N V. destruct (real k) eqn:R; [apply write_element; assumption|]. destruct k; try discriminate N; try discriminate R; cbn [write_f64 element].
  - split; [exact (write_element Float32 x eq_refl V)|reflexivity].
  - split; [exact V|reflexivity].
Qed.
Lemma astype_good' x k' : good x -> real (n_kind x) = true -> numeric k' = true -> kind_eqb (n_kind x) k' = false -> exists x', astype x k' = Ok x' /\ converted x k' x'.
Proof.
  intros G R N' NE. destruct (astype_spec x k' G N') as (y & EY & KY & SY & WY & LY & HY).
  exists y. split; [exact EY|]. split; [|split; [exact KY|split; [exact SY|exact HY]]].
  split; [rewrite KY; exact N'|]. split; [exact WY|]. split; [|change (a_shape (n_arr y)) with (shape_of y); rewrite SY; apply G].
  unfold astype in EY. rewrite NE in EY. destruct G as (N & W & FE & HB). destruct (astype_conv_spec (cast k') (n_buf x) (n_arr x) W) as (vals & E & EE). rewrite E in EY. cbn [bind] in EY. injection EY as <-.
  cbn [n_kind n_buf]. apply Forall_forall. intros c Hc. apply in_map_iff in Hc as (v & <- & Hv). apply write_element'; [exact N'|]. apply (as_f64_rounded (n_kind x)); [exact R|].
  assert (In (Some v) (elems (n_buf x) (n_arr x))) as Hs by (rewrite EE; apply in_map; exact Hv). unfold elems in Hs. apply in_map_iff in Hs as (idx & Hg & _).
  apply (good_element x idx v); [repeat (split; [assumption|]); assumption|exact Hg].
Qed.
Lemma float_for_is k : is_float_kind k = false -> numeric k = true -> float_for k = function_float k.
Proof. destruct k; try discriminate; reflexivity. Qed.

Lemma fun_map_float ff fc listed x : is_float_kind (n_kind x) = true -> fun_map ff fc listed x = fun_plain ff fc x.
Proof. intros H. unfold fun_map. rewrite H, andb_false_r. reflexivity. Qed.
(* integers and bools of a listed function *)
Lemma fun_map_int ff fc x : kernels ff fc -> good x -> real (n_kind x) = true -> is_float_kind (n_kind x) = false ->
  exists z, fun_map ff fc true x = Ok z /\ good z /\ n_kind z = function_float (n_kind x) /\ shape_of z = shape_of x /\
    forall idx, inb idx (shape_of x) -> exists v y, item_at x idx = Some v /\ valid_in (function_float (n_kind x)) y /\
      (fits v -> float_value y = real_value v) /\ item_at z idx = Some (SFlt (ff (function_float (n_kind x)) y)).
Proof.
  intros HK G R NF. unfold fun_map. rewrite NF. cbn [negb andb]. pose proof (proj1 G) as N. rewrite (float_for_is _ NF N). set (k' := function_float (n_kind x)).
  assert (RK : real k' = true /\ is_float_kind k' = true /\ kind_eqb (n_kind x) k' = false) by (unfold k'; destruct (n_kind x); try discriminate R; try discriminate NF; repeat split).
  destruct RK as (RK & FK & NE). destruct (astype_good' x k' G R (real_numeric _ RK) NE) as (x' & EX & GX & KX & SX & HX). rewrite EX. cbn [bind].
  destruct (fun_plain_spec ff fc HK x' GX) as (z & EZ & GZ & KZ & SZ & HZ). exists z. split; [exact EZ|]. split; [exact GZ|]. split; [congruence|]. split; [congruence|].
  intros idx I. destruct (good_item x idx G I) as (v & EV & ELV). rewrite <- SX in I. destruct (HZ idx I) as (w & EW & ELW & ER). rewrite SX in I. rewrite (HX idx I), EV in EW. cbn [option_map] in EW. injection EW as EW.
  unfold conv in EW. rewrite NE in EW. rewrite KX in *. destruct (element_float k' w) as (y & EY & VY); [destruct k'; try discriminate RK; try discriminate FK; auto|exact ELW|]. subst w. exists v, y. split; [exact EV|]. split; [exact VY|]. split; [|rewrite ER, EY; reflexivity].
  intros F. assert (HV : holds_value k' (value v)).
  { destruct (integer (n_kind x)) eqn:KI.
    - unfold k'. rewrite <- (float_for_is _ NF N). apply working_holds; assumption.
    - assert (n_kind x = Bool) as KB by (destruct (n_kind x); try discriminate R; try discriminate NF; try discriminate KI; reflexivity). unfold k'. rewrite KB in *. cbn [function_float].
      destruct (element_int Bool v (or_intror eq_refl) ELV) as (c & -> & _). apply (int_element Bool c (or_intror eq_refl)) in ELV. cbn [int_range fst snd] in ELV.
      cbn [value holds_value fst snd ext_in]. split; [|reflexivity]. apply (int_float 0 1); [lia|lia|lia|apply int_int; lia]. }
  destruct (cast_exact (n_kind x) k' v R (real_numeric _ RK) ELV F HV) as [CV _]. rewrite EY in CV. unfold real_value. rewrite <- CV. reflexivity.
Qed.
(* integers and bools of the others stay what they are *)
Lemma fun_map_unlisted ff fc x : kernels ff fc -> good x -> is_float_kind (n_kind x) = false ->
  exists z, fun_map ff fc false x = Ok z /\ good z /\ n_kind z = n_kind x /\ shape_of z = shape_of x /\
    forall idx, inb idx (shape_of x) -> exists v, item_at x idx = Some v /\ element (n_kind x) v /\ item_at z idx = Some (fun_out ff fc (n_kind x) v).
Proof. intros HK G _. exact (fun_plain_spec ff fc HK x G). Qed.

(* ---- leaving the real numbers ------------------------------------------------------- *)
Lemma compare_whole k v c : real k = true -> element k v -> -1 <= c <= 1 ->
  ext_compare (float_value (as_f64 v)) (Fin (c * one)) = ext_compare (real_value v) (Fin (c * one)).
Proof.
  intros R E HC. assert (fits v \/ exists z, v = SInt z /\ 2 ^ 53 <= Z.abs z) as [F|(z & -> & HZ)].
  { destruct v as [z|x|a b]; [|left; apply (narrow_fits k); [exact R|destruct k; try discriminate R; try contradiction; reflexivity|exact E]|left; destruct k; try discriminate R; contradiction].
    destruct (Z.lt_ge_cases (Z.abs z) (2 ^ 53)) as [L|L]; [left|right; exists z; auto].
    unfold fits. cbn [real_value value fst ext_in]. apply (int_float (- 2 ^ 53 + 1) (2 ^ 53 - 1)); [lia|lia|lia|apply int_int; lia]. }
  - rewrite (proj1 (as_f64_value k v R E F)). reflexivity.
  - destruct (as_f64_rounded k (SInt z) R E) as [H _]. unfold real_value in *. cbn [value fst] in *. pose proof one_pos as HO.
    assert (HH : forall s, s = 1 \/ s = -1 -> fmt_holds 53 1024 (s * 2 ^ 52 * one)).
    { intros s HS. apply (int_float (- 2 ^ 53 + 1) (2 ^ 53 - 1)); [lia|lia|vm_compute; split; discriminate|apply int_int; lia]. }
    destruct (float_value (as_f64 (SInt z))) as [|s|r]; cbn [fmt_rounded] in H; [contradiction| |].
    + destruct H as [_ H]. cbn [ext_compare]. f_equal. generalize dependent one. intros o H HO _. destruct s.
      * symmetry. apply Z.compare_lt_iff. assert (z * o < 0) by (apply H; reflexivity). nia.
      * symmetry. apply Z.compare_gt_iff. assert (~ z * o < 0) by (intros Q; apply H in Q; discriminate). nia.
    + destruct H as [_ [_ H]]. cbn [ext_compare]. f_equal. assert (0 < z \/ z < 0) as [P|P] by lia.
      * destruct (H _ (HH 1 (or_introl eq_refl))) as [H' _]. revert H'. clear H HH E. generalize dependent one. intros o HO H'.
        assert (2 ^ 52 * o <= r) by nia. transitivity Gt; [apply Z.compare_gt_iff; nia|symmetry; apply Z.compare_gt_iff; nia].
      * destruct (H _ (HH (-1) (or_intror eq_refl))) as [H' _]. revert H'. clear H HH E. generalize dependent one. intros o HO H'.
        assert (r <= - 2 ^ 52 * o) by nia. transitivity Lt; [apply Z.compare_lt_iff; nia|symmetry; apply Z.compare_lt_iff; nia].
Qed.
Lemma is_outside_value k d v : real k = true -> element k v -> (is_outside d v = true <-> outside d (real_value v)).
Proof.
  intros R E. pose proof (proj2 (as_f64_rounded k v R E)) as V.
  assert (C : forall c, -1 <= c <= 1 -> SFcompare (as_f64 v) (f64_int c) = ext_compare (real_value v) (Fin (c * one)) /\
                        SFcompare (f64_int c) (as_f64 v) = option_map CompOpp (ext_compare (real_value v) (Fin (c * one)))).
  { intros c HC. assert (VC : valid_binary 53 1024 (f64_int c) = true /\ float_value (f64_int c) = Fin (c * one)).
    { assert (c = -1 \/ c = 0 \/ c = 1) as [-> |[-> | ->]] by lia; split; vm_compute; reflexivity. } destruct VC as [VC EC].
    rewrite !(compare_value 53 1024) by (assumption || lia || (vm_compute; discriminate)). rewrite EC. rewrite (ext_antisym (float_value (as_f64 v)) (Fin (c * one))), (compare_whole k v c) by assumption. split; reflexivity. }
  unfold is_outside, outside, SFltb, SFleb. change (S754_zero false) with (f64_int 0).
  destruct (C 0 ltac:(lia)) as [C0 _], (C 1 ltac:(lia)) as [_ C1], (C (-1) ltac:(lia)) as [CM _].
  change (Fin (- one)) with (Fin (-1 * one)). change (Fin one) with (Fin (1 * one)). change (Fin 0) with (Fin (0 * one)).
  destruct d; rewrite ?C0, ?C1, ?CM.
  - destruct (ext_compare (real_value v) (Fin (0 * one))) as [[]|]; split; congruence.
  - destruct (ext_compare (real_value v) (Fin (-1 * one))) as [[]|], (ext_compare (real_value v) (Fin (1 * one))) as [[]|]; cbn; split; intuition congruence.
  - destruct (ext_compare (real_value v) (Fin (-1 * one))) as [[]|], (ext_compare (real_value v) (Fin (1 * one))) as [[]|]; cbn; split; intuition congruence.
Qed.
(* an element outside the domain *)
Definition leaves (d : domain) (x : narr) : Prop := exists idx v, inb idx (shape_of x) /\ item_at x idx = Some v /\ outside d (real_value v).
Lemma has_outside_spec d x : good x -> real (n_kind x) = true -> exists b, has_outside d x = Ok b /\ (b = true <-> leaves d x).
Proof.
  intros G R. pose proof G as (N & W & _ & _). unfold has_outside.
  assert (HM : has_outside d x = bind (trait_map (fun v => Ok (is_outside d v)) (n_buf x) (n_arr x)) (fun l => Ok (existsb (fun b => b) l))).
  { unfold has_outside, trait_map. destruct (Nat.eqb (size (n_arr x)) 0); reflexivity. }
  unfold has_outside in HM. rewrite HM. rewrite trait_map_spec by exact W.
  set (g := fun idx => match get (n_buf x) (n_arr x) idx with Some v => is_outside d v | None => false end).
  rewrite (mapM_total _ g).
  2: { intros idx I. apply in_all_idx in I. destruct (good_item x idx G I) as (v & EV & _). unfold item_at in EV. unfold lift1, g. rewrite EV. reflexivity. }
  cbn [bind]. eexists. split; [reflexivity|]. rewrite existsb_exists. split.
  - intros (b & HB & ->). apply in_map_iff in HB as (idx & EB & I). apply in_all_idx in I. destruct (good_item x idx G I) as (v & EV & ELV). exists idx, v. split; [exact I|]. split; [exact EV|].
    unfold g in EB. unfold item_at in EV. rewrite EV in EB. apply (is_outside_value (n_kind x)); assumption.
  - intros (idx & v & I & EV & HO). exists true. split; [|reflexivity]. apply in_map_iff. exists idx. split; [|apply in_all_idx; exact I].
    destruct (good_item x idx G I) as (v' & EV' & ELV). assert (v' = v) as -> by congruence. unfold g. unfold item_at in EV. rewrite EV. apply (is_outside_value (n_kind x)); assumption.
Qed.
(* real arrays: within the domain the plain function, otherwise the complex one on every element *)
Lemma fun_extended_within ff fc listed d x : good x -> real (n_kind x) = true -> ~ leaves d x -> fun_extended ff fc listed d x = fun_map ff fc listed x.
Proof.
  intros G R HL. unfold fun_extended. assert (is_complex_kind (n_kind x) = false) as -> by (destruct (n_kind x); try discriminate R; reflexivity).
  destruct (has_outside_spec d x G R) as ([|] & -> & HB); cbn [bind]; [|reflexivity]. exfalso. apply HL, HB. reflexivity.
Qed.
Lemma fun_extended_outside ff fc listed d x : kernels ff fc -> good x -> real (n_kind x) = true -> leaves d x ->
  exists z, fun_extended ff fc listed d x = Ok z /\ good z /\ n_kind z = function_complex (n_kind x) /\ shape_of z = shape_of x /\
    forall idx, inb idx (shape_of x) -> exists v y, item_at x idx = Some v /\ valid_in (function_complex (n_kind x)) y /\
      (fits v -> float_value y = real_value v) /\
      item_at z idx = Some (SCpx (fst (fc (function_complex (n_kind x)) (y, S754_zero false))) (snd (fc (function_complex (n_kind x)) (y, S754_zero false)))).
Proof.
  intros HK G R HL. unfold fun_extended. assert (is_complex_kind (n_kind x) = false) as -> by (destruct (n_kind x); try discriminate R; reflexivity).
  destruct (has_outside_spec d x G R) as ([|] & -> & HB); cbn [bind]; [|apply HB in HL; discriminate].
  assert (complex_dtype (n_kind x) = function_complex (n_kind x)) as -> by (destruct (n_kind x); try discriminate R; reflexivity). set (k' := function_complex (n_kind x)).
  assert (RK : numeric k' = true /\ is_complex_kind k' = true /\ is_float_kind k' = true /\ kind_eqb (n_kind x) k' = false) by (unfold k'; destruct (n_kind x); try discriminate R; repeat split).
  destruct RK as (NK & CK & FK & NE). destruct (astype_good' x k' G R NK NE) as (x' & EX & GX & KX & SX & HX). rewrite EX. cbn [bind].
  rewrite fun_map_float by (rewrite KX; exact FK).
  destruct (fun_plain_spec ff fc HK x' GX) as (z & EZ & GZ & KZ & SZ & HZ). exists z. split; [exact EZ|]. split; [exact GZ|]. split; [congruence|]. split; [congruence|].
  intros idx I. destruct (good_item x idx G I) as (v & EV & ELV). rewrite <- SX in I. destruct (HZ idx I) as (w & EW & ELW & ER). rewrite SX in I. rewrite (HX idx I), EV in EW. cbn [option_map] in EW. injection EW as EW.
  unfold conv in EW. rewrite NE in EW. rewrite KX in *.
  assert (exists y, w = SCpx y (S754_zero false)) as [y EY] by (rewrite <- EW; unfold cast; clear - CK; clearbody k'; destruct k'; try discriminate CK; cbn [write_f64]; eexists; reflexivity).
  subst w. exists v, y. split; [exact EV|]. rewrite EY in ELW. split; [clear - ELW CK; clearbody k'; destruct k'; try discriminate CK; apply ELW|]. split; [|rewrite ER, EY; reflexivity].
  intros F. assert (HV : holds_value k' (value v)).
  { rewrite (element_value _ v R ELV). pose proof (element_holds _ v (proj1 G) ELV) as HE. rewrite (element_value _ v R ELV) in HE. unfold fits in F. unfold k'. destruct (n_kind x); try discriminate R; cbn [function_complex holds_value fst snd ext_in] in *; (split; [first [exact F|apply HE]|apply float_zero; lia]). }
  destruct (cast_exact (n_kind x) k' v R NK ELV F HV) as [CV _]. rewrite EY in CV. cbn [value] in CV. unfold real_value. rewrite <- CV. reflexivity.
Qed.
Lemma fun_extended_complex ff fc listed d x : kernels ff fc -> good x -> is_complex_kind (n_kind x) = true ->
  exists z, fun_extended ff fc listed d x = Ok z /\ good z /\ n_kind z = n_kind x /\ shape_of z = shape_of x /\
    forall idx, inb idx (shape_of x) -> exists v, item_at x idx = Some v /\ element (n_kind x) v /\ item_at z idx = Some (fun_out ff fc (n_kind x) v).
Proof.
  intros HK G C. unfold fun_extended. rewrite C. cbn [bind]. assert (complex_dtype (n_kind x) = n_kind x) as -> by (destruct (n_kind x); try discriminate C; reflexivity).
  destruct (astype_spec x (n_kind x) G (proj1 G)) as (y & EY & KY & SY & WY & LY & HY). rewrite EY. cbn [bind].
  assert (CV : forall v, conv (n_kind x) x v = v) by (intros v; unfold conv; rewrite kind_eqb_refl; reflexivity).
  assert (HI : forall idx, inb idx (shape_of x) -> item_at y idx = item_at x idx) by (intros idx I; rewrite (HY idx I); destruct (item_at x idx); cbn [option_map]; rewrite ?CV; reflexivity).
  assert (GY : good y).
  { split; [rewrite KY; apply G|]. split; [exact WY|]. split; [|change (a_shape (n_arr y)) with (shape_of y); rewrite SY; apply G].
    assert (AY : n_arr y = fresh (shape_of y) (itemsize (n_kind x))).
    { unfold astype in EY. rewrite kind_eqb_refl in EY. match type of EY with bind ?m _ = _ => destruct m as [l| | |]; try discriminate EY end. cbn [bind] in EY. injection EY as <-. reflexivity. }
    apply Forall_forall. intros v Hv. apply In_nth_error in Hv as [i Hi]. assert (i < prod (shape_of y))%nat as Li by (rewrite SY, <- LY; apply nth_error_Some; congruence).
    pose proof (unrank_inb _ _ Li) as I. assert (item_at y (unrank (shape_of y) i) = Some v) as EI.
    { unfold item_at. rewrite AY, fresh_get, rank_unrank by (assumption || (apply item_pos, G)). exact Hi. }
    rewrite HI in EI by (rewrite <- SY; exact I). rewrite KY. exact (good_element x _ v G EI). }
  rewrite fun_map_float by (rewrite KY; destruct (n_kind x); try discriminate C; reflexivity).
  destruct (fun_plain_spec ff fc HK y GY) as (z & EZ & GZ & KZ & SZ & HZ). exists z. split; [exact EZ|]. split; [exact GZ|]. split; [congruence|]. split; [congruence|].
  intros idx I. destruct (HZ idx ltac:(rewrite SY; exact I)) as (v & EV & ELV & ER). exists v. rewrite KY in *. rewrite HI in EV by exact I. auto.
Qed.
