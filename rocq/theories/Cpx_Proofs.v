(* Tests of numbers, parts of complex numbers, nan_to_num. *)
From Coq Require Import SpecFloat.
From Verif Require Import Base Lists Int_Model Int_Proofs F64_Model Arr_Spec Arr_Model Arr_Wf Arr_Proofs Wf_Check Bcast_Model Bcast_Proofs Copy_Model Copy_Proofs Idx_Model Idx_Assign
  Elem_Model Elem_Proofs Rng_Model Date_Model New_Model Promo_Spec Promo_Model Promo_Proofs Promo_Props SF_Proofs SF_Arith SF_Cmp Cast_Spec Cast_Model Cast_SF Cast_Proofs Cast_Laws Cast_Props
  Close_Proofs Bitw_Spec Bitw_Model Bitw_Proofs Rnd_Spec Rnd_Model Rnd_Proofs Rnd_Round Rnd_Props Ari_Spec SF_Round Ari_Model Ari_Proofs Ari_Ord Ari_Next Cpx_Spec Cpx_Model.
Local Open Scope Z_scope.

(* ---- one float ------------------------------------------------------------------- *)
Lemma is_infinite_value x : is_infinite x = true <-> infinite (float_value x).
Proof. destruct x; cbn; split; try discriminate; try (intros [t H]; discriminate H); intros _; [eexists; reflexivity|reflexivity]. Qed.
Lemma is_finite_value x : is_finite x = true <-> finite (float_value x).
Proof. destruct x; cbn; split; try discriminate; try (intros [t H]; discriminate H); intros _; solve [eexists; reflexivity|reflexivity]. Qed.
Lemma eq_inf x s : SFeqb x (S754_infinity s) = true <-> float_value x = Inf s.
Proof. destruct x as [t|t| |t m e]; cbn; try destruct t, s; split; try discriminate; try congruence; reflexivity. Qed.
Lemma eq_zero x prec emax : a_format prec emax -> valid_binary prec emax x = true -> (SFeqb x zero = true <-> float_value x = Fin 0).
Proof.
  intros HF V. split; intros H.
  - destruct x as [t|t| |t m e]; cbn in H; try destruct t; try discriminate H; reflexivity.
  - destruct (float_zero_value x H prec emax HF V) as [s ->]. destruct s; reflexivity.
Qed.
Lemma sign_bit_value x prec emax : a_format prec emax -> valid_binary prec emax x = true ->
  (sign_bit x = true <-> ext_lt (float_value x) (Fin 0) \/ x = S754_zero true).
Proof.
  intros HF V. destruct (is_nan x) eqn:N.
  - destruct x; try discriminate N. cbn. split; [discriminate|]. intros [H|H]; [discriminate H|discriminate H].
  - destruct x as [s|s| |s m e]; try discriminate N.
    + cbn. split; [intros ->; right; reflexivity|]. intros [H|H]; [discriminate H|congruence].
    + destruct s; cbn [sign_bit]; split; intros H; try discriminate H; try reflexivity; [left; reflexivity|destruct H as [H|H]; discriminate H].
    + assert (float_value (S754_finite s m e) <> Fin 0) as NZ by (intros H; destruct (float_zero_value _ H prec emax HF V) as [t Q]; discriminate Q).
      pose proof (sign_of_value _ prec emax HF V NZ N) as H. cbn [sign_bit] in *. destruct s.
      * split; auto.
      * split; [discriminate|]. intros [A|A]; [|discriminate A]. exfalso. unfold ext_lt in *. rewrite ext_antisym, A in H. discriminate H.
Qed.

(* the formats of the parts *)
Lemma part_format k : a_format (fst (part k)) (snd (part k)).
Proof. destruct k; try exact f64_format; exact f32_format. Qed.
Lemma format_format k : a_format (fst (format k)) (snd (format k)).
Proof. destruct k; try exact f64_format; try exact f32_format; exact f16_format. Qed.
Lemma element_cpx k v : is_complex_kind k = true -> element k v -> exists x y, v = SCpx x y /\ valid_in k x /\ valid_in k y.
Proof. intros C E. destruct k; try discriminate C; destruct v as [|?|x y]; try contradiction; exists x, y; split; try reflexivity; exact E. Qed.
Lemma cpx_element k x y : is_complex_kind k = true -> valid_in k x -> valid_in k y -> element k (SCpx x y).
Proof. intros C VX VY. destruct k; try discriminate C; split; assumption. Qed.
Lemma widen k x : valid_in k x -> float_value (to_format 53 1024 x) = float_value x /\ valid_binary 53 1024 (to_format 53 1024 x) = true.
Proof.
  intros V. pose proof (format_format k) as HF. pose proof HF as (H1 & H2 & H3). unfold valid_in in V.
  apply (to_format_exact (fst (format k)) (snd (format k))); first [exact V|exact H2|lia|unfold SpecFloat.emin; lia|idtac].
  assert (0 < fst (format k)) as H0 by lia. pose proof (valid_holds _ _ x H0 V H3) as H. destruct (float_value x) as [| |z]; try exact I. cbn [ext_in] in *.
  destruct H as (m & e & HM & HE & ->). exists m, e. split; [|split; [|reflexivity]].
  - assert (2 ^ fst (format k) <= 2 ^ 53) by (apply Z.pow_le_mono_r; destruct k; cbn; lia). lia.
  - unfold SpecFloat.emin in *. destruct k; cbn [format fst snd] in HE; lia.
Qed.
(* read as doubles and stored again: the same number *)
Lemma stored k x : is_complex_kind k = true -> valid_in k x -> float_value (store k (to_format 53 1024 x)) = float_value x /\ valid_in k (store k (to_format 53 1024 x)).
Proof.
  intros C V. destruct (widen k x V) as [A B]. destruct k; try discriminate C; cbn [store].
  - pose proof (valid_holds 24 128 x ltac:(lia) V ltac:(unfold SpecFloat.emin; lia)) as H. rewrite <- A in H.
    destruct (to_format_exact 53 1024 24 128 _ ltac:(lia) ltac:(unfold SpecFloat.emin; lia) ltac:(lia) ltac:(unfold SpecFloat.emin; lia) B H) as [D E]. split; [congruence|exact E].
  - split; [exact A|exact B].
Qed.
Lemma stored_opp k x : is_complex_kind k = true -> valid_in k x -> float_value (store k (SFopp (to_format 53 1024 x))) = ext_opp (float_value x) /\ valid_in k (store k (SFopp (to_format 53 1024 x))).
Proof.
  intros C V. assert (SFopp (to_format 53 1024 x) = to_format 53 1024 (SFopp x) \/ True) as _ by auto.
  destruct (widen k x V) as [A B]. assert (valid_binary 53 1024 (SFopp (to_format 53 1024 x)) = true) as B' by (rewrite opp_valid; exact B).
  assert (float_value (SFopp (to_format 53 1024 x)) = ext_opp (float_value x)) as A' by (rewrite opp_value, A; reflexivity).
  destruct k; try discriminate C; cbn [store].
  - pose proof (valid_holds 24 128 x ltac:(lia) V ltac:(unfold SpecFloat.emin; lia)) as H.
    assert (ext_in (fmt_holds 24 128) (ext_opp (float_value x))) as H' by (destruct (float_value x); try exact I; apply fmt_opp; exact H). rewrite <- A' in H'.
    destruct (to_format_exact 53 1024 24 128 _ ltac:(lia) ltac:(unfold SpecFloat.emin; lia) ltac:(lia) ltac:(unfold SpecFloat.emin; lia) B' H') as [D E]. split; [congruence|exact E].
  - split; [exact A'|exact B'].
Qed.

Lemma map_good' k' (f : scalar -> res scalar) (g : scalar -> scalar) x m : m = mapM (lift1 f (n_buf x) (n_arr x)) (all_idx (shape_of x)) -> good x -> numeric k' = true ->
  (forall v, element (n_kind x) v -> f v = Ok (g v) /\ element k' (g v)) ->
  exists z, m = Ok (n_buf z) /\ z = mkN k' (n_buf z) (fresh (shape_of x) (itemsize k')) /\ good z /\
    forall idx, inb idx (shape_of x) -> exists v, item_at x idx = Some v /\ element (n_kind x) v /\ item_at z idx = Some (g v).
Proof. intros E G N H. exact (map_good k' f g x m G N H E). Qed.

(* ---- predicates --------------------------------------------------------------------- *)
Definition pred_of (t : test) : pred := match t with TNan => PNan | TInf => PInf | TFinite => PFinite | TNegInf => PNegInf | TPosInf => PPosInf end.
Lemma pair_eq (p : number) a b : p = (a, b) <-> fst p = a /\ snd p = b.
Proof. destruct p. cbn. split; [intros H; injection H; auto|intros [-> ->]; reflexivity]. Qed.
Lemma pred_elem_value k t v : numeric k = true -> element k v -> (pred_elem (pred_of t) v = true <-> test_holds t (value v)).
Proof.
  intros N EV. destruct v as [z|x|x y].
  - destruct t; cbn; split; try discriminate; try tauto; try (intros [H|H]; discriminate H); try (intros [[s H]|[s H]]; discriminate H); intros _; split; eexists; reflexivity.
  - destruct t; cbn [pred_of pred_elem test_holds value fst snd].
    + rewrite is_nan_value. split; [auto|]. intros [H|H]; [exact H|discriminate H].
    + rewrite is_infinite_value. split; [auto|]. intros [H|[s H]]; [exact H|discriminate H].
    + rewrite is_finite_value. split; [intros H; split; [exact H|eexists; reflexivity]|tauto].
    + rewrite eq_inf, pair_eq. cbn. tauto.
    + rewrite eq_inf, pair_eq. cbn. tauto.
  - assert (is_complex_kind k = true) as C by (destruct k; try discriminate N; try contradiction; reflexivity). destruct (element_cpx k _ C EV) as (x' & y' & E & VX & VY). injection E as <- <-.
    destruct t; cbn [pred_of pred_elem test_holds value fst snd].
    + rewrite orb_true_iff, !is_nan_value. reflexivity.
    + rewrite orb_true_iff, !is_infinite_value. reflexivity.
    + rewrite andb_true_iff, !is_finite_value. reflexivity.
    + rewrite andb_true_iff, eq_inf, (eq_zero y _ _ (format_format k) VY), pair_eq. reflexivity.
    + rewrite andb_true_iff, eq_inf, (eq_zero y _ _ (format_format k) VY), pair_eq. reflexivity.
Qed.
Lemma pred_sign_value k v : numeric k = true -> element k v -> (pred_elem PSign v = true <-> sign_set v).
Proof.
  intros N EV. unfold sign_set. destruct v as [z|x|x y].
  - unfold real_value. cbn [pred_elem value fst negative_zero]. rewrite fin_lt. pose proof one_pos. rewrite Z.ltb_lt. split; [intros; left; nia|intros [H'|[]]; nia].
  - assert (valid_in k x) as V by (destruct k; try discriminate N; try contradiction; exact EV). unfold real_value. cbn [pred_elem value fst].
    rewrite (sign_bit_value x _ _ (format_format k) V). destruct x as [s|s| |s m e]; cbn [negative_zero]; try (destruct s); split; intros [H|H]; auto; try discriminate H; try contradiction; right; first [exact I|reflexivity].
  - assert (valid_in k x) as V by (destruct k; try discriminate N; try contradiction; apply EV). unfold real_value. cbn [pred_elem value fst].
    rewrite (sign_bit_value x _ _ (format_format k) V). destruct x as [s|s| |s m e]; cbn [negative_zero]; try (destruct s); split; intros [H|H]; auto; try discriminate H; try contradiction; right; first [exact I|reflexivity].
Qed.

Lemma bit01_element b : element Bool (SInt (bit01 b)).
Proof. apply int_element; [right; reflexivity|]. destruct b; cbn; lia. Qed.
Lemma predicate_spec p x : good x -> n_kind x <> Bool ->
  exists z, predicate p x = Ok z /\ good z /\ n_kind z = Bool /\ shape_of z = shape_of x /\
    forall idx, inb idx (shape_of x) -> exists v, item_at x idx = Some v /\ element (n_kind x) v /\ item_at z idx = Some (SInt (bit01 (pred_elem p v))).
Proof.
  intros G NB. destruct (map_good' Bool (fun v => Ok (SInt (bit01 (pred_elem p v)))) (fun v => SInt (bit01 (pred_elem p v))) x _ (dispatch_map_spec (fun v => Ok (SInt (bit01 (pred_elem p v)))) _ _ (proj1 (proj2 G))) G eq_refl) as (z & E & EZ & GZ & HZ).
  - intros v _. split; [reflexivity|apply bit01_element].
  - exists z. split; [|split; [exact GZ|split; [rewrite EZ; reflexivity|split; [rewrite EZ; reflexivity|exact HZ]]]].
    unfold predicate. destruct (n_kind x); try congruence; rewrite E; cbn [bind]; f_equal; symmetry; exact EZ.
Qed.
Lemma predicate_bool p x : good x -> n_kind x = Bool ->
  exists z, predicate p x = Ok z /\ good z /\ n_kind z = Bool /\ shape_of z = shape_of x /\ forall idx, inb idx (shape_of x) -> item_at z idx = item_at x idx.
Proof.
  intros G B. destruct (map_good' Bool (fun v => Ok v) (fun v => v) x _ (trait_map_spec (fun v => Ok v) _ _ (proj1 (proj2 G))) G eq_refl) as (z & E & EZ & GZ & HZ).
  - intros v EV. rewrite B in EV. split; [reflexivity|exact EV].
  - exists z. split; [|split; [exact GZ|split; [rewrite EZ; reflexivity|split; [rewrite EZ; reflexivity|]]]].
    + unfold predicate. rewrite B, E. cbn [bind]. f_equal. symmetry. exact EZ.
    + intros idx Hi. destruct (HZ idx Hi) as (v & A & _ & C). congruence.
Qed.

(* ---- isreal, iscomplex ------------------------------------------------------------------ *)
Lemma zero_one_value k b : float_value (zero_one k b) = Fin ((if b then 1 else 0) * one) /\ valid_in k (zero_one k b).
Proof. unfold zero_one. destruct b; [apply float_one_value; apply format_format|split; reflexivity]. Qed.
Lemma reality_elem_value k r v : numeric k = true -> k <> Bool -> element k v ->
  element k (reality_elem k r v) /\ exists b : bool, value (reality_elem k r v) = (Fin ((if b then 1 else 0) * one), Fin 0) /\ (b = r <-> snd (value v) = Fin 0).
Proof.
  intros N NB EV. destruct v as [z|x|x y].
  - assert (reality_elem k r (SInt z) = SInt (bit01 r)) as -> by (destruct k; try congruence; reflexivity). split.
    + assert (is_integer k = true) as K by (destruct k; try discriminate N; try contradiction; try congruence; reflexivity). apply int_element; [left; exact K|]. destruct k; try discriminate K; destruct r; cbn; lia.
    + exists r. cbn [value snd]. split; [destruct r; reflexivity|tauto].
  - cbn [reality_elem]. destruct (zero_one_value k r) as [A B]. split; [destruct k; try discriminate N; try contradiction; exact B|]. exists r. cbn [value snd]. rewrite A. tauto.
  - cbn [reality_elem value fst snd]. assert (is_complex_kind k = true) as C by (destruct k; try discriminate N; try contradiction; reflexivity). destruct (element_cpx k _ C EV) as (x' & y' & E & VX & VY). injection E as <- <-.
    destruct (zero_one_value k (Bool.eqb r (SFeqb y zero))) as [A B]. split; [apply cpx_element; [exact C|exact B|reflexivity]|]. exists (Bool.eqb r (SFeqb y zero)). rewrite A. split; [reflexivity|].
    rewrite <- (eq_zero y _ _ (format_format k) VY). destruct r, (SFeqb y zero); cbn; split; congruence.
Qed.
Lemma reality_spec r x : good x ->
  exists z, reality r x = Ok z /\ good z /\ n_kind z = n_kind x /\ shape_of z = shape_of x /\
    forall idx, inb idx (shape_of x) -> exists v, item_at x idx = Some v /\ element (n_kind x) v /\ item_at z idx = Some (reality_elem (n_kind x) r v).
Proof.
  intros G. destruct (map_good' (n_kind x) (fun v => Ok (reality_elem (n_kind x) r v)) (reality_elem (n_kind x) r) x _ (trait_map_spec (fun v => Ok (reality_elem (n_kind x) r v)) _ _ (proj1 (proj2 G))) G (proj1 G)) as (z & E & EZ & GZ & HZ).
  - intros v EV. split; [reflexivity|]. assert (n_kind x = Bool \/ n_kind x <> Bool) as [B|NB] by (destruct (n_kind x); auto; right; discriminate).
    + rewrite B in *. destruct v; try contradiction. exact EV.
    + apply reality_elem_value; [apply G|exact NB|exact EV].
  - exists z. split; [|split; [exact GZ|split; [rewrite EZ; reflexivity|split; [rewrite EZ; reflexivity|exact HZ]]]].
    unfold reality. cbv zeta. rewrite E. cbn [bind]. f_equal. symmetry. exact EZ.
Qed.

(* ---- parts ------------------------------------------------------------------------------ *)
Lemma each_offset_spec {W} (f : scalar -> res W) x : good x -> each_offset f x = mapM (lift1 f (n_buf x) (n_arr x)) (all_idx (shape_of x)).
Proof. intros (_ & (_ & _ & _ & HL & _) & _). unfold each_offset, iter_offsets. rewrite strided_offsets_spec, mapM_map by exact HL. reflexivity. Qed.
Lemma copy_spec x : good x -> exists z, copy x = Ok z /\ good z /\ n_kind z = n_kind x /\ shape_of z = shape_of x /\
  forall idx, inb idx (shape_of x) -> item_at z idx = item_at x idx.
Proof.
  intros G. pose proof G as (N & W & FE & HB). destruct (astype_spec x (n_kind x) G N) as (y & EY & KY & SY & WY & LY & HY).
  unfold astype in EY. rewrite kind_eqb_refl in EY. exists y. split; [exact EY|]. split; [|split; [exact KY|split; [exact SY|]]].
  - split; [rewrite KY; exact N|]. split; [exact WY|]. split; [|change (a_shape (n_arr y)) with (shape_of y); rewrite SY; exact HB].
    destruct (copy_buf_spec (n_buf x) (n_arr x) (match n_kind x with Float64 | Int64 => true | _ => false end) W) as (vals & E & EE & HL). rewrite E in EY. cbn [bind] in EY. injection EY as <-. cbn [n_kind n_buf].
    apply Forall_forall. intros v Hv. assert (In (Some v) (elems (n_buf x) (n_arr x))) as Hs by (rewrite EE; apply in_map; exact Hv). unfold elems in Hs. apply in_map_iff in Hs as (idx & Hg & _). apply (good_element x idx v G Hg).
  - intros idx Hi. rewrite (HY idx Hi). unfold conv. rewrite kind_eqb_refl. destruct (item_at x idx); reflexivity.
Qed.
Lemma float_of_kind k : is_complex_kind k = true -> float_of k = part_kind k /\ numeric (part_kind k) = true.
Proof. destruct k; try discriminate; split; reflexivity. Qed.
Lemma part_element k x : is_complex_kind k = true -> valid_in k x -> element (part_kind k) (SFlt x).
Proof. destruct k; try discriminate; intros _ V; exact V. Qed.

(* the three functions, one statement: h gives the value of the new element *)
Lemma parts_spec (f : narr -> res narr) (g : kind -> scalar -> scalar) (kf : kind -> kind) x (P : number -> number) : good x ->
  (is_complex_kind (n_kind x) = true -> f x = bind (each_offset (fun v => Ok (g (n_kind x) v)) x) (fun vals => Ok (mkN (kf (n_kind x)) vals (fresh (shape_of x) (itemsize (kf (n_kind x))))))) ->
  (is_complex_kind (n_kind x) = true -> numeric (kf (n_kind x)) = true) ->
  (is_complex_kind (n_kind x) = true -> forall v, element (n_kind x) v -> element (kf (n_kind x)) (g (n_kind x) v) /\ value (g (n_kind x) v) = P (value v)) ->
  (is_complex_kind (n_kind x) = false -> exists z, f x = Ok z /\ good z /\ n_kind z = n_kind x /\ shape_of z = shape_of x /\ forall idx, inb idx (shape_of x) -> exists v r, item_at x idx = Some v /\ item_at z idx = Some r /\ value r = P (value v)) ->
  kf (n_kind x) = (if is_complex_kind (n_kind x) then kf (n_kind x) else n_kind x) ->
  exists z, f x = Ok z /\ good z /\ n_kind z = kf (n_kind x) /\ shape_of z = shape_of x /\
    forall idx, inb idx (shape_of x) -> exists v r, item_at x idx = Some v /\ item_at z idx = Some r /\ value r = P (value v).
Proof.
  intros G EF NF HG HR HK. destruct (is_complex_kind (n_kind x)) eqn:C.
  - destruct (map_good' (kf (n_kind x)) (fun v => Ok (g (n_kind x) v)) (g (n_kind x)) x _ (each_offset_spec (fun v => Ok (g (n_kind x) v)) x G) G (NF eq_refl)) as (z & E & EZ & GZ & HZ).
    + intros v EV. split; [reflexivity|]. apply (HG eq_refl v EV).
    + exists z. split; [|split; [exact GZ|split; [rewrite EZ; reflexivity|split; [rewrite EZ; reflexivity|]]]].
      * rewrite (EF eq_refl), E. cbn [bind]. f_equal. symmetry. exact EZ.
      * intros idx Hi. destruct (HZ idx Hi) as (v & A & EV & B). exists v, (g (n_kind x) v). split; [exact A|]. split; [exact B|]. apply (HG eq_refl v EV).
  - rewrite HK. exact (HR eq_refl).
Qed.

Lemma real_spec x : good x -> exists z, real_part x = Ok z /\ good z /\ n_kind z = part_kind (n_kind x) /\ shape_of z = shape_of x /\
  forall idx, inb idx (shape_of x) -> exists v r, item_at x idx = Some v /\ item_at z idx = Some r /\ value r = (fst (value v), Fin 0).
Proof.
  intros G. apply (parts_spec real_part (fun k v => SFlt (store k (fst (read_complex v)))) part_kind x (fun p => (fst p, Fin 0)) G).
  - intros C. unfold real_part. rewrite C. rewrite (proj1 (float_of_kind _ C)). reflexivity.
  - intros C. apply float_of_kind. exact C.
  - intros C v EV. destruct (element_cpx _ _ C EV) as (a & b & -> & VA & VB). cbn [read_complex fst snd value]. destruct (stored _ a C VA) as [A B]. split; [apply part_element; assumption|]. cbn [value]. rewrite A. reflexivity.
  - intros C. destruct (copy_spec x G) as (z & EZ & GZ & KZ & SZ & HZ). exists z. unfold real_part. rewrite C. repeat (split; [assumption|]). intros idx Hi. destruct (good_item x idx G Hi) as (v & Hv & EV).
    exists v, v. split; [exact Hv|]. split; [rewrite (HZ idx Hi); exact Hv|]. destruct v; try reflexivity. destruct (n_kind x); try discriminate C; contradiction.
  - destruct (n_kind x); reflexivity.
Qed.
Lemma conj_spec x : good x -> exists z, conj x = Ok z /\ good z /\ n_kind z = n_kind x /\ shape_of z = shape_of x /\
  forall idx, inb idx (shape_of x) -> exists v r, item_at x idx = Some v /\ item_at z idx = Some r /\ value r = conjugate (value v).
Proof.
  intros G. apply (parts_spec conj (fun k v => SCpx (store k (fst (read_complex v))) (store k (SFopp (snd (read_complex v))))) (fun k => k) x conjugate G).
  - intros C. unfold conj. rewrite C. reflexivity.
  - intros C. apply G.
  - intros C v EV. destruct (element_cpx _ _ C EV) as (a & b & -> & VA & VB). cbn [read_complex fst snd]. destruct (stored _ a C VA) as [A B]. destruct (stored_opp _ b C VB) as [A' B']. split; [apply cpx_element; assumption|]. cbn [value]. rewrite A, A'. reflexivity.
  - intros C. destruct (copy_spec x G) as (z & EZ & GZ & KZ & SZ & HZ). exists z. unfold conj. rewrite C. repeat (split; [assumption|]). intros idx Hi. destruct (good_item x idx G Hi) as (v & Hv & EV).
    exists v, v. split; [exact Hv|]. split; [rewrite (HZ idx Hi); exact Hv|]. destruct v; try reflexivity. destruct (n_kind x); try discriminate C; contradiction.
  - destruct (n_kind x); reflexivity.
Qed.
Lemma zeros_get k sh idx : numeric k = true -> inb idx sh -> get (repeat (zero_item k) (prod sh)) (fresh sh (itemsize k)) idx = Some (zero_item k).
Proof.
  intros N Hi. assert (repeat (zero_item k) (prod sh) = map (fun _ : list nat => zero_item k) (all_idx sh)) as ->.
  { rewrite <- all_idx_length. induction (all_idx sh) as [|a l IH]; [reflexivity|]. cbn. f_equal. exact IH. }
  rewrite map_get by (try apply item_pos; assumption). reflexivity.
Qed.
Lemma zero_item_element k : numeric k = true -> element k (zero_item k) /\ value (zero_item k) = (Fin 0, Fin 0).
Proof.
  intros N. split; [|destruct k; reflexivity]. destruct k; try discriminate N; cbn [zero_item]; try (split; reflexivity); try reflexivity; (apply int_element; [auto|cbn; lia]).
Qed.
Lemma imag_spec x : good x -> exists z, imag_part x = Ok z /\ good z /\ n_kind z = part_kind (n_kind x) /\ shape_of z = shape_of x /\
  forall idx, inb idx (shape_of x) -> exists v r, item_at x idx = Some v /\ item_at z idx = Some r /\ value r = (snd (value v), Fin 0).
Proof.
  intros G. apply (parts_spec imag_part (fun k v => SFlt (store k (snd (read_complex v)))) part_kind x (fun p => (snd p, Fin 0)) G).
  - intros C. unfold imag_part. rewrite C. rewrite (proj1 (float_of_kind _ C)). reflexivity.
  - intros C. apply float_of_kind. exact C.
  - intros C v EV. destruct (element_cpx _ _ C EV) as (a & b & -> & VA & VB). cbn [read_complex fst snd value]. destruct (stored _ b C VB) as [A B]. split; [apply part_element; assumption|]. cbn [value]. rewrite A. reflexivity.
  - intros C. pose proof G as (N & W & FE & HB). destruct (zero_item_element (n_kind x) N) as [EZ VZ]. pose proof (item_pos _ N) as HI. assert (itemsize (n_kind x) <= 16) as HI16 by (destruct (n_kind x); try discriminate N; cbn; lia).
    unfold imag_part. rewrite C. eexists. split; [reflexivity|]. split; [|split; [reflexivity|split; [reflexivity|]]].
    + split; [exact N|]. split; [|split; [|exact HB]].
      * cbn [n_buf n_arr]. apply fresh_wf; [exact HI| |]; rewrite repeat_length; [unfold size; nia|reflexivity].
      * cbn [n_buf n_kind]. apply Forall_forall. intros v Hv. apply repeat_spec in Hv. subst v. exact EZ.
    + intros idx Hi. destruct (good_item x idx G Hi) as (v & Hv & EV). exists v, (zero_item (n_kind x)). split; [exact Hv|]. split; [unfold item_at; cbn [n_buf n_arr]; apply zeros_get; [exact N|exact Hi]|].
      rewrite VZ. destruct v; try reflexivity. destruct (n_kind x); try discriminate C; contradiction.
  - destruct (n_kind x); reflexivity.
Qed.

(* ---- nan_to_num ---------------------------------------------------------------------------- *)
Lemma max_of_value prec emax s : a_format prec emax -> prec < emax ->
  float_value (float_max_of prec emax s) = Fin ((if s then -1 else 1) * ((2 ^ prec - 1) * 2 ^ (emax - prec + 1074))) /\ valid_binary prec emax (float_max_of prec emax s) = true.
Proof.
  intros (H1 & H2 & H3) HE. assert (1 < 2 ^ prec) as HP by (apply Z.pow_gt_1; lia). unfold float_max_of. split.
  - cbn [float_value]. rewrite Z2Pos.id by lia. f_equal. destruct s; cbn [cond_Zopp]; ring.
  - cbn [valid_binary]. unfold bounded. apply andb_true_iff. split.
    + unfold canonical_mantissa. apply Zeq_is_eq_bool. unfold fexp. assert (Zpos (digits2_pos (Z.to_pos (2 ^ prec - 1))) = prec) as ->.
      { transitivity (Zdigits2 (2 ^ prec - 1)); [destruct (2 ^ prec - 1) eqn:E; try lia; reflexivity|]. apply zdigits_unique; [|lia].
        assert (2 ^ prec = 2 * 2 ^ (prec - 1)) as Q by (rewrite <- Z.pow_succ_r by lia; f_equal; lia). assert (0 < 2 ^ (prec - 1)) by (apply Z.pow_pos_nonneg; lia). lia. }
      unfold SpecFloat.emin in *. lia.
    + apply Z.leb_le. lia.
Qed.
Lemma fmt_converted k x : valid_binary 53 1024 x = true -> match k with Float16 | Float32 | Float64 | Complex64 | Complex128 => True | _ => False end ->
  converted_to (part_kind k) (float_value x) (float_value (to_format (fst (format k)) (snd (format k)) x)) /\ valid_in k (to_format (fst (format k)) (snd (format k)) x).
Proof.
  intros V K. destruct (to_format_rounded 53 1024 (fst (format k)) (snd (format k)) x f64_format (format_format k) V) as [A B]. split; [|exact B].
  unfold converted_to. destruct (float_value x) as [|s|z]; try exact A. destruct k; try contradiction; cbn [part_kind]; (apply rounded_kind; [auto|exact A]).
Qed.
Definition option_valid (o : option spec_float) : Prop := match o with Some x => valid_binary 53 1024 x = true | None => True end.
Lemma replace_value k nan pos neg x : match k with Float16 | Float32 | Float64 | Complex64 | Complex128 => True | _ => False end ->
  valid_binary 53 1024 nan = true -> option_valid pos -> option_valid neg -> valid_in k x ->
  let r := replace_part (fst (format k)) (snd (format k)) nan pos neg x in
  replaced (converted_to (part_kind k)) k (float_value nan) (option_map float_value pos) (option_map float_value neg) (float_value x) (float_value r) /\ valid_in k r.
Proof.
  intros K VN VP VM VX. cbv zeta. unfold replace_part. cbv zeta.
  assert (forall s, float_value (float_max_of (fst (format k)) (snd (format k)) s) = Fin ((if s then -1 else 1) * greatest k) /\ valid_in k (float_max_of (fst (format k)) (snd (format k)) s)) as HM.
  { intros s. unfold greatest, valid_in. destruct (max_of_value (fst (format k)) (snd (format k)) s (format_format k)) as [A B]; [destruct k; cbn; lia|]. split; [|exact B]. rewrite A. destruct (format k). reflexivity. }
  destruct x as [s|s| |s m e]; cbn [is_nan is_infinite float_value replaced].
  - split; [reflexivity|exact VX].
  - destruct s; cbn [SFltb SFcompare zero].
    + destruct neg as [p|]; cbn [option_map]; [apply fmt_converted; assumption|]. destruct (HM true) as [A B]. split; [rewrite A; f_equal; lia|exact B].
    + destruct pos as [p|]; cbn [option_map]; [apply fmt_converted; assumption|]. destruct (HM false) as [A B]. split; [rewrite A; f_equal; lia|exact B].
  - apply fmt_converted; assumption.
  - split; [reflexivity|exact VX].
Qed.
Lemma nan_to_num_spec nan pos neg x : good x -> is_float_kind (n_kind x) = true -> valid_binary 53 1024 nan = true -> option_valid pos -> option_valid neg ->
  let R := replaced (converted_to (part_kind (n_kind x))) (n_kind x) (float_value nan) (option_map float_value pos) (option_map float_value neg) in
  exists z, nan_to_num nan pos neg x = Ok z /\ good z /\ n_kind z = n_kind x /\ shape_of z = shape_of x /\
    forall idx, inb idx (shape_of x) -> exists v r, item_at x idx = Some v /\ item_at z idx = Some r /\ element (n_kind x) v /\
      R (fst (value v)) (fst (value r)) /\ (if is_complex_kind (n_kind x) then R (snd (value v)) (snd (value r)) else value r = (fst (value r), Fin 0)).
Proof.
  intros G K VN VP VM R. assert (match n_kind x with Float16 | Float32 | Float64 | Complex64 | Complex128 => True | _ => False end) as KF by (destruct (n_kind x); try discriminate K; exact I).
  set (k := n_kind x) in *. set (rep := replace_part (fst (format k)) (snd (format k)) nan pos neg).
  set (g := fun v => match v with SFlt y => SFlt (rep y) | SCpx _ _ => SCpx (rep (store k (fst (read_complex v)))) (rep (store k (snd (read_complex v)))) | SInt z => SInt z end).
  set (f := fun v => match v with SFlt y => Ok (SFlt (rep y)) | SCpx _ _ => Ok (SCpx (rep (store k (fst (read_complex v)))) (rep (store k (snd (read_complex v))))) | SInt _ => Fault end).
  assert (forall v, element k v -> f v = Ok (g v) /\ element k (g v) /\ R (fst (value v)) (fst (value (g v))) /\ (if is_complex_kind k then R (snd (value v)) (snd (value (g v))) else value (g v) = (fst (value (g v)), Fin 0))) as HG.
  { intros v EV. destruct (is_complex_kind k) eqn:C.
    - destruct (element_cpx k v C EV) as (a & b & -> & VA & VB). split; [reflexivity|]. destruct (stored k a C VA) as [A1 A2]. destruct (stored k b C VB) as [B1 B2].
      destruct (replace_value k nan pos neg _ KF VN VP VM A2) as [P1 P2]. destruct (replace_value k nan pos neg _ KF VN VP VM B2) as [Q1 Q2]. rewrite A1 in P1. rewrite B1 in Q1.
      split; [apply cpx_element; assumption|]. split; [exact P1|exact Q1].
    - assert (k = Float16 \/ k = Float32 \/ k = Float64) as K3 by (destruct k; try discriminate K; try discriminate C; auto). destruct (element_float k v K3 EV) as (a & -> & VA). split; [reflexivity|].
      destruct (replace_value k nan pos neg _ KF VN VP VM VA) as [P1 P2]. split; [apply float_element; assumption|]. split; [exact P1|reflexivity]. }
  destruct (map_good' k f g x _ (each_offset_spec f x G) G (proj1 G)) as (z & E & EZ & GZ & HZ).
  - intros v EV. destruct (HG v EV) as (A & B & _). auto.
  - exists z. split; [|split; [exact GZ|split; [rewrite EZ; reflexivity|split; [rewrite EZ; reflexivity|]]]].
    + transitivity (Ok (mkN k (n_buf z) (fresh (shape_of x) (itemsize k)))); [|f_equal; symmetry; exact EZ]. clear EZ HZ GZ. unfold nan_to_num. fold k. fold rep. fold f. rewrite E. cbn [bind]. destruct k; try contradiction; reflexivity.
    + intros idx Hi. destruct (HZ idx Hi) as (v & A & EV & B). exists v, (g v). split; [exact A|]. split; [exact B|]. split; [exact EV|]. destruct (HG v EV) as (_ & _ & C & D). split; [exact C|exact D].
Qed.
Lemma nan_to_num_int nan pos neg x : is_float_kind (n_kind x) = false -> nan_to_num nan pos neg x = copy x.
Proof. unfold nan_to_num. destruct (n_kind x); try discriminate; reflexivity. Qed.
