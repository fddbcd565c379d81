(* Proofs about element-wise arithmetic with dtypes. *)
From Coq Require Import SpecFloat.
From Verif Require Import Base Lists Int_Model Int_Proofs F64_Model Arr_Spec Arr_Model Arr_Wf Arr_Proofs Bcast_Model Bcast_Proofs Copy_Model Copy_Proofs Idx_Model Idx_Assign
  Elem_Model Elem_Proofs Rng_Model Date_Model New_Model Promo_Spec Promo_Model Promo_Proofs Promo_Props SF_Proofs SF_Arith SF_Cmp Cast_Spec Cast_Model Cast_SF Cast_Proofs Cast_Laws
  Close_Proofs Bitw_Spec Bitw_Model Bitw_Proofs Rnd_Spec Rnd_Model Rnd_Proofs Rnd_Round Ari_Spec SF_Round Ari_Model.
Local Open Scope Z_scope.

(* ---- arrays ----------------------------------------------------------------- *)
(* the element of x a broadcast index reads *)
Definition bc_at (x : narr) (idx : list nat) : option scalar := item_at x (unbroadcast (shape_of x) idx).
Definition in_memory (sh : list nat) : Prop := Z.of_nat (prod sh) * 16 < 2 ^ 63.
Definition zip_with (f : scalar -> scalar -> res scalar) (path : zip_path) (k : kind) (x y : narr) : res narr :=
  bind (elementwise2 f path (n_buf x) (n_arr x) (n_buf y) (n_arr y)) (fun '(sh, vals) => Ok (mkN k vals (fresh sh (itemsize k)))).

Lemma zip_good k f path x y sh (Q : scalar -> scalar -> scalar -> Prop) : good x -> good y -> numeric k = true ->
  broadcast_shapes (shape_of x) (shape_of y) = Some sh -> in_memory sh ->
  (forall idx v w, inb idx sh -> bc_at x idx = Some v -> bc_at y idx = Some w -> element (n_kind x) v -> element (n_kind y) w ->
     exists r, f v w = Ok r /\ element k r /\ Q v w r) ->
  exists z, zip_with f path k x y = Ok z /\ good z /\ n_kind z = k /\ shape_of z = sh /\
    forall idx, inb idx sh -> exists v w r, bc_at x idx = Some v /\ bc_at y idx = Some w /\ item_at z idx = Some r /\
      element (n_kind x) v /\ element (n_kind y) w /\ element k r /\ Q v w r.
Proof.
  intros GX GY N E HS HF. pose proof (item_pos k N) as HI. assert (itemsize k <= 16) as HI16 by (destruct k; try discriminate N; cbn; lia).
  set (h := fun idx => match bc_at x idx, bc_at y idx with Some v, Some w => match f v w with Ok r => r | _ => SInt 0 end | _, _ => SInt 0 end).
  assert (forall idx, inb idx sh -> exists v w, bc_at x idx = Some v /\ bc_at y idx = Some w /\ element (n_kind x) v /\ element (n_kind y) w /\
            f v w = Ok (h idx) /\ element k (h idx) /\ Q v w (h idx)) as HG.
  { intros idx Hi. destruct (bc_items x y sh E (proj1 (proj2 GX)) (proj1 (proj2 GY)) idx Hi) as (_ & _ & v & w & Hv & Hw).
    pose proof (good_element x _ v GX Hv) as EV. pose proof (good_element y _ w GY Hw) as EW. exists v, w.
    destruct (HF idx v w Hi Hv Hw EV EW) as (r & Er & EK & HQ). assert (h idx = r) as Eh by (unfold h, bc_at; rewrite Hv, Hw, Er; reflexivity).
    rewrite Eh. repeat (split; [assumption|]). assumption. }
  exists (mkN k (map h (all_idx sh)) (fresh sh (itemsize k))). split; [|split; [|split; [reflexivity|split; [reflexivity|]]]].
  - unfold zip_with. pose proof (elementwise2_spec f path _ _ _ _ (proj1 (proj2 GX)) (proj1 (proj2 GY))) as H. fold (shape_of x) (shape_of y) in H. rewrite E in H. rewrite H.
    rewrite (mapM_total _ h); [reflexivity|]. intros idx Hi. apply in_all_idx in Hi. destruct (HG idx Hi) as (v & w & Hv & Hw & _ & _ & EF & _).
    unfold bc_at, item_at in Hv, Hw. rewrite Hv, Hw. cbn [of_load bind]. exact EF.
  - split; [exact N|]. split; [|split].
    + cbn [n_buf n_arr]. apply fresh_wf; [exact HI| |]; rewrite map_length, all_idx_length; [unfold in_memory in HS; nia|reflexivity].
    + cbn [n_buf n_kind]. apply Forall_forall. intros v Hv. apply in_map_iff in Hv as (idx & <- & Hi). apply in_all_idx in Hi. destruct (HG idx Hi) as (a & b & _ & _ & _ & _ & _ & EA & _). exact EA.
    + exact HS.
  - intros idx Hi. destruct (HG idx Hi) as (v & w & Hv & Hw & EV & EW & _ & EK & HQ). exists v, w, (h idx). split; [exact Hv|]. split; [exact Hw|]. split; [|repeat (split; [assumption|]); assumption].
    unfold item_at. cbn [n_buf n_arr]. rewrite map_get by assumption. reflexivity.
Qed.
Lemma zip_err k f path x y : good x -> good y -> broadcast_shapes (shape_of x) (shape_of y) = None -> zip_with f path k x y = Err.
Proof.
  intros GX GY E. unfold zip_with. pose proof (elementwise2_spec f path _ _ _ _ (proj1 (proj2 GX)) (proj1 (proj2 GY))) as H. fold (shape_of x) (shape_of y) in H. rewrite E in H. rewrite H. reflexivity.
Qed.

(* ---- one float kernel --------------------------------------------------------- *)
Definition is_arith (op : aop) : bool := match op with AAdd | ASub | AMul | ADiv => true | _ => false end.
Definition arith_of (op : aop) (R : Z -> Z -> ext -> Prop) : ext -> ext -> ext -> Prop :=
  match op with AAdd => sum_of R | ASub => difference_of R | AMul => product_of R | _ => quotient_of R end.
Definition exact_of (op : aop) : Z -> Z -> Z -> Prop :=
  match op with AAdd => exact_sum | ASub => exact_difference | AMul => exact_product | _ => exact_quotient end.

Lemma float_arith prec emax op x y : a_format prec emax -> is_arith op = true -> valid_binary prec emax x = true -> valid_binary prec emax y = true ->
  arith_of op (fmt_rounded prec emax) (float_value x) (float_value y) (float_value (float_bin op prec emax x y)) /\ valid_binary prec emax (float_bin op prec emax x y) = true.
Proof.
  intros HF HO VX VY. destruct op; try discriminate HO; cbn [arith_of float_bin].
  - apply add_rounded; assumption. - apply sub_rounded; assumption. - apply mul_rounded; assumption. - apply div_rounded; assumption.
Qed.
Lemma arith_exact prec emax op a b r z : a_format prec emax -> is_arith op = true -> arith_of op (fmt_rounded prec emax) (Fin a) (Fin b) r ->
  exact_of op a b z -> fmt_holds prec emax z -> r = Fin z.
Proof.
  intros HF HO H HE HZ. pose proof one_pos as H1. destruct op; try discriminate HO; cbn [arith_of exact_of sum_of product_of quotient_of] in *.
  - apply (fmt_rounded_exact prec emax (a + b) 1 r z); try assumption; unfold exact_sum in HE; lia.
  - unfold exact_difference in HE. apply (fmt_rounded_exact prec emax (a + - b) 1 r z); try assumption; lia.
  - apply (fmt_rounded_exact prec emax (a * b) one r z); try assumption; symmetry; exact HE.
  - destruct HE as [NZ HE]. cbn [quotient_of] in H. destruct (Z.eqb_spec b 0) as [|_]; [contradiction|].
    apply (fmt_rounded_exact prec emax (a * one * Z.sgn b) (Z.abs b) r z); try assumption; [lia|]. rewrite <- HE. rewrite <- Z.mul_assoc. f_equal. rewrite Z.mul_comm. destruct b; cbn; lia.
Qed.

(* the dtypes and their formats *)
Lemma float_holds_kind k z : k = Float16 \/ k = Float32 \/ k = Float64 -> (holds k (z, 0) <-> fmt_holds (fst (format k)) (snd (format k)) z).
Proof. intros [-> |[-> | ->]]; cbn [holds format fst snd]; split; [intros [H _]; exact H|intros H; split; [exact H|reflexivity]|intros [H _]; exact H|intros H; split; [exact H|reflexivity]|intros [H _]; exact H|intros H; split; [exact H|reflexivity]]. Qed.
Lemma kind_format k : k = Float16 \/ k = Float32 \/ k = Float64 -> a_format (fst (format k)) (snd (format k)).
Proof. intros [-> |[-> | ->]]; [apply f16_format|apply f32_format|apply f64_format]. Qed.
Lemma nearest_ext (P Q : Z -> Prop) N D r : (forall x, P x <-> Q x) -> nearest P N D r -> nearest Q N D r.
Proof. intros H [A B]. split; [apply H; exact A|]. intros r' HQ. apply B. apply H. exact HQ. Qed.
Lemma rounded_kind k N D e : k = Float16 \/ k = Float32 \/ k = Float64 -> fmt_rounded (fst (format k)) (snd (format k)) N D e -> rounded k N D e.
Proof.
  intros K H. assert (in_range k N D = fmt_range (fst (format k)) (snd (format k)) N D) as EI by (unfold in_range, fmt_range; destruct (format k); reflexivity).
  destruct e as [|s|r]; cbn [fmt_rounded rounded] in *; try rewrite EI; [exact H|exact H|]. destruct H as [A B]. split; [exact A|]. revert B. apply nearest_ext. intros x. symmetry. apply float_holds_kind. exact K.
Qed.
Lemma arith_mono op (R R' : Z -> Z -> ext -> Prop) e f r : (forall N D x, R N D x -> R' N D x) -> arith_of op R e f r -> arith_of op R' e f r.
Proof.
  intros H. destruct op; cbn [arith_of]; unfold difference_of; destruct e as [|s|a], f as [|t|b]; cbn [sum_of product_of quotient_of ext_opp]; auto;
    repeat match goal with |- context [if ?c then _ else _] => destruct c end; auto.
Qed.
(* + - * / of two floats of one dtype, float32 or float64: the exact result, rounded *)
Lemma float_elem_arith k op x y : k = Float32 \/ k = Float64 -> is_arith op = true -> valid_in k x -> valid_in k y ->
  arith_of op (rounded k) (float_value x) (float_value y) (float_value (float_elem k op x y)) /\ valid_in k (float_elem k op x y).
Proof.
  intros K HO VX VY. assert (k = Float16 \/ k = Float32 \/ k = Float64) as K' by tauto.
  assert (float_elem k op x y = float_bin op (fst (format k)) (snd (format k)) x y) as -> by (destruct K as [-> | ->]; reflexivity).
  destruct (float_arith _ _ op x y (kind_format k K') HO VX VY) as [A B]. split; [|exact B]. revert A. apply arith_mono. intros N D e. apply rounded_kind. exact K'.
Qed.
(* ... and exact when the dtype has the exact result, float16 as well *)
Lemma float_elem_exact k op x y a b z : k = Float16 \/ k = Float32 \/ k = Float64 -> is_arith op = true -> valid_in k x -> valid_in k y ->
  float_value x = Fin a -> float_value y = Fin b -> exact_of op a b z -> holds k (z, 0) ->
  float_value (float_elem k op x y) = Fin z /\ valid_in k (float_elem k op x y).
Proof.
  intros K HO VX VY EX EY HE HZ. apply float_holds_kind in HZ; [|exact K]. destruct K as [-> |K].
  - unfold valid_in in *. cbn [format fst snd] in *. destruct (widen_f16 x VX) as [AX BX]. destruct (widen_f16 y VY) as [AY BY].
    destruct (float_arith 24 128 op _ _ f32_format HO BX BY) as [A B]. rewrite AX, AY, EX, EY in A.
    assert (fmt_holds 24 128 z) as HZ32.
    { destruct HZ as (m & e & HM & HE' & ->). exists m, e. unfold SpecFloat.emin in *. split; [|split; [lia|reflexivity]]. assert (2 ^ 11 < 2 ^ 24) by reflexivity. lia. }
    pose proof (arith_exact 24 128 op a b _ z f32_format HO A HE HZ32) as EZ.
    assert (float_elem Float16 op x y = to_format 11 16 (float_bin op 24 128 (to_format 24 128 x) (to_format 24 128 y))) as -> by (destruct op; try discriminate HO; reflexivity).
    destruct (to_format_exact 24 128 11 16 _ ltac:(lia) ltac:(unfold SpecFloat.emin; lia) ltac:(lia) ltac:(unfold SpecFloat.emin; lia) B) as [C D]; [rewrite EZ; exact HZ|].
    split; [rewrite C; exact EZ|exact D].
  - assert (k = Float16 \/ k = Float32 \/ k = Float64) as K' by tauto.
    assert (float_elem k op x y = float_bin op (fst (format k)) (snd (format k)) x y) as -> by (destruct K as [-> | ->]; reflexivity).
    destruct (float_arith _ _ op x y (kind_format k K') HO VX VY) as [A B]. rewrite EX, EY in A. split; [|exact B]. exact (arith_exact _ _ op a b _ z (kind_format k K') HO A HE HZ).
Qed.

(* ---- elements of the result ----------------------------------------------------- *)
Lemma real_float k : real k = true -> is_float_kind k = true -> k = Float16 \/ k = Float32 \/ k = Float64.
Proof. destruct k; try discriminate; auto. Qed.
Lemma element_float k v : k = Float16 \/ k = Float32 \/ k = Float64 -> element k v -> exists x, v = SFlt x /\ valid_in k x.
Proof. intros [-> |[-> | ->]]; destruct v as [z|x|x y]; try contradiction; intros E; exists x; split; try reflexivity; exact E. Qed.
Lemma float_element k x : k = Float16 \/ k = Float32 \/ k = Float64 -> valid_in k x -> element k (SFlt x).
Proof. intros [-> |[-> | ->]] E; exact E. Qed.
Lemma finite_range prec emax s m e : a_format prec emax -> valid_binary prec emax (S754_finite s m e) = true -> -1074 <= e.
Proof. intros (H1 & H2 & _) V. destruct (valid_inv prec emax s m e ltac:(lia) V) as (_ & R & _). lia. Qed.
(* converting a number to a format rounds it *)
Lemma to_format_rounded prec emax prec' emax' x : a_format prec emax -> a_format prec' emax' -> valid_binary prec emax x = true ->
  match float_value x with Fin z => fmt_rounded prec' emax' z 1 (float_value (to_format prec' emax' x)) | e => float_value (to_format prec' emax' x) = e end /\
  valid_binary prec' emax' (to_format prec' emax' x) = true.
Proof.
  intros HF HF' V. destruct x as [s|s| |s m e]; cbn [float_value to_format]; try (split; reflexivity).
  - split; [apply fmt_rounded_zero; exact HF'|reflexivity].
  - apply round_rounded; [exact HF'|]. exact (finite_range prec emax s m e HF V).
Qed.
Lemma as_f64_rounded k v : real k = true -> element k v ->
  match real_value v with Fin z => fmt_rounded 53 1024 z 1 (float_value (as_f64 v)) | e => float_value (as_f64 v) = e end /\ valid_binary 53 1024 (as_f64 v) = true.
Proof.
  intros R E. destruct (real_cases k R) as [-> |[K|K]].
  3: { pose proof (real_float k R K) as KF. destruct (element_float k v KF E) as (x & -> & V). pose proof (kind_format k KF) as HF.
       unfold as_f64. assert (read_f64 (SFlt x) = Some (to_format 53 1024 x)) as -> by reflexivity. exact (to_format_rounded _ _ 53 1024 x HF f64_format V). }
  all: assert (exists z, v = SInt z) as [z ->] by (destruct v as [z|x|x y]; try (destruct k; discriminate K || contradiction); try contradiction; exists z; reflexivity);
       change (as_f64 (SInt z)) with (binary_normalize 53 1024 z 0 false);
       change (real_value (SInt z)) with (Fin (z * one)); change one with (2 ^ (0 + 1074));
       apply normalize_rounded; [exact f64_format|lia].
Qed.
Lemma write_element k x : real k = true -> valid_binary 53 1024 x = true -> element k (write_f64 k x).
Proof.
  intros R V. destruct (real_cases k R) as [-> |[K|K]].
  - apply (int_element Bool); [right; reflexivity|]. destruct x; cbn; lia.
  - destruct (int_of_integer k K) as (t & ET & HT & _ & _ & HL & HU).
    assert (write_f64 k x = SInt (as_int t x)) as -> by (destruct k; try discriminate K; injection ET as <-; reflexivity).
    apply int_element; [left; exact K|]. rewrite <- HL, <- HU. apply as_int_range. rewrite HL, HU. destruct k; try discriminate K; cbn; lia.
  - destruct (real_float k R K) as [-> |[-> | ->]]; cbn [write_f64]; [| |exact V];
      [apply (to_format_rounded 53 1024 11 16 x f64_format f16_format V)|apply (to_format_rounded 53 1024 24 128 x f64_format f32_format V)].
Qed.

(* every operation gives a float of the format *)
Definition no_next (op : aop) : bool := match op with ANextafter => false | _ => true end.
Lemma rem_valid prec emax x y : a_format prec emax -> valid_binary prec emax x = true -> valid_binary prec emax y = true -> valid_binary prec emax (float_rem prec emax x y) = true.
Proof.
  intros HF VX VY. destruct x as [s|s| |s m e], y as [t|t| |t n g]; try exact VX; try reflexivity. cbn [float_rem].
  pose proof (finite_range prec emax s m e HF VX). pose proof (finite_range prec emax t n g HF VY).
  destruct (_ mod _); try reflexivity. apply round_rounded; [exact HF|lia].
Qed.
Lemma max_valid prec emax x y : valid_binary prec emax x = true -> valid_binary prec emax y = true ->
  valid_binary prec emax (float_max x y) = true /\ valid_binary prec emax (float_min x y) = true.
Proof. intros VX VY. unfold float_max, float_min. destruct (SFltb x y), (SFltb y x); split; assumption. Qed.
Lemma copysign_valid prec emax x y : valid_binary prec emax x = true -> valid_binary prec emax (float_copysign x y) = true.
Proof. intros V. unfold float_copysign. destruct (sign_bit y); rewrite ?opp_valid, abs_valid; exact V. Qed.
Lemma bin_valid prec emax op x y : a_format prec emax -> no_next op = true -> valid_binary prec emax x = true -> valid_binary prec emax y = true ->
  valid_binary prec emax (float_bin op prec emax x y) = true.
Proof.
  intros HF HO VX VY. destruct (is_arith op) eqn:HA; [apply float_arith; assumption|]. destruct (max_valid prec emax x y VX VY) as [A B].
  destruct op; try discriminate HA; try discriminate HO; cbn [float_bin].
  - apply rem_valid; assumption.
  - destruct (div_rounded prec emax x y HF VX VY) as [_ V]. apply round_float_value; assumption.
  - destruct (_ || _); [reflexivity|exact A].
  - destruct (_ || _); [reflexivity|exact B].
  - destruct (is_nan y); [exact VX|]. destruct (is_nan x); [exact VY|exact A].
  - destruct (is_nan y); [exact VX|]. destruct (is_nan x); [exact VY|exact B].
  - apply copysign_valid; assumption.
Qed.

Lemma float_elem_valid k op x y : k = Float16 \/ k = Float32 \/ k = Float64 -> no_next op = true -> valid_in k x -> valid_in k y -> valid_in k (float_elem k op x y).
Proof.
  unfold valid_in. intros [-> |[-> | ->]] HO VX VY; cbn [format fst snd] in *.
  - destruct (widen_f16 x VX) as [_ BX]. destruct (widen_f16 y VY) as [_ BY].
    assert (float_elem Float16 op x y = to_format 11 16 (float_bin op 24 128 (to_format 24 128 x) (to_format 24 128 y))) as -> by (destruct op; try discriminate HO; reflexivity).
    apply (to_format_rounded 24 128 11 16 _ f32_format f16_format). apply bin_valid; try assumption. apply f32_format.
  - apply bin_valid; try assumption. apply f32_format.
  - apply bin_valid; try assumption. apply f64_format.
Qed.
(* operations that cannot panic on integers *)
Definition no_panic (op : aop) : bool := match op with AMod | AFloorDiv | ANextafter => false | _ => true end.
Lemma no_panic_next op : no_panic op = true -> no_next op = true. Proof. destruct op; auto. Qed.
Lemma int_bin_ok t op a b : ity_ok t -> no_panic op = true -> i_min t <= a <= i_max t -> i_min t <= b <= i_max t -> i_min t <= 0 <= i_max t ->
  exists c, int_bin t op a b = Ok c /\ i_min t <= c <= i_max t.
Proof.
  intros HT HO HA HB HZ. assert (forall z, i_min t <= wrap t z <= i_max t) as HW by (intros z; apply (wrap_rep t z HT)).
  destruct op; try discriminate HO; cbn [int_bin]; eexists; (split; [reflexivity|]).
  all: repeat match goal with |- context [if ?c then _ else _] => destruct c end; try apply HW; lia.
Qed.
Lemma same_ok k op v w : real k = true -> no_panic op = true -> element k v -> element k w -> exists r, same_elem k op v w = Ok r /\ element k r.
Proof.
  intros R HO EV EW. destruct (real_cases k R) as [-> |[K|K]].
  - destruct (element_int Bool v ltac:(auto) EV) as (a & -> & HA). destruct (element_int Bool w ltac:(auto) EW) as (b & -> & HB). eexists. split; [reflexivity|].
    apply int_element; [right; reflexivity|]. cbn [int_range fst snd]. unfold bool_bin, bit01. destruct (match op with AAdd => _ | _ => _ end); lia.
  - destruct (element_int k v ltac:(auto) EV) as (a & -> & HA). destruct (element_int k w ltac:(auto) EW) as (b & -> & HB).
    destruct (int_of_integer k K) as (t & ET & HT & _ & _ & HL & HU). rewrite <- HL, <- HU in HA, HB.
    destruct (int_bin_ok t op a b HT HO HA HB) as (c & EC & HC). { rewrite HL, HU. destruct k; try discriminate K; cbn; lia. }
    exists (SInt c). split; [|apply int_element; [left; exact K|rewrite <- HL, <- HU; exact HC]].
    assert (same_elem k op (SInt a) (SInt b) = bind (int_bin t op a b) (fun z => Ok (SInt z))) as -> by (destruct k; try discriminate K; injection ET as <-; reflexivity). rewrite EC. reflexivity.
  - pose proof (real_float k R K) as KF. destruct (element_float k v KF EV) as (x & -> & VX). destruct (element_float k w KF EW) as (y & -> & VY).
    eexists. split; [reflexivity|]. apply float_element; [exact KF|]. apply float_elem_valid; try assumption. apply no_panic_next. exact HO.
Qed.
Lemma mixed_valid op x y : no_next op = true -> valid_binary 53 1024 x = true -> valid_binary 53 1024 y = true -> valid_binary 53 1024 (mixed_bin op x y) = true.
Proof.
  intros HO VX VY. pose proof (bin_valid 53 1024 op x y f64_format HO VX VY) as H. destruct op; try exact H; try discriminate HO. cbn [mixed_bin]. destruct (SFeqb _ _); [reflexivity|exact H].
Qed.
Lemma real_read k v : real k = true -> element k v -> match v with SCpx _ _ => False | _ => True end.
Proof. intros R E. destruct k; try discriminate R; destruct v; try contradiction; exact I. Qed.
Lemma mixed_elem_is k kx ky op v w : real kx = true -> real ky = true -> element kx v -> element ky w ->
  mixed_elem k op v w = Ok (write_f64 k (mixed_bin op (as_f64 v) (as_f64 w))).
Proof. intros RX RY EV EW. pose proof (real_read kx v RX EV). pose proof (real_read ky w RY EW). destruct v, w; try contradiction; reflexivity. Qed.
Lemma mixed_ok k kx ky op v w : real k = true -> real kx = true -> real ky = true -> no_next op = true -> element kx v -> element ky w ->
  exists r, mixed_elem k op v w = Ok r /\ element k r.
Proof.
  intros R RX RY HO EV EW. eexists. split; [apply (mixed_elem_is k kx ky); assumption|]. apply write_element; [exact R|]. apply mixed_valid; [exact HO|apply (as_f64_rounded kx v RX EV)|apply (as_f64_rounded ky w RY EW)].
Qed.
Lemma promote_real a b : real a = true -> real b = true -> real (promote a b) = true.
Proof. destruct a; try discriminate; destruct b; try discriminate; reflexivity. Qed.
Lemma promote_self a : real a = true -> promote a a = a.
Proof. destruct a; try discriminate; reflexivity. Qed.
Definition elem_out (op : aop) (kx ky : kind) (v w : scalar) : res scalar :=
  if kind_eqb kx ky then same_elem kx op v w else mixed_elem (promote kx ky) op v w.
Lemma elem_ok op kx ky v w : real kx = true -> real ky = true -> no_panic op = true -> element kx v -> element ky w ->
  exists r, elem_out op kx ky v w = Ok r /\ element (promote kx ky) r.
Proof.
  intros RX RY HO EV EW. unfold elem_out. destruct (kind_eqb kx ky) eqn:K.
  - apply kind_eqb_eq in K. subst ky. rewrite promote_self by exact RX. apply same_ok; assumption.
  - apply (mixed_ok _ kx ky); try assumption; [apply promote_real; assumption|apply no_panic_next; exact HO].
Qed.
(* an operation on two arrays, element by element *)
Lemma plain_good op x y sh (Q : scalar -> scalar -> scalar -> Prop) : good x -> good y -> real (n_kind x) = true -> real (n_kind y) = true ->
  broadcast_shapes (shape_of x) (shape_of y) = Some sh -> in_memory sh ->
  (forall idx v w, inb idx sh -> bc_at x idx = Some v -> bc_at y idx = Some w -> element (n_kind x) v -> element (n_kind y) w ->
    exists r, elem_out op (n_kind x) (n_kind y) v w = Ok r /\ element (promote (n_kind x) (n_kind y)) r /\ Q v w r) ->
  exists z, binary_plain op x y = Ok z /\ good z /\ n_kind z = promote (n_kind x) (n_kind y) /\ shape_of z = sh /\
    forall idx, inb idx sh -> exists v w r, bc_at x idx = Some v /\ bc_at y idx = Some w /\ item_at z idx = Some r /\
      element (n_kind x) v /\ element (n_kind y) w /\ element (n_kind z) r /\ Q v w r.
Proof.
  intros GX GY RX RY E HS HF. pose proof (real_numeric _ (promote_real _ _ RX RY)) as N.
  destruct (zip_good (promote (n_kind x) (n_kind y)) (elem_out op (n_kind x) (n_kind y)) (if kind_eqb (n_kind x) (n_kind y) && has_kernel (n_kind x) op then PKernel else PTrait) x y sh Q GX GY N E HS HF)
    as (z & EZ & GZ & KZ & SZ & HZ).
  exists z. split; [|split; [exact GZ|split; [exact KZ|split; [exact SZ|rewrite KZ; exact HZ]]]].
  rewrite <- EZ. unfold binary_plain, zip_with, elem_out. cbv zeta. destruct (kind_eqb (n_kind x) (n_kind y)); reflexivity.
Qed.
Lemma plain_err op x y : good x -> good y -> broadcast_shapes (shape_of x) (shape_of y) = None -> binary_plain op x y = Err.
Proof. intros GX GY E. unfold binary_plain. cbv zeta. exact (zip_err _ _ _ x y GX GY E). Qed.

(* ---- exact results --------------------------------------------------------------- *)
Lemma one_cancel a b : a * one = b * one -> a = b.
Proof. intros H. apply Z.mul_cancel_r in H; [exact H|apply one_nz]. Qed.
Lemma exact_int op a b c : is_arith op = true -> exact_of op (a * one) (b * one) (c * one) -> c = match op with AAdd => a + b | ASub => a - b | AMul => a * b | _ => Z.quot a b end /\ (op = ADiv -> b <> 0 /\ a = c * b).
Proof.
  pose proof one_pos as HP. intros HO H. destruct op; try discriminate HO; cbn [exact_of] in H; (split; [|try discriminate]).
  - unfold exact_sum in H. apply one_cancel. lia.
  - unfold exact_difference in H. apply one_cancel. lia.
  - unfold exact_product in H. apply one_cancel, one_cancel. rewrite H. ring.
  - destruct H as [NZ H]. assert (b <> 0) as NB by (intros ->; apply NZ; reflexivity). assert (c * b = a) as E by (apply one_cancel, one_cancel; rewrite <- H; ring).
    rewrite <- E. symmetry. apply Z.quot_mul. exact NB.
  - intros _. destruct H as [NZ H]. assert (b <> 0) as NB by (intros ->; apply NZ; reflexivity). split; [exact NB|]. symmetry. apply one_cancel, one_cancel. rewrite <- H. ring.
Qed.
Lemma int_holds_one k z : is_integer k = true \/ k = Bool -> holds k (z, 0) -> exists c, z = c * one /\ fst (int_range k) <= c <= snd (int_range k).
Proof.
  intros [K| ->] H; [destruct k; try discriminate K|]; destruct H as [(c & HC & ->) _]; exists c; (split; [reflexivity|exact HC]).
Qed.
Lemma same_exact k op v w r a b z : real k = true -> is_arith op = true -> element k v -> element k w -> same_elem k op v w = Ok r ->
  real_value v = Fin a -> real_value w = Fin b -> exact_of op a b z -> holds k (z, 0) -> real_value r = Fin z.
Proof.
  intros R HO EV EW ER VA VB HE HZ. destruct (is_float_kind k) eqn:K.
  { pose proof (real_float k R K) as KF. destruct (element_float k v KF EV) as (x & -> & VX). destruct (element_float k w KF EW) as (y & -> & VY).
    cbn [same_elem] in ER. injection ER as <-. exact (proj1 (float_elem_exact k op x y a b z KF HO VX VY VA VB HE HZ)). }
  assert (is_integer k = true \/ k = Bool) as KI by (destruct (real_cases k R) as [H|[H|H]]; [right; exact H|left; exact H|congruence]).
  destruct (element_int k v KI EV) as (i & -> & HI). destruct (element_int k w KI EW) as (j & -> & HJ).
  apply fin_inj in VA, VB. subst a b. destruct (int_holds_one k z KI HZ) as (c & -> & HC). destruct (exact_int op i j c HO HE) as [EC ED].
  destruct KI as [KI| ->].
  - destruct (int_of_integer k KI) as (t & ET & HT & _ & _ & HL & HU). rewrite <- HL, <- HU in *.
    assert (same_elem k op (SInt i) (SInt j) = bind (int_bin t op i j) (fun z => Ok (SInt z))) as EE by (destruct k; try discriminate KI; injection ET as <-; reflexivity).
    rewrite EE in ER. assert (int_bin t op i j = Ok c) as EI.
    { assert (wrap t c = c) as W by (apply wrap_id; [exact HT|exact HC]). destruct op; try discriminate HO; cbn [int_bin]; rewrite ?EC in W |- *; try (rewrite W; reflexivity).
      destruct (Z.eqb_spec j 0) as [->|_]; [destruct (ED eq_refl); contradiction|]. rewrite W. reflexivity. }
    rewrite EI in ER. injection ER as <-. reflexivity.
  - cbn [same_elem int_of] in ER. injection ER as <-. cbn [int_range fst snd] in *. unfold real_value. cbn [value fst]. do 2 f_equal.
    assert (i = 0 \/ i = 1) as HI' by lia. assert (j = 0 \/ j = 1) as HJ' by lia.
    destruct op; try discriminate HO; destruct HI' as [-> | ->], HJ' as [-> | ->]; cbn in EC |- *; try lia. all: destruct (ED eq_refl); lia.
Qed.
Lemma mixed_exact k kx ky op v w r a b z : real k = true -> real kx = true -> real ky = true -> is_arith op = true -> element kx v -> element ky w ->
  mixed_elem k op v w = Ok r -> real_value v = Fin a -> real_value w = Fin b -> f64_holds a -> f64_holds b -> exact_of op a b z -> f64_holds z -> holds k (z, 0) -> real_value r = Fin z.
Proof.
  intros R RX RY HO EV EW ER VA VB FA FB HE FZ HZ. rewrite (mixed_elem_is k kx ky op v w RX RY EV EW) in ER. injection ER as <-.
  destruct (as_f64_value kx v RX EV) as [AX BX]; [unfold fits; rewrite VA; exact FA|]. destruct (as_f64_value ky w RY EW) as [AY BY]; [unfold fits; rewrite VB; exact FB|].
  rewrite VA in AX. rewrite VB in AY. destruct (float_arith 53 1024 op _ _ f64_format HO BX BY) as [A B]. rewrite AX, AY in A.
  pose proof (arith_exact 53 1024 op a b _ z f64_format HO A HE FZ) as EZ.
  assert (mixed_bin op (as_f64 v) (as_f64 w) = float_bin op 53 1024 (as_f64 v) (as_f64 w)) as EB.
  { destruct op; try discriminate HO; try reflexivity. cbn [mixed_bin]. destruct (SFeqb (as_f64 w) (S754_zero false)) eqn:Q; [|reflexivity]. exfalso.
    apply (proj1 HE). destruct (as_f64 w) as [s|s| |s m e]; try discriminate Q; try (destruct s; discriminate Q). apply fin_inj. symmetry. exact AY. }
  rewrite EB. destruct (write_exact k _ (real_numeric k R) B) as [C _]; [rewrite EZ; apply holds_fin; [apply real_numeric; exact R|exact HZ]|].
  unfold real_value. rewrite C. exact EZ.
Qed.

(* ---- conversion before a division -------------------------------------------------- *)
Definition converted (x : narr) (k' : kind) (x' : narr) : Prop :=
  good x' /\ n_kind x' = k' /\ shape_of x' = shape_of x /\ forall idx, inb idx (shape_of x) -> item_at x' idx = option_map (conv k' x) (item_at x idx).
Lemma converted_self x : good x -> converted x (n_kind x) x.
Proof. intros G. split; [exact G|]. split; [reflexivity|]. split; [reflexivity|]. intros idx _. unfold conv. rewrite kind_eqb_refl. destruct (item_at x idx); reflexivity. Qed.
Lemma astype_good x k' : good x -> real (n_kind x) = true -> real k' = true -> kind_eqb (n_kind x) k' = false -> exists x', astype x k' = Ok x' /\ converted x k' x'.
Proof.
  intros G R R' NE. pose proof (real_numeric k' R') as N'. destruct (astype_spec x k' G N') as (y & EY & KY & SY & WY & LY & HY).
  exists y. split; [exact EY|]. split; [|split; [exact KY|split; [exact SY|exact HY]]].
  split; [rewrite KY; exact N'|]. split; [exact WY|]. split; [|change (a_shape (n_arr y)) with (shape_of y); rewrite SY; apply G].
  unfold astype in EY. rewrite NE in EY. destruct G as (N & W & FE & HB). destruct (astype_conv_spec (cast k') (n_buf x) (n_arr x) W) as (vals & E & EE). rewrite E in EY. cbn [bind] in EY. injection EY as <-.
  cbn [n_kind n_buf]. apply Forall_forall. intros c Hc. apply in_map_iff in Hc as (v & <- & Hv). apply write_element; [exact R'|]. apply (as_f64_rounded (n_kind x)); [exact R|].
  assert (In (Some v) (elems (n_buf x) (n_arr x))) as Hs by (rewrite EE; apply in_map; exact Hv). unfold elems in Hs. apply in_map_iff in Hs as (idx & Hg & _).
  apply (good_element x idx v); [repeat (split; [assumption|]); assumption|exact Hg].
Qed.
Lemma converted_bc x k' x' idx : converted x k' x' -> inb (unbroadcast (shape_of x) idx) (shape_of x) -> bc_at x' idx = option_map (conv k' x) (bc_at x idx).
Proof. intros (_ & _ & S & H) Hi. unfold bc_at. rewrite S. apply H. exact Hi. Qed.

(* the dtypes two arrays are divided in *)
Definition divided_in (kx ky : kind) : kind * kind :=
  if integer kx && integer ky then (Float64, Float64) else if integer kx then (float_for kx, ky) else if integer ky then (kx, float_for ky) else (kx, ky).
Definition working (op : aop) (kx ky : kind) : kind * kind := match op with ADiv => divided_in kx ky | _ => (kx, ky) end.
Lemma binary_working op x y : good x -> good y -> real (n_kind x) = true -> real (n_kind y) = true ->
  exists x' y', converted x (fst (working op (n_kind x) (n_kind y))) x' /\ converted y (snd (working op (n_kind x) (n_kind y))) y' /\ binary op x y = binary_plain op x' y'.
Proof.
  intros GX GY RX RY. assert (op = ADiv \/ op <> ADiv) as [-> |NO] by (destruct op; auto; right; discriminate).
  2: { exists x, y. assert (working op (n_kind x) (n_kind y) = (n_kind x, n_kind y)) as -> by (destruct op; try reflexivity; contradiction). split; [apply converted_self; exact GX|]. split; [apply converted_self; exact GY|]. destruct op; try reflexivity; contradiction. }
  assert (forall k, integer k = true -> real (float_for k) = true /\ kind_eqb k (float_for k) = false /\ kind_eqb k Float64 = false) as HK by (intros k K; destruct k; try discriminate K; repeat split; reflexivity).
  cbn [working binary]. unfold divided_in. destruct (integer (n_kind x)) eqn:IX, (integer (n_kind y)) eqn:IY; cbn [andb fst snd].
  - destruct (astype_good x Float64 GX RX eq_refl (proj2 (proj2 (HK _ IX)))) as (x' & EX & CX). destruct (astype_good y Float64 GY RY eq_refl (proj2 (proj2 (HK _ IY)))) as (y' & EY & CY).
    exists x', y'. split; [exact CX|]. split; [exact CY|]. rewrite EX. cbn [bind]. rewrite EY. reflexivity.
  - destruct (HK _ IX) as (A & B & _). destruct (astype_good x _ GX RX A B) as (x' & EX & CX). exists x', y. split; [exact CX|]. split; [apply converted_self; exact GY|]. rewrite EX. reflexivity.
  - destruct (HK _ IY) as (A & B & _). destruct (astype_good y _ GY RY A B) as (y' & EY & CY). exists x, y'. split; [apply converted_self; exact GX|]. split; [exact CY|]. rewrite EY. reflexivity.
  - exists x, y. split; [apply converted_self; exact GX|]. split; [apply converted_self; exact GY|]. reflexivity.
Qed.
Lemma working_real op kx ky : real kx = true -> real ky = true -> real (fst (working op kx ky)) = true /\ real (snd (working op kx ky)) = true.
Proof. intros RX RY. destruct op; try (split; assumption). destruct kx; try discriminate RX; destruct ky; try discriminate RY; split; reflexivity. Qed.
(* integers that a double holds are converted exactly *)
Lemma working_holds k v : integer k = true -> element k v -> fits v -> holds_value (float_for k) (value v) /\ holds_value Float64 (value v).
Proof.
  intros K E F. assert (real k = true) as R by (destruct k; try discriminate K; reflexivity). rewrite (element_value k v R E). unfold fits in F. split; [|split; [exact F|reflexivity]].
  destruct (element_int k v) as (z & -> & HZ); [left; destruct k; try discriminate K; reflexivity|exact E|].
  change (real_value (SInt z)) with (Fin (z * one)) in *.
  destruct k; try discriminate K; cbn [float_for itemsize holds_value fst snd ext_in]; (split; [|reflexivity]); try exact F; cbn [int_range fst snd] in HZ.
  all: apply float_int; unfold SpecFloat.emin; lia.
Qed.
Lemma working_conv op x other v (first : bool) : good x -> real (n_kind x) = true -> real other = true -> element (n_kind x) v -> fits v ->
  let k' := if first then fst (working op (n_kind x) other) else snd (working op other (n_kind x)) in
  value (conv k' x v) = value v /\ element k' (conv k' x v).
Proof.
  intros G R RO E F k'. assert (k' = n_kind x \/ integer (n_kind x) = true /\ (k' = Float64 \/ k' = float_for (n_kind x))) as HK.
  { unfold k'. destruct op; try (destruct first; left; reflexivity). cbn [working]. unfold divided_in. destruct first, (integer (n_kind x)), (integer other); cbn; auto. }
  clearbody k'. unfold conv. destruct (kind_eqb (n_kind x) k') eqn:Q; [apply kind_eqb_eq in Q; subst k'; split; [reflexivity|exact E]|].
  destruct HK as [-> |[I HK]]; [rewrite kind_eqb_refl in Q; discriminate|]. destruct (working_holds _ v I E F) as [H1 H2].
  destruct HK as [-> | ->]; apply (cast_exact (n_kind x)); try assumption; [reflexivity|]. destruct (n_kind x); try discriminate I; reflexivity.
Qed.
Definition result_kind (op : aop) (kx ky : kind) : kind := promote (fst (working op kx ky)) (snd (working op kx ky)).
(* the operations on arrays that never panic, conversions included *)
Lemma binary_good op x y sh (Q : scalar -> scalar -> scalar -> Prop) : good x -> good y -> real (n_kind x) = true -> real (n_kind y) = true -> no_panic op = true ->
  broadcast_shapes (shape_of x) (shape_of y) = Some sh -> in_memory sh ->
  (forall v w r, element (n_kind x) v -> element (n_kind y) w -> let k1 := fst (working op (n_kind x) (n_kind y)) in let k2 := snd (working op (n_kind x) (n_kind y)) in
     element k1 (conv k1 x v) -> element k2 (conv k2 y w) -> element (result_kind op (n_kind x) (n_kind y)) r -> elem_out op k1 k2 (conv k1 x v) (conv k2 y w) = Ok r -> Q v w r) ->
  exists z, binary op x y = Ok z /\ good z /\ n_kind z = result_kind op (n_kind x) (n_kind y) /\ shape_of z = sh /\
    forall idx, inb idx sh -> exists v w r, bc_at x idx = Some v /\ bc_at y idx = Some w /\ item_at z idx = Some r /\
      element (n_kind x) v /\ element (n_kind y) w /\ element (n_kind z) r /\ Q v w r.
Proof.
  intros GX GY RX RY HO E HS HQ. destruct (binary_working op x y GX GY RX RY) as (x' & y' & CX & CY & EB). destruct (working_real op _ _ RX RY) as [R1 R2].
  pose proof CX as (GX' & KX' & SX' & _). pose proof CY as (GY' & KY' & SY' & _). rewrite EB.
  destruct (plain_good op x' y' sh (fun v w r => elem_out op (n_kind x') (n_kind y') v w = Ok r)) as (z & EZ & GZ & KZ & SZ & HZ); try assumption.
  - rewrite KX'. exact R1. - rewrite KY'. exact R2. - rewrite SX', SY'. exact E.
  - intros idx v w Hi _ _ EV EW. destruct (elem_ok op (n_kind x') (n_kind y') v w) as (r & ER & EK); try assumption; [rewrite KX'; exact R1|rewrite KY'; exact R2|].
    exists r. split; [exact ER|]. split; [exact EK|exact ER].
  - exists z. split; [exact EZ|]. split; [exact GZ|]. split; [rewrite KZ, KX', KY'; reflexivity|]. split; [exact SZ|]. intros idx Hi.
    destruct (HZ idx Hi) as (v' & w' & r & Hv' & Hw' & Hr & EV' & EW' & ER & HE). destruct (bc_items x y sh E (proj1 (proj2 GX)) (proj1 (proj2 GY)) idx Hi) as (I1 & I2 & v & w & Hv & Hw).
    rewrite (converted_bc x _ x' idx CX I1) in Hv'. rewrite (converted_bc y _ y' idx CY I2) in Hw'. fold (bc_at x idx) in Hv. fold (bc_at y idx) in Hw. rewrite Hv in Hv'. rewrite Hw in Hw'. cbn [option_map] in Hv', Hw'.
    injection Hv' as <-. injection Hw' as <-. pose proof (good_element x _ v GX Hv) as EV. pose proof (good_element y _ w GY Hw) as EW.
    exists v, w, r. split; [exact Hv|]. split; [exact Hw|]. split; [exact Hr|]. split; [exact EV|]. split; [exact EW|]. split; [exact ER|].
    rewrite KX', KY' in *. apply HQ; try assumption. unfold result_kind. rewrite <- KZ. exact ER.
Qed.
Lemma binary_err op x y : good x -> good y -> real (n_kind x) = true -> real (n_kind y) = true -> broadcast_shapes (shape_of x) (shape_of y) = None -> binary op x y = Err.
Proof.
  intros GX GY RX RY E. destruct (binary_working op x y GX GY RX RY) as (x' & y' & (GX' & _ & SX' & _) & (GY' & _ & SY' & _) & EB). rewrite EB. apply plain_err; try assumption. rewrite SX', SY'. exact E.
Qed.
(* rounding once *)
Lemma elem_rounded op k v w r : (k = Float32 \/ k = Float64) -> is_arith op = true -> element k v -> element k w -> elem_out op k k v w = Ok r ->
  arith_of op (rounded k) (real_value v) (real_value w) (real_value r).
Proof.
  intros K HO EV EW ER. unfold elem_out in ER. rewrite kind_eqb_refl in ER. assert (k = Float16 \/ k = Float32 \/ k = Float64) as K' by tauto.
  destruct (element_float k v K' EV) as (x & -> & VX). destruct (element_float k w K' EW) as (y & -> & VY). injection ER as <-. exact (proj1 (float_elem_arith k op x y K HO VX VY)).
Qed.
Lemma float_zero_value x : float_value x = Fin 0 -> forall prec emax, a_format prec emax -> valid_binary prec emax x = true -> exists s, x = S754_zero s.
Proof.
  intros H prec emax HF V. destruct x as [s|s| |s m e]; try discriminate H; [exists s; reflexivity|]. exfalso. cbn [float_value] in H. apply fin_inj in H.
  pose proof (finite_range prec emax s m e HF V). pose proof (pow_pos (e + 1074) ltac:(lia)). destruct s; cbn [cond_Zopp] in H; nia.
Qed.
Lemma elem_rounded_mixed op kx ky v w r : real kx = true -> real ky = true -> is_arith op = true -> promote kx ky = Float64 -> kind_eqb kx ky = false ->
  element kx v -> element ky w -> fits v -> fits w -> (op = ADiv -> real_value w <> Fin 0) -> elem_out op kx ky v w = Ok r ->
  arith_of op (rounded Float64) (real_value v) (real_value w) (real_value r).
Proof.
  intros RX RY HO EP NE EV EW FV FW HD ER. unfold elem_out in ER. rewrite NE, EP, (mixed_elem_is Float64 kx ky op v w RX RY EV EW) in ER. injection ER as <-.
  destruct (as_f64_value kx v RX EV FV) as [AX BX]. destruct (as_f64_value ky w RY EW FW) as [AY BY].
  assert (mixed_bin op (as_f64 v) (as_f64 w) = float_bin op 53 1024 (as_f64 v) (as_f64 w)) as EB.
  { destruct op; try discriminate HO; try reflexivity. cbn [mixed_bin]. destruct (SFeqb (as_f64 w) (S754_zero false)) eqn:Q; [|reflexivity]. exfalso.
    apply (HD eq_refl). rewrite <- AY. destruct (as_f64 w) as [s|s| |s m e]; try discriminate Q; try (destruct s; discriminate Q). reflexivity. }
  rewrite EB. change (real_value (write_f64 Float64 ?z)) with (float_value z). rewrite <- AX, <- AY.
  destruct (float_arith 53 1024 op _ _ f64_format HO BX BY) as [A _]. revert A. apply arith_mono. intros N D e H. apply rounded_kind; [auto|exact H].
Qed.
