(* Proofs about conversions and comparisons. *)
From Coq Require Import SpecFloat.
From Verif Require Import Base Lists Int_Model F64_Model Arr_Spec Arr_Model Arr_Wf Arr_Proofs Bcast_Model Bcast_Proofs Copy_Model Copy_Proofs Idx_Model Idx_Assign
  Elem_Model Elem_Proofs Rng_Model Date_Model Date_Units New_Model Promo_Spec Promo_Model Promo_Proofs Promo_Props SF_Proofs SF_Arith Cast_Spec Cast_Model Cast_SF.
Local Open Scope Z_scope.

(* ---- elements ------------------------------------------------------------- *)
Definition real (k : kind) : bool := numeric k && negb (is_complex_kind k).
(* the value of a real element fits a double *)
Definition fits (v : scalar) : Prop := ext_in f64_holds (real_value v).

Lemma f64_zero : f64_holds 0. Proof. apply float_zero; lia. Qed.

Lemma as_f64_value k v : real k = true -> element k v -> fits v ->
  float_value (as_f64 v) = real_value v /\ valid_binary 53 1024 (as_f64 v) = true.
Proof.
  intros R E F. unfold fits, real_value in F.
  destruct k; try discriminate R; destruct v as [z|x|x y]; try contradiction; cbn [element value fst] in *; unfold as_f64; cbn [read_f64].
  1: apply (to_format_exact 11 16 53 1024); [lia|vm_compute; discriminate|lia|vm_compute; discriminate|exact E|exact F].
  1: apply (to_format_exact 24 128 53 1024); [lia|vm_compute; discriminate|lia|vm_compute; discriminate|exact E|exact F].
  1: apply (to_format_exact 53 1024 53 1024); [lia|vm_compute; discriminate|lia|vm_compute; discriminate|exact E|exact F].
  all: apply (int_exact 53 1024 z); [lia|vm_compute; discriminate|exact F].
Qed.

(* every element but a 64-bit integer fits a double *)
Lemma narrow_fits k v : real k = true -> wide_int k = false -> element k v -> fits v.
Proof.
  intros R W E. unfold fits, real_value.
  destruct k; try discriminate R; try discriminate W; destruct v as [z|x|x y]; try contradiction; cbn [element value fst] in *.
  1: pose proof (valid_holds 11 16 x ltac:(lia) E ltac:(vm_compute; split; discriminate)) as H;
     destruct (float_value x); try exact I; revert H; apply float_incl; vm_compute; discriminate.
  1: pose proof (valid_holds 24 128 x ltac:(lia) E ltac:(vm_compute; split; discriminate)) as H;
     destruct (float_value x); try exact I; revert H; apply float_incl; vm_compute; discriminate.
  1: exact (valid_holds 53 1024 x ltac:(lia) E ltac:(vm_compute; split; discriminate)).
  all: destruct E as [E _]; cbn [ext_in]; revert E; apply int_float; lia.
Qed.

Lemma int_elem_range lo hi z : int_holds lo hi (z * one) -> lo <= z <= hi.
Proof. intros (w & Hw & E). apply Z.mul_cancel_r in E; [lia|apply one_nz]. Qed.

Lemma as_int_exact t x z : valid_binary 53 1024 x = true -> float_value x = Fin (z * one) -> i_min t <= z <= i_max t -> as_int t x = z.
Proof.
  intros V H R. pose proof (trunc_exact 53 1024 x z ltac:(lia) ltac:(vm_compute; discriminate) V H) as T.
  destruct x as [s|s| |s m e]; try discriminate H; unfold as_int; rewrite T; unfold sat; lia.
Qed.
(* conversion to an integer dtype truncates toward zero and saturates *)
Lemma as_int_value t x m : valid_binary 53 1024 x = true -> float_value x = Fin m -> as_int t x = Z.max (i_min t) (Z.min (i_max t) (Z.quot m one)).
Proof.
  intros V H. pose proof (trunc_value 53 1024 x m ltac:(lia) ltac:(vm_compute; discriminate) V H) as T.
  destruct x as [s|s| |s p e]; try discriminate H; unfold as_int; rewrite T; reflexivity.
Qed.

Lemma zero_value x : valid_binary 53 1024 x = true -> (float_value x = Fin 0 <-> exists s, x = S754_zero s).
Proof.
  intros V. split; [|intros [s ->]; reflexivity]. destruct x as [s|s| |s m e]; try discriminate; [eauto|].
  cbn [float_value]. intros H. injection H as H. destruct (valid_inv 53 1024 s m e ltac:(lia) V) as (_ & R & _).
  assert (-1074 <= e) by (destruct R as [R _]; exact R). pose proof (pow_pos (e + 1074)). destruct s; cbn [cond_Zopp] in H; nia.
Qed.

Lemma format_exact prec emax x : 0 < prec -> -1074 <= SpecFloat.emin prec emax -> valid_binary 53 1024 x = true ->
  ext_in (fmt_holds prec emax) (float_value x) ->
  float_value (to_format prec emax x) = float_value x /\ valid_binary prec emax (to_format prec emax x) = true.
Proof. intros HP HE V H. apply (to_format_exact 53 1024); [lia|vm_compute; discriminate|exact HP|exact HE|exact V|exact H]. Qed.

Lemma int_holds_value k p : holds_value k p -> integer k = true \/ k = Bool -> exists z, p = (Fin (z * one), Fin 0) /\ holds k (z * one, 0).
Proof.
  intros H HI. assert (HH : exists x, p = (Fin x, Fin 0) /\ holds k (x, 0)) by (destruct HI as [I|I]; [destruct k; try discriminate I; exact H|subst k; exact H]).
  destruct HH as (x & E & HH). assert (HX : exists z, x = z * one) by (destruct HI as [I|I]; [destruct k; try discriminate I; destruct HH as ((z & _ & Ez) & _); exists z; exact Ez|subst k; destruct HH as ((z & _ & Ez) & _); exists z; exact Ez]).
  destruct HX as [z ->]. exists z. split; assumption.
Qed.

Theorem write_exact k' x : numeric k' = true -> valid_binary 53 1024 x = true -> holds_value k' (float_value x, Fin 0) ->
  value (write_f64 k' x) = (float_value x, Fin 0) /\ element k' (write_f64 k' x).
Proof.
  intros N V H.
  destruct k'; try discriminate N; cbn [write_f64 element value];
    try (destruct (int_holds_value _ _ H ltac:(first [left; reflexivity|right; reflexivity])) as (z & E & (HZ & _));
         injection E as E; apply int_elem_range in HZ as HR).
  - destruct H as [H _]. destruct (format_exact 11 16 x ltac:(lia) ltac:(vm_compute; discriminate) V H) as [A B]. rewrite A. split; [reflexivity|exact B].
  - destruct H as [H _]. destruct (format_exact 24 128 x ltac:(lia) ltac:(vm_compute; discriminate) V H) as [A B]. rewrite A. split; [reflexivity|exact B].
  - split; [reflexivity|exact V].
  - rewrite (as_int_exact i8 x z V E HR), E. split; [reflexivity|split; [exact HZ|reflexivity]].
  - rewrite (as_int_exact i16 x z V E HR), E. split; [reflexivity|split; [exact HZ|reflexivity]].
  - rewrite (as_int_exact i32 x z V E HR), E. split; [reflexivity|split; [exact HZ|reflexivity]].
  - rewrite (as_int_exact i64 x z V E HR), E. split; [reflexivity|split; [exact HZ|reflexivity]].
  - rewrite (as_int_exact u8 x z V E HR), E. split; [reflexivity|split; [exact HZ|reflexivity]].
  - rewrite (as_int_exact u16 x z V E HR), E. split; [reflexivity|split; [exact HZ|reflexivity]].
  - rewrite (as_int_exact u32 x z V E HR), E. split; [reflexivity|split; [exact HZ|reflexivity]].
  - rewrite (as_int_exact u64 x z V E HR), E. split; [reflexivity|split; [exact HZ|reflexivity]].
  - assert (match x with S754_zero _ => 0 | _ => 1 end = z) as ->; [|rewrite E; split; [reflexivity|split; [exact HZ|reflexivity]]].
    destruct (Z.eq_dec z 0) as [->|NZ].
    + apply (proj1 (zero_value x V)) in E as [s ->]. reflexivity.
    + assert (z = 1) by lia. subst z. destruct x; try reflexivity. cbn [float_value] in E. injection E as E. pose proof one_pos. lia.
  - destruct H as [H _]. destruct (format_exact 24 128 x ltac:(lia) ltac:(vm_compute; discriminate) V H) as [A B]. cbn [float_value]. rewrite A.
    split; [reflexivity|split; [exact B|reflexivity]].
  - split; [reflexivity|split; [exact V|reflexivity]].
Qed.

Theorem cast_exact k k' v : real k = true -> numeric k' = true -> element k v -> fits v -> holds_value k' (value v) ->
  value (cast k' v) = value v /\ element k' (cast k' v).
Proof.
  intros R N E F H. destruct (as_f64_value k v R E F) as [A B].
  assert (EV : value v = (real_value v, Fin 0)) by (destruct k; try discriminate R; destruct v; try contradiction; reflexivity).
  unfold cast. rewrite EV in *. rewrite <- A in *. apply write_exact; assumption.
Qed.

(* anything converts to an element of the target dtype *)
Lemma sat_range t z : i_min t <= i_max t -> i_min t <= sat t z <= i_max t.
Proof. unfold sat. lia. Qed.
Lemma as_int_range t x : i_min t <= 0 <= i_max t -> i_min t <= as_int t x <= i_max t.
Proof. intros H. unfold as_int. destruct x as [s|s| |s m e]; [apply sat_range; lia|destruct s; lia|lia|apply sat_range; lia]. Qed.

Lemma fin_inj a b : Fin a = Fin b -> a = b.
Proof. intros H. injection H as H. exact H. Qed.
Lemma real_value_inj z z' : real_value (SInt z) = real_value (SInt z') -> z = z'.
Proof.
  unfold real_value. cbn [value fst]. generalize one_nz. generalize one. intros o HO H.
  assert (E : forall a b, Fin a = Fin b -> a = b) by (intros a b X; injection X as X; exact X). apply E in H. apply Z.mul_cancel_r in H; assumption.
Qed.

(* ---- arrays --------------------------------------------------------------- *)
(* an array of a numeric dtype holding elements of that dtype, of a size for which
   an array of complex128 could be allocated *)
Definition good (x : narr) : Prop :=
  numeric (n_kind x) = true /\ wf (n_buf x) (n_arr x) /\ Forall (element (n_kind x)) (n_buf x) /\
  Z.of_nat (prod (a_shape (n_arr x))) * 16 < 2 ^ 63.
(* the element at a multi-index *)
Definition item_at (x : narr) (idx : list nat) : option scalar := get (n_buf x) (n_arr x) idx.
Definition shape_of (x : narr) : list nat := a_shape (n_arr x).

Lemma load_in {V} (buf : list V) item o v : load buf item o = Some v -> In v buf.
Proof. unfold load. destruct (o <? 0); [discriminate|]. destruct (o mod item =? 0); [|discriminate]. apply nth_error_In. Qed.
Lemma good_element x idx v : good x -> item_at x idx = Some v -> element (n_kind x) v.
Proof. intros (_ & _ & F & _) H. rewrite Forall_forall in F. apply F. unfold item_at, get in H. revert H. apply load_in. Qed.
Lemma good_item x idx : good x -> inb idx (shape_of x) -> exists v, item_at x idx = Some v /\ element (n_kind x) v.
Proof.
  intros G H. pose proof G as (_ & W & _). destruct (wf_get _ _ idx W H) as [v Hv]. exists v. split; [exact Hv|]. eapply good_element; eassumption.
Qed.

Lemma item_pos k : numeric k = true -> 0 < itemsize k.
Proof. intros N. destruct k; try discriminate N; reflexivity. Qed.
Lemma kind_eqb_eq a b : kind_eqb a b = true -> a = b.
Proof.
  destruct a, b; cbn [kind_eqb]; try discriminate; try reflexivity; intros H; f_equal; try (apply Nat.eqb_eq; exact H); apply unit_eqb_spec; exact H.
Qed.

Lemma kind_eqb_refl k : kind_eqb k k = true.
Proof. destruct k; try reflexivity; cbn [kind_eqb]; try (now apply unit_eqb_spec); apply Nat.eqb_refl. Qed.

(* one element of x.astype(k) *)
Definition conv (k' : kind) (x : narr) (v : scalar) : scalar := if kind_eqb (n_kind x) k' then v else cast k' v.

Lemma elems_items x vals : elems (n_buf x) (n_arr x) = map Some vals -> forall item idx, 0 < item -> inb idx (shape_of x) ->
  get vals (fresh (shape_of x) item) idx = item_at x idx.
Proof.
  intros E item idx HI H. unfold item_at, shape_of in *.
  pose proof (elems_get (n_buf x) vals (n_arr x) (fun v : scalar => v) idx item HI E H) as HG. rewrite map_id in HG.
  rewrite HG. destruct (get (n_buf x) (n_arr x) idx); reflexivity.
Qed.

Theorem astype_spec x k' : good x -> numeric k' = true ->
  exists y, astype x k' = Ok y /\ n_kind y = k' /\ shape_of y = shape_of x /\ wf (n_buf y) (n_arr y) /\
    length (n_buf y) = prod (shape_of x) /\
    forall idx, inb idx (shape_of x) -> item_at y idx = option_map (conv k' x) (item_at x idx).
Proof.
  intros (N & W & _ & HB) N'. pose proof (item_pos k' N') as HI.
  assert (HI16 : itemsize k' <= 16) by (destruct k'; try discriminate N'; cbn; lia).
  assert (HW : forall vals : list scalar, length vals = prod (shape_of x) -> wf vals (fresh (shape_of x) (itemsize k'))).
  { intros vals HL. apply fresh_wf; [exact HI| |exact HL]. rewrite HL. unfold shape_of. nia. }
  unfold astype, conv. destruct (kind_eqb (n_kind x) k') eqn:EK.
  - match goal with |- context[copy_buf _ _ ?t] => destruct (copy_buf_spec (n_buf x) (n_arr x) t W) as (vals & E & EE & HL) end.
    rewrite E. cbn [bind]. eexists. split; [reflexivity|]. cbn [n_kind n_buf n_arr]. split; [reflexivity|]. split; [reflexivity|].
    split; [apply HW; exact HL|]. split; [exact HL|]. intros idx H. unfold item_at at 1. cbn [n_buf n_arr].
    pose proof (elems_items x vals EE (itemsize k') idx HI H) as HG. unfold shape_of in HG. rewrite HG. clear HG. destruct (item_at x idx); reflexivity.
  - destruct (astype_conv_spec (cast k') (n_buf x) (n_arr x) W) as (vals & E & EE). rewrite E. cbn [bind]. eexists. split; [reflexivity|].
    assert (HL : length (map (cast k') vals) = prod (shape_of x)).
    { rewrite map_length. destruct (wf_elems _ _ W) as (v' & E' & HL'). rewrite EE in E'. apply map_Some_inj in E'. subst v'. exact HL'. }
    cbn [n_kind n_buf n_arr]. split; [reflexivity|]. split; [reflexivity|]. split; [apply HW; exact HL|]. split; [exact HL|].
    intros idx H. unfold item_at. cbn [n_buf n_arr]. apply elems_get; assumption.
Qed.

Lemma promoted_spec x k : good x -> numeric k = true ->
  exists y, promoted x k = Ok y /\ shape_of y = shape_of x /\ wf (n_buf y) (n_arr y) /\
    forall idx, inb idx (shape_of x) -> item_at y idx = option_map (conv k x) (item_at x idx).
Proof.
  intros G N. unfold promoted. destruct (kind_eqb (n_kind x) k) eqn:E.
  - exists x. split; [reflexivity|]. split; [reflexivity|]. split; [apply G|]. intros idx H. unfold conv. rewrite E. destruct (item_at x idx); reflexivity.
  - destruct (astype_spec x k G N) as (y & A & _ & B & C & _ & D). exists y. repeat (split; [assumption|]). exact D.
Qed.

(* a boolean function of the elements of two arrays at a position of the broadcast shape *)
Definition cell2 (g : scalar -> scalar -> bool) (x y : narr) (idx : list nat) : bool :=
  match item_at x (unbroadcast (shape_of x) idx), item_at y (unbroadcast (shape_of y) idx) with
  | Some v, Some w => g v w
  | _, _ => false
  end.

Lemma mapM_total {A B} (f : A -> res B) (g : A -> B) l : (forall x, In x l -> f x = Ok (g x)) -> mapM f l = Ok (map g l).
Proof.
  intros H. induction l as [|a l IH]; [reflexivity|]. cbn [mapM map]. rewrite (H a) by (left; reflexivity). cbn [bind].
  rewrite IH by (intros; apply H; right; assumption). reflexivity.
Qed.

Lemma bc_items x y sh : broadcast_shapes (shape_of x) (shape_of y) = Some sh -> wf (n_buf x) (n_arr x) -> wf (n_buf y) (n_arr y) ->
  forall idx, inb idx sh -> inb (unbroadcast (shape_of x) idx) (shape_of x) /\ inb (unbroadcast (shape_of y) idx) (shape_of y) /\
    exists v w, item_at x (unbroadcast (shape_of x) idx) = Some v /\ item_at y (unbroadcast (shape_of y) idx) = Some w.
Proof.
  intros E WA WB idx Hi. destruct (bshape_upper _ _ _ E) as [UA UB].
  destruct (proj1 (broadcast_to_is_view _ _ sh WA) UA) as (a' & _ & _ & _ & GA).
  destruct (proj1 (broadcast_to_is_view _ _ sh WB) UB) as (b' & _ & _ & _ & GB).
  destruct (GA idx Hi) as [IA _]. destruct (GB idx Hi) as [IB _]. split; [exact IA|]. split; [exact IB|].
  destruct (wf_get _ _ _ WA IA) as [v Hv]. destruct (wf_get _ _ _ WB IB) as [w Hw]. exists v, w. split; assumption.
Qed.

Lemma zip_spec (g : scalar -> scalar -> bool) path x y : wf (n_buf x) (n_arr x) -> wf (n_buf y) (n_arr y) ->
  elementwise2 (fun v w => Ok (g v w)) path (n_buf x) (n_arr x) (n_buf y) (n_arr y) =
  match broadcast_shapes (shape_of x) (shape_of y) with
  | None => Err
  | Some sh => Ok (sh, map (cell2 g x y) (all_idx sh))
  end.
Proof.
  intros WA WB. pose proof (elementwise2_spec (fun v w => Ok (g v w)) path _ _ _ _ WA WB) as H. unfold shape_of.
  destruct (broadcast_shapes (a_shape (n_arr x)) (a_shape (n_arr y))) as [sh|] eqn:E; [|exact H]. rewrite H.
  rewrite (mapM_total _ (cell2 g x y)); [reflexivity|]. intros idx Hi. apply in_all_idx in Hi.
  destruct (bc_items x y sh E WA WB idx Hi) as (_ & _ & v & w & Hv & Hw). unfold cell2. rewrite Hv, Hw.
  unfold item_at, shape_of in Hv, Hw. rewrite Hv, Hw. reflexivity.
Qed.

Definition cmp_cell (op : cop) (x y : narr) (v w : scalar) : bool :=
  let k := promote (n_kind x) (n_kind y) in cmp_elem k op (conv k x v) (conv k y w).

Theorem compare_spec op x y : good x -> good y ->
  compare op x y = match broadcast_shapes (shape_of x) (shape_of y) with
                   | None => Err
                   | Some sh => Ok (sh, map (cell2 (cmp_cell op x y) x y) (all_idx sh))
                   end.
Proof.
  intros GX GY. unfold compare. fold (shape_of x). fold (shape_of y).
  destruct (broadcast_shapes (shape_of x) (shape_of y)) as [sh|] eqn:E; [|reflexivity]. cbv zeta.
  pose proof (C58_numeric _ _ (proj1 GX) (proj1 GY)) as N. set (k := promote (n_kind x) (n_kind y)) in *.
  destruct (promoted_spec x k GX N) as (x' & EX & SX & WX & IX). destruct (promoted_spec y k GY N) as (y' & EY & SY & WY & IY).
  rewrite EX, EY. cbn [bind]. rewrite zip_spec by assumption. rewrite SX, SY, E. f_equal. f_equal. apply map_ext_in. intros idx Hi.
  apply in_all_idx in Hi. destruct (bc_items x y sh E (proj1 (proj2 GX)) (proj1 (proj2 GY)) idx Hi) as (BX & BY & v & w & Hv & Hw).
  unfold cell2. rewrite SX, SY, (IX _ BX), (IY _ BY), Hv, Hw. reflexivity.
Qed.

(* ---- comparing elements --------------------------------------------------- *)
Lemma ext_antisym a b : ext_compare b a = option_map CompOpp (ext_compare a b).
Proof.
  destruct a as [|s|x], b as [|t|y]; cbn [ext_compare option_map]; try reflexivity; [destruct s, t; reflexivity|destruct s; reflexivity|destruct t; reflexivity|].
  rewrite (Z.compare_antisym x y). reflexivity.
Qed.

Lemma float_cmp_value prec emax op x y : 0 < prec -> -1074 <= SpecFloat.emin prec emax ->
  valid_binary prec emax x = true -> valid_binary prec emax y = true ->
  float_cmp op x y = says op (ext_compare (float_value x) (float_value y)).
Proof.
  intros HP HE VX VY. pose proof (compare_value prec emax x y HP HE VX VY) as H.
  pose proof (compare_value prec emax y x HP HE VY VX) as H'. rewrite ext_antisym in H'.
  destruct op; unfold float_cmp, SFltb, SFleb, SFeqb; rewrite ?H, ?H'; destruct (ext_compare (float_value x) (float_value y)) as [[]|]; reflexivity.
Qed.
Lemma int_cmp_value op a b : int_cmp op a b = says op (Some (a ?= b)).
Proof.
  destruct op; unfold int_cmp; rewrite ?Z.eqb_compare; unfold Z.ltb, Z.leb; rewrite ?(Z.compare_antisym a b); destruct (a ?= b); reflexivity.
Qed.
Lemma scaled_compare a b : (a * one ?= b * one) = (a ?= b).
Proof. symmetry. apply Zmult_compare_compat_r. pose proof one_pos. lia. Qed.

Lemma cmp_elem_real k op v w : real k = true -> element k v -> element k w ->
  cmp_elem k op v w = says op (ext_compare (real_value v) (real_value w)).
Proof.
  intros R EV EW. destruct (kind_eqb k Bool) eqn:EB.
  { apply kind_eqb_eq in EB. subst k. cbn [cmp_elem].
    destruct (as_f64_value Bool v R EV (narrow_fits Bool v R eq_refl EV)) as [A B]. destruct (as_f64_value Bool w R EW (narrow_fits Bool w R eq_refl EW)) as [A' B'].
    rewrite (float_cmp_value 53 1024 op _ _ ltac:(lia) ltac:(vm_compute; discriminate) B B'), A, A'. reflexivity. }
  unfold real_value. destruct k; try discriminate R; try discriminate EB; destruct v as [z|a|a b]; try contradiction; destruct w as [z'|a'|a' b']; try contradiction;
    cbn [cmp_elem value fst ext_compare].
  1: apply (float_cmp_value 11 16); [lia|vm_compute; discriminate|exact EV|exact EW].
  1: apply (float_cmp_value 24 128); [lia|vm_compute; discriminate|exact EV|exact EW].
  1: apply (float_cmp_value 53 1024); [lia|vm_compute; discriminate|exact EV|exact EW].
  all: rewrite int_cmp_value, scaled_compare; reflexivity.
Qed.
