(* C162: repeat, tile, roll and pad for every numeric dtype.  Elements travel through
   read_f64(..).unwrap_or(0.0) and write_f64 (Cast_Model.cast to the array's own dtype). *)
From Coq Require Import SpecFloat.
From Verif Require Import Base Lists Int_Model Int_Proofs F64_Model Arr_Spec Arr_Model Arr_Wf Arr_Proofs Wf_Check Bcast_Model Bcast_Proofs Copy_Model Copy_Proofs Idx_Model Idx_Assign Elem_Model Elem_Proofs Man_Spec Man_Model Man_Proofs Man_Edit Man_Ops Man_Props Rng_Model Date_Model New_Model Promo_Spec Promo_Model Promo_Proofs Promo_Props SF_Proofs SF_Arith SF_Cmp Cast_Spec Cast_Model Cast_SF Cast_Proofs Cast_Laws Cast_Props Close_Proofs.
Local Open Scope Z_scope.

Lemma same_value prec emax x y : 0 < prec -> -1074 <= SpecFloat.emin prec emax -> valid_binary prec emax x = true -> valid_binary prec emax y = true ->
  float_value x = float_value y -> float_value x <> Fin 0 -> float_value x <> NaN -> x = y.
Proof.
  intros HP HE VX VY E NZ NN. pose proof (compare_value prec emax x y HP HE VX VY) as C. rewrite E in C.
  assert (ext_compare (float_value y) (float_value y) = Some Eq) as C1 by (rewrite <- E; destruct (float_value x) as [|[]|a]; try reflexivity; [congruence|cbn; rewrite Z.compare_refl; reflexivity]).
  rewrite C1 in C. destruct x as [s|s| |s m e], y as [t|t| |t m' e']; cbn [SFcompare] in C; try discriminate C; try (destruct s; discriminate C); try (destruct t; discriminate C); try (exfalso; apply NZ; reflexivity).
  - destruct s, t; try discriminate C; reflexivity.
  - destruct s, t; try discriminate C; destruct (Z.compare_spec e e') as [->|L|L]; try discriminate C.
    + injection C as C. destruct (Pos.compare_cont Eq m m') eqn:EM; try discriminate C. apply Pos.compare_eq in EM. subst. reflexivity.
    + injection C as C. apply Pos.compare_eq in C. subst. reflexivity.
Qed.
Lemma widened prec emax s m e : 0 < prec -> -1074 <= SpecFloat.emin prec emax -> SpecFloat.emin prec emax <= 0 <= emax - prec -> valid_binary prec emax (S754_finite s m e) = true ->
  f64_holds (match float_value (S754_finite s m e) with Fin z => z | _ => 0 end) ->
  to_format prec emax (to_format 53 1024 (S754_finite s m e)) = S754_finite s m e.
Proof.
  intros HP HE HR V H. set (x := S754_finite s m e) in *. assert (exists z, float_value x = Fin z /\ z <> 0) as (z & EX & NZ).
  { destruct (valid_inv prec emax s m e HP V) as (_ & R & _). eexists. split; [reflexivity|]. assert (0 < 2 ^ (e + 1074)) by (apply Z.pow_pos_nonneg; lia). cbn [float_value]. intros E0. apply Z.mul_eq_0 in E0. destruct s; cbn [cond_Zopp] in E0; lia. }
  rewrite EX in H. destruct (to_format_exact prec emax 53 1024 x HP HE ltac:(lia) ltac:(vm_compute; discriminate) V) as [A B]; [rewrite EX; exact H|].
  pose proof (valid_holds prec emax x HP V HR) as HH.
  destruct (to_format_exact 53 1024 prec emax (to_format 53 1024 x) ltac:(lia) ltac:(vm_compute; discriminate) HP HE B) as [C D].
  { rewrite A. exact HH. }
  apply (same_value prec emax); try assumption; rewrite C, A, ?EX; [reflexivity|intros E0; apply fin_inj in E0; contradiction|discriminate].
Qed.
(* an element of a real dtype whose value fits a double survives the journey unchanged,
   sign of zero, infinities and NaN included *)
Lemma cast_same k v : real k = true -> element k v -> Cast_Proofs.fits v -> cast k v = v.
Proof.
  intros R E F. destruct v as [z|x|x y].
  - destruct (cast_exact k k (SInt z) R) as [A B]; try assumption.
    + unfold real in R. apply andb_true_iff in R. apply R.
    + destruct k; try discriminate R; try contradiction; cbn [element holds_value value] in *; try exact E; try (eexists; split; [reflexivity|exact E]).
    + unfold cast in *. destruct (write_f64 k (as_f64 (SInt z))) as [z'|x'|x' y'] eqn:EW.
      * f_equal. apply real_value_inj. unfold real_value. rewrite A. reflexivity.
      * destruct k; try discriminate R; try contradiction; discriminate EW.
      * destruct k; try discriminate R; try contradiction; discriminate EW.
  - unfold cast, as_f64. cbn [read_f64]. destruct x as [s|s| |s m e]; try (destruct k; try discriminate R; try contradiction; reflexivity).
    destruct k; try discriminate R; try contradiction; cbn [write_f64]; f_equal; unfold Cast_Proofs.fits, real_value in F; cbn [value fst] in F.
    + apply (widened 11 16); [lia|unfold SpecFloat.emin; lia|unfold SpecFloat.emin; lia|exact E|exact F].
    + apply (widened 24 128); [lia|unfold SpecFloat.emin; lia|unfold SpecFloat.emin; lia|exact E|exact F].
    + change (to_format 53 1024 (S754_finite s m e)) with (binary_round 53 1024 s m e).
      pose proof (to_format_exact 53 1024 53 1024 (S754_finite s m e) ltac:(lia) ltac:(vm_compute; discriminate) ltac:(lia) ltac:(vm_compute; discriminate) E F) as [A B].
      cbn [to_format] in A, B. apply (same_value 53 1024); [lia|unfold SpecFloat.emin; lia|exact B|exact E|exact A| |]; rewrite A.
      * cbn [float_value]. intros E0. apply fin_inj in E0. destruct (valid_inv 53 1024 s m e ltac:(lia) E) as (_ & RG & _). change (SpecFloat.emin 53 1024) with (-1074) in RG. assert (0 < 2 ^ (e + 1074)) by (apply Z.pow_pos_nonneg; lia).
        apply Z.mul_eq_0 in E0. destruct s; cbn [cond_Zopp] in E0; lia.
      * discriminate.
  - destruct k; try discriminate R; contradiction.
Qed.

(* arrays of real numbers; 64-bit integers only of magnitude up to 2^53 or otherwise
   representable as doubles *)
Definition exact_array (x : narr) : Prop :=
  good x /\ real (n_kind x) = true /\ (wide_int (n_kind x) = true -> Forall Cast_Proofs.fits (n_buf x)).
(* what a numeric dtype's zeros() holds *)
Definition zero_of (k : kind) : scalar := cast k (SInt 0).

Lemma get_in (buf : list scalar) a idx v : get buf a idx = Some v -> In v buf.
Proof. unfold get, load. intros Hv. destruct (_ <? 0); [discriminate|]. destruct (_ =? 0); [|discriminate]. apply nth_error_In in Hv. exact Hv. Qed.
Lemma wf_elems_in (P : scalar -> Prop) buf a vals w : elems buf a = map Some vals -> Forall P buf -> In w vals -> P w.
Proof.
  intros E HF HI. apply (in_map Some) in HI. rewrite <- E in HI. unfold elems in HI. apply in_map_iff in HI as (idx & Hg & _). apply get_in in Hg. rewrite Forall_forall in HF. exact (HF w Hg).
Qed.
Lemma exact_survives x : exact_array x -> survives (cast (n_kind x)) (n_buf x) (n_arr x).
Proof.
  intros (G & R & F) idx v Hi Hv.
  pose proof (get_in _ _ _ _ Hv) as HI.
  pose proof G as (_ & _ & HE & _). rewrite Forall_forall in HE. apply cast_same; [exact R|apply HE; exact HI|].
  destruct (wide_int (n_kind x)) eqn:WI; [specialize (F eq_refl); rewrite Forall_forall in F; apply F; exact HI|apply (narrow_fits (n_kind x)); [exact R|exact WI|apply HE; exact HI]].
Qed.

Notation manip x f := (f (zero_of (n_kind x)) (cast (n_kind x))).

(* repeat without an axis: element i / r *)
Theorem C162_repeat_partial : forall x vals r, exact_array x -> elems (n_buf x) (n_arr x) = map Some vals ->
  exists out, manip x repeat_arr (n_buf x) (n_arr x) r None = Ok ([size (n_arr x) * r]%nat, out) /\ length out = (size (n_arr x) * r)%nat /\
    forall i, (i < size (n_arr x) * r)%nat -> nth_error out i = nth_error vals (i / r).
Proof. intros x vals r H E. apply C41_repeat_flat_partial; [apply H|exact E|apply exact_survives; exact H]. Qed.
(* roll along an axis *)
Theorem C162_roll_partial : forall typed x shift axis n, exact_array x -> nth_error (shape_of x) axis = Some n ->
  exists out, manip x roll typed (n_buf x) (n_arr x) shift (Some (Z.of_nat axis)) = Ok (shape_of x, out) /\ length out = size (n_arr x) /\
    forall item idx, 0 < item -> inb idx (shape_of x) ->
      get out (fresh (shape_of x) item) (upd idx axis (rolled n shift (nth axis idx 0%nat))) = item_at x idx.
Proof. intros typed x shift axis n H E. apply (C41_roll_axis_partial (zero_of (n_kind x)) (cast (n_kind x)) typed (n_buf x) (n_arr x) shift axis n); [apply H|exact E|apply exact_survives; exact H]. Qed.
(* tile *)
Theorem C162_tile_partial : forall typed x reps item, exact_array x -> 0 < item ->
  ((length reps <= ndim (n_arr x))%nat \/ exists r, In r reps /\ r <> 1%nat) ->
  let d := Nat.max (ndim (n_arr x)) (length reps) in
  let padded_shape := repeat 1%nat (d - ndim (n_arr x)) ++ shape_of x in
  let nsh := Base.zip_with Nat.mul padded_shape (repeat 1%nat (d - length reps) ++ reps) in
  exists out, manip x tile typed (n_buf x) (n_arr x) reps = Ok (nsh, out) /\ length out = prod nsh /\
    forall idx, inb idx nsh ->
      let src := skipn (d - ndim (n_arr x)) (Base.zip_with Nat.modulo idx padded_shape) in
      inb src (shape_of x) /\ get out (fresh nsh item) idx = item_at x src.
Proof. intros typed x reps item H HI HR. apply (C41_tile_partial (zero_of (n_kind x)) (cast (n_kind x)) typed (n_buf x) (n_arr x) reps item); [apply H|exact HI|exact HR|apply exact_survives; exact H]. Qed.
(* pad with a constant: the element inside, the constant outside *)
Theorem C162_pad_partial : forall x pw cval item, exact_array x -> length pw = ndim (n_arr x) -> 0 < item ->
  let nsh := padded (shape_of x) pw in
  exists out, manip x Man_Model.pad (n_buf x) (n_arr x) pw (PadConstant cval) = Ok (nsh, out) /\ length out = prod nsh /\
    forall idx, inb idx nsh -> get out (fresh nsh item) idx =
      if in_region (shape_of x) pw idx then item_at x (shifted_back pw idx) else Some cval.
Proof. intros x pw cval item H HL HI. apply (C67_pad_constant_partial (zero_of (n_kind x)) (cast (n_kind x)) (n_buf x) (n_arr x) pw cval item); [apply H|exact HL|exact HI|apply exact_survives; exact H]. Qed.

(* every element of a complex array is lost: repeat gives zeros, pad zeros inside the border *)
Lemma complex_zero k v : is_complex_kind k = true -> element k v -> cast k v = SCpx (S754_zero false) (S754_zero false).
Proof. intros C E. destruct k; try discriminate C; destruct v; try contradiction; reflexivity. Qed.
Theorem C162_complex_repeat_refuted : forall x vals r, good x -> is_complex_kind (n_kind x) = true -> elems (n_buf x) (n_arr x) = map Some vals -> (0 < r)%nat ->
  exists out, manip x repeat_arr (n_buf x) (n_arr x) r None = Ok ([size (n_arr x) * r]%nat, out) /\ length out = (size (n_arr x) * r)%nat /\
    forall v, In v out -> v = SCpx (S754_zero false) (S754_zero false).
Proof.
  intros x vals r G C E Hr. pose proof G as (_ & W & HE & _). destruct (repeat_flat_spec (zero_of (n_kind x)) (cast (n_kind x)) (n_buf x) (n_arr x) vals r W E Hr) as (out & EO & L & H).
  exists out. split; [exact EO|]. split; [exact L|]. intros v HV. apply In_nth_error in HV as [i Hi]. rewrite H in Hi.
  destruct (nth_error vals (i / r)) as [w|] eqn:EW; [|discriminate Hi]. injection Hi as <-. apply complex_zero; [exact C|]. apply nth_error_In in EW.
  exact (wf_elems_in _ _ _ vals w E HE EW).
Qed.
Theorem C162_complex_pad_refuted : forall x pw cval item, good x -> is_complex_kind (n_kind x) = true -> length pw = ndim (n_arr x) -> 0 < item ->
  exists out, manip x Man_Model.pad (n_buf x) (n_arr x) pw (PadConstant cval) = Ok (padded (shape_of x) pw, out) /\
    forall idx v, inb idx (padded (shape_of x) pw) -> in_region (shape_of x) pw idx = true -> get out (fresh (padded (shape_of x) pw) item) idx = Some v ->
      v = SCpx (S754_zero false) (S754_zero false).
Proof.
  intros x pw cval item G C HL HI. pose proof G as (_ & W & HE & _). destruct (pad_constant_spec (zero_of (n_kind x)) (cast (n_kind x)) (n_buf x) (n_arr x) pw cval item W HL HI) as (out & EO & _ & H).
  exists out. split; [exact EO|]. intros idx v Hi HR Hv. unfold shape_of in *. rewrite (H idx Hi), HR in Hv. destruct (get (n_buf x) (n_arr x) (shifted_back pw idx)) as [w|] eqn:EW; [|discriminate Hv].
  injection Hv as <-. apply complex_zero; [exact C|]. rewrite Forall_forall in HE. apply HE. apply (get_in _ _ _ _ EW).
Qed.
(* roll and tile keep them only where they copy bytes *)
Theorem C162_complex_roll_refuted : exists x, good x /\ n_buf x = [SCpx (f64_int 1) (f64_int 2); SCpx (f64_int 3) (f64_int 4)] /\
  roll (zero_of Complex128) (cast Complex128) false (n_buf x) (n_arr x) 1 (Some 0) = Ok ([2%nat], [zero_of Complex128; zero_of Complex128]) /\
  roll (zero_of Complex128) (cast Complex128) false (n_buf x) (n_arr x) 1 None = Ok ([2%nat], [SCpx (f64_int 3) (f64_int 4); SCpx (f64_int 1) (f64_int 2)]) /\
  tile (zero_of Complex128) (cast Complex128) false (n_buf x) (n_arr x) [1; 2]%nat = Ok ([1; 4]%nat, repeat (zero_of Complex128) 4) /\
  tile (zero_of Complex128) (cast Complex128) false (n_buf x) (n_arr x) [2]%nat = Ok ([4]%nat, n_buf x ++ n_buf x).
Proof. exists (row Complex128 [SCpx (f64_int 1) (f64_int 2); SCpx (f64_int 3) (f64_int 4)]). split; [good_row|]. repeat (split; [vm_compute; reflexivity|]). vm_compute. reflexivity. Qed.
Example C162_nonvacuous :
  let x := row Float32 [SFlt (S754_finite false 8388608 (-23)); SFlt (S754_zero true); SFlt S754_nan] in
  exact_array x /\ manip x repeat_arr (n_buf x) (n_arr x) 2 None = Ok ([6%nat], [nth 0 (n_buf x) (SInt 0); nth 0 (n_buf x) (SInt 0); SFlt (S754_zero true); SFlt (S754_zero true); SFlt S754_nan; SFlt S754_nan]) /\
  manip x roll false (n_buf x) (n_arr x) 1 (Some 0) = Ok ([3%nat], [SFlt S754_nan; nth 0 (n_buf x) (SInt 0); SFlt (S754_zero true)]).
Proof. split; [split; [good_row|split; [reflexivity|discriminate]]|]. split; vm_compute; reflexivity. Qed.

Print Assumptions C162_repeat_partial.
Print Assumptions C162_roll_partial.
Print Assumptions C162_tile_partial.
Print Assumptions C162_pad_partial.
Print Assumptions C162_complex_repeat_refuted.
Print Assumptions C162_complex_pad_refuted.
Print Assumptions C162_complex_roll_refuted.
