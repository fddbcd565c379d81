(* C157-C161: reductions of complex, float and bool arrays. *)
From Coq Require Import SpecFloat Permutation.
From Verif Require Import Base Lists Int_Model Int_Proofs F64_Model Arr_Spec Arr_Model Arr_Wf Arr_Proofs Wf_Check Bcast_Model Bcast_Proofs Copy_Model Copy_Proofs Idx_Model Idx_Assign Elem_Model Elem_Proofs Rng_Model Date_Model New_Model Promo_Spec Promo_Model Promo_Proofs Promo_Props SF_Proofs SF_Arith SF_Cmp Cast_Spec Cast_Model Cast_SF Cast_Proofs Cast_Laws Cast_Props Close_Proofs Bitw_Spec Bitw_Model Bitw_Proofs Rnd_Spec Rnd_Model Rnd_Proofs Rnd_Round Rnd_Props Ari_Spec SF_Round Ari_Model Ari_Proofs Ari_Ord Ari_Next Ari_Props Red_Spec Red_Model Red_Proofs Cpx_Spec Cpx_Model Cpx_Proofs CpxA_Spec CpxA_Proofs Fred_Spec Fred_Model Fred_Proofs.
Local Open Scope Z_scope.

Definition complex_array (x : narr) : Prop := good x /\ is_complex_kind (n_kind x) = true.
Definition float_array (x : narr) : Prop := good x /\ float_kind (n_kind x).
(* the elements in row-major order *)
Definition listed (x : narr) (vals : list scalar) : Prop := elems (n_buf x) (n_arr x) = map Some vals.
Definition cf (a b : Z) : scalar := SCpx (f64_int a) (f64_int b).

(* ---- C157 -------------------------------------------------------------------- *)
(* a.sum(), a.prod(), a.max() and a.min() of a complex array are 0.0, whatever is in it *)
Theorem C157_total_refuted : forall op x, complex_array x -> cpx_total op x = Ok (S754_zero false).
Proof. intros op x [G C]. apply cpx_total_zero; assumption. Qed.
(* along an axis the greatest is always minus infinity *)
Theorem C157_max_refuted : forall x axis, complex_array x -> (axis < length (shape_of x))%nat ->
  exists sh out, cpx_reduce_axis RMax x axis = Ok (sh, out) /\ cpx_entry (fun _ r => r = (Inf true, Fin 0)) x axis sh out.
Proof.
  intros x axis [G C] HA. apply cpx_axis_lanes; try assumption. intros F lv HF _.
  assert (fst (part (n_kind x)) = 24 /\ snd (part (n_kind x)) = 128 \/ fst (part (n_kind x)) = 53 /\ snd (part (n_kind x)) = 1024) as HP by (destruct (n_kind x); try discriminate C; cbn; auto).
  destruct (max_stuck _ _ (map scalar_cpx lv) HP) as [A B]. destruct HF as [-> | ->]; cbv zeta; [rewrite A|rewrite B]; reflexivity.
Qed.
(* the least along an axis is by size: of -5 and 1 it is 1 *)
Theorem C157_min_refuted : exists x, complex_array x /\ listed x [cf (-5) 0; cf 1 0] /\
  (forall sh out, cpx_reduce_axis RMin x 0 = Ok (sh, out) -> exists r, get out (fresh sh 16) [0%nat] = Some r /\
     value (SCpx (fst r) (snd r)) = value (cf 1 0)) /\ lex_le (value (cf (-5) 0)) (value (cf 1 0)).
Proof.
  exists (row Complex128 [cf (-5) 0; cf 1 0]). split; [split; [good_row|reflexivity]|]. split; [reflexivity|]. split.
  - intros sh out H. vm_compute in H. injection H as <- <-. eexists. split; [reflexivity|]. vm_compute. reflexivity.
  - vm_compute. auto.
Qed.
(* along an axis a sum is exact, part by part, when each part's sum needs no more bits than
   the dtype has *)
Theorem C157_sum_partial : forall x axis U, complex_array x -> (axis < length (shape_of x))%nat -> unit_of (part_kind (n_kind x)) U ->
  exists sh out, cpx_reduce_axis RSum x axis = Ok (sh, out) /\
    cpx_entry (fun l r => summable (fst (format (n_kind x))) U (map fst l) -> summable (fst (format (n_kind x))) U (map snd l) ->
                          r = (Fin (total (map fst l)), Fin (total (map snd l)))) x axis sh out.
Proof.
  intros x axis U [G C] HA HU. apply cpx_axis_lanes; try assumption. intros F lv HF FL. cbv zeta. intros H1 H2.
  destruct (cpx_buf _ lv C FL) as (B1 & B2 & B3). destruct (csum_orders _ U C HU _ B1) as [S1 S2].
  assert (csum_inv (n_kind x) U (map scalar_cpx lv) (F (map scalar_cpx lv))) as (_ & _ & S3 & S4) by (destruct HF as [-> | ->]; assumption).
  rewrite B2 in S3. rewrite B3 in S4. destruct (part_fmt _ C) as [P1 P2]. unfold sum_inv in S3, S4. rewrite P1, <- P2 in S3, S4. cbn [value]. rewrite S3, S4 by assumption. reflexivity.
Qed.
Example C157_nonvacuous :
  let x := row Complex128 [cf 1 2; cf 3 (-5)] in
  complex_array x /\ cpx_total RSum x = Ok (S754_zero false) /\
  (exists sh out, cpx_reduce_axis RSum x 0 = Ok (sh, out) /\ map (fun r => value (SCpx (fst r) (snd r))) out = [value (cf 4 (-3))]) /\
  unit_of Float64 one /\ summable 53 one [Fin (1 * one); Fin (3 * one)].
Proof.
  split; [split; [good_row|reflexivity]|]. split; [reflexivity|]. split; [eexists _, _; split; [reflexivity|vm_compute; reflexivity]|].
  split; [exists 0; split; [cbn; lia|reflexivity]|]. split; [repeat constructor; eexists; reflexivity|vm_compute; reflexivity].
Qed.

(* ---- C158 -------------------------------------------------------------------- *)
(* the sum of all elements, in any layout *)
Theorem C158_sum : forall x vals U, float_array x -> listed x vals -> unit_of (n_kind x) U ->
  summable (fst (format (n_kind x))) U (map real_value vals) ->
  exists r, float_total RSum x = Ok r /\ float_value r = Fin (total (map real_value vals)).
Proof.
  intros x vals U [G K] E HU HS. destruct (float_total_inv (sum_inv (n_kind x) U) RSum x vals K G E) as (r & ER & HR).
  - destruct K as [-> |[-> | ->]]; reflexivity.
  - intros _. reflexivity.
  - apply sum_unordered.
  - apply (sum_stable (n_kind x) U K HU).
  - apply (sum_stable (n_kind x) U K HU).
  - exists r. split; [exact ER|exact (HR HS)].
Qed.
Theorem C158_sum_axis : forall x axis U, float_array x -> (axis < length (shape_of x))%nat -> unit_of (n_kind x) U ->
  exists z, float_axis RSum x axis = Ok z /\
    per_lane (fun l r => summable (fst (format (n_kind x))) U l -> r = Fin (total l)) x axis z.
Proof.
  intros x axis U [G K] HA HU. destruct (dispatch_axis_inv (sum_inv (n_kind x) U) (fred_init (n_kind x) RSum) (fred_comb (n_kind x) RSum) x axis K G HA) as (sh & out & ER & HP).
  - destruct K as [-> |[-> | ->]]; reflexivity.
  - intros _. reflexivity.
  - apply sum_unordered.
  - apply (sum_stable (n_kind x) U K HU).
  - unfold float_axis. rewrite ER. eexists. split; [reflexivity|exact HP].
Qed.
(* the product *)
Theorem C158_prod : forall x vals, float_array x -> listed x vals -> multipliable (fst (format (n_kind x))) (map real_value vals) ->
  exists r, float_total RProd x = Ok r /\ float_value r = Fin (times (map real_value vals) * one).
Proof.
  intros x vals [G K] E HS. destruct (unit_value _ K) as [VU EU]. destruct (float_total_inv (prod_inv (n_kind x)) RProd x vals K G E) as (r & ER & HR).
  - exact VU.
  - intros _. cbn [fred_init]. rewrite EU. reflexivity.
  - apply prod_unordered.
  - apply (prod_stable (n_kind x) K).
  - apply (prod_stable (n_kind x) K).
  - exists r. split; [exact ER|exact (HR HS)].
Qed.
Theorem C158_prod_axis : forall x axis, float_array x -> (axis < length (shape_of x))%nat ->
  exists z, float_axis RProd x axis = Ok z /\
    per_lane (fun l r => multipliable (fst (format (n_kind x))) l -> r = Fin (times l * one)) x axis z.
Proof.
  intros x axis [G K] HA. destruct (unit_value _ K) as [VU EU]. destruct (dispatch_axis_inv (prod_inv (n_kind x)) (fred_init (n_kind x) RProd) (fred_comb (n_kind x) RProd) x axis K G HA) as (sh & out & ER & HP).
  - exact VU.
  - intros _. cbn [fred_init]. rewrite EU. reflexivity.
  - apply prod_unordered.
  - apply (prod_stable (n_kind x) K).
  - unfold float_axis. rewrite ER. eexists. split; [reflexivity|exact HP].
Qed.
(* a NaN anywhere makes the sum and the product NaN *)
Theorem C158_nan : forall op x vals, op = RSum \/ op = RProd -> float_array x -> listed x vals -> In NaN (map real_value vals) ->
  exists r, float_total op x = Ok r /\ float_value r = NaN.
Proof.
  intros op x vals HO [G K] E HI. destruct (unit_value _ K) as [VU _]. destruct (float_total_inv nan_inv op x vals K G E) as (r & ER & HR).
  - destruct HO as [-> | ->]; [destruct K as [-> |[-> | ->]]; reflexivity|exact VU].
  - intros [].
  - apply nan_unordered.
  - destruct HO as [-> | ->]; [apply (nan_stable _ AAdd K)|apply (nan_stable _ AMul K)]; auto.
  - destruct HO as [-> | ->]; [apply (nan_stable _ AAdd K)|apply (nan_stable _ AMul K)]; auto.
  - exists r. split; [exact ER|exact (HR HI)].
Qed.
Example C158_nonvacuous :
  let x := row Float64 [fl 1 2; fl 3 4; fl (-5) 1; fl 1 4; fl 1 1; fl 2 1; fl 3 1; fl 4 1; fl 5 1; fl 6 1] in
  let t := mkN Float64 [fl 1 1; fl 2 1; fl 3 1; fl 4 1; fl 5 1; fl 6 1] (mkArr 0 [3; 2]%nat [8; 24] 8 false true) in
  float_array x /\ float_array t /\ float_total RSum x = Ok (flt (fl 35 2)) /\ float_total RSum t = Ok (flt (fl 21 1)) /\
  float_total RProd t = Ok (flt (fl 720 1)) /\ float_axis RSum t 1 = Ok (row Float64 [fl 5 1; fl 7 1; fl 9 1]) /\
  unit_of Float64 (2 ^ 1072) /\ summable 53 (2 ^ 1072) [real_value (fl 1 2); real_value (fl 3 4)] /\ multipliable 53 [real_value (fl 5 1); real_value (fl 6 1)].
Proof.
  split; [split; [good_row|right; right; reflexivity]|]. split; [split; [good_row|right; right; reflexivity]|]. do 4 (split; [vm_compute; reflexivity|]).
  split; [exists (-2); split; [cbn; lia|reflexivity]|]. split; (split; [|vm_compute; reflexivity]).
  - constructor; [exists 2; vm_compute; reflexivity|constructor; [exists 3; vm_compute; reflexivity|constructor]].
  - constructor; [exists 5; vm_compute; reflexivity|constructor; [exists 6; vm_compute; reflexivity|constructor]].
Qed.

(* ---- C159 -------------------------------------------------------------------- *)
(* without NaN, the greatest and the least element, in any layout *)
Lemma no_nan l : ~ In NaN l -> numbers l = l.
Proof.
  intros H. unfold numbers. induction l as [|e l IH]; [reflexivity|]. cbn [filter]. destruct e; [exfalso; apply H; left; reflexivity| |]; (rewrite IH; [reflexivity|intros HI; apply H; right; exact HI]).
Qed.
Theorem C159_extreme_partial : forall up x vals, float_array x -> listed x vals -> vals <> [] -> ~ In NaN (map real_value vals) ->
  exists r, float_total (red_of up) x = Ok r /\ best_of up (map real_value vals) (float_value r).
Proof.
  intros up x vals [G K] E NE NN. destruct (best_init (n_kind x) up K) as [BI BQ]. destruct (float_total_inv (best_inv up) (red_of up) x vals K G E BI BQ) as (r & ER & HR).
  - apply best_unordered.
  - apply best_stable. intros. apply kernel_pick; assumption.
  - apply best_stable. intros. apply trait_pick; assumption.
  - exists r. split; [exact ER|]. destruct (best_final _ _ _ HR) as [B _]. rewrite (no_nan _ NN) in B. apply B. destruct vals; [contradiction|discriminate].
Qed.
Theorem C159_extreme_axis_partial : forall up x axis, float_array x -> (axis < length (shape_of x))%nat ->
  exists z, float_axis (red_of up) x axis = Ok z /\
    per_lane (fun l r => l <> [] -> ~ In NaN l -> best_of up l r) x axis z.
Proof.
  intros up x axis [G K] HA. destruct (best_init (n_kind x) up K) as [BI BQ]. destruct (dispatch_axis_inv (best_inv up) _ (fred_comb (n_kind x) (red_of up)) x axis K G HA BI BQ) as (sh & out & ER & HP).
  - apply best_unordered.
  - apply best_stable. intros. apply kernel_pick; assumption.
  - unfold float_axis. rewrite ER. eexists. split; [reflexivity|]. destruct HP as (H1 & H2 & H3). split; [exact H1|]. split; [exact H2|].
    intros idx HI. destruct (H3 idx HI) as (lv & r & A & B & C & D). exists lv, r. repeat (split; [assumption|]). intros NE NN. destruct (best_final _ _ _ D) as [F _]. rewrite (no_nan _ NN) in F. exact (F NE).
Qed.
(* NaN elements are passed over instead of winning, and an array of NaN has the opposite
   infinity as its extreme *)
Theorem C159_nan_refuted : forall up x vals, float_array x -> listed x vals -> In NaN (map real_value vals) ->
  exists r, float_total (red_of up) x = Ok r /\ float_value r <> NaN /\
    (numbers (map real_value vals) <> [] -> best_of up (numbers (map real_value vals)) (float_value r)) /\
    (numbers (map real_value vals) = [] -> float_value r = Inf up).
Proof.
  intros up x vals [G K] E _. destruct (best_init (n_kind x) up K) as [BI BQ]. destruct (float_total_inv (best_inv up) (red_of up) x vals K G E BI BQ) as (r & ER & HR).
  - apply best_unordered.
  - apply best_stable. intros. apply kernel_pick; assumption.
  - apply best_stable. intros. apply trait_pick; assumption.
  - exists r. split; [exact ER|]. split; [apply HR|]. exact (best_final _ _ _ HR).
Qed.
Example C159_nonvacuous :
  let x := row Float64 [fl 1 2; fl 3 4; fl (-5) 1] in
  let y := row Float64 [SFlt S754_nan; fl 3 4] in
  float_array x /\ float_array y /\ float_total RMax x = Ok (flt (fl 3 4)) /\ float_total RMin x = Ok (flt (fl (-5) 1)) /\
  float_axis RMax x 0 = Ok (row Float64 [fl 3 4]) /\ float_total RMax y = Ok (flt (fl 3 4)) /\ In NaN (map real_value (n_buf y)) /\ ~ In NaN (map real_value (n_buf x)).
Proof.
  split; [split; [good_row|right; right; reflexivity]|]. split; [split; [good_row|right; right; reflexivity]|]. do 4 (split; [vm_compute; reflexivity|]).
  split; [left; reflexivity|]. intros H. vm_compute in H. repeat destruct H as [H|H]; try discriminate H; exact H.
Qed.

(* ---- C160 -------------------------------------------------------------------- *)
Theorem C160_nansum : forall x vals U, float_array x -> listed x vals -> unit_of (n_kind x) U ->
  summable (fst (format (n_kind x))) U (numbers (map real_value vals)) ->
  exists r, nan_total RSum x = Ok r /\ float_value r = Fin (total (numbers (map real_value vals))).
Proof. intros x vals U [G K] E HU HS. apply (nan_total_sum x vals U); assumption. Qed.
Theorem C160_nanprod : forall x vals, float_array x -> listed x vals -> multipliable (fst (format (n_kind x))) (numbers (map real_value vals)) ->
  exists r, nan_total RProd x = Ok r /\ float_value r = Fin (times (numbers (map real_value vals)) * one).
Proof. intros x vals [G K] E HS. apply nan_total_prod; assumption. Qed.
(* along an axis, float64 and float32 *)
Theorem C160_nansum_axis : forall x axis U, float_array x -> n_kind x <> Float16 -> (axis < length (shape_of x))%nat -> unit_of (n_kind x) U ->
  exists z, nan_axis RSum x axis = Ok z /\
    per_lane (fun l r => summable (fst (format (n_kind x))) U (numbers l) -> r = Fin (total (numbers l))) x axis z.
Proof.
  intros x axis U [G K] _ HA HU. destruct (dispatch_axis_inv (skip (sum_inv (n_kind x) U)) (fred_init (n_kind x) RSum) (nan_comb (n_kind x) RSum) x axis K G HA) as (sh & out & ER & HP).
  - destruct K as [-> |[-> | ->]]; reflexivity.
  - intros _. reflexivity.
  - apply skip_unordered, sum_unordered.
  - apply nan_sum_stable; assumption.
  - unfold nan_axis. rewrite ER. eexists. split; [reflexivity|exact HP].
Qed.
(* the greatest (least) number; NaN when there is none; short of the case in which every
   number is the starting infinity *)
Theorem C160_nanmax_partial : forall up x vals, float_array x -> listed x vals ->
  exists r, nan_total (red_of up) x = Ok r /\ (numbers (map real_value vals) = [] -> float_value r = NaN) /\
    ((exists e, In e (numbers (map real_value vals)) /\ e <> Inf up) -> best_of up (numbers (map real_value vals)) (float_value r)).
Proof. intros up x vals [G K] E. apply nan_total_best; assumption. Qed.
Theorem C160_nanmax_axis_partial : forall up x axis, float_array x -> n_kind x <> Float16 -> (axis < length (shape_of x))%nat ->
  exists z, nan_axis (red_of up) x axis = Ok z /\ per_lane (fun l r => numbers l <> [] -> best_of up (numbers l) r) x axis z.
Proof.
  intros up x axis [G K] _ HA. destruct (best_init (n_kind x) up K) as [BI BQ]. destruct (dispatch_axis_inv (best_inv up) _ (nan_comb (n_kind x) (red_of up)) x axis K G HA BI BQ) as (sh & out & ER & HP).
  - apply best_unordered.
  - apply best_stable. intros. apply nan_kernel_pick; assumption.
  - unfold nan_axis. rewrite ER. eexists. split; [reflexivity|]. destruct HP as (H1 & H2 & H3). split; [exact H1|]. split; [exact H2|].
    intros idx HI. destruct (H3 idx HI) as (lv & r & A & B & C & D). exists lv, r. repeat (split; [assumption|]). apply (best_final _ _ _ D).
Qed.
(* the position of the first greatest (least) number *)
Theorem C160_nanarg_partial : forall up x vals, float_array x -> listed x vals ->
  (exists e, In e (numbers (map real_value vals)) /\ e <> Inf up) ->
  exists i b, nanarg up x = Ok i /\ best_of up (numbers (map real_value vals)) b /\ nth_error (map real_value vals) i = Some b /\
    forall j, (j < i)%nat -> nth_error (map real_value vals) j <> Some b.
Proof. intros up x vals [G K] E HE. apply nanarg_spec; assumption. Qed.
(* nanmax of minus infinity is NaN when the array is contiguous, minus infinity when the same
   elements are a transposed view; nanargmax is an error; and along an axis of NaN only the
   greatest is minus infinity *)
Theorem C160_infinity_refuted : exists x y z,
  float_array x /\ float_array y /\ float_array z /\
  listed x [SFlt (S754_infinity true); SFlt S754_nan; SFlt (S754_infinity true); SFlt S754_nan] /\
  listed y [SFlt (S754_infinity true); SFlt S754_nan; SFlt (S754_infinity true); SFlt S754_nan] /\
  listed z [SFlt S754_nan] /\
  nan_total RMax x = Ok S754_nan /\ nan_total RMax y = Ok (S754_infinity true) /\ nanarg true x = Err /\
  nan_total RMax z = Ok S754_nan /\ nan_axis RMax z 0 = Ok (row Float64 [SFlt (S754_infinity true)]).
Proof.
  exists (row Float64 [SFlt (S754_infinity true); SFlt S754_nan; SFlt (S754_infinity true); SFlt S754_nan]).
  exists (mkN Float64 [SFlt (S754_infinity true); SFlt (S754_infinity true); SFlt S754_nan; SFlt S754_nan] (mkArr 0 [2; 2]%nat [8; 16] 8 false true)).
  exists (row Float64 [SFlt S754_nan]).
  split; [split; [good_row|right; right; reflexivity]|]. split; [split; [good_row|right; right; reflexivity]|]. split; [split; [good_row|right; right; reflexivity]|].
  repeat (split; [vm_compute; reflexivity|]). vm_compute. reflexivity.
Qed.
Example C160_nonvacuous :
  let x := row Float64 [SFlt S754_nan; fl 3 4; fl (-5) 1; SFlt S754_nan; fl 3 4] in
  float_array x /\ nan_total RSum x = Ok (flt (fl (-7) 2)) /\ nan_total RMax x = Ok (flt (fl 3 4)) /\ nan_total RMin x = Ok (flt (fl (-5) 1)) /\
  nanarg true x = Ok 1%nat /\ nanarg false x = Ok 2%nat /\ nan_axis RSum x 0 = Ok (row Float64 [fl (-7) 2]) /\
  summable 53 (2 ^ 1072) (numbers (map real_value (n_buf x))) /\ In (real_value (fl 3 4)) (numbers (map real_value (n_buf x))).
Proof.
  split; [split; [good_row|right; right; reflexivity]|]. do 6 (split; [vm_compute; reflexivity|]). split; [split; [|vm_compute; reflexivity]|vm_compute; auto].
  constructor; [exists 3; vm_compute; reflexivity|constructor; [exists (-20); vm_compute; reflexivity|constructor; [exists 3; vm_compute; reflexivity|constructor]]].
Qed.

(* ---- C161 -------------------------------------------------------------------- *)
Definition bool_array (x : narr) : Prop := good x /\ n_kind x = Bool.
(* the product is 1 exactly if all are true; the greatest and the least are what they are *)
Theorem C161_prod : forall x vals, bool_array x -> listed x vals ->
  exists r, bool_total RProd x = Ok r /\ float_value r = Fin (zprod (map bit vals) * one).
Proof. intros x vals [G K] E. exact (bool_total_spec RProd x vals K G E). Qed.
Lemma bits_extreme vals : Forall (element Bool) vals -> vals <> [] ->
  is_max (map bit vals) (Z.min 1 (zsum (map bit vals))) /\ is_min (map bit vals) (zprod (map bit vals)).
Proof.
  intros HF NE. assert (H01 : forall z, In z (map bit vals) -> z = 0 \/ z = 1).
  { intros z HI. apply in_map_iff in HI as (v & <- & HV). rewrite Forall_forall in HF. destruct (bool_element v (HF v HV)) as [-> | ->]; auto. }
  assert (HL : map bit vals <> []) by (destruct vals; [contradiction|discriminate]). revert H01 HL. generalize (map bit vals). clear. intros l H01 HL.
  assert (0 <= zsum l /\ (zsum l = 0 -> forall z, In z l -> z = 0) /\ (0 < zsum l -> In 1 l)) as (S0 & S1 & S2).
  { clear HL. unfold zsum. induction l as [|z l IH]; cbn [fold_right]; [split; [lia|split; [intros _ z []|lia]]|]. destruct IH as (A & B & C); [intros y Hy; apply H01; right; exact Hy|].
    fold (zsum l) in *. destruct (H01 z (or_introl eq_refl)) as [-> | ->].
    - split; [lia|]. split; [intros HZ y [<- |Hy]; [reflexivity|apply B; [lia|exact Hy]]|intros HP; right; apply C; lia].
    - split; [lia|]. split; [lia|]. intros _. left. reflexivity. }
  assert ((zprod l = 0 /\ In 0 l) \/ (zprod l = 1 /\ forall z, In z l -> z = 1)) as HP.
  { clear HL S0 S1 S2. unfold zprod. induction l as [|z l IH]; cbn [fold_right]; [right; split; [reflexivity|intros z []]|]. fold (zprod l) in *. destruct (H01 z (or_introl eq_refl)) as [-> | ->].
    - left. split; [reflexivity|left; reflexivity].
    - rewrite Z.mul_1_l. destruct IH as [[A B]|[A B]]; [intros y Hy; apply H01; right; exact Hy| |]; [left; split; [exact A|right; exact B]|right; split; [exact A|intros y [<- |Hy]; [reflexivity|apply B; exact Hy]]]. }
  split.
  - destruct (Z.eq_dec (zsum l) 0) as [Z0|Z0].
    + rewrite Z0. change (Z.min 1 0) with 0. split; [destruct l as [|z l]; [contradiction|]; left; apply S1; [exact Z0|left; reflexivity]|]. intros y Hy. rewrite (S1 Z0 y Hy). lia.
    + rewrite Z.min_l by lia. split; [apply S2; lia|]. intros y Hy. destruct (H01 y Hy); lia.
  - destruct HP as [[-> HP]|[-> HP]].
    + split; [exact HP|]. intros y Hy. destruct (H01 y Hy); lia.
    + split; [destruct l as [|z l]; [contradiction|]; left; apply HP; left; reflexivity|]. intros y Hy. rewrite (HP y Hy). lia.
Qed.
Theorem C161_extreme : forall x vals, bool_array x -> listed x vals -> vals <> [] ->
  exists r s a b, bool_total RMax x = Ok r /\ bool_total RMin x = Ok s /\ float_value r = Fin (a * one) /\ float_value s = Fin (b * one) /\
    is_max (map bit vals) a /\ is_min (map bit vals) b.
Proof.
  intros x vals [G K] E NE. destruct (bool_total_spec RMax x vals K G E) as (r & ER & VR). destruct (bool_total_spec RMin x vals K G E) as (s & ES & VS).
  pose proof (vals_elements x vals G E) as FE. rewrite K in FE. destruct (bits_extreme vals FE NE) as [H1 H2]. exists r, s, (Z.min 1 (zsum (map bit vals))), (zprod (map bit vals)). repeat (split; [assumption|]). exact H2.
Qed.
(* the sum counts no further than one: right only when at most one element is true *)
Theorem C161_sum_partial : forall x vals, bool_array x -> listed x vals -> zsum (map bit vals) <= 1 ->
  exists r, bool_total RSum x = Ok r /\ float_value r = Fin (zsum (map bit vals) * one).
Proof. intros x vals [G K] E HS. destruct (bool_total_spec RSum x vals K G E) as (r & ER & VR). exists r. split; [exact ER|]. rewrite VR, Z.min_r by exact HS. reflexivity. Qed.
Theorem C161_sum_refuted : forall x vals, bool_array x -> listed x vals -> 1 <= zsum (map bit vals) ->
  exists r, bool_total RSum x = Ok r /\ float_value r = Fin (1 * one).
Proof. intros x vals [G K] E HS. destruct (bool_total_spec RSum x vals K G E) as (r & ER & VR). exists r. split; [exact ER|]. rewrite VR, Z.min_l by exact HS. reflexivity. Qed.
(* along an axis: each entry is 1 if any (sum, max) or all (prod, min) of its elements are *)
Theorem C161_axis_partial : forall op x axis, bool_array x -> (axis < length (shape_of x))%nat -> nth_error (shape_of x) axis <> Some 0%nat ->
  exists out, bool_axis op x axis = Ok (reduced_shape axis (shape_of x), out) /\
    forall idx, inb idx (reduced_shape axis (shape_of x)) -> exists lv b,
      lane (n_buf x) (n_arr x) axis (outer_of (shape_of x) idx) = map Some lv /\ get out (fresh (reduced_shape axis (shape_of x)) 1) idx = Some b /\
      (if b : bool then 1 else 0) = match op with RSum | RMax => Z.min 1 (zsum (map bit lv)) | RProd | RMin => zprod (map bit lv) end.
Proof. intros op x axis [G K]. exact (bool_axis_spec op x axis K G). Qed.
(* ... and along an axis of length zero the product is False, where the empty product is 1 *)
Theorem C161_empty_refuted : exists x, bool_array x /\ shape_of x = [0; 1]%nat /\ bool_axis RProd x 0 = Ok ([1%nat], [false]) /\ bool_total RProd x = Ok (as_f64 (SInt 1)).
Proof. exists (mkN Bool [] (fresh [0; 1]%nat 1)). split; [split; [good_row|reflexivity]|]. repeat (split; [vm_compute; reflexivity|]). vm_compute. reflexivity. Qed.
Example C161_nonvacuous :
  let x := row Bool [SInt 1; SInt 0; SInt 1] in
  bool_array x /\ bool_total RSum x = Ok (as_f64 (SInt 1)) /\ zsum (map bit (n_buf x)) = 2 /\ bool_total RProd x = Ok (as_f64 (SInt 0)) /\ bool_axis RSum x 0 = Ok ([1%nat], [true]).
Proof. split; [split; [good_row|reflexivity]|]. repeat (split; [vm_compute; reflexivity|]). vm_compute. reflexivity. Qed.

Print Assumptions C157_total_refuted.
Print Assumptions C157_max_refuted.
Print Assumptions C157_min_refuted.
Print Assumptions C157_sum_partial.
Print Assumptions C158_sum.
Print Assumptions C158_sum_axis.
Print Assumptions C158_prod.
Print Assumptions C158_prod_axis.
Print Assumptions C158_nan.
Print Assumptions C159_extreme_partial.
Print Assumptions C159_extreme_axis_partial.
Print Assumptions C159_nan_refuted.
Print Assumptions C160_nansum.
Print Assumptions C160_nanprod.
Print Assumptions C160_nansum_axis.
Print Assumptions C160_nanmax_partial.
Print Assumptions C160_nanmax_axis_partial.
Print Assumptions C160_nanarg_partial.
Print Assumptions C160_infinity_refuted.
Print Assumptions C161_prod.
Print Assumptions C161_extreme.
Print Assumptions C161_sum_partial.
Print Assumptions C161_sum_refuted.
Print Assumptions C161_axis_partial.
Print Assumptions C161_empty_refuted.
