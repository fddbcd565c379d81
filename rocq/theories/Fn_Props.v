(* C122-C123: functions applied along axes, over axes and element by element. *)
From Coq Require Import SpecFloat.
From Verif Require Import Base Lists Arr_Spec Arr_Model Arr_Wf Arr_Proofs Copy_Model Wf_Check
  Idx_Model Elem_Model Red_Spec Red_Model Red_Proofs Red_Scan Man_Model Gu_Spec Gu_Model Gu_Proofs Rng_Model Date_Model Fn_Spec Fn_Model Fn_Proofs.
Local Open Scope nat_scope.
Ltac wfc := apply wf_check_sound; vm_compute; reflexivity.

(* every stored value survives the conversion to float64 and back *)
Definition survives {V F} (rd : V -> F) (wr : F -> V) (buf : list V) : Prop := forall v, In v buf -> wr (rd v) = v.

Lemma load_in {V} (buf : list V) item addr v : load buf item addr = Some v -> In v buf.
Proof.
  unfold load. intros H. destruct (addr <? 0)%Z; [discriminate|]. destruct (addr mod item =? 0)%Z; [|discriminate]. apply nth_error_In in H. exact H.
Qed.
Lemma lane_in {V} (buf : list V) a axis oi v : In v (lane_values buf a axis oi) -> In v buf.
Proof.
  unfold lane_values, lane. intros H. apply in_flat_map in H. destruct H as (o & Ho & Hv). apply in_map_iff in Ho. destruct Ho as (j & <- & _).
  destruct (get buf a _) as [w|] eqn:E; [|contradiction]. destruct Hv as [<-|[]]. exact (load_in _ _ _ _ E).
Qed.
Lemma lane_survives {V F} (rd : V -> F) (wr : F -> V) buf a axis oi : survives rd wr buf ->
  map (fun v => wr (rd v)) (lane_values buf a axis oi) = lane_values buf a axis oi.
Proof.
  intros H. rewrite <- (map_id (lane_values buf a axis oi)) at 2. apply map_ext_in. intros v Hv. apply H. exact (lane_in _ _ _ _ _ Hv).
Qed.

(* ---- C122: apply_along_axis and apply_over_axes ---------------------------------------- *)

(* a function that returns numbers: it is called once per lane, the lanes in row-major
   order of the other axes, and each entry is the stored result for its lane.
   Missing: values that do not survive float64, results that the input's dtype cannot
   hold (refuted below). *)
Theorem C122_along_numbers_partial : forall {V F} (rd : V -> F) (wr : F -> V) zero (g : list V -> pyres) (h : list V -> F) buf a ax axis,
  wf buf a -> norm_axis (ndim a) ax = Some axis -> survives rd wr buf ->
  let osh := remove_at axis (a_shape a) in
  prod osh <> 0 ->
  (forall oi, inb oi osh -> as_number (g (lane_values buf a axis oi)) = Some (h (lane_values buf a axis oi))) ->
  exists out, apply_along_axis rd wr zero (logged g) [] ax buf a = Ok (map (lane_values buf a axis) (all_idx osh), (osh, out)) /\
  length out = prod osh /\
  forall oi, inb oi osh -> nth_error out (rm_rank osh oi) = Some (wr (h (lane_values buf a axis oi))).
Proof.
  intros V F rd wr zero g h buf a ax axis W HA HS osh HP HG.
  exists (map (fun oi => wr (h (lane_values buf a axis oi))) (all_idx osh)).
  rewrite (along_numbers rd wr zero g h buf a ax axis W HA HP).
  - fold osh. split; [|split; [rewrite map_length; apply all_idx_length|]].
    + f_equal. f_equal; [apply map_ext; intros oi; apply lane_survives, HS|]. f_equal. apply map_ext. intros oi. rewrite lane_survives by exact HS. reflexivity.
    + intros oi Ho. rewrite nth_error_map'. change (rm_rank osh oi) with (rank osh oi). rewrite (nth_error_all_idx_rank osh oi Ho). reflexivity.
  - intros oi Ho. rewrite lane_survives by exact HS. apply HG, Ho.
Qed.

(* a function that returns arrays of one shape, with a number of elements other than 1:
   the result's axes follow the other axes, and entry (oi, ri) is entry ri of the result
   for lane oi.  Missing: results with one element, and results of differing shapes
   (refuted below). *)
Theorem C122_along_arrays_partial : forall {V F} (rd : V -> F) (wr : F -> V) zero (g : list V -> list F) rsh buf a ax axis,
  wf buf a -> norm_axis (ndim a) ax = Some axis -> survives rd wr buf ->
  let osh := remove_at axis (a_shape a) in
  prod osh <> 0 -> prod rsh <> 1 ->
  (forall oi, inb oi osh -> length (g (lane_values buf a axis oi)) = prod rsh) ->
  exists out, apply_along_axis rd wr zero (logged (fun x => PArr rsh (g x))) [] ax buf a =
    Ok (map (lane_values buf a axis) (all_idx osh), (osh ++ rsh, out)) /\
  length out = prod (osh ++ rsh) /\
  forall oi ri, inb oi osh -> inb ri rsh ->
    nth_error out (rm_rank (osh ++ rsh) (oi ++ ri)) = option_map wr (nth_error (g (lane_values buf a axis oi)) (rm_rank rsh ri)).
Proof.
  intros V F rd wr zero g rsh buf a ax axis W HA HS osh HP HR HG.
  destruct (along_arrays rd wr zero g rsh buf a ax axis W HA HP HR) as (out & E & HL & HE).
  - intros oi Ho. rewrite lane_survives by exact HS. apply HG, Ho.
  - exists out. fold osh in E, HL, HE. rewrite E. split; [|split; [exact HL|]].
    + f_equal. f_equal. apply map_ext. intros oi. apply lane_survives, HS.
    + intros oi ri Ho Hr. pose proof (HE oi ri Ho Hr) as H. rewrite lane_survives in H by exact HS. exact H.
Qed.

(* the identity applied along the last axis gives the array back *)
Theorem C122_along_last_identity_partial : forall {V F} (rd : V -> F) (wr : F -> V) zero buf a lead n,
  wf buf a -> a_shape a = lead ++ [n] -> survives rd wr buf -> prod lead <> 0 -> n <> 1 ->
  exists calls out, apply_along_axis rd wr zero (logged (fun x => PArr [n] (map rd x))) [] (-1) buf a = Ok (calls, (a_shape a, out)) /\
  forall idx, inb idx (a_shape a) -> nth_error out (rm_rank (a_shape a) idx) = get buf a idx.
Proof.
  intros V F rd wr zero buf a lead n W HS SV HP H1.
  assert (RA : remove_at (length lead) (a_shape a) = lead).
  { rewrite HS. clear. induction lead as [|x l IH]; cbn; [reflexivity|]. f_equal. exact IH. }
  assert (Hn : nth_error (a_shape a) (length lead) = Some n) by (rewrite HS, nth_error_app2, Nat.sub_diag by lia; reflexivity).
  assert (NX : norm_axis (ndim a) (-1) = Some (length lead)).
  { unfold norm_axis, ndim. rewrite HS, app_length. cbn [length Z.ltb Z.compare]. destruct (_ || _)%bool eqn:E.
    - apply orb_true_iff in E. destruct E as [E|E]; [apply Z.ltb_lt in E; lia|apply Z.leb_le in E; lia].
    - f_equal. lia. }
  destruct (C122_along_arrays_partial rd wr zero (map rd) [n] buf a (-1) (length lead) W NX SV) as (out & E & HL & HE).
  - rewrite RA. exact HP.
  - cbn. lia.
  - intros oi Ho. rewrite map_length. cbn [prod]. rewrite Nat.mul_1_r. apply (lane_values_ok buf a (length lead) oi n W Hn Ho).
  - rewrite RA in *. rewrite <- HS in *. exists (map (lane_values buf a (length lead)) (all_idx lead)), out. split; [exact E|].
    intros idx Hi. rewrite HS in Hi.
    assert (SP : exists oi j, idx = oi ++ [j] /\ inb oi lead /\ j < n).
    { clear - Hi. revert idx Hi. induction lead as [|x l IH]; intros idx Hi; inversion Hi as [|i s idx' sh' H1 H2]; subst.
      - inversion H2; subst. exists [], i. split; [reflexivity|]. split; [constructor|exact H1].
      - destruct (IH _ H2) as (oi & j & -> & Ho & Hj). exists (i :: oi), j. split; [reflexivity|]. split; [constructor; assumption|exact Hj]. }
    destruct SP as (oi & j & -> & Ho & Hj). rewrite (HE oi [j] Ho) by (constructor; [exact Hj|constructor]).
    cbn [rm_rank prod]. rewrite Nat.mul_1_r, Nat.add_0_r.
    destruct (lane_values_ok buf a (length lead) oi n W Hn) as [EL LL]; [rewrite RA; exact Ho|].
    apply (f_equal (fun l => nth_error l j)) in EL. unfold lane in EL. rewrite !nth_error_map', nth_error_seq in EL.
    rewrite (nth_error_nth _ _ 0 Hn) in EL. destruct (Nat.ltb_spec j n); [|lia]. cbn [option_map plus] in EL.
    assert (EI : insert_at (length lead) j oi = oi ++ [j]).
    { apply inb_length in Ho. rewrite <- Ho. apply insert_at_end. }
    rewrite EI in EL. rewrite nth_error_map'. destruct (nth_error (lane_values buf a (length lead) oi) j) as [v|] eqn:EV; [|discriminate].
    cbn [option_map] in *. injection EL as ->. f_equal. apply SV. apply nth_error_In in EV. exact (lane_in _ _ _ _ _ EV).
Qed.

(* an axis outside [-ndim, ndim) is an error and the function is not called *)
Theorem C122_along_axis_error : forall {V F St} (rd : V -> F) (wr : F -> V) zero (f : @pyfun V F St) s buf a ax,
  (ax < - Z.of_nat (ndim a) \/ Z.of_nat (ndim a) <= ax)%Z -> apply_along_axis rd wr zero f s ax buf a = Err.
Proof.
  intros V F St rd wr zero f s buf a ax H. unfold apply_along_axis, norm_axis.
  destruct (Z.ltb_spec ax 0); destruct (_ || _)%bool eqn:E; try reflexivity; exfalso; apply orb_false_iff in E;
    destruct E as [E1 E2]; apply Z.ltb_ge in E1; apply Z.leb_gt in E2; lia.
Qed.

(* folding a reduction over axes keeps the rank: whether or not the reduction drops its
   axis, the result is that of the reduction keeping it with length 1 *)
Theorem C122_over_axes_partial : forall {A} (f : list nat * A -> nat -> res (list nat * A)) (red : list nat * A -> nat -> A) axes (x : list nat * A) naxes,
  (forall c axis, length (fst c) = length (fst x) -> axis < length (fst x) ->
     f c axis = Ok (remove_at axis (fst c), red c axis) \/ f c axis = Ok (upd (fst c) axis 1, red c axis)) ->
  mapM (fun ax => match norm_axis (length (fst x)) ax with Some k => Ok k | None => Err end) axes = Ok naxes ->
  apply_over_axes f axes x = Ok (over_keepdims red naxes x).
Proof. intros A. exact over_axes_keep. Qed.

Definition m23 : arr := fresh [2; 3] 8.
Definition b23 : list Z := [1; 2; 3; 4; 5; 6]%Z.
Definition zid (z : Z) : Z := z.
Definition zsum_fn (l : list Z) : @pyres Z := PNum (zsum l).

(* NumPy puts the result's axes where the axis was, so the identity along any axis gives
   the array back; here the identity along axis 0 gives the transpose *)
Theorem C122_axis_position_refuted : exists calls,
  wf b23 m23 /\
  apply_along_axis zid zid 0%Z (logged (fun x => PArr [2] x)) [] 0 b23 m23 = Ok (calls, ([3; 2], [1; 4; 2; 5; 3; 6]%Z)).
Proof. eexists. split; [wfc|]. vm_compute. reflexivity. Qed.
(* a result with a single element counts as a number: the identity on shape (2,1) along
   the last axis returns shape (2,) *)
Theorem C122_single_element_refuted : exists calls,
  apply_along_axis zid zid 0%Z (logged (fun x => PArr [1] x)) [] (-1) [7; 8]%Z (fresh [2; 1] 8) = Ok (calls, ([2], [7; 8]%Z)).
Proof. eexists. vm_compute. reflexivity. Qed.
(* results of different lengths are accepted when their total happens to fit, and the
   entries end up in other lanes: the filter x > 2 *)
Theorem C122_ragged_refuted : exists calls,
  apply_along_axis zid zid 0%Z (logged (fun x => let r := filter (fun v => 2 <? v)%Z x in PArr [length r] r)) [] 1
    [3; 4; 1; 5; 1; 1; 6; 7; 8]%Z (fresh [3; 3] 8) = Ok (calls, ([3; 2], [3; 4; 5; 6; 7; 8]%Z)).
Proof. eexists. vm_compute. reflexivity. Qed.
(* the result is stored with the input's integer type: the mean of 1 and 2 becomes 1 *)
Definition mean_fn (l : list Z) : @pyres spec_float :=
  PNum (SFdiv f64_prec f64_emax (f64_int (zsum l)) (f64_int (Z.of_nat (length l)))).
Theorem C122_integer_results_refuted : exists calls,
  survives f64_int sf_trunc [1; 2; 2; 2]%Z /\
  mean_fn [1; 2]%Z = PNum (S754_finite false 6755399441055744 (-52)) /\
  apply_along_axis f64_int sf_trunc 0%Z (logged mean_fn) [] 1 [1; 2; 2; 2]%Z (fresh [2; 2] 8) = Ok (calls, ([2], [1; 2]%Z)).
Proof.
  eexists. split; [|split; vm_compute; reflexivity]. intros v Hv. repeat (destruct Hv as [<-|Hv]; [vm_compute; reflexivity|]). contradiction.
Qed.
(* an integer beyond 2^53 reaches the function changed *)
Theorem C122_large_integers_refuted : exists out,
  apply_along_axis f64_int sf_trunc 0%Z (logged (fun x => PNum (f64_int (zsum x)))) [] 0 [9007199254740993]%Z (fresh [1] 8) =
  Ok ([[9007199254740992]%Z], out).
Proof. eexists. vm_compute. reflexivity. Qed.
(* a function that drops two axes at once is accepted; NumPy raises *)
Theorem C122_over_axes_refuted :
  apply_over_axes (fun c _ => Ok (skipn 2 (fst c), [zsum (snd c)])) [0%Z] ([2; 3], b23) = Ok ([1; 1], [21]%Z).
Proof. vm_compute. reflexivity. Qed.

Example C122_nonvacuous :
  wf b23 m23 /\ survives zid zid b23 /\ norm_axis (ndim m23) (-2) = Some 0 /\
  apply_along_axis zid zid 0%Z (logged zsum_fn) [] (-2) b23 m23 = Ok ([[1; 4]; [2; 5]; [3; 6]]%Z, ([3], [5; 7; 9]%Z)) /\
  apply_along_axis zid zid 0%Z (logged (fun x => PArr [2; 2] (x ++ x))) [] 0 b23 m23 =
    Ok ([[1; 4]; [2; 5]; [3; 6]]%Z, ([3; 2; 2], [1; 4; 1; 4; 2; 5; 2; 5; 3; 6; 3; 6]%Z)) /\
  apply_over_axes (fun c k => Ok (remove_at k (fst c), k :: snd c)) [0; -1]%Z ([2; 3; 4], []) = Ok ([1; 3; 1], [2; 0]).
Proof. split; [wfc|]. split; [intros v _; reflexivity|]. repeat split; vm_compute; reflexivity. Qed.

(* ---- C123: vectorize and frompyfunc ---------------------------------------------------- *)

(* the shapes are broadcast together by the usual rule, and only then *)
Theorem C123_broadcast : forall shs, (forall r, fn_broadcast shs = Ok r <-> joint shs r) /\
  ((forall r, ~ joint shs r) -> fn_broadcast shs = Err).
Proof.
  intros shs. destruct (fn_broadcast_joint shs) as [(r & E & J)|(E & NJ)].
  - split; [|intros N; exfalso; exact (N r J)]. intros r'. split; [intros H; rewrite E in H; injection H as <-; exact J|].
    intros H. rewrite E. f_equal. exact (joint_unique _ _ _ J H).
  - split; [|intros _; exact E]. intros r'. split; [rewrite E; discriminate|]. intros H. exfalso. exact (NJ _ H).
Qed.

(* the function is called once for every index of the broadcast shape, in row-major
   order, with each array's element at that index and the other arguments unchanged, in
   the given order; the result holds its values *)
Theorem C123_vectorize : forall {F P W} (wr : F -> W) (h : list pyval -> F) (args : list (@varg F P)) shape,
  args_wf args -> arrays_of args <> [] -> joint (map (fun x => a_shape (snd x)) (arrays_of args)) shape ->
  exists vals out, (forall idx, inb idx shape -> Forall2 (arg_at idx) args (vals idx)) /\
  vectorize_call wr true (logged h) [] args = Ok (map vals (all_idx shape), VArray shape out) /\
  length out = prod shape /\
  forall idx, inb idx shape -> nth_error out (rm_rank shape idx) = Some (wr (h (vals idx))).
Proof.
  intros F P W wr h args shape HW HN HJ. destruct (vectorize_arrays wr h args shape HW HN HJ) as (vals & HV & E).
  exists vals, (map (fun idx => wr (h (vals idx))) (all_idx shape)). split; [exact HV|]. split; [exact E|].
  split; [rewrite map_length; apply all_idx_length|]. intros idx Hi. rewrite nth_error_map'.
  change (rm_rank shape idx) with (rank shape idx). rewrite (nth_error_all_idx_rank shape idx Hi). reflexivity.
Qed.
(* arrays that do not broadcast together are an error, whatever the function *)
Theorem C123_vectorize_mismatch : forall {F P W St} (wr : F -> W) (f : St -> list pyval -> St * option F) s (args : list (@varg F P)) ot,
  arrays_of args <> [] -> (forall r, ~ joint (map (fun x => a_shape (snd x)) (arrays_of args)) r) ->
  vectorize_call wr ot f s args = Err.
Proof.
  intros F P W St wr f s args ot HN HJ. unfold vectorize_call. destruct (arrays_of args) as [|x xs] eqn:E; [contradiction|]. rewrite <- E in *.
  rewrite (proj2 (C123_broadcast _) HJ). reflexivity.
Qed.
(* without arrays the function is called once, with the arguments *)
Theorem C123_vectorize_scalars : forall {F P W} (wr : F -> W) (h : list pyval -> F) (os : list P) ot,
  vectorize_call wr ot (logged h) [] (map inr os) = Ok ([map VObj os], VScalar (h (map VObj os))).
Proof.
  intros F P W wr h os ot. unfold vectorize_call.
  assert (E1 : arrays_of (map inr os : list (@varg F P)) = []) by (unfold arrays_of; induction os as [|o os IH]; [reflexivity|exact IH]).
  assert (E2 : map snd (scalars_of (map inr os : list (@varg F P))) = os).
  { assert (ES : scalars_of (map inr os : list (@varg F P)) = scal_from 0 (map inr os)) by apply scalars_of_from. rewrite ES. clear. generalize 0. induction os as [|o os IH]; intros j; cbn; [reflexivity|]. f_equal. apply IH. }
  rewrite E1, E2. reflexivity.
Qed.

(* frompyfunc with nout outputs: the same calls, and output k holds item k of every
   result.  Missing: the broadcast shape () and results with another number of items
   (refuted below). *)
Theorem C123_frompyfunc_partial : forall {F P} nout (h : list pyval -> list F) (d : F) (args : list (@varg F P)) shape,
  args_wf args -> (forall vals, length (h vals) = nout) -> shape <> [] ->
  arrays_of args <> [] -> joint (map (fun x => a_shape (snd x)) (arrays_of args)) shape ->
  exists vals outs, (forall idx, inb idx shape -> Forall2 (arg_at idx) args (vals idx)) /\
  frompyfunc_call (length args) nout (logged h) [] args = Ok (map vals (all_idx shape), inr (map (fun o => (shape, o)) outs)) /\
  length outs = nout /\
  forall k idx, k < nout -> inb idx shape ->
    exists col, nth_error outs k = Some col /\ nth_error col (rm_rank shape idx) = nth_error (h (vals idx)) k.
Proof.
  intros F P nout h d args shape HW HH HS HN HJ. destruct (frompyfunc_arrays nout h d args shape HW HH HS HN HJ) as (vals & HV & E).
  exists vals, (map (fun k => map (fun idx => nth k (h (vals idx)) d) (all_idx shape)) (seq 0 nout)). split; [exact HV|].
  split; [rewrite E, map_map; reflexivity|]. split; [rewrite map_length; apply seq_length|]. intros k idx Hk Hi.
  exists (map (fun idx => nth k (h (vals idx)) d) (all_idx shape)). split.
  - rewrite nth_error_map', nth_error_seq. destruct (Nat.ltb_spec k nout); [reflexivity|lia].
  - rewrite nth_error_map'. change (rm_rank shape idx) with (rank shape idx). rewrite (nth_error_all_idx_rank shape idx Hi). cbn [option_map].
    symmetry. apply nth_error_nth'. rewrite HH. exact Hk.
Qed.
(* the wrong number of arguments is an error *)
Theorem C123_frompyfunc_nin : forall {F P St} nin nout (f : St -> list pyval -> St * option (list F)) s (args : list (@varg F P)),
  length args <> nin -> frompyfunc_call nin nout f s args = Err.
Proof. intros F P St nin nout f s args H. unfold frompyfunc_call. destruct (Nat.eqb_spec (length args) nin); [contradiction|reflexivity]. Qed.

(* a signature (n),...->() with arrays of equal loop shape: one call per lane.
   Missing: loop shapes that need broadcasting, and empty ones (refuted below). *)
Theorem C123_signature_partial : forall {F W} (wr : F -> W) (h : list (list F) -> F) (arrs : list (list F * arr)) lead,
  arrs <> [] -> lead <> [] -> prod lead <> 0 ->
  (forall b a, In (b, a) arrs -> wf b a /\ exists n, a_shape a = lead ++ [n]) ->
  let lanes := fun oi => map (fun '(b, a) => lane_values b a (length lead) oi) arrs in
  exists out, vectorize_sig wr (logged h) [] arrs = Ok (map lanes (all_idx lead), VArray lead out) /\
  forall oi, inb oi lead -> nth_error out (rm_rank lead oi) = Some (wr (h (lanes oi))).
Proof.
  intros F W wr h arrs lead NA NL PL HA lanes. exists (map (fun oi => wr (h (lanes oi))) (all_idx lead)).
  split; [apply sig_lanes; assumption|]. intros oi Ho. rewrite nth_error_map'. change (rm_rank lead oi) with (rank lead oi).
  rewrite (nth_error_all_idx_rank lead oi Ho). reflexivity.
Qed.

Definition dot_fn (l : list (list Z)) : Z := zsum (map (fun p => (fst p * snd p)%Z) (combine (nth 0 l []) (nth 1 l []))).
(* shapes (2,3) and (1,3) broadcast, but the second row of the second operand is read
   from memory outside the array *)
Theorem C123_signature_bounds_refuted :
  wf b23 m23 /\ wf [1; 1; 1]%Z (fresh [1; 3] 8) /\
  vectorize_sig zid (logged dot_fn) [] [(b23, m23); ([1; 1; 1]%Z, fresh [1; 3] 8)] = Fault.
Proof. split; [wfc|]. split; [wfc|]. vm_compute. reflexivity. Qed.
(* loop shapes (2,) and (3,) do not broadcast, but no error is raised *)
Theorem C123_signature_mismatch_refuted : exists calls,
  (forall r, ~ joint [[2]; [3]] r) /\
  vectorize_sig zid (logged dot_fn) [] [(b23, m23); ([1; 1; 1; 2; 2; 2; 3; 3; 3]%Z, fresh [3; 3] 8)] = Ok (calls, VArray [2] [6; 30]%Z).
Proof.
  eexists. split; [|vm_compute; reflexivity]. intros r H. apply (proj1 (C123_broadcast [[2]; [3]])) in H. vm_compute in H. discriminate.
Qed.
(* an empty loop panics instead of giving an empty result *)
Theorem C123_signature_empty_refuted :
  vectorize_sig zid (logged dot_fn) [] [([], fresh [0; 3] 8); ([], fresh [0; 3] 8)] = Panic.
Proof. vm_compute. reflexivity. Qed.
(* an empty otypes list panics *)
Theorem C123_otypes_refuted : vectorize_call zid false (logged (fun _ => 0%Z)) [] [inl (b23, m23) : @varg Z unit] = Panic.
Proof. vm_compute. reflexivity. Qed.
(* frompyfunc on a 0-d array returns shape (1,) *)
Theorem C123_frompyfunc_0d_refuted : exists calls,
  joint [[]] [] /\
  frompyfunc_call 1 1 (logged (fun _ => [5%Z])) [] [inl ([7]%Z, fresh [] 8) : @varg Z unit] = Ok (calls, inr [([1], [5%Z])]).
Proof. eexists. split; [apply (proj1 (C123_broadcast [[]])); vm_compute; reflexivity|]. vm_compute. reflexivity. Qed.
(* frompyfunc with nout = 2: extra items are dropped and missing ones shorten a column,
   without an error *)
Theorem C123_frompyfunc_items_refuted : exists calls,
  frompyfunc_call 1 2 (logged (fun v : list (@pyval Z unit) => match v with [VNum 1%Z] => [1; 2; 3]%Z | _ => [4%Z] end)) []
    [inl ([1; 2]%Z, fresh [2] 8)] = Ok (calls, inr [([2], [1; 4]%Z); ([1], [2]%Z)]).
Proof. eexists. vm_compute. reflexivity. Qed.

Definition sub_fn (v : list (@pyval Z Z)) : Z := match v with [VNum x; VObj o; VNum y] => (x * o - y)%Z | _ => 0%Z end.
Example C123_nonvacuous :
  args_wf [inl (b23, m23); inr 10%Z; inl ([1; 2]%Z, fresh [2; 1] 8)] /\
  joint [[2; 3]; [2; 1]] [2; 3] /\
  (exists calls, vectorize_call zid true (logged sub_fn) [] [inl (b23, m23); inr 10%Z; inl ([1; 2]%Z, fresh [2; 1] 8)] =
    Ok (calls, VArray [2; 3] [9; 19; 29; 38; 48; 58]%Z)) /\
  (exists calls, frompyfunc_call 3 2 (logged (fun v => [sub_fn v; 0%Z])) [] [inl (b23, m23); inr 10%Z; inl ([1; 2]%Z, fresh [2; 1] 8)] =
    Ok (calls, inr [([2; 3], [9; 19; 29; 38; 48; 58]%Z); ([2; 3], [0; 0; 0; 0; 0; 0]%Z)])) /\
  vectorize_sig zid (logged dot_fn) [] [(b23, m23); (b23, m23)] =
    Ok ([[[1; 2; 3]; [1; 2; 3]]; [[4; 5; 6]; [4; 5; 6]]]%Z, VArray [2] [14; 77]%Z).
Proof.
  split. { intros buf a [H|[H|[H|[]]]]; try discriminate; injection H as <- <-; wfc. }
  split; [apply (proj1 (C123_broadcast [[2; 3]; [2; 1]])); vm_compute; reflexivity|].
  split; [eexists; vm_compute; reflexivity|]. split; [eexists; vm_compute; reflexivity|]. vm_compute. reflexivity.
Qed.

Print Assumptions C122_along_numbers_partial.
Print Assumptions C122_along_arrays_partial.
Print Assumptions C122_along_last_identity_partial.
Print Assumptions C122_along_axis_error.
Print Assumptions C122_over_axes_partial.
Print Assumptions C122_axis_position_refuted.
Print Assumptions C122_single_element_refuted.
Print Assumptions C122_ragged_refuted.
Print Assumptions C122_integer_results_refuted.
Print Assumptions C122_large_integers_refuted.
Print Assumptions C122_over_axes_refuted.
Print Assumptions C123_broadcast.
Print Assumptions C123_vectorize.
Print Assumptions C123_vectorize_mismatch.
Print Assumptions C123_vectorize_scalars.
Print Assumptions C123_frompyfunc_partial.
Print Assumptions C123_frompyfunc_nin.
Print Assumptions C123_signature_partial.
Print Assumptions C123_signature_bounds_refuted.
Print Assumptions C123_signature_mismatch_refuted.
Print Assumptions C123_signature_empty_refuted.
Print Assumptions C123_otypes_refuted.
Print Assumptions C123_frompyfunc_0d_refuted.
Print Assumptions C123_frompyfunc_items_refuted.
