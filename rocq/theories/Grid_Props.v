(* C98: meshgrid, ix_, mgrid, ogrid.  C99: ndindex, ndenumerate, indices.
   C100: fill_diagonal.  C101: ranges of mgrid and ogrid.  C102: eye, diag_indices. *)
From Coq Require Import SpecFloat.
From Verif Require Import Base Lists Int_Model Arr_Spec Arr_Model Arr_Wf Arr_Proofs Copy_Model Copy_Proofs Idx_Model Idx_Wf Wf_Check Rng_Model SF_Proofs SF_Arith
  New_Spec New_Model Span_Spec Span_Model Span_Proofs Grid_Spec Grid_Model Grid_Proofs Grid_Diag.
Local Open Scope nat_scope.
Ltac wfc := apply wf_check_sound; vm_compute; reflexivity.

(* a usable one-dimensional input *)
Definition vector {V} (x : list V * arr) : Prop := wf (fst x) (snd x) /\ ndim (snd x) = 1 /\ a_c (snd x) = true.

(* ---- C98 ------------------------------------------------------------------------------ *)

(* meshgrid(x0, ..., xn-1): all outputs have the same shape, whose axis for input d is
   as long as input d, and output d at idx is x_d at the coordinate of idx on that
   axis.  Missing: inputs that are not contiguous (refuted below). *)
Theorem C98_meshgrid_partial : forall {V} typed (l : list (list V * arr)) xy,
  (forall x, In x l -> vector x) ->
  exists outs osh, meshgrid typed l xy = Ok outs /\ length outs = length l /\ length osh = length l /\
    forall d x, nth_error l d = Some x ->
      nth_error osh (mesh_axis xy (length l) d) = Some (size (snd x)) /\
      exists vals, nth_error outs d = Some (osh, vals) /\ length vals = prod osh /\
        forall idx, inb idx osh -> exists v, nth_error vals (rm_rank osh idx) = Some v /\
          get (fst x) (snd x) [nth (mesh_axis xy (length l) d) idx 0] = Some v.
Proof.
  intros V typed l xy H. destruct (meshgrid_ok typed l xy H) as (outs & E & L & S').
  eexists outs, _. split; [exact E|]. split; [exact L|]. split; [|exact S']. rewrite mesh_shape_len, map_length. reflexivity.
Qed.
Definition ex_x : list nat * arr := ([1; 2; 3], fresh [3] 8).
Definition ex_y : list nat * arr := ([7; 8], fresh [2] 8).
Example C98_meshgrid_nonvacuous : vector ex_x /\ vector ex_y /\
  meshgrid (fun _ => true) [ex_x; ex_y] true = Ok [([2; 3], [1; 2; 3; 1; 2; 3]); ([2; 3], [7; 7; 7; 8; 8; 8])] /\
  meshgrid (fun _ => true) [ex_x; ex_y] false = Ok [([3; 2], [1; 1; 2; 2; 3; 3]); ([3; 2], [7; 8; 7; 8; 7; 8])].
Proof. split; [|split; [|split; vm_compute; reflexivity]]; (split; [wfc|split; reflexivity]). Qed.

(* ix_(x0, ..., xn-1): output d is a view of x_d with length-1 axes everywhere but on
   axis d.  Missing: inputs that are not contiguous (refuted below). *)
Theorem C98_ix_partial : forall {V} (l : list (list V * arr)), (forall x, In x l -> vector x) ->
  exists outs, ix_ (map snd l) = Ok outs /\ length outs = length l /\
    forall d x, nth_error l d = Some x -> exists r, nth_error outs d = Some r /\
      a_shape r = only_axis (length l) d (size (snd x)) /\ wf (fst x) r /\
      forall idx, inb idx (a_shape r) -> get (fst x) r idx = get (fst x) (snd x) [nth d idx 0].
Proof.
  intros V l H. destruct (ix_ok l H) as (outs & E & L & S'). exists outs. split; [exact E|]. split; [exact L|].
  intros d x Hx. destruct (S' d x Hx) as (r & Hr & V1 & V2 & V3). exists r. split; [exact Hr|]. split; [exact V1|]. split; [exact V2|].
  rewrite V1. intros idx Hi. apply V3. exact Hi.
Qed.
Example C98_ix_nonvacuous : exists r0 r1, ix_ [snd ex_x; snd ex_y] = Ok [r0; r1] /\ a_shape r0 = [3; 1] /\ a_shape r1 = [1; 2] /\
  get (fst ex_x) r0 [2; 0] = Some 3 /\ get (fst ex_y) r1 [0; 1] = Some 8.
Proof. eexists _, _. split; [vm_compute; reflexivity|]. repeat split; vm_compute; reflexivity. Qed.

(* broadcasting the outputs of ix_ against each other gives the cross product *)
Theorem C98_ix_cross : forall {V} (l : list (list V * arr)), (forall x, In x l -> vector x) ->
  exists outs, ix_ (map snd l) = Ok outs /\
    forall d x r, nth_error l d = Some x -> nth_error outs d = Some r ->
      exists b, broadcast_to r (map (fun x => size (snd x)) l) = Ok b /\
        forall idx, inb idx (map (fun x => size (snd x)) l) -> get (fst x) b idx = get (fst x) (snd x) [nth d idx 0].
Proof.
  intros V l H. destruct (ix_ok l H) as (outs & E & L & S'). exists outs. split; [exact E|].
  intros d x r Hx Hr. destruct (S' d x Hx) as (r' & Hr' & VR). rewrite Hr in Hr'. injection Hr' as <-. rewrite <- ones_but_only in VR.
  destruct (H x (nth_error_In _ _ Hx)) as (_ & H1 & _).
  destruct (coord_bcast (fst x) (snd x) r (length l) d (size (snd x)) (map (fun x => size (snd x)) l) (one_dim _ H1) (map_length _ _)) as (b & EB & B1 & B2 & B3);
    [rewrite nth_error_map', Hx; reflexivity|exact VR|]. exists b. split; [exact EB|]. intros idx Hi. apply B3. exact Hi.
Qed.
Example C98_ix_cross_nonvacuous : vector ex_x /\ map (fun x : list nat * arr => size (snd x)) [ex_x; ex_y] = [3; 2].
Proof. split; [split; [wfc|split; reflexivity]|reflexivity]. Qed.

(* mgrid (dense) and ogrid (open) on the ranges of their slices *)
Theorem C98_grid : forall {V} dense (l : list (list V * arr)), l <> [] -> (forall x, In x l -> vector x) ->
  exists outs, grid dense l = Ok outs /\ length outs = length l /\
    forall d x, nth_error l d = Some x -> exists r, nth_error outs d = Some (fst x, r) /\
      a_shape r = (if dense then map (fun x => size (snd x)) l else only_axis (length l) d (size (snd x))) /\ wf (fst x) r /\
      forall idx, inb idx (a_shape r) -> get (fst x) r idx = get (fst x) (snd x) [nth d idx 0].
Proof.
  intros V dense l HN H. destruct (grid_ok dense l HN H) as (outs & E & L & S'). exists outs. split; [exact E|]. split; [exact L|].
  intros d x Hx. destruct (S' d x Hx) as (r & Hr & V1 & V2 & V3). exists r. split; [exact Hr|]. split; [exact V1|]. split; [exact V2|].
  rewrite V1. intros idx Hi. apply V3. exact Hi.
Qed.
Example C98_grid_nonvacuous : exists r0 r1, grid true [ex_x; ex_y] = Ok [r0; r1] /\ a_shape (snd r0) = [3; 2] /\
  elems (fst r0) (snd r0) = map Some [1; 1; 2; 2; 3; 3] /\ elems (fst r1) (snd r1) = map Some [7; 8; 7; 8; 7; 8].
Proof. eexists _, _. split; [vm_compute; reflexivity|]. repeat split; vm_compute; reflexivity. Qed.

(* a strided one-dimensional input: meshgrid fails, ix_ panics *)
Theorem C98_strided_refuted : exists (x : list nat * arr), wf (fst x) (snd x) /\ ndim (snd x) = 1 /\ elems (fst x) (snd x) = map Some [1; 3] /\
  (forall typed, meshgrid typed [x] true = Err) /\ ix_ [snd x] = Panic.
Proof. exists ([1; 2; 3], mkArr 0 [2] [16]%Z 8 false false). split; [wfc|]. repeat split; vm_compute; reflexivity. Qed.

(* ---- C99 ------------------------------------------------------------------------------ *)

(* ndindex(shape) yields the index tuples of the shape in row-major order, once each,
   and then stops *)
Theorem C99_ndindex_partial : forall sh fuel, (Z.of_nat (prod sh) < 2 ^ 64)%Z -> prod sh <= fuel ->
  lists_indices sh (collect ndi_next fuel (ndindex sh)) /\ length (collect ndi_next fuel (ndindex sh)) = prod sh.
Proof.
  intros sh fuel H Hf. rewrite (ndindex_ok sh fuel H Hf). split; [apply unrank_lists|]. rewrite map_length, seq_length. reflexivity.
Qed.
Example C99_ndindex_nonvacuous :
  collect ndi_next 10 (ndindex [2; 3]) = [[0; 0]; [0; 1]; [0; 2]; [1; 0]; [1; 1]; [1; 2]] /\ collect ndi_next 10 (ndindex []) = [[]].
Proof. split; vm_compute; reflexivity. Qed.
(* a shape with 2^64 index tuples: the product wraps to 0 and nothing is yielded *)
Theorem C99_overflow_refuted : exists sh, prod sh <> 0 /\ forall fuel, collect ndi_next fuel (ndindex sh) = [].
Proof.
  set (n := Z.to_nat (2 ^ 32)). assert (Hn : Z.of_nat n = (2 ^ 32)%Z) by (unfold n; rewrite Z2Nat.id; [reflexivity|discriminate]). clearbody n.
  exists [n; n]. split; [cbn [prod]; nia|]. intros [|fuel]; [reflexivity|]. cbn [collect]. unfold ndi_next, ndindex. cbn [ni_size ni_flat length Nat.eqb].
  replace (usize_prod [n; n]) with 0%Z; [reflexivity|]. unfold usize_prod, wrap_usize, two64. cbn [prod]. rewrite !Nat2Z.inj_mul, Hn. reflexivity.
Qed.

(* what ndenumerate should report for an element holding c: the number c *)
Definition reports (d : ldt) (c : cell) (f : spec_float) : Prop :=
  match d, c with
  | LInt _, CInt z => sf_is f z 0
  | LBool, CInt z => (z = 0%Z /\ sf_is f 0 0) \/ (z <> 0%Z /\ sf_is f 1 0)
  | LF64, CFlt g => f = g
  | _, _ => False
  end.
Definition cell_small (c : cell) : Prop := match c with CInt z => (Z.abs z < 2 ^ 53)%Z | CFlt _ => True end.

(* ndenumerate(a) pairs every index with its element, in row-major order.  Missing:
   integers from 2^53 on (refuted below). *)
Theorem C99_ndenumerate_partial : forall d buf a fuel, wf buf a -> (Z.of_nat (size a) < 2 ^ 64)%Z -> size a <= fuel ->
  (forall idx c, inb idx (a_shape a) -> get buf a idx = Some c -> cell_ok d c /\ cell_small c) ->
  let l := collect (nde_next d buf a) fuel (ndenumerate a) in
  lists_indices (a_shape a) (map fst l) /\
  forall idx f, In (idx, f) l -> exists c, get buf a idx = Some c /\ reports d c f.
Proof.
  intros d buf a fuel W HS Hf HC l.
  destruct (nde_collect d buf a W fuel 0 ltac:(lia) ltac:(lia) (repeat 0 (ndim a))) as (l' & El & Ll & Hl).
  { intros _. symmetry. apply unrank_0. }
  assert (EL : l = l').
  { unfold l, ndenumerate. rewrite usize_prod_small by exact HS. exact El. }
  rewrite EL. clear l EL El. rewrite Nat.sub_0_r in *. split.
  - replace (map fst l') with (map (unrank (a_shape a)) (seq 0 (prod (a_shape a)))); [apply unrank_lists|].
    apply nth_error_ext. intros k. rewrite !nth_error_map', nth_error_seq. cbn [plus]. destruct (Nat.ltb_spec k (prod (a_shape a))) as [L|L].
    + destruct (Hl k L) as (c & _ & ->). reflexivity.
    + replace (nth_error l' k) with (@None (list nat * spec_float)); [reflexivity|]. symmetry. apply nth_error_None. unfold size in Ll. lia.
  - intros idx f Hin. apply In_nth_error in Hin as [k Hk]. assert (HL : k < size a) by (rewrite <- Ll; apply nth_error_Some; congruence).
    destruct (Hl k HL) as (c & Hc & Hn). rewrite Hk in Hn. injection Hn as -> ->. exists c. split; [exact Hc|].
    destruct (HC _ c (unrank_inb (a_shape a) k HL) Hc) as [K1 K2]. destruct d as [t| |], c as [z|g]; cbn in *; try contradiction; [|destruct K1 as [-> | ->]|reflexivity].
    + apply f64_int_is. exact K2.
    + left. split; reflexivity.
    + right. split; [discriminate|]. vm_compute. reflexivity.
Qed.
Definition ex_e : list cell * arr := (map CInt [5; -6]%Z, fresh [2; 1] 8).
Example C99_ndenumerate_nonvacuous : wf (fst ex_e) (snd ex_e) /\
  collect (nde_next (LInt i64_ty) (fst ex_e) (snd ex_e)) 5 (ndenumerate (snd ex_e)) = [([0; 0], f64_int 5); ([1; 0], f64_int (-6))].
Proof. split; [wfc|vm_compute; reflexivity]. Qed.
(* an int64 element 2^53+1 is reported as the float 2^53 *)
Theorem C99_ndenumerate_refuted : exists buf a, wf buf a /\ get buf a [0] = Some (CInt (2 ^ 53 + 1)) /\
  collect (nde_next (LInt i64_ty) buf a) 1 (ndenumerate a) = [([0], f64_int (2 ^ 53))].
Proof. exists [CInt (2 ^ 53 + 1)], (fresh [1] 8). split; [wfc|]. split; vm_compute; reflexivity. Qed.

(* indices(dims): element [d, i0, ..., ik] is i_d, in any dtype that can hold it *)
Theorem C99_indices : forall d dims, (forall n, In n dims -> (Z.of_nat n <= 2 ^ 53)%Z) ->
  (forall n i, In n dims -> i < n -> fits d (PInt (Z.of_nat i))) -> dims <> [] ->
  exists out, indices dims d = Ok (length dims :: dims, out) /\ length out = length dims * prod dims /\
    forall dim idx, inb (dim :: idx) (length dims :: dims) ->
      exists c, nth_error out (rm_rank (length dims :: dims) (dim :: idx)) = Some c /\ stores d (PInt (Z.of_nat (nth dim idx 0))) c.
Proof.
  intros d dims H53 HF HN. destruct (indices_ok d dims H53 HF HN) as (out & E & L & S'). exists out. split; [exact E|]. split; [exact L|].
  intros dim idx H. apply inb_cons in H as [Hd Hi]. apply S'; assumption.
Qed.
Example C99_indices_nonvacuous :
  indices [2; 3] (LInt i64_ty) = Ok ([2; 2; 3], map CInt [0; 0; 0; 1; 1; 1; 0; 1; 2; 0; 1; 2]%Z) /\
  indices [2; 3] (LInt (mkIty 8 false)) = Ok ([2; 2; 3], map CInt [0; 0; 0; 1; 1; 1; 0; 1; 2; 0; 1; 2]%Z).
Proof. split; vm_compute; reflexivity. Qed.

(* ---- C100 ------------------------------------------------------------------------------- *)

(* fill_diagonal(a, val, wrap) of a matrix: the entries of the (wrapped) diagonal, t
   = 0, 1, ..., become val[t mod len(val)], all other elements and all other cells of
   the buffer keep their value; a may be any view with distinct cells.  Missing: val
   that is not contiguous or empty (refuted below), val sharing its buffer with a. *)
Theorem C100_matrix_partial : forall {V} (buf vbuf : list V) a v vals wrap nr nc, wf buf a -> injective a -> a_shape a = [nr; nc] ->
  wf vbuf v -> a_c v = true -> elems vbuf v = map Some vals -> vals <> [] ->
  exists buf', fill_diagonal buf a (vbuf, v) wrap = Ok buf' /\ length buf' = length buf /\
    (forall i j, inb [i; j] [nr; nc] ->
       (forall t, diag_pos wrap nc i j t -> get buf' a [i; j] = nth_error vals (t mod length vals)) /\
       ((forall t, ~ diag_pos wrap nc i j t) -> get buf' a [i; j] = get buf a [i; j])) /\
    (forall ad, (forall i j, inb [i; j] [nr; nc] -> ad <> addr a [i; j]) -> load buf' (a_item a) ad = load buf (a_item a) ad).
Proof. intros V. exact fill2_ok. Qed.
(* without wrapping the diagonal is i = j *)
Theorem C100_diagonal : forall nc i j t, j < nc -> (diag_pos false nc i j t <-> i = j /\ t = i).
Proof. intros nc i j t H. unfold diag_pos. split; [intros [E W]; specialize (W eq_refl); destruct (Nat.div_mod_unique nc i t j t H W ltac:(nia)) as [-> ->]; split; reflexivity|intros [-> ->]; split; [nia|lia]]. Qed.
Definition ex_m : arr := fresh [5; 2] 8.
Example C100_matrix_nonvacuous : wf (repeat 0 10) ex_m /\
  fill_diagonal (repeat 0 10) ex_m (fst ex_x, snd ex_x) false = Ok [1; 0; 0; 2; 0; 0; 0; 0; 0; 0] /\
  fill_diagonal (repeat 0 10) ex_m (fst ex_x, snd ex_x) true = Ok [1; 0; 0; 2; 0; 0; 3; 0; 0; 1].
Proof. split; [wfc|split; vm_compute; reflexivity]. Qed.
Example C100_diagonal_nonvacuous : diag_pos false 3 2 2 2 /\ diag_pos true 2 3 0 2.
Proof. split; split; try reflexivity; lia. Qed.

(* more axes, all of the same length: the elements [i, i, ..., i] *)
Theorem C100_cube_partial : forall {V} (buf vbuf : list V) a v vals wrap n k, wf buf a -> injective a -> 3 <= k -> a_shape a = repeat n k ->
  wf vbuf v -> a_c v = true -> elems vbuf v = map Some vals -> vals <> [] ->
  exists buf', fill_diagonal buf a (vbuf, v) wrap = Ok buf' /\ length buf' = length buf /\
    (forall idx, inb idx (a_shape a) ->
       (forall i, idx = repeat i k -> get buf' a idx = nth_error vals (i mod length vals)) /\
       ((forall i, idx <> repeat i k) -> get buf' a idx = get buf a idx)) /\
    (forall ad, (forall idx, inb idx (a_shape a) -> ad <> addr a idx) -> load buf' (a_item a) ad = load buf (a_item a) ad).
Proof.
  intros V buf vbuf a v vals wrap n k W HJ HK HS. destruct k as [|[|[|k]]]; try lia. apply (fillN_ok buf vbuf a v vals wrap n k); assumption.
Qed.
Example C100_cube_nonvacuous : a_shape (fresh [2; 2; 2] 8) = repeat 2 3 /\
  fill_diagonal (repeat 0 8) (fresh [2; 2; 2] 8) ex_y false = Ok [7; 0; 0; 0; 0; 0; 0; 8].
Proof. split; vm_compute; reflexivity. Qed.

(* val = w[::2] = [1, 3]: the strides of val are ignored and 2 is written *)
Theorem C100_strided_refuted : exists (w : list nat) v, wf w v /\ elems w v = map Some [1; 3] /\
  fill_diagonal [0; 0; 0; 0] (fresh [2; 2] 8) (w, v) false = Ok [1; 0; 0; 2].
Proof. exists [1; 2; 3], (mkArr 0 [2] [16]%Z 8 false false). split; [wfc|]. split; vm_compute; reflexivity. Qed.
(* val with negative strides, w[::-1]: reads past the end of the buffer *)
Theorem C100_reversed_refuted : exists (w : list nat) v, wf w v /\ elems w v = map Some [2; 1] /\
  fill_diagonal [0; 0; 0; 0] (fresh [2; 2] 8) (w, v) false = Fault.
Proof. exists [1; 2], (mkArr 8 [2] [-8]%Z 8 false false). split; [wfc|]. split; vm_compute; reflexivity. Qed.
(* an empty val panics *)
Theorem C100_empty_refuted : fill_diagonal [0; 0; 0; 0] (fresh [2; 2] 8) ([], fresh [0] 8) false = Panic.
Proof. vm_compute. reflexivity. Qed.
(* axes of different lengths are accepted instead of rejected *)
Theorem C100_unequal_refuted : fill_diagonal (repeat 0 6) (fresh [2; 1; 3] 8) ex_y false = Ok [7; 0; 0; 0; 0; 0].
Proof. vm_compute. reflexivity. Qed.

(* ---- C101 ------------------------------------------------------------------------------- *)

(* mgrid[start:stop:step] of integers: exactly the terms of the progression before
   stop, in int64.  Missing: values from 2^51 on and non-integers (refuted below). *)
Theorem C101_range_partial : forall start stop step, step <> 0%Z ->
  (Z.abs start < 2 ^ 51)%Z -> (Z.abs stop < 2 ^ 51)%Z -> (Z.abs step < 2 ^ 51)%Z ->
  exists g l, parse_slice (Some (f64_int start)) (f64_int stop) (SInt step) = Ok g /\ progression (LInt i64_ty) start stop step l /\
    forall fuel, length l < fuel -> range_array fuel g = Some (LInt i64_ty, l).
Proof.
  intros start stop step Hs H1 H2 H3. destruct (range_int_ok start stop step Hs H1 H2 H3) as (l & P & R).
  exists (mkG (f64_int start) (f64_int stop) (GInt step)), l. split; [|split; assumption].
  unfold parse_slice. change (i_min i64_ty) with (- 2 ^ 63)%Z. change (i_max i64_ty) with (2 ^ 63 - 1)%Z.
  assert (2 ^ 51 < 2 ^ 63 - 1)%Z by reflexivity. destruct (Z.leb_spec (- 2 ^ 63) step); [|lia]. destruct (Z.leb_spec step (2 ^ 63 - 1)); [reflexivity|lia].
Qed.
Example C101_range_nonvacuous :
  range_array 9 (mkG (f64_int 10) (f64_int 1) (GInt (-4))) = Some (LInt i64_ty, map CInt [10; 6; 2]%Z) /\
  range_array 9 (mkG (f64_int 3) (f64_int 1) (GInt 2)) = Some (LInt i64_ty, []).
Proof. split; vm_compute; reflexivity. Qed.
(* mgrid[start:stop:num*1j]: num equally spaced numbers including stop, when the
   spacing is an integer *)
Theorem C101_points_partial : forall start stop num re fuel, 1 < num -> (Z.of_nat num < 2 ^ 53)%Z ->
  (Z.abs start < 2 ^ 53)%Z -> (Z.abs stop < 2 ^ 53)%Z -> (Z.abs (stop - start) < 2 ^ 53)%Z -> (Z.of_nat num - 1 | stop - start)%Z ->
  exists g l, parse_slice (Some (f64_int start)) (f64_int stop) (SComplex re (f64_int (Z.of_nat num))) = Ok g /\
    range_array fuel g = Some (LF64, l) /\ spaced LF64 start stop num l.
Proof.
  intros start stop num re fuel Hn Hb H1 H2 H3 HD. destruct (range_complex_ok start stop num fuel Hn Hb H1 H2 H3 HD) as (l & E & S').
  exists (mkG (f64_int start) (f64_int stop) (GComplex (f64_int (Z.of_nat num)))), l. split; [|split; assumption].
  unfold parse_slice. destruct (Z.of_nat num) as [|k|k] eqn:Ek; try lia. rewrite f64_int_pos by lia. reflexivity.
Qed.
Example C101_points_nonvacuous :
  range_array 0 (mkG (f64_int 0) (f64_int 8) (GComplex (f64_int 5))) = Some (LF64, map (fun z => CFlt (f64_int z)) [0; 2; 4; 6; 8]%Z) /\ (Z.of_nat 5 - 1 | 8 - 0)%Z.
Proof. split; [vm_compute; reflexivity|]. exists 2%Z. reflexivity. Qed.

(* mgrid[0:1:0.5] is empty: the step is truncated to 0 *)
Theorem C101_float_step_refuted : exists g,
  parse_slice (Some (f64_int 0)) (f64_int 1) (SFloat (S754_finite false 4503599627370496 (-53))) = Ok g /\
  forall fuel, range_array fuel g = Some (LInt i64_ty, []).
Proof. eexists. split; [vm_compute; reflexivity|]. intros fuel. vm_compute. reflexivity. Qed.
(* mgrid[2^53 : 2^53+4] never returns: adding 1 does not change the value *)
Theorem C101_diverges_refuted : forall fuel, range_array fuel (mkG (f64_int (2 ^ 53)) (f64_int (2 ^ 53 + 4)) (GInt 1)) = None.
Proof.
  intros fuel. unfold range_array. cbn [g_step g_start g_stop]. change (0 <? 1)%Z with true. cbv iota.
  assert (E : range_loop fuel true (f64_int (2 ^ 53 + 4)) (f64_int 1) (f64_int (2 ^ 53)) = None); [|rewrite E; reflexivity].
  induction fuel as [|fuel IH]; [reflexivity|]. cbn [range_loop].
  replace (SFltb (f64_int (2 ^ 53)) (f64_int (2 ^ 53 + 4))) with true by (vm_compute; reflexivity).
  replace (fadd64 (f64_int (2 ^ 53)) (f64_int 1)) with (f64_int (2 ^ 53)) by (vm_compute; reflexivity). rewrite IH. reflexivity.
Qed.
(* mgrid[0:1:50j] does not end at 1 *)
Theorem C101_endpoint_refuted : exists l f,
  range_array 0 (mkG (f64_int 0) (f64_int 1) (GComplex (f64_int 50))) = Some (LF64, l) /\ nth_error l 49 = Some (CFlt f) /\ SFcompare f (f64_int 1) = Some Lt.
Proof. eexists _, _. split; [vm_compute; reflexivity|]. split; [reflexivity|]. vm_compute. reflexivity. Qed.

(* ---- C102 ------------------------------------------------------------------------------- *)

(* eye(n), identity(n): one exactly on the diagonal *)
Theorem C102_eye : forall {V} (zero one : V) n, exists out, eye zero one n = Ok out /\ length out = n * n /\
  forall i j, i < n -> j < n -> nth_error out (rm_rank [n; n] [i; j]) = Some (if i =? j then one else zero).
Proof.
  intros V zero one n. destruct (eye_ok zero one n) as (out & E & L & S'). exists out. split; [exact E|]. split; [exact L|].
  intros i j Hi Hj. replace (rm_rank [n; n] [i; j]) with (i * n + j) by (cbn; lia). apply S'; assumption.
Qed.
Example C102_eye_nonvacuous : eye 0 1 3 = Ok [1; 0; 0; 0; 1; 0; 0; 0; 1].
Proof. vm_compute. reflexivity. Qed.
(* diag_indices(n, ndim): ndim index arrays 0, 1, ..., n-1 *)
Theorem C102_diag_indices : forall n m, (Z.of_nat n <= 2 ^ 53)%Z ->
  length (diag_indices n m) = m /\ forall d l, nth_error (diag_indices n m) d = Some l ->
    length l = n /\ forall i, i < n -> exists c, nth_error l i = Some c /\ stores (LInt i64_ty) (PInt (Z.of_nat i)) c.
Proof. exact diag_indices_ok. Qed.
Example C102_diag_indices_nonvacuous : diag_indices 3 2 = repeat (map CInt [0; 1; 2]%Z) 2.
Proof. vm_compute. reflexivity. Qed.

Print Assumptions C98_meshgrid_partial.
Print Assumptions C98_ix_partial.
Print Assumptions C98_ix_cross.
Print Assumptions C98_grid.
Print Assumptions C98_strided_refuted.
Print Assumptions C99_ndindex_partial.
Print Assumptions C99_overflow_refuted.
Print Assumptions C99_ndenumerate_partial.
Print Assumptions C99_ndenumerate_refuted.
Print Assumptions C99_indices.
Print Assumptions C100_matrix_partial.
Print Assumptions C100_diagonal.
Print Assumptions C100_cube_partial.
Print Assumptions C100_strided_refuted.
Print Assumptions C100_reversed_refuted.
Print Assumptions C100_empty_refuted.
Print Assumptions C100_unequal_refuted.
Print Assumptions C101_range_partial.
Print Assumptions C101_points_partial.
Print Assumptions C101_float_step_refuted.
Print Assumptions C101_diverges_refuted.
Print Assumptions C101_endpoint_refuted.
Print Assumptions C102_eye.
Print Assumptions C102_diag_indices.
