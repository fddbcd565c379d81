(* C165: numpy.diff. *)
From Coq Require Import SpecFloat.
From Verif Require Import Idx_Proofs Idx_Assign.
From Verif Require Import Base Lists Int_Model Int_Proofs F64_Model Arr_Spec Arr_Model Arr_Wf Arr_Proofs Wf_Check Copy_Model Copy_Proofs Elem_Model Elem_Proofs Rng_Model Red_Spec Red_Model Red_Proofs Red_Scan Promo_Spec Promo_Model Promo_Proofs Promo_Props SF_Proofs SF_Arith Cast_Spec Cast_Model Cast_SF Cast_Proofs Cast_Laws Cast_Props Bitw_Spec Bitw_Model Bitw_Proofs Rnd_Spec Rnd_Model Rnd_Proofs Rnd_Round Rnd_Props Ari_Spec Ari_Model Ari_Proofs Cpx_Model Cum_Spec Cum_Model Cum_Proofs.
Local Open Scope nat_scope.

(* ---- C165 ------------------------------------------------------------------- *)
(* the n-th difference along any axis always exists, keeps the dtype, and is n shorter along
   that axis (empty when the axis has n elements or fewer) *)
Theorem C165_shape : forall n x axis len, good x -> real (n_kind x) = true -> nth_error (shape_of x) axis = Some len ->
  exists z, diff n x axis = Ok z /\ good z /\ n_kind z = n_kind x /\ shape_of z = upd (shape_of x) axis (len - n).
Proof. exact diff_total. Qed.
(* its elements are the n-th differences of the numbers along the axis, as long as the dtype
   has every number met on the way.  Missing: 64-bit integers beyond a double's reach, unless
   the array is one-dimensional and contiguous; complex arrays. *)
Theorem C165_exact_partial : forall n x axis len f, good x -> real (n_kind x) = true -> nth_error (shape_of x) axis = Some len -> n < len -> numbers x f ->
  (forall j idx, j <= n -> inb idx (upd (shape_of x) axis (len - j)) -> held x (difference j f axis idx)) ->
  exists z, diff n x axis = Ok z /\ good z /\ n_kind z = n_kind x /\ shape_of z = upd (shape_of x) axis (len - n) /\ numbers z (difference n f axis).
Proof. exact diff_exact. Qed.
(* diff(a + b) is diff(b) of diff(a) *)
Theorem C165_steps : forall a b x axis len, good x -> real (n_kind x) = true -> nth_error (shape_of x) axis = Some len -> 0 < a -> 0 < b -> a + b < len ->
  diff (a + b) x axis = bind (diff a x axis) (fun y => diff b y axis).
Proof. intros [|a] [|b] x axis len G R HN HA HB HL; try lia. exact (diff_add a b x axis len G R HN HL). Qed.
Definition grid (k : kind) (l : list scalar) (sh : list nat) : narr := mkN k l (fresh sh (itemsize k)).
Ltac good_grid := split; [reflexivity|split; [apply wf_check_sound; vm_compute; reflexivity|split; [cbn [n_buf n_kind grid]; repeat (apply Forall_cons; [cbn [element]; first [split; [apply int_int; lia|reflexivity]|split; vm_compute; reflexivity|vm_compute; reflexivity]|]); apply Forall_nil|reflexivity]]].
Example C165_nonvacuous :
  let x := grid Int32 [SInt 1; SInt 4; SInt 9; SInt 16; SInt 8; SInt 1] [2; 3] in
  let f := fun idx => (nth (rank [2; 3]%nat idx) [1; 4; 9; 16; 8; 1]%Z 0%Z * one)%Z in
  good x /\ real (n_kind x) = true /\ nth_error (shape_of x) 1 = Some 3 /\ numbers x f /\
  (forall j idx, j <= 2 -> inb idx (upd (shape_of x) 1 (3 - j)) -> held x (difference j f 1 idx)) /\
  diff 1 x 1 = Ok (grid Int32 [SInt 3; SInt 5; SInt (-8); SInt (-7)] [2; 2]) /\
  diff 2 x 1 = Ok (grid Int32 [SInt 2; SInt 1] [2; 1]) /\
  diff 1 x 0 = Ok (grid Int32 [SInt 15; SInt 4; SInt (-8)] [1; 3]) /\
  diff 3 x 1 = Ok (grid Int32 [] [2; 0]).
Proof.
  cbv zeta. split; [good_grid|]. split; [reflexivity|]. split; [reflexivity|]. split.
  { intros idx I. apply in_all_idx in I. cbn in I. repeat (destruct I as [<-|I]; [eexists; split; [vm_compute; reflexivity|vm_compute; reflexivity]|]). contradiction. }
  split.
  { intros j idx Hj I. destruct j as [|[|[|j]]]; [| | |lia]; apply in_all_idx in I; cbn in I;
      repeat (destruct I as [<-|I]; [split; [split; [|reflexivity]; match goal with |- int_holds _ _ ?d => exists (d / one)%Z end; split; [vm_compute; split; discriminate|vm_compute; reflexivity]|discriminate]|]); contradiction. }
  do 3 (split; [vm_compute; reflexivity|]). vm_compute. reflexivity.
Qed.
(* false of the code: the same numbers give different results by layout.  uint8 differences
   wrap in a contiguous row, and are cut off at 0 in a reversed view or along an axis of a
   matrix; int64 differences along an axis of a matrix go through a double. *)
Theorem C165_layout_refuted :
  let row := grid Uint8 [SInt 1; SInt 3; SInt 0] [3] in
  let reversed := mkN Uint8 [SInt 0; SInt 3; SInt 1] (mkArr 2 [3] [-1]%Z 1 false false) in
  let big := (2 ^ 53)%Z in
  let line := grid Int64 [SInt big; SInt (2 * big + 1)] [2] in
  let matrix := grid Int64 [SInt big; SInt (2 * big + 1)] [1; 2] in
  good row /\ good reversed /\ good line /\ good matrix /\
  (forall i, inb i [3] -> item_at row i = item_at reversed i) /\
  diff 1 row 0 = Ok (grid Uint8 [SInt 2; SInt 253] [2]) /\
  diff 1 reversed 0 = Ok (grid Uint8 [SInt 2; SInt 0] [2]) /\
  diff 1 line 0 = Ok (grid Int64 [SInt (big + 1)] [1]) /\
  diff 1 matrix 1 = Ok (grid Int64 [SInt big] [1; 1]).
Proof.
  cbv zeta. split; [good_grid|]. split; [good_grid|]. split; [good_grid|]. split; [good_grid|]. split.
  { intros i I. apply in_all_idx in I. cbn in I. repeat (destruct I as [<-|I]; [vm_compute; reflexivity|]). contradiction. }
  do 3 (split; [vm_compute; reflexivity|]). vm_compute. reflexivity.
Qed.
(* false of the code: the differences of a complex matrix are all zero *)
Theorem C165_complex_refuted :
  let c a b := SCpx (f64_int a) (f64_int b) in
  let line := grid Complex128 [c 1%Z 2%Z; c 5%Z 7%Z] [2] in
  let matrix := grid Complex128 [c 1%Z 2%Z; c 5%Z 7%Z] [1; 2] in
  good line /\ good matrix /\
  diff 1 line 0 = Ok (grid Complex128 [c 4%Z 5%Z] [1]) /\
  diff 1 matrix 1 = Ok (grid Complex128 [c 0%Z 0%Z] [1; 1]).
Proof.
  cbv zeta. split; [good_grid|]. split; [good_grid|]. split; [vm_compute; reflexivity|]. vm_compute. reflexivity.
Qed.

Print Assumptions C165_shape.
Print Assumptions C165_exact_partial.
Print Assumptions C165_steps.
Print Assumptions C165_layout_refuted.
Print Assumptions C165_complex_refuted.
