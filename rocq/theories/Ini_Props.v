(* C167: running totals with the identity in front. *)
From Coq Require Import SpecFloat.
From Verif Require Import Base Lists Int_Model Int_Proofs F64_Model Arr_Spec Arr_Model Arr_Wf Arr_Proofs Wf_Check Copy_Model Copy_Proofs Idx_Proofs Idx_Assign Elem_Model Elem_Proofs Rng_Model Red_Spec Red_Model Red_Proofs Red_Scan Promo_Spec Promo_Model Promo_Proofs Promo_Props SF_Proofs SF_Arith Cast_Spec Cast_Model Cast_SF Cast_Proofs Cast_Laws Cast_Props Close_Proofs Bitw_Spec Bitw_Model Bitw_Proofs Rnd_Spec Rnd_Model Rnd_Proofs Rnd_Round Rnd_Props Ari_Spec SF_Round Ari_Model Ari_Proofs Cpx_Model Fred_Spec Fred_Model Fred_Proofs Run_Spec Run_Model Run_Proofs Run_Props Ini_Model Ini_Proofs.
Local Open Scope Z_scope.

(* ---- C167 ------------------------------------------------------------------- *)
(* cumulative_sum, cumulative_prod with include_initial, real dtypes: the axis is one longer,
   its first entry is 0 (1) and the entry after it is the running total there, for arrays that
   are not empty across the axis (or, for six of the dtypes, along the last axis).  Missing:
   arrays that are empty across another axis, and complex arrays, for which it is false (see
   the refutation). *)
Theorem C167_initial_partial : forall op x axis n, good x -> real (n_kind x) = true -> nth_error (shape_of x) axis = Some n ->
  (0 < prod (remove_at axis (shape_of x)))%nat \/
    (In (n_kind x) [Float64; Float32; Int64; Int32; Uint64; Uint32] /\ axis = (length (shape_of x) - 1)%nat) ->
  Z.of_nat (prod (upd (shape_of x) axis (n + 1)%nat)) * 16 < 2 ^ 63 ->
  exists y z, cumulative_total op x (Some axis) = Ok y /\ shape_of y = shape_of x /\
    cumulative_initial op x axis = Ok z /\ good z /\ n_kind z = n_kind x /\ shape_of z = upd (shape_of x) axis (n + 1)%nat /\
    forall idx, inb idx (shape_of z) -> exists r, item_at z idx = Some r /\
      match nth axis idx 0%nat with
      | O => real_value r = Fin (match op with CumSum => 0 | CumProd => one end)
      | S j => exists v, item_at y (upd idx axis j) = Some v /\ real_value r = real_value v
      end.
Proof.
  intros op x axis n G R Hn HL HB. assert (HA : axis_ok x (Some axis)) by (cbn; apply nth_error_Some; congruence).
  destruct (cumulative_ok op x (Some axis) G R HA) as (y & E & GY & Q & KY & SY & _). destruct (cumulative_fresh op x (Some axis) y G HA E) as [AY LY].
  rewrite <- KY in R. assert (LO : lanes_ok y axis).
  { unfold lanes_ok. rewrite SY, KY. destruct HL as [H|[H1 H2]]; [left; exact H|right]. split; [|exact H2]. repeat (destruct H1 as [<-|H1]; [reflexivity|]). destruct H1. }
  destruct (prepend_spec op y axis n GY R AY LY ltac:(rewrite SY; exact Hn) LO ltac:(rewrite SY; exact HB)) as (z & EZ & GZ & KZ & SZ & HZ).
  exists y, z. split; [exact E|]. split; [exact SY|]. unfold cumulative_initial. rewrite E. cbn [bind]. split; [exact EZ|]. split; [exact GZ|]. split; [congruence|]. split; [rewrite SZ, SY; reflexivity|].
  intros idx I. destruct (HZ idx I) as (r & ER & HR). exists r. split; [exact ER|]. destruct (nth axis idx 0%nat); [|exact HR]. rewrite HR. destruct op; reflexivity.
Qed.
Example C167_nonvacuous :
  let x := grid Int16 [SInt 3; SInt 2; SInt 5; SInt (-3)] [2; 2]%nat in
  let e := grid Float64 [] [0; 3]%nat in
  good x /\ real (n_kind x) = true /\ nth_error (shape_of x) 0 = Some 2%nat /\ (0 < prod (remove_at 0 (shape_of x)))%nat /\
  cumulative_total CumSum x (Some 0%nat) = Ok (grid Int16 [SInt 3; SInt 2; SInt 8; SInt (-1)] [2; 2]%nat) /\
  cumulative_initial CumSum x 0 = Ok (grid Int16 [SInt 0; SInt 0; SInt 3; SInt 2; SInt 8; SInt (-1)] [3; 2]%nat) /\
  cumulative_initial CumProd x 1 = Ok (grid Int16 [SInt 1; SInt 3; SInt 6; SInt 1; SInt 5; SInt (-15)] [2; 3]%nat) /\
  good e /\ cumulative_initial CumSum e 1 = Ok (grid Float64 [] [0; 4]%nat).
Proof. cbv zeta. split; [good_grid|]. do 2 (split; [reflexivity|]). split; [cbn; lia|]. do 3 (split; [vm_compute; reflexivity|]). split; [good_grid|]. vm_compute. reflexivity. Qed.
(* false of the code: an array that is empty across the axis is read and written outside its
   buffer (the lanes are counted as at least one), and complex totals come out as zeros *)
Theorem C167_refuted :
  let c a b := SCpx (f64_int a) (f64_int b) in
  let e := grid Float64 [] [2; 0]%nat in
  let e' := grid Int16 [] [0; 0]%nat in
  let x := grid Complex128 [c 1 2; c 3 4] [2]%nat in
  good e /\ good e' /\ good x /\
  cumulative_total CumSum e (Some 0%nat) = Ok e /\ cumulative_initial CumSum e 0 = Fault /\
  cumulative_total CumProd e' (Some 1%nat) = Ok e' /\ cumulative_initial CumProd e' 1 = Fault /\
  cumulative_total CumSum x (Some 0%nat) = Ok (grid Complex128 [c 1 2; c 4 6] [2]%nat) /\
  cumulative_initial CumSum x 0 = Ok (grid Complex128 [c 0 0; c 0 0; c 0 0] [3]%nat).
Proof. cbv zeta. do 3 (split; [good_grid|]). do 5 (split; [vm_compute; reflexivity|]). vm_compute. reflexivity. Qed.

Print Assumptions C167_initial_partial.
Print Assumptions C167_refuted.
