(* C176: nanstd along an axis. *)
From Coq Require Import SpecFloat.
From Verif Require Import Base Lists Int_Model Int_Proofs F64_Model Arr_Spec Arr_Model Arr_Wf Arr_Proofs Wf_Check Copy_Model Copy_Proofs Elem_Model Elem_Proofs Rng_Model New_Model Promo_Spec Promo_Model Promo_Proofs Promo_Props SF_Proofs SF_Arith Cast_Spec Cast_Model Cast_SF Cast_Proofs Cast_Laws Cast_Props Close_Proofs Bitw_Spec Bitw_Model Bitw_Proofs Rnd_Spec Rnd_Model Rnd_Proofs Rnd_Round Rnd_Props Ari_Spec SF_Round Ari_Model Ari_Proofs Cpx_Spec Cpx_Model Cpx_Proofs Tra_Spec Tra_Model Tra_Proofs Tra_Props Sqrt_Spec Sqrt_Model Sqrt_Proofs Sqrt_Half Sqrt_Props Bcast_Model Bcast_Proofs Idx_Model Idx_Assign Date_Model SF_Cmp Ari_Ord Ari_Next Ari_Props Red_Spec Red_Model Red_Proofs CpxA_Spec CpxA_Proofs Fred_Spec Fred_Model Fred_Proofs Fred_Props Var_Spec Var_Model Var_Proofs Nmean_Spec Nmean_Model Nmean_Proofs Nlane_Model Nlane_Proofs Nstd_Model Nstd_Proofs.
Local Open Scope Z_scope.

(* every entry of nanstd is the root of that entry of nanvar, rounded once *)
Theorem C176_std : forall fc x axis n, complex_kernel fc -> real_array x -> nth_error (shape_of x) axis = Some n -> n <> 0%nat -> in_memory (reduced_shape axis (shape_of x)) ->
  exists v z, nan_var_axis x axis = Ok v /\ nan_std_axis fc x axis = Ok z /\ n_kind z = Float64 /\ shape_of z = reduced_shape axis (shape_of x) /\
  forall idx, inb idx (shape_of z) -> exists a b, item_at v idx = Some a /\ item_at z idx = Some b /\
    square_root (fun r => holds Float64 (r, 0)) (real_value a) (real_value b).
Proof.
  intros fc x axis n HC A Hn N0 HM. pose proof A as [G R]. destruct (nan_lanes_spec Float64 x axis n lane_var eq_refl G Hn N0) as (v & EV & KV & SV & _). fold (nan_var_axis x axis) in EV.
  pose proof (var_axis_good x axis n v A Hn N0 HM EV) as GV. destruct (C170_float fc v HC GV) as (z & EZ & _ & KZ & SZ & HZ); [rewrite KV; reflexivity|rewrite KV; reflexivity|].
  exists v, z. split; [exact EV|]. split; [unfold nan_std_axis; rewrite EV; exact EZ|]. split; [congruence|]. split; [congruence|]. intros idx HI. rewrite SZ in HI. destruct (HZ idx HI) as (a & b & EA & EB & HS). exists a, b. split; [exact EA|]. split; [exact EB|]. rewrite KV in HS. exact HS.
Qed.
Example C176_std_nonvacuous :
  let x := mkN Float64 [fl 1 1; SFlt S754_nan; fl 5 1; fl 9 1; SFlt S754_nan; SFlt S754_nan] (mkArr 0 [2; 3]%nat [24; 8] 8 true false) in
  real_array x /\ nth_error (shape_of x) 1 = Some 3%nat /\ in_memory (reduced_shape 1 (shape_of x)) /\ complex_kernel (fun _ c => c) /\
  nan_std_axis (fun _ c => c) x 1 = Ok (row Float64 [fl 2 1; SFlt (S754_zero false)]).
Proof.
  split; [split; [good_row|reflexivity]|]. split; [reflexivity|]. split; [vm_compute; reflexivity|]. split; [intros k a b _ VA VB; split; assumption|vm_compute; reflexivity].
Qed.

Print Assumptions C176_std.
