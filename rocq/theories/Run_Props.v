(* C166: running totals that go through doubles, and of floats. *)
From Coq Require Import SpecFloat.
From Verif Require Import Base Lists Int_Model Int_Proofs F64_Model Arr_Spec Arr_Model Arr_Wf Arr_Proofs Wf_Check Copy_Model Copy_Proofs Idx_Assign Elem_Model Elem_Proofs Rng_Model Red_Spec Red_Model Red_Proofs Red_Scan Promo_Spec Promo_Model Promo_Proofs Promo_Props SF_Proofs SF_Arith Cast_Spec Cast_Model Cast_SF Cast_Proofs Cast_Laws Cast_Props Close_Proofs Bitw_Spec Bitw_Model Bitw_Proofs Rnd_Spec Rnd_Model Rnd_Proofs Rnd_Round Rnd_Props Ari_Spec SF_Round Ari_Model Ari_Proofs Cpx_Spec Cpx_Model Cpx_Proofs Fred_Spec Fred_Model Fred_Proofs Run_Spec Run_Model Run_Proofs.
Local Open Scope Z_scope.

(* ---- C166 ------------------------------------------------------------------- *)
(* nancumsum, nancumprod: every entry is the total of the elements up to its place that are
   not NaN, for totals a double and the dtype have.  Missing: rounded totals, and 64-bit
   integers that are not doubles. *)
Theorem C166_nan_partial : forall op x axis, good x -> real (n_kind x) = true -> axis_ok x axis ->
  exists z, nan_cumulative op x axis = Ok z /\ good z /\
    running (fun l r => let nums := Fred_Spec.numbers (map real_value l) in
               forall U, unit_of Float64 U -> Forall fits l -> computable op 53 U nums -> holds (n_kind x) (result op nums, 0) ->
               real_value r = Fin (result op nums)) x axis z.
Proof. intros op x axis. exact (cum_f64_spec true op x axis). Qed.
(* cumsum, cumprod of bool and int8 arrays: the same through doubles, cut off at the limits of
   the dtype *)
Theorem C166_small_partial : forall op x axis, good x -> n_kind x = Bool \/ n_kind x = Int8 -> axis_ok x axis ->
  exists z, cumulative_total op x axis = Ok z /\ good z /\
    running (fun l r => forall U, unit_of Float64 U -> computable op 53 U (map real_value l) -> holds (n_kind x) (result op (map real_value l), 0) ->
               real_value r = Fin (result op (map real_value l))) x axis z.
Proof.
  intros op x axis G K HA. assert (real (n_kind x) = true) as R by (destruct K as [-> | ->]; reflexivity). assert (wide_int (n_kind x) = false) as W by (destruct K as [-> | ->]; reflexivity).
  assert (cumulative_total op x axis = cumulative_op op x axis) as -> by (unfold cumulative_total; destruct K as [-> | ->]; reflexivity).
  destruct (cum_f64_spec false op x axis G R HA) as (z & E & GZ & HR). exists z. split; [exact E|]. split; [exact GZ|].
  revert HR. apply running_impl; [exact G|]. intros l r F H U HU HC HH. apply (H U HU); try assumption.
  revert F. apply Forall_impl. intros v. apply narrow_fits; assumption.
Qed.
(* cumsum, cumprod of float arrays: totals that need no rounding are exact, and a NaN stays *)
Theorem C166_float_partial : forall op x axis, good x -> float_kind (n_kind x) -> axis_ok x axis ->
  exists z, cumulative_total op x axis = Ok z /\ good z /\
    running (fun l r =>
      (forall U, unit_of (n_kind x) U -> computable op (fst (Cast_Spec.format (n_kind x))) U (map real_value l) -> real_value r = Fin (result op (map real_value l))) /\
      (In NaN (map real_value l) -> real_value r = NaN)) x axis z.
Proof. exact cum_float_spec. Qed.
(* cumsum, cumprod of the other integers: the element of the dtype congruent to the sum or
   product of the elements up to its place, modulo 2 to the width; in particular the sum or
   product itself when the dtype has it *)
Theorem C166_int : forall op x axis, good x -> is_integer (n_kind x) = true -> n_kind x <> Int8 -> axis_ok x axis ->
  exists z, cumulative_total op x axis = Ok z /\ good z /\
    running (fun l r => exists zs c, l = map SInt zs /\ r = SInt c /\ fst (int_range (n_kind x)) <= c <= snd (int_range (n_kind x)) /\
      (c - match op with CumSum => zsum zs | CumProd => zprod zs end) mod 2 ^ width (n_kind x) = 0) x axis z.
Proof. exact cum_int_spec. Qed.
(* cumsum of complex arrays: each part of every entry is the sum of that part of the elements
   up to its place, where no rounding is needed, and NaN once a NaN was met.  Missing: complex
   products. *)
Theorem C166_complex_partial : forall x axis, good x -> is_complex_kind (n_kind x) = true -> axis_ok x axis ->
  exists z, cumulative_total CumSum x axis = Ok z /\ good z /\
    running (fun l r => forall f, f = fst \/ f = snd -> let nums := map (fun v => f (value v)) l in
      (forall U, unit_of (part_kind (n_kind x)) U -> summable (fst (Cast_Spec.format (part_kind (n_kind x)))) U nums -> f (value r) = Fin (total nums)) /\
      (In NaN nums -> f (value r) = NaN)) x axis z.
Proof.
  intros x axis G K HA. destruct (cum_complex_spec x axis G K HA) as (z & E & GZ & HR). exists z. split; [exact E|]. split; [exact GZ|].
  revert HR. apply running_impl; [exact G|]. intros l r _ [H1 H2] f [-> | ->]; assumption.
Qed.
Definition grid (k : kind) (l : list scalar) (sh : list nat) : narr := mkN k l (fresh sh (itemsize k)).
Ltac good_grid := split; [reflexivity|split; [apply wf_check_sound; vm_compute; reflexivity|split; [cbn [n_buf n_kind grid]; repeat (apply Forall_cons; [cbn [element]; first [split; [apply int_int; lia|reflexivity]|split; vm_compute; reflexivity|vm_compute; reflexivity]|]); apply Forall_nil|reflexivity]]].
Example C166_nonvacuous :
  let x := grid Float64 [fl 1 2; SFlt S754_nan; fl 3 1; fl (-2) 1] [2; 2]%nat in
  good x /\ float_kind (n_kind x) /\ axis_ok x (Some 0%nat) /\
  nan_cumulative CumSum x None = Ok (grid Float64 [fl 1 2; fl 1 2; fl 7 2; fl 3 2] [4]%nat) /\
  nan_cumulative CumProd x (Some 0%nat) = Ok (grid Float64 [fl 1 2; fl 1 1; fl 3 2; fl (-2) 1] [2; 2]%nat) /\
  cumulative_total CumSum x (Some 1%nat) = Ok (grid Float64 [fl 1 2; SFlt S754_nan; fl 3 1; fl 1 1] [2; 2]%nat) /\
  unit_of Float64 (2 ^ 1073) /\ computable CumSum 53 (2 ^ 1073) (Fred_Spec.numbers (map real_value (n_buf x))) /\
  result CumSum (Fred_Spec.numbers (map real_value (n_buf x))) = 3 * 2 ^ 1073 /\ holds Float64 (3 * 2 ^ 1073, 0).
Proof.
  cbv zeta. split; [good_grid|]. split; [right; right; reflexivity|]. split; [cbn; lia|].
  do 3 (split; [vm_compute; reflexivity|]). split; [exists (-1); split; [cbn; lia|reflexivity]|]. split.
  { split; [|vm_compute; reflexivity].
    match goal with |- Forall _ ?l => let l' := eval vm_compute in l in change l with l' end.
    constructor; [exists 1; vm_compute; reflexivity|]. constructor; [exists 6; vm_compute; reflexivity|]. constructor; [exists (-4); vm_compute; reflexivity|]. constructor. }
  split; [vm_compute; reflexivity|]. split; [|reflexivity]. exists 3, (-1). split; [lia|]. split; [lia|reflexivity].
Qed.
Example C166_int_nonvacuous :
  let x := grid Int16 [SInt 300; SInt 2; SInt 200; SInt (-3)] [2; 2]%nat in
  good x /\ is_integer (n_kind x) = true /\ n_kind x <> Int8 /\ axis_ok x (Some 0%nat) /\
  cumulative_total CumProd x (Some 0%nat) = Ok (grid Int16 [SInt 300; SInt 2; SInt (-5536); SInt (-6)] [2; 2]%nat) /\
  cumulative_total CumSum x None = Ok (grid Int16 [SInt 300; SInt 302; SInt 502; SInt 499] [4]%nat).
Proof. cbv zeta. split; [good_grid|]. split; [reflexivity|]. split; [discriminate|]. split; [cbn; lia|]. split; vm_compute; reflexivity. Qed.
Example C166_complex_nonvacuous :
  let c a b := SCpx (f64_int a) (f64_int b) in
  let x := grid Complex128 [c 1 2; c 3 (-4); c 0 5] [3]%nat in
  good x /\ is_complex_kind (n_kind x) = true /\ axis_ok x (Some 0%nat) /\
  cumulative_total CumSum x (Some 0%nat) = Ok (grid Complex128 [c 1 2; c 4 (-2); c 4 3] [3]%nat) /\
  cumulative_total CumProd x None = Ok (grid Complex128 [c 1 2; c 11 2; c (-10) 55] [3]%nat) /\
  unit_of Float64 one /\ summable 53 one (map (fun v => snd (value v)) (n_buf x)).
Proof.
  cbv zeta. split; [good_grid|]. split; [reflexivity|]. split; [cbn; lia|]. do 2 (split; [vm_compute; reflexivity|]).
  split; [exists 0; split; [cbn; lia|reflexivity]|]. split; [|vm_compute; reflexivity].
  match goal with |- Forall _ ?l => let l' := eval vm_compute in l in change l with l' end.
  constructor; [exists 2; vm_compute; reflexivity|]. constructor; [exists (-4); vm_compute; reflexivity|]. constructor; [exists 5; vm_compute; reflexivity|]. constructor.
Qed.
(* false of the code: cumsum of bools does not count, int8 totals stick at the limit where int16
   and the others wrap, and nancumsum loses the units of int64 totals beyond 2^53 and the whole
   of a complex array *)
Theorem C166_refuted :
  let c a b := SCpx (f64_int a) (f64_int b) in
  let bools := grid Bool [SInt 1; SInt 1; SInt 1] [3]%nat in
  let bytes := grid Int8 [SInt 100; SInt 100; SInt (-100)] [3]%nat in
  let longs := grid Int64 [SInt (2 ^ 53); SInt 1] [2]%nat in
  let cpx := grid Complex128 [c 1 2; c 3 4] [2]%nat in
  good bools /\ good bytes /\ good longs /\ good cpx /\
  cumulative_total CumSum bools None = Ok bools /\
  cumulative_total CumSum bytes None = Ok (grid Int8 [SInt 100; SInt 127; SInt 100] [3]%nat) /\
  nan_cumulative CumSum longs None = Ok (grid Int64 [SInt (2 ^ 53); SInt (2 ^ 53)] [2]%nat) /\
  nan_cumulative CumSum cpx None = Ok (grid Complex128 [c 0 0; c 0 0] [2]%nat).
Proof.
  cbv zeta. do 4 (split; [good_grid|]). do 3 (split; [vm_compute; reflexivity|]). vm_compute. reflexivity.
Qed.

Print Assumptions C166_nan_partial.
Print Assumptions C166_small_partial.
Print Assumptions C166_float_partial.
Print Assumptions C166_int.
Print Assumptions C166_complex_partial.
Print Assumptions C166_refuted.
