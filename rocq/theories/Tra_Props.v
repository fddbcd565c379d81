(* C168, C169: functions of every element, and functions that leave the real numbers. *)
From Coq Require Import SpecFloat.
From Verif Require Import Base Lists Int_Model Int_Proofs F64_Model Arr_Spec Arr_Model Arr_Wf Arr_Proofs Wf_Check Copy_Model Copy_Proofs Elem_Model Elem_Proofs Rng_Model New_Model Promo_Spec Promo_Model Promo_Proofs Promo_Props SF_Proofs SF_Arith Cast_Spec Cast_Model Cast_SF Cast_Proofs Cast_Laws Cast_Props Close_Proofs Bitw_Spec Bitw_Model Bitw_Proofs Rnd_Spec Rnd_Model Rnd_Proofs Rnd_Round Rnd_Props Ari_Spec SF_Round Ari_Model Ari_Proofs Cpx_Spec Cpx_Model Cpx_Proofs Tra_Spec Tra_Model Tra_Proofs.
Local Open Scope Z_scope.

(* ---- C168 ------------------------------------------------------------------- *)
(* In all of these, ff and fc are any functions on the float and complex formats. *)

(* float and complex arrays: same dtype and shape, the function at every element, whatever the
   layout *)
Theorem C168_float : forall ff fc listed x, kernels ff fc -> good x -> is_float_kind (n_kind x) = true ->
  exists z, fun_map ff fc listed x = Ok z /\ good z /\ n_kind z = n_kind x /\ shape_of z = shape_of x /\
    forall idx, inb idx (shape_of x) ->
      match item_at x idx with
      | Some (SFlt a) => item_at z idx = Some (SFlt (ff (n_kind x) a))
      | Some (SCpx a b) => let c := fc (n_kind x) (a, b) in item_at z idx = Some (SCpx (fst c) (snd c))
      | _ => False
      end.
Proof.
  intros ff fc listed x HK G F. rewrite fun_map_float by exact F. destruct (fun_plain_spec ff fc HK x G) as (z & E & GZ & KZ & SZ & HZ). exists z. do 4 (split; [assumption|]).
  intros idx I. destruct (HZ idx I) as (v & -> & EV & ->). destruct v; [destruct (n_kind x); try discriminate F; contradiction|reflexivity|reflexivity].
Qed.
(* exp, log, log10, log2, sqrt, sin, cos, tan, sinh, cosh, tanh, arcsin, arccos, arctan of
   integers and bools: the function in the float dtype numpy uses, of exactly the element
   whenever a double can hold it *)
Theorem C168_int : forall ff fc x, kernels ff fc -> good x -> real (n_kind x) = true -> is_float_kind (n_kind x) = false ->
  exists z, fun_map ff fc true x = Ok z /\ good z /\ n_kind z = function_float (n_kind x) /\ shape_of z = shape_of x /\
    forall idx, inb idx (shape_of x) -> exists v y, item_at x idx = Some v /\ valid_in (function_float (n_kind x)) y /\
      (fits v -> float_value y = real_value v) /\ item_at z idx = Some (SFlt (ff (function_float (n_kind x)) y)).
Proof. exact fun_map_int. Qed.
(* false of the code for exp2, expm1, log1p, cbrt, arcsinh, arccosh, arctanh: an integer array
   stays an integer array, so the results lose their fractions, and bools are copied *)
Theorem C168_integer_refuted : forall ff fc x, kernels ff fc -> good x -> is_integer (n_kind x) = true ->
  exists z, fun_map ff fc false x = Ok z /\ good z /\ n_kind z = n_kind x /\ n_kind z <> function_float (n_kind x).
Proof.
  intros ff fc x HK G K. assert (is_float_kind (n_kind x) = false) as F by (destruct (n_kind x); try discriminate K; reflexivity).
  destruct (fun_map_unlisted ff fc x HK G F) as (z & E & GZ & KZ & _). exists z. do 3 (split; [assumption|]). rewrite KZ. destruct (n_kind x); discriminate.
Qed.
Theorem C168_bool_refuted : forall ff fc x, kernels ff fc -> good x -> n_kind x = Bool ->
  exists z, fun_map ff fc false x = Ok z /\ n_kind z = Bool /\ forall idx, inb idx (shape_of x) -> item_at z idx = item_at x idx.
Proof.
  intros ff fc x HK G K. destruct (fun_map_unlisted ff fc x HK G ltac:(rewrite K; reflexivity)) as (z & E & GZ & KZ & _ & HZ). exists z. split; [exact E|]. split; [congruence|].
  intros idx I. destruct (HZ idx I) as (v & -> & EV & ->). rewrite K in *. destruct v; try contradiction. reflexivity.
Qed.
(* squares, and complex squares as a stand-in for any kernel *)
Definition squares (k : kind) (x : spec_float) : spec_float := float_elem k AMul x x.
Definition mirror (k : kind) (c : cpx) : cpx := (SFopp (snd c), fst c).
Lemma squares_kernels : kernels squares mirror.
Proof.
  split.
  - intros k x R F V. apply float_elem_valid; [destruct k; try discriminate R; try discriminate F; auto|reflexivity|exact V|exact V].
  - intros k a b _ VA VB. cbn [mirror fst snd]. split; [unfold valid_in; rewrite opp_valid; exact VB|exact VA].
Qed.
Definition grid (k : kind) (l : list scalar) (sh : list nat) : narr := mkN k l (fresh sh (itemsize k)).
Ltac good_grid := split; [reflexivity|split; [apply wf_check_sound; vm_compute; reflexivity|split; [cbn [n_buf n_kind grid]; repeat (apply Forall_cons; [cbn [element]; first [split; [apply int_int; lia|reflexivity]|split; vm_compute; reflexivity|vm_compute; reflexivity]|]); apply Forall_nil|reflexivity]]].
Example C168_nonvacuous :
  let x := grid Int16 [SInt 3; SInt (-7)] [2]%nat in
  let y := grid Float64 [fl 3 2; fl (-1) 2] [1; 2]%nat in
  kernels squares mirror /\ good x /\ good y /\ is_float_kind (n_kind y) = true /\
  fun_map squares mirror true x = Ok (grid Float32 [SFlt (S754_finite false 9437184 (-20)); SFlt (S754_finite false 12845056 (-18))] [2]%nat) /\
  fun_map squares mirror false x = Ok (grid Int16 [SInt 9; SInt 49] [2]%nat) /\
  fun_map squares mirror false y = Ok (grid Float64 [fl 9 4; fl 1 4] [1; 2]%nat).
Proof. cbv zeta. split; [exact squares_kernels|]. do 2 (split; [good_grid|]). split; [reflexivity|]. do 2 (split; [vm_compute; reflexivity|]). vm_compute. reflexivity. Qed.

(* ---- C169 ------------------------------------------------------------------- *)
(* emath.sqrt, log, log2, log10 (d: numbers >= 0), arccos, arcsin ([-1, 1]), arctanh ((-1, 1)).
   A real array with every element in the domain: the ordinary function *)
Theorem C169_within : forall ff fc listed d x, good x -> real (n_kind x) = true ->
  ~ (exists idx v, inb idx (shape_of x) /\ item_at x idx = Some v /\ outside d (real_value v)) ->
  fun_extended ff fc listed d x = fun_map ff fc listed x.
Proof. exact fun_extended_within. Qed.
(* some element outside: the complex function at every element, in complex64 for float32 and in
   complex128 otherwise, of exactly that element whenever a double can hold it *)
Theorem C169_outside : forall ff fc listed d x, kernels ff fc -> good x -> real (n_kind x) = true ->
  (exists idx v, inb idx (shape_of x) /\ item_at x idx = Some v /\ outside d (real_value v)) ->
  exists z, fun_extended ff fc listed d x = Ok z /\ good z /\ n_kind z = function_complex (n_kind x) /\ shape_of z = shape_of x /\
    forall idx, inb idx (shape_of x) -> exists v y, item_at x idx = Some v /\ valid_in (function_complex (n_kind x)) y /\
      (fits v -> float_value y = real_value v) /\
      let c := fc (function_complex (n_kind x)) (y, S754_zero false) in item_at z idx = Some (SCpx (fst c) (snd c)).
Proof. exact fun_extended_outside. Qed.
(* a complex array: the complex function at every element, same dtype *)
Theorem C169_complex : forall ff fc listed d x, kernels ff fc -> good x -> is_complex_kind (n_kind x) = true ->
  exists z, fun_extended ff fc listed d x = Ok z /\ good z /\ n_kind z = n_kind x /\ shape_of z = shape_of x /\
    forall idx, inb idx (shape_of x) -> exists a b, item_at x idx = Some (SCpx a b) /\
      let c := fc (n_kind x) (a, b) in item_at z idx = Some (SCpx (fst c) (snd c)).
Proof.
  intros ff fc listed d x HK G C. destruct (fun_extended_complex ff fc listed d x HK G C) as (z & E & GZ & KZ & SZ & HZ). exists z. do 4 (split; [assumption|]).
  intros idx I. destruct (HZ idx I) as (v & EV & ELV & ER). destruct (element_cpx _ v C ELV) as (a & b & -> & _). exists a, b. split; [exact EV|exact ER].
Qed.
(* false of the code: emath.arctanh of an integer array in the domain is an integer array *)
Theorem C169_integer_refuted : forall ff fc, kernels ff fc ->
  let x := grid Int64 [SInt 0; SInt 0] [2]%nat in
  good x /\ exists z, fun_extended ff fc false DOpenUnit x = Ok z /\ n_kind z = Int64.
Proof.
  intros ff fc HK x. assert (G : good x) by good_grid. split; [exact G|]. rewrite C169_within; [|exact G|reflexivity|].
  - destruct (C168_integer_refuted ff fc x HK G eq_refl) as (z & E & _ & KZ & _). exists z. split; [exact E|exact KZ].
  - intros (idx & v & I & EV & HO). assert (v = SInt 0) as ->.
    { unfold item_at in EV. cbn [x grid n_buf n_arr] in EV. rewrite fresh_get in EV by (cbn; lia). apply nth_error_In in EV. destruct EV as [<-|[<-|[]]]; reflexivity. }
    vm_compute in HO. destruct HO as [H|[H|[H|H]]]; discriminate H.
Qed.
Example C169_nonvacuous :
  let x := grid Float32 [SFlt (S754_finite false 8388608 (-23)); SFlt (S754_finite true 12582912 (-22))] [2]%nat in
  let y := grid Int16 [SInt 4; SInt 0] [2]%nat in
  good x /\ good y /\ outside DNonneg (real_value (SFlt (S754_finite true 12582912 (-22)))) /\
  item_at x [1%nat] = Some (SFlt (S754_finite true 12582912 (-22))) /\
  fun_extended squares mirror true DNonneg x =
    Ok (grid Complex64 [SCpx (S754_zero true) (S754_finite false 8388608 (-23)); SCpx (S754_zero true) (S754_finite true 12582912 (-22))] [2]%nat) /\
  fun_extended squares mirror true DNonneg y = fun_map squares mirror true y /\
  fun_map squares mirror true y = Ok (grid Float32 [SFlt (S754_finite false 8388608 (-19)); SFlt (S754_zero false)] [2]%nat).
Proof. cbv zeta. do 2 (split; [good_grid|]). do 4 (split; [vm_compute; reflexivity|]). vm_compute. reflexivity. Qed.

Print Assumptions C168_float.
Print Assumptions C168_int.
Print Assumptions C168_integer_refuted.
Print Assumptions C168_bool_refuted.
Print Assumptions C169_within.
Print Assumptions C169_outside.
Print Assumptions C169_complex.
Print Assumptions C169_integer_refuted.
