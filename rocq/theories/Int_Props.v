(* Claims C20 (wrapping arithmetic), C21 (floor division and remainder) and
   C66 (integer power). *)
From Verif Require Import Base Lists Arr_Spec Arr_Model Arr_Wf Bcast_Model Elem_Model Elem_Proofs Elem_Props
  Int_Model Int_Proofs.
Local Open Scope Z_scope.

(* the integer dtypes of the library *)
Definition int8 := mkIty 8 true.    Definition int16 := mkIty 16 true.
Definition int32 := mkIty 32 true.  Definition int64 := mkIty 64 true.
Definition uint8 := mkIty 8 false.  Definition uint16 := mkIty 16 false.
Definition uint32 := mkIty 32 false. Definition uint64 := mkIty 64 false.

(* exact operation each operator stands for *)
Definition exact (op : iop) : option (Z -> Z -> Z) :=
  match op with IAdd => Some Z.add | ISub => Some Z.sub | IMul => Some Z.mul | _ => None end.

(* ---- C20 ------------------------------------------------------------------ *)

(* both implementations of + - * return the unique representable value congruent
   to the exact result modulo 2^w; they never raise *)
Theorem C20_wrapping_exact : forall t op g a b,
  0 < bits t -> exact op = Some g ->
  exists w, int_op t op a b = Ok w /\ int_trait t op a b = Ok w /\
    representable t w /\ (w - g a b) mod 2 ^ bits t = 0 /\
    forall w', representable t w' -> (w' - g a b) mod 2 ^ bits t = 0 -> w' = w.
Proof.
  intros t op g a b HT E. exists (wrap t (g a b)).
  destruct op; try discriminate; injection E as <-; cbn [int_op int_kernel int_trait];
    (split; [reflexivity|]; split; [reflexivity|]; split; [apply wrap_rep; exact HT|];
     split; [apply wrap_cong; exact HT|]; intros w' HR HM; apply wrap_unique; assumption).
Qed.

(* no wrap-around when the exact result fits *)
Theorem C20_exact_when_fits : forall t op g a b,
  0 < bits t -> exact op = Some g -> representable t (g a b) -> int_op t op a b = Ok (g a b).
Proof.
  intros t op g a b HT E HR.
  destruct op; try discriminate; injection E as <-; cbn [int_op int_kernel]; rewrite wrap_id by assumption; reflexivity.
Qed.

(* ring laws on representable values *)
Theorem C20_ring : forall t, 0 < bits t ->
  let add a b := wrap t (a + b) in let sub a b := wrap t (a - b) in let mul a b := wrap t (a * b) in
  (forall a b, int_op t IAdd a b = Ok (add a b)) /\ (forall a b, int_op t ISub a b = Ok (sub a b)) /\
  (forall a b, int_op t IMul a b = Ok (mul a b)) /\
  forall a b c, representable t a -> representable t b -> representable t c ->
    add a (add b c) = add (add a b) c /\ add a b = add b a /\ add a 0 = a /\
    mul a (mul b c) = mul (mul a b) c /\ mul a b = mul b a /\ mul a (wrap t 1) = a /\
    mul a (add b c) = add (mul a b) (mul a c) /\
    sub a b = add a (sub 0 b) /\ sub (add a b) b = a.
Proof.
  intros t HT add sub mul. repeat (split; [reflexivity|]). intros a b c Ra Rb Rc. unfold add, sub, mul.
  rewrite !wrap_add_r, !wrap_add_l, !wrap_mul_r, !wrap_mul_l, ?wrap_sub_l by exact HT.
  rewrite ?wrap_add_r, ?wrap_sub_l, ?wrap_mul_r by exact HT.
  repeat split; try (f_equal; lia).
  - rewrite Z.add_0_r. apply wrap_id; assumption.
  - rewrite Z.mul_1_r. apply wrap_id; assumption.
  - replace (a + b - b) with a by lia. apply wrap_id; assumption.
Qed.

(* on arrays, with broadcasting, on every layout and every implementation path *)
Theorem C20_arrays : forall t op g path bufA a bufB b item,
  0 < bits t -> exact op = Some g -> wf bufA a -> wf bufB b -> 0 < item ->
  match broadcast_shapes (a_shape a) (a_shape b) with
  | None => elementwise2 (int_op t op) path bufA a bufB b = Err
  | Some sh =>
      exists vals, elementwise2 (int_op t op) path bufA a bufB b = Ok (sh, vals) /\
        forall idx, inb idx sh ->
          exists x y w, get bufA a (unbroadcast (a_shape a) idx) = Some x /\
                        get bufB b (unbroadcast (a_shape b) idx) = Some y /\
                        get vals (fresh sh item) idx = Some w /\
                        representable t w /\ (w - g x y) mod 2 ^ bits t = 0
  end.
Proof.
  intros t op g path bufA a bufB b item HT E WA WB HI.
  assert (EF : elementwise2 (int_op t op) path bufA a bufB b =
               elementwise2 (fun x y => Ok (wrap t (g x y))) path bufA a bufB b).
  { destruct op; try discriminate; injection E as <-; reflexivity. }
  rewrite EF. pose proof (C16_binary_broadcast Z Z Z (fun x y => wrap t (g x y)) path bufA a bufB b item WA WB HI) as H.
  destruct (broadcast_shapes (a_shape a) (a_shape b)) as [sh|]; [|exact H].
  destruct H as (vals & Ev & Hv). exists vals. split; [exact Ev|]. intros idx Hi.
  destruct (Hv idx Hi) as (x & y & Hx & Hy & Hw). exists x, y, (wrap t (g x y)).
  repeat split; auto; try apply wrap_rep; try apply wrap_cong; exact HT.
Qed.

Example C20_nonvacuous :
  int_op int8 IAdd 100 100 = Ok (-56) /\ int_op uint8 ISub 3 5 = Ok 254 /\
  int_op int64 IMul (2 ^ 62) 3 = Ok (-4611686018427387904) /\
  int_op int32 IAdd (2 ^ 31 - 1) 1 = Ok (- 2 ^ 31).
Proof. repeat split; vm_compute; reflexivity. Qed.

(* ---- C21 ------------------------------------------------------------------ *)

(* full statement: for b <> 0, a // b = floor(a / b), a % b = a - b * floor(a / b)
   (Z.div and Z.modulo).  It holds for unsigned dtypes and whenever the operands
   have the same sign *)
Theorem C21_floor_partial : forall t a b,
  b <> 0 -> representable t a -> representable t b ->
  (0 <= a /\ 0 < b) \/ (a <= 0 /\ b < 0 /\ ~ (signed t = true /\ a = i_min t /\ b = -1)) ->
  int_op t IFloorDiv a b = Ok (a / b) /\ int_op t IMod a b = Ok (a mod b).
Proof.
  intros t a b Hb Ra Rb HS. cbn [int_op int_kernel]. destruct (Z.eqb_spec b 0); [contradiction|].
  assert (HP : signed t && (a =? i_min t) && (b =? -1) = false).
  { destruct HS as [[H1 H2]|(H1 & H2 & H3)].
    - destruct (Z.eqb_spec b (-1)); [lia|]. apply andb_false_r.
    - destruct (signed t) eqn:ES; [|reflexivity].
      destruct (Z.eqb_spec a (i_min t)); [|reflexivity]. destruct (Z.eqb_spec b (-1)); [|reflexivity].
      exfalso; apply H3; auto. }
  unfold rust_div, rust_rem. rewrite HP.
  destruct HS as [[H1 H2]|(H1 & H2 & _)].
  - rewrite Z.quot_div_nonneg, Z.rem_mod_nonneg by lia. auto.
  - rewrite <- (Z.opp_involutive a), <- (Z.opp_involutive b).
    rewrite Z.quot_opp_opp, Z.rem_opp_opp by lia. rewrite Z.div_opp_opp by lia.
    rewrite Z.mod_opp_opp by lia. rewrite Z.quot_div_nonneg, Z.rem_mod_nonneg by lia. auto.
Qed.

(* unsigned dtypes: no exception *)
Theorem C21_floor_unsigned : forall t a b,
  signed t = false -> b <> 0 -> representable t a -> representable t b ->
  int_op t IFloorDiv a b = Ok (a / b) /\ int_op t IMod a b = Ok (a mod b).
Proof.
  intros t a b HU Hb Ra Rb. apply C21_floor_partial; try assumption.
  unfold representable, i_min in Ra, Rb. rewrite HU in Ra, Rb. left; lia.
Qed.

(* the pair always satisfies a = (a//b)*b + a%b when neither raises *)
Theorem C21_identity : forall t a b q r,
  b <> 0 -> int_op t IFloorDiv a b = Ok q -> int_op t IMod a b = Ok r ->
  a = q * b + r /\ Z.abs r < Z.abs b.
Proof.
  intros t a b q r Hb. cbn [int_op int_kernel]. destruct (Z.eqb_spec b 0); [contradiction|].
  unfold rust_div, rust_rem. destruct (_ && _); [discriminate|]. intros E1 E2. injection E1 as <-. injection E2 as <-.
  split; [pose proof (Z.quot_rem' a b); lia|apply Z.rem_bound_abs; exact Hb].
Qed.

(* division by zero yields 0 for both, as in NumPy, in the kernels and in the trait *)
Theorem C21_by_zero : forall t a,
  int_op t IFloorDiv a 0 = Ok 0 /\ int_op t IMod a 0 = Ok 0 /\
  int_trait t IFloorDiv a 0 = Ok 0 /\ int_trait t IMod a 0 = Ok 0.
Proof. intros t a. repeat split; reflexivity. Qed.

(* they round towards zero, not down *)
Theorem C21_floor_refuted :
  int_op int64 IFloorDiv (-7) 2 = Ok (-3) /\ (-7) / 2 = -4 /\
  int_op int64 IMod (-7) 2 = Ok (-1) /\ (-7) mod 2 = 1 /\
  int_op int64 IMod 7 (-2) = Ok 1 /\ 7 mod (-2) = -1.
Proof. repeat split; vm_compute; reflexivity. Qed.
(* MIN // -1 and MIN % -1 panic for every signed dtype *)
Theorem C21_panic_refuted : forall t, signed t = true ->
  int_op t IFloorDiv (i_min t) (-1) = Panic /\ int_op t IMod (i_min t) (-1) = Panic.
Proof.
  intros t H. cbn [int_op int_kernel Z.eqb]. unfold rust_div, rust_rem. rewrite H, Z.eqb_refl. auto.
Qed.
(* the trait implementation (used for large temporaries) is not even consistent:
   Euclidean quotient with truncated remainder *)
Theorem C21_trait_identity_refuted : exists a b q r,
  int_trait int64 IFloorDiv a b = Ok q /\ int_trait int64 IMod a b = Ok r /\ b <> 0 /\ a <> q * b + r.
Proof. exists (-7), 2, (-4), (-1). repeat split; vm_compute; try reflexivity; discriminate. Qed.
(* and it is not floor division for a negative divisor *)
Theorem C21_trait_floor_refuted :
  int_trait int64 IFloorDiv 7 (-2) = Ok (-3) /\ 7 / (-2) = -4.
Proof. split; vm_compute; reflexivity. Qed.

Example C21_nonvacuous :
  int_op int64 IFloorDiv (-7) (-2) = Ok 3 /\ int_op int64 IMod (-7) (-2) = Ok (-1) /\
  int_op uint8 IFloorDiv 255 2 = Ok 127 /\ int_op int8 IMod 127 10 = Ok 7.
Proof. repeat split; vm_compute; reflexivity. Qed.

(* ---- C66 ------------------------------------------------------------------ *)

(* a ** b = a^b modulo 2^w for exponents below 2^32 *)
Theorem C66_power_partial : forall t a b,
  0 < bits t -> representable t a -> 0 <= b < 2 ^ 32 ->
  exists w, int_op t IPow a b = Ok w /\ representable t w /\ (w - a ^ b) mod 2 ^ bits t = 0.
Proof.
  intros t a b HT Ra Hb. exists (wrap t (a ^ b)). cbn [int_op int_kernel int_trait].
  destruct (Z.ltb_spec b 0); [lia|]. rewrite andb_false_r.
  rewrite Z.mod_small by lia. rewrite wrapping_pow_spec by (assumption || lia).
  split; [reflexivity|]. split; [apply wrap_rep|apply wrap_cong]; exact HT.
Qed.
(* narrow dtypes cannot hold a larger exponent: nothing is missing for them *)
Theorem C66_power_narrow : forall t a b,
  0 < bits t <= 32 -> representable t a -> representable t b -> 0 <= b ->
  exists w, int_op t IPow a b = Ok w /\ representable t w /\ (w - a ^ b) mod 2 ^ bits t = 0.
Proof.
  intros t a b HT Ra Rb Hb. apply C66_power_partial; [lia|exact Ra|].
  split; [exact Hb|]. unfold representable in Rb. rewrite range_size in Rb by (unfold ity_ok; lia).
  assert (2 ^ bits t <= 2 ^ 32) by (apply Z.pow_le_mono_r; lia).
  unfold i_min in Rb. destruct (signed t); [|lia].
  assert (0 <= 2 ^ (bits t - 1)) by (apply Z.pow_nonneg; lia). lia.
Qed.
(* 64-bit exponents are cut to their low 32 bits: 0 ** 2^32 = 1 *)
Theorem C66_power_wide_refuted :
  int_op int64 IPow 0 (2 ^ 32) = Ok 1 /\ 0 ^ (2 ^ 32) = 0 /\
  int_op uint64 IPow 3 (2 ^ 32 + 1) = Ok 3.
Proof. split; [vm_compute; reflexivity|]. split; [apply Z.pow_0_l; lia|vm_compute; reflexivity]. Qed.
Example C66_nonvacuous :
  int_op int64 IPow 3 41 = Ok (-420491770248316829) /\ int_op int8 IPow 2 7 = Ok (-128) /\
  int_op int64 IPow (-2) 63 = Ok (- 2 ^ 63) /\ int_op int32 IPow 5 0 = Ok 1.
Proof. repeat split; vm_compute; reflexivity. Qed.

Print Assumptions C20_wrapping_exact.
Print Assumptions C20_exact_when_fits.
Print Assumptions C20_ring.
Print Assumptions C20_arrays.
Print Assumptions C21_floor_partial.
Print Assumptions C21_floor_unsigned.
Print Assumptions C21_by_zero.
Print Assumptions C21_identity.
Print Assumptions C21_floor_refuted.
Print Assumptions C21_panic_refuted.
Print Assumptions C21_trait_identity_refuted.
Print Assumptions C21_trait_floor_refuted.
Print Assumptions C66_power_partial.
Print Assumptions C66_power_narrow.
Print Assumptions C66_power_wide_refuted.
