(* C79: matrix_power and multi_dot. *)
From Verif Require Import Base Lists Arr_Spec Arr_Model Arr_Wf Wf_Check Arr_Proofs Int_Model Conv_Spec Promo_Spec Promo_Model
  Gu_Model Mat_Spec Mat_Model Mat_Proofs Mat_Batch Mat_Laws.
Local Open Scope nat_scope.

(* float64 matrices over any commutative ring: matrix_power(x, n) is the n-fold product,
   for every exponent the int64 argument can hold and every layout of x *)
Theorem C79_power_partial : forall R (zero one : R) add mul sub opp, ring_theory zero one add mul sub opp eq ->
  forall truthy of_bool iadd imul inv x s f n, matrix_of x Float64 s s f -> (Z.of_nat (s * s) * 8 < 2 ^ 63)%Z -> (0 <= n < 2 ^ 63)%Z ->
  exists out, matrix_power zero truthy of_bool iadd imul add mul one inv x n = Ok out /\
    matrix_of out Float64 s s (power zero one add mul s f (Z.to_nat n)).
Proof. intros R zero one add mul sub opp RT. intros. apply (power_spec zero one add mul sub opp RT truthy of_bool iadd imul inv); assumption. Qed.

(* a negative exponent: the power of whatever inv returns *)
Theorem C79_negative_partial : forall R (zero one : R) add mul sub opp, ring_theory zero one add mul sub opp eq ->
  forall truthy of_bool iadd imul inv x y s f g n, matrix_of x Float64 s s f -> 0 < s -> inv x = Ok y -> matrix_of y Float64 s s g ->
  (Z.of_nat (s * s) * 8 < 2 ^ 63)%Z -> (- 2 ^ 63 <= n < 0)%Z ->
  exists out, matrix_power zero truthy of_bool iadd imul add mul one inv x n = Ok out /\
    matrix_of out Float64 s s (power zero one add mul s g (Z.to_nat (- n))).
Proof. intros R zero one add mul sub opp RT. intros. eapply (power_inv_spec zero one add mul sub opp RT truthy of_bool iadd imul inv); eassumption. Qed.

(* powers of one matrix add up *)
Theorem C79_power_adds : forall R (zero one : R) add mul sub opp, ring_theory zero one add mul sub opp eq ->
  forall truthy of_bool iadd imul inv x s f a b, matrix_of x Float64 s s f -> (Z.of_nat (s * s) * 8 < 2 ^ 63)%Z ->
  (0 <= a)%Z -> (0 <= b)%Z -> (a + b < 2 ^ 63)%Z ->
  let pw := matrix_power zero truthy of_bool iadd imul add mul one inv x in
  exists xa xb prod sum e, pw a = Ok xa /\ pw b = Ok xb /\ matmul zero truthy of_bool iadd imul add mul xa xb = Ok prod /\ pw (a + b)%Z = Ok sum /\
    matrix_of prod Float64 s s e /\ matrix_of sum Float64 s s e.
Proof.
  intros R zero one add mul sub opp RT truthy of_bool iadd imul inv x s f a b HX HB Ha Hb Hab pw.
  destruct (power_spec zero one add mul sub opp RT truthy of_bool iadd imul inv x s f a HX HB ltac:(lia)) as (xa & E1 & M1).
  destruct (power_spec zero one add mul sub opp RT truthy of_bool iadd imul inv x s f b HX HB ltac:(lia)) as (xb & E2 & M2).
  destruct (power_spec zero one add mul sub opp RT truthy of_bool iadd imul inv x s f (a + b) HX HB ltac:(lia)) as (sm & E3 & M3).
  destruct (ring_product zero one add mul sub opp RT truthy of_bool iadd imul Float64 xa xb s s s _ _ (or_introl eq_refl) M1 M2 HB) as (pr & E4 & M4).
  exists xa, xb, pr, sm. eexists. do 4 (split; [eassumption|]). split; [exact M4|].
  eapply matrix_of_ext; [|exact M3]. intros i j Hi Hj. cbv beta. rewrite Z2Nat.inj_add by assumption.
  apply (power_add zero one add mul sub opp RT); assumption.
Qed.

(* multi_dot of a chain of matrices of fitting widths is the product of all of them.
   [chain k m w os xs]: the arrays os are matrices w*w1, w1*w2, ... with entries xs *)
Theorem C79_multi_dot : forall R (zero one : R) add mul sub opp, ring_theory zero one add mul sub opp eq ->
  forall truthy of_bool iadd imul k m w o os x xs, lib_kind k -> matrix_of o k m w x -> chain k m w os xs ->
  exists out, multi_dot zero truthy of_bool iadd imul add mul (o :: os) = Ok out /\
    matrix_of out k m (fst (chain_product zero add mul w x xs)) (snd (chain_product zero add mul w x xs)).
Proof. intros R zero one add mul sub opp RT. intros. eapply (multi_dot_spec zero one add mul sub opp RT); eassumption. Qed.

(* not square, not two-dimensional, or nothing to multiply *)
Theorem C79_rejects : forall V (zero one : V) truthy of_bool iadd imul add mul inv x n,
  (forall s, a_shape (o_arr x) <> [s; s]) ->
  matrix_power zero truthy of_bool iadd imul add mul one inv x n = Err /\ multi_dot zero truthy of_bool iadd imul add mul [] = Err.
Proof.
  intros V zero one truthy of_bool iadd imul add mul inv x n H. split; [|reflexivity]. unfold matrix_power.
  destruct (a_shape (o_arr x)) as [|s [|s' [|]]]; try reflexivity. destruct (Nat.eqb_spec s' s) as [->|]; [|reflexivity].
  exfalso. apply (H s). reflexivity.
Qed.

(* an int64 matrix: the float64 identity is multiplied with it, and the integer bytes are
   read as float64 *)
Theorem C79_power_refuted_int : exists x, matrix_of x Int64 2 2 (fun i j => Z.of_nat (2 * i + j)) /\
  matrix_power 0%Z z_truthy Z.b2z z_add z_mul Z.add Z.mul 1%Z (fun _ => Err) x 2 = Fault.
Proof.
  exists (Int64, ([0; 1; 2; 3]%Z, fresh [2; 2] 8)). split; [|vm_compute; reflexivity].
  split; [reflexivity|]; split; [apply wf_check_sound; reflexivity|]; split; [reflexivity|]; split; [reflexivity|];
    intros idx Hi; apply in_all_idx in Hi; cbn in Hi; repeat (destruct Hi as [<-|Hi]; [reflexivity|]); destruct Hi.
Qed.

(* Fibonacci numbers: [[1,1],[1,0]]^10 *)
Definition fib : operand := (Float64, ([1; 1; 1; 0]%Z, mkArr 0 [2; 2] [8; 16]%Z 8 false true)).
Example C79_power_nonvacuous : matrix_of fib Float64 2 2 (fun i j => if (i =? 1) && (j =? 1) then 0%Z else 1%Z) /\
  exists out, matrix_power 0%Z z_truthy Z.b2z z_add z_mul Z.add Z.mul 1%Z (fun _ => Err) fib 10 = Ok out /\ fst (snd out) = [89; 55; 55; 34]%Z.
Proof.
  split.
  - split; [reflexivity|]; split; [apply wf_check_sound; reflexivity|]; split; [reflexivity|]; split; [reflexivity|];
    intros idx Hi; apply in_all_idx in Hi; cbn in Hi; repeat (destruct Hi as [<-|Hi]; [reflexivity|]); destruct Hi.
  - eexists. split; [vm_compute; reflexivity|reflexivity].
Qed.
Example C79_negative_nonvacuous : exists out,
  matrix_power 0%Z z_truthy Z.b2z z_add z_mul Z.add Z.mul 1%Z (fun _ => Ok (Float64, ([0; 1; 1; -1]%Z, fresh [2; 2] 8))) fib (-3) = Ok out /\ fst (snd out) = [-1; 2; 2; -3]%Z.
Proof. eexists. split; [vm_compute; reflexivity|reflexivity]. Qed.
Example C79_multi_dot_nonvacuous : chain Float64 1 2 [fib; (Float64, ([5; 7]%Z, fresh [2; 1] 8))]
    [(2, fun i j => if (i =? 1) && (j =? 1) then 0%Z else 1%Z); (1, fun i _ => Z.of_nat (5 + 2 * i))] /\
  exists out, multi_dot 0%Z z_truthy Z.b2z z_add z_mul Z.add Z.mul [(Float64, ([1; 2]%Z, fresh [1; 2] 8)); fib; (Float64, ([5; 7]%Z, fresh [2; 1] 8))] = Ok out /\ fst (snd out) = [22]%Z.
Proof.
  split; [|eexists; split; [vm_compute; reflexivity|reflexivity]].
  constructor; [|cbn; lia|constructor; [|cbn; lia|constructor]].
  all: split; [reflexivity|]; split; [apply wf_check_sound; reflexivity|]; split; [reflexivity|]; split; [reflexivity|];
    intros idx Hi; apply in_all_idx in Hi; cbn in Hi; repeat (destruct Hi as [<-|Hi]; [reflexivity|]); destruct Hi.
Qed.

Print Assumptions C79_power_partial.
Print Assumptions C79_negative_partial.
Print Assumptions C79_power_adds.
Print Assumptions C79_multi_dot.
Print Assumptions C79_rejects.
Print Assumptions C79_power_refuted_int.
