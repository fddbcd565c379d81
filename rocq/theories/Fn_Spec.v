(* What apply_along_axis, vectorize and frompyfunc mean, independently of the code. *)
From Verif Require Import Base Arr_Spec Arr_Model Arr_Wf Red_Spec Fn_Model.
Local Open Scope nat_scope.

(* a function g, made to record the arguments of its calls, oldest first *)
Definition logged {X R} (g : X -> R) : list X -> X -> list X * option R :=
  fun log x => (log ++ [x], Some (g x)).

(* the elements of a along an axis, as a list of values *)
Definition lane_values {V} (buf : list V) (a : arr) (axis : nat) (outer : list nat) : list V :=
  flat_map (fun o => match o with Some v => [v] | None => [] end) (lane buf a axis outer).

(* folding a reduction that keeps its axis with length 1 over several axes *)
Definition over_keepdims {A} (red : list nat * A -> nat -> A) (axes : list nat) (x : list nat * A) : list nat * A :=
  fold_left (fun c axis => (upd (fst c) axis 1, red c axis)) axes x.

(* the value handed to the function in the call at idx for argument g: the element an
   array shows at idx once broadcast, any other object as it is *)
Definition arg_at {F P} (idx : list nat) (g : @varg F P) (v : @pyval F P) : Prop :=
  match g with
  | inl (buf, a) => exists x, v = VNum x /\ get buf a (unbroadcast (a_shape a) idx) = Some x
  | inr o => v = VObj o
  end.
Definition args_wf {F P} (args : list (@varg F P)) : Prop := forall buf a, In (inl (buf, a)) args -> wf buf a.
