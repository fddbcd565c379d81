(* Vocabulary of the theorems about views: well-formed views, "is a view of",
   and the guards under which histories of view operations are correct. *)
From Verif Require Import Base Arr_Spec Arr_Model.
Local Open Scope nat_scope.

(* every valid index of the view addresses an item of the buffer; the layout
   flags are only set when the layout test succeeds; the buffer is small enough
   (2^63 bytes) for byte offsets to be exact *)
Definition wf {V} (buf : list V) (a : arr) : Prop :=
  (0 < a_item a)%Z /\ (Z.of_nat (length buf) * a_item a < 2 ^ 63)%Z /\
  (0 <= a_off a < two64)%Z /\
  length (a_strides a) = length (a_shape a) /\
  (forall idx, inb idx (a_shape a) -> exists v, get buf a idx = Some v) /\
  (a_c a = true -> is_c_contiguous (a_shape a) (a_strides a) (a_item a) = true) /\
  (a_f a = true -> is_f_contiguous (a_shape a) (a_strides a) (a_item a) = true).

(* a' is a well-formed view with shape sh' whose element idx is a's element f idx *)
Definition is_view {V} (buf : list V) (a a' : arr) (sh' : list nat) (f : list nat -> list nat) : Prop :=
  a_shape a' = sh' /\ wf buf a' /\
  forall idx, inb idx sh' -> inb (f idx) (a_shape a) /\ get buf a' idx = get buf a (f idx).

(* the part of the state space in which slice_axis and reshape behave: no slice
   with a non-zero start along a negative stride, no reshape of a view that is
   not C-contiguous *)
Definition step_ok (op : vop) (a : arr) : bool :=
  match op with
  | VSlice axis start _ _ => (0 <=? nth axis (a_strides a) 0)%Z || (start =? 0)%Z
  | VFlip axis => (0 <=? nth axis (a_strides a) 0)%Z || (nth axis (a_shape a) 0 <=? 1)
  | VReshape _ => a_c a
  | _ => true
  end.
Fixpoint steps_ok (ops : list vop) (a : arr) : bool :=
  match ops with
  | [] => true
  | op :: ops' =>
      step_ok op a && match run_vop op a with Ok a' => steps_ok ops' a' | _ => true end
  end.

(* operations that never create negative strides and need no guard at all *)
Definition forward_op (op : vop) : bool :=
  match op with
  | VSlice _ _ _ step => (0 <? step)%Z
  | VFlip _ => false
  | VReshape _ => false
  | _ => true
  end.
