(* copy / astype: src/array/mod.rs:349-481. *)
From Verif Require Import Base Arr_Spec Arr_Model.
Local Open Scope Z_scope.

Section Copy.
Context {V : Type}.

(* one item read through data_ptr() + byte offset *)
Definition read (buf : list V) (a : arr) (o : Z) : res V :=
  of_load (load buf (a_item a) (a_off a + o)).

(* mod.rs:472-476 fallback of copy_broadcast_typed: offset / elem_size items
   from the data pointer (isize division truncates) *)
Definition copy_fallback (buf : list V) (a : arr) : res (list V) :=
  mapM (fun o => read buf a (Z.quot o (a_item a) * a_item a)) (iter_offsets a).

(* mod.rs:430-481 copy_broadcast_typed.  The destination is written from left
   to right without gaps, so it is modelled as the list of written values; the
   memcpy of row 0 into rows 1..n0-1 (mod.rs:452-456) is the repetition of it. *)
Definition copy_broadcast_typed (buf : list V) (a : arr) : res (list V) :=
  if Nat.eqb (size a) 0 then Ok [] else
  match a_shape a, a_strides a with
  | [n0; n1], [s0; s1] =>
      if (s0 =? 0) && negb (s1 =? 0) then
        bind (mapM (fun j => read buf a (Z.quot s1 (a_item a) * Z.of_nat j * a_item a)) (seq 0 n1))
             (fun row => Ok (concat (repeat row n0)))
      else if negb (s0 =? 0) && (s1 =? 0) then
        bind (mapM (fun i => read buf a (Z.quot s0 (a_item a) * Z.of_nat i * a_item a)) (seq 0 n0))
             (fun col => Ok (flat_map (fun v => repeat v n1) col))
      else copy_fallback buf a
  | _, _ => copy_fallback buf a
  end.

(* mod.rs:349-388 copy = astype to the same dtype.  [typed]: the dtype is
   float64 or int64.  The result is the contents of the new buffer, whose array
   is [fresh (a_shape a) (a_item a)]. *)
Definition copy_buf (buf : list V) (a : arr) (typed : bool) : res (list V) :=
  if Nat.eqb (size a) 0 then Ok []
  else if a_c a then
    mapM (fun k => read buf a (Z.of_nat k * a_item a)) (seq 0 (size a))
  else if typed then copy_broadcast_typed buf a
  else mapM (read buf a) (iter_offsets a).

(* mod.rs:389-425 astype to another dtype: element by element through [conv]
   (read_f64/write_f64 or convert_datetime64) in iteration order *)
Definition astype_conv {W} (conv : V -> W) (buf : list V) (a : arr) : res (list W) :=
  bind (mapM (read buf a) (iter_offsets a)) (fun vs => Ok (map conv vs)).

(* ops/mod.rs:183-197 swapaxes including the equal-axes case, which returns a
   copy: the pair (buffer, view) the caller gets *)
Definition swapaxes_nd (buf : list V) (a : arr) (typed : bool) (i j : nat) : res (list V * arr) :=
  if Nat.ltb i (ndim a) && Nat.ltb j (ndim a) then
    if Nat.eqb i j then bind (copy_buf buf a typed) (fun b => Ok (b, fresh (a_shape a) (a_item a)))
    else bind (swapaxes_view a i j) (fun a' => Ok (buf, a'))
  else Panic.
End Copy.
