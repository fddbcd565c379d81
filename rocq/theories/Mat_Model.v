(* Matrix products: src/ops/{matmul,inner,outer,dot}.rs and matrix_power, multi_dot,
   kron, cross, vdot, tensordot of src/ops/linalg.rs.  Element arithmetic is given by
   arguments: iadd/imul for the integer types, fadd/fmul for the four types that the
   code hands to the external library faer (assumed to compute the same textbook sum;
   the "accelerate" build, which calls BLAS, is not modelled). *)
From Verif Require Import Base Arr_Spec Arr_Model Idx_Model Int_Model Date_Spec Promo_Spec Promo_Model Red_Model Gu_Model.
Local Open Scope nat_scope.

Definition nth_res {A} (l : list A) (n : nat) : res A := match nth_error l n with Some x => Ok x | None => Panic end.

Section Mat.
Context {V : Type}.
Variables (zero : V) (truthy : V -> bool) (of_bool : bool -> V).
Variables (iadd imul : ity -> V -> V -> V) (fadd fmul : V -> V -> V).

(* matmul.rs:196-207, 214-219: ptr.add(i*row + j*col) on a *T pointer, where the two
   strides are byte strides divided by the item size and cast to usize *)
Definition elem_addr (es off s0 s1 : Z) (i j : nat) : Z :=
  wrap_usize (off + es * wrap_usize (Z.of_nat i * wrap_usize (Z.quot s0 es) + Z.of_nat j * wrap_usize (Z.quot s1 es))).

Definition peek (es : Z) (x : list V * arr) (i j : nat) : res V :=
  bind (nth_res (a_strides (snd x)) 0) (fun s0 => bind (nth_res (a_strides (snd x)) 1) (fun s1 =>
  of_load (load (fst x) es (elem_addr es (a_off (snd x)) s0 s1 i j)))).
Definition poke (es : Z) (buf : list V) (c : arr) (i j : nat) (v : V) : res (list V) :=
  bind (nth_res (a_strides c) 0) (fun s0 => bind (nth_res (a_strides c) 1) (fun s1 =>
  store buf es (elem_addr es (a_off c) s0 s1 i j) v)).

(* matmul.rs:187-225 matmul_generic; also stands for matmul_faer_* (227-330) *)
Definition matmul_generic (add mul : V -> V -> V) (es : Z) (x y : list V * arr) (c : arr)
           (m n p : nat) (buf : list V) : res (list V) :=
  foldM (fun buf i => foldM (fun buf j =>
    bind (foldM (fun sum k => bind (peek es x i k) (fun a => bind (peek es y k j) (fun b => Ok (add sum (mul a b)))))
                (seq 0 n) zero)
         (poke es buf c i j)) (seq 0 p) buf) (seq 0 m) buf.

(* matmul.rs:157-170: "any", leaving the loop at the first hit *)
Fixpoint any_loop (x y : list V * arr) (i j : nat) (ks : list nat) : res bool :=
  match ks with
  | [] => Ok false
  | k :: ks' => bind (peek 1 x i k) (fun a => bind (peek 1 y k j) (fun b =>
                if truthy a && truthy b then Ok true else any_loop x y i j ks'))
  end.
(* matmul.rs:144-184 matmul_bool: byte strides *)
Definition matmul_bool (x y : list V * arr) (c : arr) (m n p : nat) (buf : list V) : res (list V) :=
  foldM (fun buf i => foldM (fun buf j =>
    bind (any_loop x y i j (seq 0 n)) (fun r => poke 1 buf c i j (of_bool r))) (seq 0 p) buf) (seq 0 m) buf.

Definition i64 : ity := mkIty 64 true.
Definition i32 : ity := mkIty 32 true.

(* matmul.rs:34-141 MatmulKernel::call (without the accelerate block): the output's
   dtype selects the routine; an operand of another dtype is then read as if it had
   the output's dtype (Fault).  Other dtypes leave the zeros of the fresh output. *)
Definition matmul_kernel (ka kb kout : kind) (ins : list (list V * arr)) (c : arr) (buf : list V) : res (list V) :=
  match ins with
  | [x; y] =>
      bind (nth_res (a_shape (snd x)) 0) (fun m => bind (nth_res (a_shape (snd x)) 1) (fun n =>
      bind (nth_res (a_shape (snd y)) 1) (fun p =>
      let same := kind_eqb ka kout && kind_eqb kb kout in
      match kout with
      | Float64 | Float32 | Complex64 | Complex128 =>
          if same then matmul_generic fadd fmul (itemsize kout) x y c m n p buf else Fault
      | Int64 => if same then matmul_generic (iadd i64) (imul i64) 8 x y c m n p buf else Fault
      | Int32 => if same then matmul_generic (iadd i32) (imul i32) 4 x y c m n p buf else Fault
      | Bool => if same then matmul_bool x y c m n p buf else Fault
      | _ => Ok buf
      end)))
  | _ => Panic
  end.

(* an array with its dtype *)
Definition operand : Type := kind * (list V * arr).
Definition o_kind (o : operand) : kind := fst o.
Definition o_arr (o : operand) : arr := snd (snd o).

(* matmul.rs:377-412 expand_for_matmul *)
Definition with_arr (o : operand) (a : arr) : operand := (fst o, (fst (snd o), a)).
Definition expand_for_matmul (x y : operand) : res (operand * operand * bool) :=
  match ndim (o_arr x), ndim (o_arr y) with
  | 1, 1 => bind (expand_dims (o_arr x) 0) (fun a => bind (expand_dims (o_arr y) 1) (fun b =>
            Ok (with_arr x a, with_arr y b, true)))
  | 1, _ => bind (expand_dims (o_arr x) 0) (fun a => Ok (with_arr x a, y, true))
  | _, 1 => bind (expand_dims (o_arr y) 1) (fun b => Ok (x, with_arr y b, true))
  | _, _ => Ok (x, y, false)
  end.

(* matmul.rs:354-369 matmul *)
Definition matmul (x y : operand) : res operand :=
  bind (expand_for_matmul x y) (fun '(xe, ye, sq) =>
  let kout := promote (o_kind xe) (o_kind ye) in
  bind (gufunc_call matmul_sig (matmul_kernel (o_kind xe) (o_kind ye) kout) [snd xe; snd ye] zero (itemsize kout))
       (fun '(buf, c) => Ok (kout, (buf, if sq then squeeze c else c)))).

(* ---------------- linalg.rs ---------------- *)
(* linalg.rs:1137-1153 multi_dot *)
Definition multi_dot (xs : list operand) : res operand :=
  match xs with
  | [] => Err
  | x :: xs' => foldM matmul xs' x
  end.

(* constructors.rs:157-173 eye, float64 *)
Variable one : V.
Definition eye (n : nat) : res operand :=
  bind (write_all (map (fun i => (i * n + i, one)) (seq 0 n)) (repeat zero (n * n))) (fun buf =>
  Ok (Float64, (buf, fresh [n; n] 8))).

(* linalg.rs:1114-1133: binary exponentiation; [inv] is the external inverse *)
Variable inv : operand -> res operand.
Fixpoint power_loop (fuel : nat) (remaining : N) (result current : operand) : res operand :=
  match fuel with
  | O => Ok result
  | S fuel' =>
      if (remaining =? 0)%N then Ok result
      else
        bind (if (remaining mod 2 =? 1)%N then matmul result current else Ok result) (fun result' =>
        let rem' := (remaining / 2)%N in
        bind (if (0 <? rem')%N then matmul current current else Ok current) (fun current' =>
        power_loop fuel' rem' result' current'))
  end.
(* linalg.rs:1088-1134 matrix_power; a u64 exponent is used up after 64 halvings *)
Definition matrix_power (x : operand) (n : Z) : res operand :=
  match a_shape (o_arr x) with
  | [s; s'] =>
      if negb (Nat.eqb s' s) then Err
      else if Nat.eqb s 0 then Ok (Float64, ([], fresh [0; 0] 8))
      else if (n =? 0)%Z then eye s
      else bind (if (n <? 0)%Z then inv x else Ok x) (fun base =>
           bind (eye s) (fun e => power_loop 64 (Z.abs_N n) e base))
  | _ => Err
  end.
End Mat.

(* the integer instance *)
Definition z_truthy (z : Z) : bool := negb (z =? 0)%Z.
Definition z_add (t : ity) (x y : Z) : Z := wrap t (x + y).
Definition z_mul (t : ity) (x y : Z) : Z := wrap t (x * y).
Definition int_matmul (fadd fmul : Z -> Z -> Z) : operand -> operand -> res operand :=
  matmul 0%Z z_truthy Z.b2z z_add z_mul fadd fmul.
