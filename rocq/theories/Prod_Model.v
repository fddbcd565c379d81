(* src/ops/{dot,inner,outer}.rs and vdot, kron, cross, tensordot of src/ops/linalg.rs.
   V: stored items; R: doubles.  rd k is read_f64(..).unwrap_or(0.0) of dtype k, wr k is
   write_f64, raw k is what the eight bytes of a double mean as an item of dtype k. *)
From Verif Require Import Base Arr_Spec Arr_Model Idx_Model Copy_Model Elem_Model Int_Model F64_Model Promo_Spec Promo_Model Red_Model Gu_Model Mat_Model.
Local Open Scope nat_scope.

Section Prod.
Context {V R : Type}.
Variables (vzero : V) (rzero : R) (radd rmul rsub : R -> R -> R).
Variables (rd : kind -> V -> R) (wr raw : kind -> R -> V).

(* array/mod.rs:144-152 get_element *)
Definition elem (k : kind) (x : list V * arr) (idx : list nat) : res R :=
  bind (get_element (fst x) (snd x) idx) (fun v => Ok (rd k v)).
(* array/constructors.rs:176-192 full; zeros filled by a kernel *)
Definition array (k : kind) (sh : list nat) (buf : list V) : @operand V := (k, (buf, fresh sh (itemsize k))).

(* dot.rs:21-24, inner.rs:33-36, linalg.rs:1305-1308 *)
Definition dot_loop (ka kb : kind) (x y : list V * arr) (n : nat) : res R :=
  foldM (fun s i => bind (elem ka x [i]) (fun a => bind (elem kb y [i]) (fun b => Ok (radd s (rmul a b))))) (seq 0 n) rzero.

(* ops/mod.rs:97-101: scalar_op makes an array of shape (1,) of the same dtype and applies
   the binary operation; vmul is the multiplication of that dtype *)
Variable vmul : kind -> V -> V -> V.
Definition scalar_mul (o : @operand V) (s : R) : res operand :=
  bind (elementwise2 (fun x y => Ok (vmul (o_kind o) x y)) PKernel (fst (snd o)) (o_arr o)
          [wr (o_kind o) s] (fresh [1] (itemsize (o_kind o))))
       (fun '(sh, buf) => Ok (array (o_kind o) sh buf)).

Variable mm : @operand V -> @operand V -> res (@operand V).
(* dot.rs:14-43 *)
Definition dot2 (x y : @operand V) : res operand :=
  match a_shape (o_arr x), a_shape (o_arr y) with
  | [n], [m] =>
      if negb (n =? m) then Err
      else bind (dot_loop (o_kind x) (o_kind y) (snd x) (snd y) n) (fun s =>
           Ok (array (o_kind x) [] [wr (o_kind x) s]))
  | [], _ => bind (elem (o_kind x) (snd x) []) (scalar_mul y)
  | _, [] => bind (elem (o_kind y) (snd y) []) (scalar_mul x)
  | _, _ => mm x y
  end.

(* a double stored through a *mut f64 into an array of dtype k; an item narrower than
   eight bytes is overrun, the last one beyond the allocation.  A complex128 item is
   eight bytes longer, and its imaginary part stays zero. *)
Definition put (k : kind) (buf : list V) (addr : Z) (s : R) : res (list V) :=
  if (itemsize k <? 8)%Z then Fault
  else store buf (itemsize k) addr (match k with Float64 | Complex128 => wr k s | _ => raw k s end).

(* inner.rs:25-43 InnerKernel::call *)
Definition inner_kernel (ka kb kout : kind) (ins : list (list V * arr)) (c : arr) (buf : list V) : res (list V) :=
  match ins with
  | [x; y] =>
      bind (nth_res (a_shape (snd x)) 0) (fun n =>
      bind (dot_loop ka kb x y n) (fun s => put kout buf (a_off c) s))
  | _ => Panic
  end.
(* inner.rs:66-70 *)
Definition inner (x y : @operand V) : res operand :=
  let kout := promote (o_kind x) (o_kind y) in
  bind (gufunc_call inner_sig (inner_kernel (o_kind x) (o_kind y) kout) [snd x; snd y] vzero (itemsize kout))
       (fun '(buf, c) => Ok (kout, (buf, c))).

(* outer.rs:25-50 OuterKernel::call *)
Definition outer_kernel (ka kb kout : kind) (ins : list (list V * arr)) (c : arr) (buf : list V) : res (list V) :=
  match ins with
  | [x; y] =>
      bind (nth_res (a_shape (snd x)) 0) (fun m => bind (nth_res (a_shape (snd y)) 0) (fun n =>
      bind (nth_res (a_strides c) 0) (fun s0 => bind (nth_res (a_strides c) 1) (fun s1 =>
      foldM (fun buf i => bind (elem ka x [i]) (fun ai =>
        foldM (fun buf j => bind (elem kb y [j]) (fun bj =>
          put kout buf (a_off c + (Z.of_nat i * s0 + Z.of_nat j * s1)) (rmul ai bj))) (seq 0 n) buf))
        (seq 0 m) buf))))
  | _ => Panic
  end.
(* outer.rs:68-76: both operands are flattened with reshape, which refuses an array
   that is neither C- nor F-contiguous *)
Definition outer (x y : @operand V) : res operand :=
  bind (reshape (o_arr x) [size (o_arr x)]) (fun a => bind (reshape (o_arr y) [size (o_arr y)]) (fun b =>
  let kout := promote (o_kind x) (o_kind y) in
  bind (gufunc_call outer_sig (outer_kernel (o_kind x) (o_kind y) kout) [(fst (snd x), a); (fst (snd y), b)] vzero (itemsize kout))
       (fun '(buf, c) => Ok (kout, (buf, c))))).

(* linalg.rs:851-903 vdot.  The contiguous float64 path calls faer on a 1*n and an n*1
   matrix, assumed to compute the textbook sum from the left. *)
Definition zip_sum (ka kb : kind) (x y : list V * arr) (offs : list (Z * Z)) : res R :=
  foldM (fun s '(oa, ob) =>
    bind (read (fst x) (snd x) oa) (fun a => bind (read (fst y) (snd y) ob) (fun b =>
    Ok (radd s (rmul (rd ka a) (rd kb b)))))) offs rzero.
Definition vdot (x y : @operand V) : res R :=
  let a := o_arr x in let b := o_arr y in
  if negb (size a =? size b) then Err
  else if size a =? 0 then Ok rzero
  else if a_c a && a_c b && kind_eqb (o_kind x) Float64 && kind_eqb (o_kind y) Float64 then
    zip_sum Float64 Float64 (snd x) (snd y)
      (map (fun i => (Z.of_nat i * 8, Z.of_nat i * 8)%Z) (seq 0 (size a)))
  else zip_sum (o_kind x) (o_kind y) (snd x) (snd y) (combine (iter_offsets a) (iter_offsets b)).

(* linalg.rs:906-1029 kron.  rda, rdb: how the two paths read the operands (through ptr.add or
   get_element); a double is stored with *ptr = .. at item i of a float64 array. *)
Definition contig64 (o : @operand V) : bool := a_c (o_arr o) && kind_eqb (o_kind o) Float64.
Definition put64 (buf : list V) (i : nat) (s : R) : res (list V) :=
  if i <? length buf then Ok (upd buf i (wr Float64 s)) else Fault.
Definition kron_2d (rda rdb : nat -> nat -> res R) (m n p q : nat) : res operand :=
  bind (foldM (fun buf i => foldM (fun buf j => bind (rda i j) (fun av =>
          foldM (fun buf k => foldM (fun buf l => bind (rdb k l) (fun bv =>
            put64 buf ((i * p + k) * (n * q) + (j * q + l)) (rmul av bv)))
          (seq 0 q) buf) (seq 0 p) buf)) (seq 0 n) buf) (seq 0 m) (repeat (wr Float64 rzero) (m * p * (n * q))))
       (fun buf => Ok (array Float64 [m * p; n * q] buf)).
Definition kron_1d (rda rdb : nat -> res R) (m p : nat) : res operand :=
  bind (foldM (fun buf i => bind (rda i) (fun av =>
          foldM (fun buf k => bind (rdb k) (fun bv => put64 buf (i * p + k) (rmul av bv))) (seq 0 p) buf))
        (seq 0 m) (repeat (wr Float64 rzero) (m * p)))
       (fun buf => Ok (array Float64 [m * p] buf)).
(* the item at position i of contiguous float64 data *)
Definition item64 (o : @operand V) (i : nat) : res R :=
  bind (read (fst (snd o)) (o_arr o) (Z.of_nat i * 8)) (fun v => Ok (rd Float64 v)).
Definition pad_ones (r : nat) (sh : list nat) : list nat := repeat 1 (r - length sh) ++ sh.
Definition kron (x y : @operand V) : res operand :=
  let a := o_arr x in let b := o_arr y in
  if (ndim a <? 1) || (ndim b <? 1) then Err
  else
    let r := Nat.max (ndim a) (ndim b) in
    match pad_ones r (a_shape a), pad_ones r (a_shape b) with
    | [m; n], [p; q] =>
        if contig64 x && contig64 y then kron_2d (fun i j => item64 x (i * n + j)) (fun k l => item64 y (k * q + l)) m n p q
        else kron_2d (fun i j => elem (o_kind x) (snd x) [i; j]) (fun k l => elem (o_kind y) (snd y) [k; l]) m n p q
    | [m], [p] =>
        if contig64 x && contig64 y then kron_1d (item64 x) (item64 y) m p
        else kron_1d (fun i => elem (o_kind x) (snd x) [i]) (fun k => elem (o_kind y) (snd y) [k]) m p
    | _, _ => Err
    end.

(* linalg.rs:1032-1056 cross *)
Definition cross (x y : @operand V) : res operand :=
  match a_shape (o_arr x), a_shape (o_arr y) with
  | [3], [3] =>
      let ea := fun i => elem (o_kind x) (snd x) [i] in
      let eb := fun i => elem (o_kind y) (snd y) [i] in
      bind (ea 0) (fun a0 => bind (ea 1) (fun a1 => bind (ea 2) (fun a2 =>
      bind (eb 0) (fun b0 => bind (eb 1) (fun b1 => bind (eb 2) (fun b2 =>
      Ok (array Float64 [3]
        [wr Float64 (rsub (rmul a1 b2) (rmul a2 b1));
         wr Float64 (rsub (rmul a2 b0) (rmul a0 b2));
         wr Float64 (rsub (rmul a0 b1) (rmul a1 b0))])))))))
  | _, _ => Err
  end.

(* linalg.rs:1241-1352 tensordot *)
Definition without {A} (axes : list nat) (l : list A) : list A :=
  map snd (filter (fun p => negb (existsb (Nat.eqb (fst p)) axes)) (combine (seq 0 (length l)) l)).
Definition axes_eqb (l m : list nat) : bool := if list_eq_dec Nat.eq_dec l m then true else false.
Definition dims_match (sa sb : list nat) (axa axb : list nat) : bool :=
  forallb (fun p => match nth_error sa (fst p), nth_error sb (snd p) with
                    | Some u, Some v => u =? v | _, _ => false end) (combine axa axb).
(* a double at item i of the float64 result *)
Definition tensordot (x y : @operand V) (axa axb : list nat) : res operand :=
  let a := o_arr x in let b := o_arr y in
  let ea := elem (o_kind x) (snd x) in let eb := elem (o_kind y) (snd y) in
  if negb (length axa =? length axb) then Err
  else if existsb (fun ax => ndim a <=? ax) axa then Err
  else if existsb (fun ax => ndim b <=? ax) axb then Err
  else if negb (dims_match (a_shape a) (a_shape b) axa axb) then Err
  else if (ndim a =? 2) && (ndim b =? 2) && axes_eqb axa [1] && axes_eqb axb [0] then mm x y
  else
    let rest := without axa (a_shape a) ++ without axb (a_shape b) in
    let sh := match rest with [] => [1] | _ => rest end in
    let zeros := repeat (wr Float64 rzero) (prod sh) in
    match a_shape a, a_shape b with
    | [n], [_] =>
        bind (dot_loop (o_kind x) (o_kind y) (snd x) (snd y) n) (fun s =>
        bind (put64 zeros 0 s) (fun buf => Ok (array Float64 sh buf)))
    | [m; n], [_] =>
        if axes_eqb axa [1] && axes_eqb axb [0] then
          bind (foldM (fun buf i =>
            bind (foldM (fun s j => bind (ea [i; j]) (fun u => bind (eb [j]) (fun v => Ok (radd s (rmul u v))))) (seq 0 n) rzero)
                 (put64 buf i)) (seq 0 m) zeros) (fun buf => Ok (array Float64 sh buf))
        else Err
    | [n], [_; p] =>
        if axes_eqb axa [0] && axes_eqb axb [0] then
          bind (foldM (fun buf j =>
            bind (foldM (fun s i => bind (ea [i]) (fun u => bind (eb [i; j]) (fun v => Ok (radd s (rmul u v))))) (seq 0 n) rzero)
                 (put64 buf j)) (seq 0 p) zeros) (fun buf => Ok (array Float64 sh buf))
        else Err
    | _, _ => Err
    end.
(* python/linalg.rs:88-117: axes given as a number, 2 when absent *)
Definition tensordot_n (x y : @operand V) (n : nat) : res operand :=
  let r := ndim (o_arr x) in tensordot x y (seq (r - n) (r - (r - n))) (seq 0 n).
End Prod.

(* ---- an instance on whole numbers: items and doubles are integers, each double
   operation rounds to 53 bits (F64_Model), int64 items are cast with saturation ---- *)
Definition zf_add (x y : Z) : Z := f64_of_int (x + y).
Definition zf_mul (x y : Z) : Z := f64_of_int (x * y).
Definition zf_sub (x y : Z) : Z := f64_of_int (x - y).
Definition z_rd (k : kind) (z : Z) : Z := match k with Int64 => f64_of_int z | _ => z end.
Definition z_wr (k : kind) (z : Z) : Z := match k with Int64 => sat i64 z | _ => z end.
(* IEEE 754 bit pattern of a double holding the whole number z, read as an i64 *)
Definition double_bits (z : Z) : Z :=
  if (z =? 0)%Z then 0%Z
  else let a := Z.abs z in let e := Z.log2 a in
       let m := if (e <=? 52)%Z then (a * 2 ^ (52 - e))%Z else (a / 2 ^ (e - 52))%Z in
       ((if (z <? 0)%Z then - 2 ^ 63 else 0) + (e + 1023) * 2 ^ 52 + (m - 2 ^ 52))%Z.
Definition z_raw (k : kind) (z : Z) : Z := double_bits z.
Definition z_vmul (k : kind) (x y : Z) : Z := match k with Int64 => wrap i64 (x * y) | _ => zf_mul x y end.
Definition z_mm : @operand Z -> @operand Z -> res (@operand Z) := int_matmul zf_add zf_mul.
Definition z_dot := dot2 0%Z zf_add zf_mul z_rd z_wr z_vmul z_mm.
Definition z_inner := inner 0%Z 0%Z zf_add zf_mul z_rd z_wr z_raw.
Definition z_outer := outer 0%Z zf_mul z_rd z_wr z_raw.
Definition z_vdot := vdot 0%Z zf_add zf_mul z_rd.
Definition z_kron := kron 0%Z zf_mul z_rd z_wr.
Definition z_cross := cross zf_mul zf_sub z_rd z_wr.
Definition z_tensordot := tensordot_n 0%Z zf_add zf_mul z_rd z_wr z_mm.
