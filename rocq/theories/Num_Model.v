(* interp, gradient and trapezoid: src/ops/numerical.rs.  Element values are turned into
   doubles by rd (the "as f64" of the typed loops, or read_f64); double arithmetic is an
   argument. *)
From Verif Require Import Base Arr_Spec Arr_Model Copy_Model Idx_Model Elem_Model Red_Model Gu_Model.
Local Open Scope nat_scope.

(* ---------------- interp ---------------- *)
Section Interp.
Context {R : Type}.
Variables (add sub mul div : R -> R -> R) (le : R -> R -> bool).

(* numerical.rs:385-389: the bisection loop *)
Fixpoint bisect (xp : list R) (xi : R) (fuel lo hi : nat) : res (nat * nat) :=
  match fuel with
  | O => Ok (lo, hi)
  | S fuel' =>
      if 1 <? hi - lo then
        let mid := (lo + hi) / 2 in
        bind (at_ xp mid) (fun v => if le v xi then bisect xp xi fuel' mid hi else bisect xp xi fuel' lo mid)
      else Ok (lo, hi)
  end.

(* numerical.rs:380-393 interp_single *)
Definition interp_single (xi : R) (xp fp : list R) (left right : R) : res R :=
  let n := length xp in
  bind (at_ xp 0) (fun x0 => if le xi x0 then Ok left else
  bind (at_ xp (n - 1)) (fun xn => if le xn xi then Ok right else
  bind (bisect xp xi n 0 (n - 1)) (fun '(lo, hi) =>
  bind (at_ xp lo) (fun xl => bind (at_ xp hi) (fun xh =>
  bind (at_ fp lo) (fun fl => bind (at_ fp hi) (fun fh =>
  let t := div (sub xi xl) (sub xh xl) in
  Ok (add fl (mul t (sub fh fl)))))))))).

Context {V X F : Type}.
Variables (rd : V -> R) (rdx : X -> R) (rdf : F -> R) (zero : R).

(* numerical.rs:325-377 interp: shape and row-major contents of the result *)
Definition interp (x : list V * arr) (xp : list X * arr) (fp : list F * arr) (left right : option R) : res (list nat * list R) :=
  if negb (ndim (snd xp) =? 1) || negb (ndim (snd fp) =? 1) || negb (size (snd xp) =? size (snd fp)) then Err
  else
    let n := size (snd xp) in
    let sh := a_shape (snd x) in
    if n =? 0 then Ok (sh, repeat zero (prod sh))
    else
      bind (mapM (read (fst xp) (snd xp)) (iter_offsets (snd xp))) (fun xv =>
      bind (mapM (read (fst fp) (snd fp)) (iter_offsets (snd fp))) (fun fv =>
      let xs := map rdx xv in
      let fs := map rdf fv in
      bind (at_ fs 0) (fun f0 => bind (at_ fs (n - 1)) (fun fl =>
      let l := match left with Some l => l | None => f0 end in
      let r := match right with Some r => r | None => fl end in
      if size (snd x) =? 0 then Ok (sh, repeat zero (prod sh))
      else bind (mapM (fun o => bind (read (fst x) (snd x) o) (fun v => interp_single (rd v) xs fs l r)) (iter_offsets (snd x)))
                (fun out => Ok (sh, out)))))).
End Interp.

(* ---------------- trapezoid ---------------- *)
Section Trap.
Context {R V X : Type}.
Variables (zero half : R) (add sub mul : R -> R -> R) (rd : V -> R) (rdx : X -> R).

(* numerical.rs:59-79 trapezoid_loop_*, 305-311: one lane of n >= 1 values *)
Fixpoint trap_loop (sum : R) (ys : list R) (widths : list R) : R :=
  match ys, widths with
  | y0 :: ((y1 :: _) as ys'), w :: ws => trap_loop (add sum (mul (mul (add y0 y1) w) half)) ys' ws
  | _, _ => sum
  end.
(* x[j+1] - x[j], or the constant dx *)
Fixpoint diffs (xs : list R) : list R :=
  match xs with x0 :: ((x1 :: _) as xs') => sub x1 x0 :: diffs xs' | _ => [] end.
Definition trap_lane (dx : R) (xs : option (list R)) (ys : list R) : R :=
  trap_loop zero ys (match xs with Some x => diffs x | None => repeat dx (length ys - 1) end).

(* numerical.rs:237-318 trapezoid *)
Definition trapezoid (y : list V * arr) (x : option (list X * arr)) (dx : R) (axis : Z) : res (list nat * list R) :=
  let a := snd y in
  if ndim a =? 0 then Ok ([1], [zero])
  else
    let ax := if (axis <? 0)%Z then (Z.of_nat (ndim a) + axis)%Z else axis in
    if ((ax <? 0) || (Z.of_nat (ndim a) <=? ax))%Z then Err
    else
      let axis := Z.to_nat ax in
      bind (at_ (a_shape a) axis) (fun n =>
      let out_shape := match remove_at axis (a_shape a) with [] => [1] | r => r end in
      if n <=? 1 then Ok (out_shape, repeat zero (prod out_shape))
      else
        bind (match x with
              | Some xa => if negb (ndim (snd xa) =? 1) || negb (size (snd xa) =? n) then Ok None
                           else bind (mapM (read (fst xa) (snd xa)) (iter_offsets (snd xa))) (fun v => Ok (Some (map rdx v)))
              | None => Ok None
              end) (fun xs =>
        bind (at_ (a_strides a) axis) (fun st =>
        bind (mapM (fun base => bind (read_run (fst y) a base st n) (fun d => Ok (trap_lane dx xs (map rd d))))
                   (axis_offsets a axis))
             (fun out => Ok (out_shape, out))))).
End Trap.

(* ---------------- gradient ---------------- *)
Section Grad.
Context {R V X : Type}.
Variables (zero one two : R) (add sub mul div : R -> R -> R) (rd : V -> R) (rdx : X -> R).

(* numerical.rs:18-56 gradient_loop_*, gradient_coords_loop_*, 201-219: one lane of
   n >= 2 values; denominators h, 2h, ..., 2h, h or the differences of the coordinates *)
Definition grad_at (ys : list R) (den : nat -> nat -> R) (i : nat) : res R :=
  let n := length ys in
  let lo := if i =? 0 then 0 else i - 1 in
  let hi := if i =? n - 1 then n - 1 else i + 1 in
  bind (at_ ys hi) (fun yh => bind (at_ ys lo) (fun yl => Ok (div (sub yh yl) (den lo hi)))).
Definition grad_lane (ys : list R) (den : nat -> nat -> R) : res (list R) :=
  mapM (grad_at ys den) (seq 0 (length ys)).
(* spacing h: lanes 134-142 *)
Definition den_uniform (h : R) (lo hi : nat) : R := if hi - lo =? 1 then h else mul two h.
(* coordinates: 44-54 (two neighbours at the ends, x[i+1] - x[i-1] inside) *)
Definition den_coords (xs : list R) (lo hi : nat) : R := sub (nth hi xs zero) (nth lo xs zero).

(* writing one lane into the result at byte offset base + i*stride *)
Definition write_lane (buf : list R) (base stride : Z) (vs : list R) : res (list R) :=
  foldM (fun b (p : nat * R) => store b 8 (base + Z.of_nat (fst p) * stride) (snd p)) (combine (seq 0 (length vs)) vs) buf.

(* numerical.rs:152-188 gradient_axis and the body of gradient_with_coords, typed loops:
   every lane is written at the byte offset of the *source* lane.  Not modelled: the
   fallback 190-225 for bool, int8, float16 and complex, which divides the byte offset by 8 *)
Definition gradient_lanes (f : list V * arr) (den : nat -> nat -> R) (axis : nat) : res (list nat * list R) :=
  let a := snd f in
  bind (at_ (a_shape a) axis) (fun n =>
  let zeros := repeat zero (prod (a_shape a)) in
  if n <=? 1 then Ok (a_shape a, zeros)
  else
    bind (at_ (a_strides a) axis) (fun st =>
    bind (at_ (c_strides (a_shape a) 8) axis) (fun ost =>
    bind (foldM (fun buf base => bind (read_run (fst f) a base st n) (fun d =>
                 bind (grad_lane (map rd d) den) (write_lane buf base ost)))
                (axis_offsets a axis) zeros)
         (fun out => Ok (a_shape a, out))))).

(* numerical.rs:100-113 gradient *)
Definition gradient (f : list V * arr) (spacing : option R) (axis : option nat) : res (list (list nat * list R)) :=
  let a := snd f in
  if (size a =? 0) || existsb (fun d => d <? 2) (a_shape a) then Err
  else
    let h := match spacing with Some h => h | None => one end in
    match axis with
    | Some ax => if ax <? ndim a then bind (gradient_lanes f (den_uniform h) ax) (fun g => Ok [g]) else Err
    | None => mapM (gradient_lanes f (den_uniform h)) (seq 0 (ndim a))
    end.
(* numerical.rs:116-150 gradient_with_coords *)
Definition gradient_with_coords (f : list V * arr) (x : list X * arr) (axis : nat) : res (list nat * list R) :=
  match nth_error (a_shape (snd f)) axis with
  | None => Err
  | Some n =>
      if negb (ndim (snd x) =? 1) || negb (size (snd x) =? n) then Err
      else bind (mapM (read (fst x) (snd x)) (iter_offsets (snd x))) (fun v =>
           gradient_lanes f (den_coords (map rdx v)) axis)
  end.
End Grad.
