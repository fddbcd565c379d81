(* src/ops/fft.rs.  rustfft's 1-D plans are outside the project: a plan of length n is
   modelled by the definition of the transform with a root of unity [w n] (forward) or
   [wi n] (inverse), over exact arithmetic; float64 rounding is not modelled. *)
From Verif Require Import Base Lists Arr_Model Copy_Model Red_Model Elem_Model Gu_Model Fft_Spec.
Local Open Scope nat_scope.

(* fft.rs:7-14 compute_strides: strides[i] = strides[i+1] * shape[i+1] *)
Fixpoint compute_strides (sh : list nat) : list nat :=
  match sh with
  | [] => []
  | _ :: t =>
      let st := compute_strides t in
      match t, st with d :: _, s :: _ => s * d | _, _ => 1 end :: st
  end.

(* fft.rs:385-395 index_from_transform_idx, from the last axis to the first: the offset
   so far and what remains of the index *)
Fixpoint transform_index (sh st : list nat) (k : nat) : nat * nat :=
  match sh, st with
  | d :: sh', s :: st' =>
      let '(i, q) := transform_index sh' st' k in
      if 0 <? d then (i + (q mod d) * s, q / d) else (i, q)
  | _, _ => (0, k)
  end.

(* slice indexing of a Vec: out of range panics *)
Definition put_at {A} (l : list A) (k : nat) (v : A) : res (list A) :=
  if k <? length l then Ok (upd l k v) else Panic.
Definition lane_get {A} (buf : list A) (base stride n : nat) : res (list A) :=
  mapM (fun i => at_ buf (base + i * stride)) (seq 0 n).
Definition lane_put {A} (buf : list A) (base stride : nat) (vs : list A) : res (list A) :=
  foldM (fun b '(i, v) => put_at b (base + i * stride) v) (combine (seq 0 (length vs)) vs) buf.

Section Fft.
Context {V C : Type}.
Variables (zero one : C) (add mul : C -> C -> C).
Variables (conj re : C -> C).           (* re x is the real part, as a complex number *)
Variables (w wi : nat -> C).            (* roots of the forward and inverse plans *)
Variable scale : nat -> C.              (* 1.0 / n *)

(* FftPlanner::plan_fft_*(n).process(buffer) *)
Definition plan (r : C) (xs : list C) : list C :=
  map (dft_at zero one add mul r (length xs) (fun j => nth j xs zero)) (seq 0 (length xs)).
Definition forward (n : nat) : list C -> list C := plan (w n).
Definition inverse (n : nat) : list C -> list C := plan (wi n).

(* fft.rs:18-54 to_complex_buffer: contiguous float64/complex128 ([fast]) or element by
   element through read_complex ([rdc]) *)
Definition to_complex_buffer (rdc : V -> C) (fast : bool) (buf : list V) (a : arr) : res (list C) :=
  bind (if a_c a && fast then read_run buf a 0 (a_item a) (size a) else mapM (read buf a) (iter_offsets a))
       (fun d => Ok (map rdc d)).

(* fft.rs:337-382 fft_along_axis *)
Definition fft_along_axis (p : list C -> list C) (buf : list C) (shape : list nat) (axis : nat) : res (list C) :=
  bind (at_ shape axis) (fun n =>
  let strides := compute_strides shape in
  let osh := remove_at axis shape in
  let ost := remove_at axis strides in
  if (prod osh =? 0) || (n =? 0) then Ok buf
  else
    bind (at_ strides axis) (fun st =>
    foldM (fun b t =>
      let base := fst (transform_index osh ost t) in
      bind (lane_get b base st n) (fun work => lane_put b base st (p work)))
      (seq 0 (prod osh)) buf)).

(* fft.rs:439-448 validate_axes *)
Definition validate_axes (axes : option (list nat)) (nd : nat) : res (list nat) :=
  let ax := match axes with Some l => l | None => seq 0 nd end in
  if (length ax =? 0) || existsb (fun a => nd <=? a) ax then Err else Ok ax.

(* fft.rs:290-297, 315-322: one pass per axis; axes of length 0 are skipped *)
Definition fft_axes (p : nat -> list C -> list C) (shape : list nat) (axes : list nat) (buf : list C) : res (list C) :=
  foldM (fun b axis =>
    bind (at_ shape axis) (fun n => if 0 <? n then fft_along_axis (p n) b shape axis else Ok b)) axes buf.

(* fft.rs:280-302 fftn *)
Definition fftn (rdc : V -> C) (fast : bool) (axes : option (list nat)) (buf : list V) (a : arr) : res (list nat * list C) :=
  if ndim a =? 0 then Err
  else
    bind (validate_axes axes (ndim a)) (fun ax =>
    bind (to_complex_buffer rdc fast buf a) (fun b =>
    bind (fft_axes forward (a_shape a) ax b) (fun b' => Ok (a_shape a, b')))).

(* fft.rs:304-334 ifftn *)
Definition ifftn (rdc : V -> C) (fast : bool) (axes : option (list nat)) (buf : list V) (a : arr) : res (list nat * list C) :=
  if ndim a =? 0 then Err
  else
    bind (validate_axes axes (ndim a)) (fun ax =>
    bind (to_complex_buffer rdc fast buf a) (fun b =>
    bind (fft_axes inverse (a_shape a) ax b) (fun b' =>
    bind (mapM (at_ (a_shape a)) ax) (fun ns =>
    let total := prod ns in
    Ok (a_shape a, if 0 <? total then map (fun c => mul c (scale total)) b' else b'))))).

(* fft.rs:73-89 fft, 92-114 ifft *)
Definition fft (rdc : V -> C) (fast : bool) (buf : list V) (a : arr) : res (list nat * list C) :=
  if negb (ndim a =? 1) then Err
  else if size a =? 0 then Ok ([0], [])
  else bind (to_complex_buffer rdc fast buf a) (fun b => Ok ([size a], forward (size a) b)).
Definition ifft (rdc : V -> C) (fast : bool) (buf : list V) (a : arr) : res (list nat * list C) :=
  if negb (ndim a =? 1) then Err
  else if size a =? 0 then Ok ([0], [])
  else bind (to_complex_buffer rdc fast buf a) (fun b =>
       Ok ([size a], map (fun c => mul c (scale (size a))) (inverse (size a) b))).
(* fft.rs:117-130 fft2, ifft2 *)
Definition fft2 (rdc : V -> C) (fast : bool) (buf : list V) (a : arr) : res (list nat * list C) :=
  if ndim a =? 2 then fftn rdc fast (Some [0; 1]) buf a else Err.
Definition ifft2 (rdc : V -> C) (fast : bool) (buf : list V) (a : arr) : res (list nat * list C) :=
  if ndim a =? 2 then ifftn rdc fast (Some [0; 1]) buf a else Err.

(* ---- real transforms ---------------------------------------------------------------- *)

(* fft.rs:133-150 rfft *)
Definition rfft (rdc : V -> C) (fast : bool) (buf : list V) (a : arr) : res (list nat * list C) :=
  if negb (ndim a =? 1) then Err
  else if size a =? 0 then Ok ([0], [])
  else bind (to_complex_buffer rdc fast buf a) (fun b =>
       let m := size a / 2 + 1 in Ok ([m], firstn m (forward (size a) b))).

(* fft.rs:164-173, 580-594: the full spectrum of length n from the stored frequencies:
   buffer[i] = input[i] (out of range panics), buffer[n - k] = conj(input[k]) for k in
   1..n_freq-1.  No frequencies at all: n_freq - 1 overflows. *)
Definition expand (n : nat) (input : list C) : res (list C) :=
  match input with
  | [] => Panic
  | _ =>
      if n <? length input then Panic
      else Ok (fold_left (fun b k => upd b (n - k) (conj (nth k input zero))) (seq 1 (length input - 2))
                 (input ++ repeat zero (n - length input)))
  end.

(* fft.rs:153-191 irfft; the result is real *)
Definition irfft (rdc : V -> C) (fast : bool) (buf : list V) (a : arr) : res (list nat * list C) :=
  if negb (ndim a =? 1) then Err
  else if size a =? 0 then Ok ([0], [])
  else
    let n := 2 * (size a - 1) in
    bind (to_complex_buffer rdc fast buf a) (fun input =>
    bind (expand n input) (fun b =>
    Ok ([n], map (fun c => mul (re c) (scale n)) (inverse n b)))).

(* fft.rs:451-505 rfft_along_axis, 563-605: read lanes of one shape, transform them, and
   write lanes of another length along the axis; at least one round is made.  The
   transformed lane must have axis_out_len entries (work_buffer[i] panics). *)
Definition map_lanes (f : list C -> res (list C)) (buf : list C) (in_sh out_sh : list nat) (axis : nat) : res (list C) :=
  bind (at_ in_sh axis) (fun n_in =>
  bind (at_ out_sh axis) (fun n_out =>
  bind (at_ (compute_strides in_sh) axis) (fun st_in =>
  bind (at_ (compute_strides out_sh) axis) (fun st_out =>
  let osh := remove_at axis in_sh in
  foldM (fun out t =>
    let ib := fst (transform_index osh (remove_at axis (compute_strides in_sh)) t) in
    let ob := fst (transform_index osh (remove_at axis (compute_strides out_sh)) t) in
    bind (lane_get buf ib st_in n_in) (fun work =>
    bind (f work) (fun y =>
    bind (mapM (at_ y) (seq 0 n_out)) (fun z => lane_put out ob st_out z))))
    (seq 0 (Nat.max (prod osh) 1)) (repeat zero (prod out_sh)))))).

(* fft.rs:403-436 rfftn: the last listed axis first, then the others backwards *)
Definition rfftn (rdc : V -> C) (fast : bool) (axes : option (list nat)) (buf : list V) (a : arr) : res (list nat * list C) :=
  if ndim a =? 0 then Err
  else
    bind (validate_axes axes (ndim a)) (fun ax =>
    let last := List.last ax 0 in
    bind (at_ (a_shape a) last) (fun n =>
    bind (to_complex_buffer rdc fast buf a) (fun b =>
    let sh := upd (a_shape a) last (n / 2 + 1) in
    bind (map_lanes (fun work => Ok (forward n work)) b (a_shape a) sh last) (fun b1 =>
    bind (fft_axes forward sh (rev (removelast ax)) b1) (fun b2 => Ok (sh, b2)))))).

(* fft.rs:512-622 irfftn; [s] is the shape hint, used only along the last listed axis *)
Definition irfftn (rdc : V -> C) (fast : bool) (s axes : option (list nat)) (buf : list V) (a : arr) : res (list nat * list C) :=
  if ndim a =? 0 then Err
  else
    bind (validate_axes axes (ndim a)) (fun ax =>
    let last := List.last ax 0 in
    bind (at_ (a_shape a) last) (fun n_freq =>
    let hint := match s with Some l => nth_error l last | None => None end in
    bind (match hint, n_freq with
          | Some n, _ => Ok n
          | None, O => Panic                       (* 2 * (0 - 1) *)
          | None, S m => Ok (2 * m)
          end) (fun n =>
    bind (to_complex_buffer rdc fast buf a) (fun b =>
    bind (fft_axes inverse (a_shape a) (removelast ax) b) (fun b1 =>
    let sh := upd (a_shape a) last n in
    bind (map_lanes (fun work => bind (expand n work) (fun full => Ok (inverse n full))) b1 (a_shape a) sh last) (fun b2 =>
    bind (mapM (at_ sh) ax) (fun ns =>
    Ok (sh, map (fun c => mul (re c) (scale (prod ns))) b2)))))))).

(* fft.rs:644-707 hfft: buffer[i] = conj(input[i]) for the first n/2+1 entries, zero
   beyond the input; buffer[n - k] = input[k] for k in 1..min(n/2+1, n)-1 *)
Definition hfft (rdc : V -> C) (fast : bool) (n : option nat) (buf : list V) (a : arr) : res (list nat * list C) :=
  if negb (ndim a =? 1) then Err
  else if size a =? 0 then Ok ([0], [])
  else
    let m := match n with Some m => m | None => 2 * (size a - 1) end in
    if m =? 0 then Ok ([0], [])
    else
      bind (to_complex_buffer rdc fast buf a) (fun input =>
      let plen := m / 2 + 1 in
      let padded := map (fun i => if i <? length input then conj (nth i input zero) else zero) (seq 0 plen) in
      bind (foldM (fun b '(i, c) => put_at b i c) (combine (seq 0 plen) padded) (repeat zero m)) (fun b0 =>
      let b1 := fold_left (fun b k => upd b (m - k) (if k <? length input then nth k input zero else zero))
                  (seq 1 (Nat.min plen m - 1 - 1)) b0 in
      Ok ([m], map re (inverse m b1)))).

(* fft.rs:711-736 ihfft *)
Definition ihfft (rdc : V -> C) (fast : bool) (buf : list V) (a : arr) : res (list nat * list C) :=
  if negb (ndim a =? 1) then Err
  else if size a =? 0 then Ok ([0], [])
  else bind (to_complex_buffer rdc fast buf a) (fun b =>
       let m := size a / 2 + 1 in
       Ok ([m], firstn m (map (fun c => conj (mul c (scale (size a)))) (forward (size a) b)))).
End Fft.

(* ---- shifts and frequencies --------------------------------------------------------- *)

(* fft.rs:194-220 shift_array: (d + dim - shift) % dim; the loop body is not reached when
   a length is 0 *)
Fixpoint shift_indices (d shifts sh : list nat) : list nat :=
  match d, shifts, sh with
  | i :: d', s :: shifts', n :: sh' => (i + n - s) mod n :: shift_indices d' shifts' sh'
  | _, _, _ => []
  end.
Definition shift_array {V} (buf : list V) (a : arr) (shifts : list nat) : res (list nat * list V) :=
  bind (mapM (fun idx => read buf a (byte_offset_for a (shift_indices idx shifts (a_shape a))))
             (odometer (size a) (repeat 0 (ndim a)) (a_shape a)))
       (fun out => Ok (a_shape a, out)).
(* fft.rs:223-240 *)
Definition fftshift {V} (buf : list V) (a : arr) : res (list nat * list V) :=
  if (ndim a =? 0) || (2 <? ndim a) then Err else shift_array buf a (map (fun n => n / 2) (a_shape a)).
Definition ifftshift {V} (buf : list V) (a : arr) : res (list nat * list V) :=
  if (ndim a =? 0) || (2 <? ndim a) then Err else shift_array buf a (map (fun n => (n + 1) / 2) (a_shape a)).

(* fft.rs:243-259 fftfreq, 262-277 rfftfreq: the integers that are multiplied by
   val = 1.0 / (n as f64 * d) *)
Definition fftfreq {F} (ofZ : Z -> F) (fmul : F -> F -> F) (val : F) (n : nat) : list F :=
  let mid := (n + 1) / 2 in
  map (fun i => fmul (ofZ (Z.of_nat i)) val) (seq 0 mid) ++
  map (fun i => fmul (ofZ (Z.of_nat i - Z.of_nat n)%Z) val) (seq mid (n - mid)).
Definition rfftfreq {F} (ofZ : Z -> F) (fmul : F -> F -> F) (val : F) (n : nat) : list F :=
  map (fun i => fmul (ofZ (Z.of_nat i)) val) (seq 0 (n / 2 + 1)).
