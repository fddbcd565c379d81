(* src/ops/einsum.rs.  V: stored items; R: doubles; rd, wr, raw as in Prod_Model; vadd and
   vmul k are the addition and multiplication of dtype k.  Text is ASCII. *)
From Coq Require Import Ascii String.
From Verif Require Import Base Arr_Spec Arr_Model Idx_Model Copy_Model Elem_Model Int_Model F64_Model Promo_Spec Promo_Model Red_Model Gu_Model Mat_Model Prod_Model.
Local Open Scope nat_scope.
Local Open Scope list_scope.

(* ---------------- subscripts ---------------- *)
Definition has (c : ascii) (l : chars) : bool := existsb (Ascii.eqb c) l.
Definition is_lower (c : ascii) : bool := (97 <=? nat_of_ascii c) && (nat_of_ascii c <=? 122).
(* str::split("->") *)
Fixpoint split_arrow (s : chars) : list chars :=
  match s with
  | [] => [[]]
  | c :: s' =>
      match s' with
      | d :: s'' =>
          if Ascii.eqb c "-"%char && Ascii.eqb d ">"%char then [] :: split_arrow s''
          else match split_arrow s' with h :: t => (c :: h) :: t | [] => [[c]] end
      | [] => [[c]]
      end
  end.
(* Vec<char>::sort *)
Fixpoint insert_letter (c : ascii) (l : chars) : chars :=
  match l with
  | [] => [c]
  | d :: l' => if nat_of_ascii c <=? nat_of_ascii d then c :: l else d :: insert_letter c l'
  end.
Definition sort_letters (l : chars) : chars := fold_right insert_letter [] l.
(* einsum.rs:98-115 compute_implicit_output.  The keys of a HashMap come in no particular
   order; they are sorted before use. *)
Definition implicit_output (ins : list chars) : chars :=
  let all := concat ins in
  sort_letters (filter (fun c => count_occ ascii_dec all c =? 1) (nodup ascii_dec all)).
(* einsum.rs:42-91 parse_subscript *)
Definition parse_subscript (s : chars) : res (list chars * chars) :=
  let s := filter (fun c => negb (is_space c)) s in
  let check_in (i : chars) (k : list chars -> res (list chars * chars)) :=
    let ins := split_comma i [] in
    if forallb (forallb is_lower) ins then k ins else Err in
  match split_arrow s with
  | [i] => check_in i (fun ins => Ok (ins, implicit_output ins))
  | [i; o] => check_in i (fun ins =>
      if forallb (fun c => is_lower c || Ascii.eqb c "."%char) o then Ok (ins, o) else Err)
  | _ => Err
  end.

(* HashMap<char, usize> *)
Definition dim_map := list (ascii * nat).
Fixpoint lookup {A} (c : ascii) (m : list (ascii * A)) : option A :=
  match m with [] => None | (d, n) :: m' => if Ascii.eqb d c then Some n else lookup c m' end.
(* einsum.rs:143-154 *)
Definition add_dim (m : dim_map) (cn : ascii * nat) : res dim_map :=
  match lookup (fst cn) m with
  | Some e => if e =? snd cn then Ok m else Err
  | None => Ok (m ++ [cn])
  end.
Definition add_operand (m : dim_map) (x : chars * list nat) : res dim_map :=
  if negb (length (fst x) =? length (snd x)) then Err else foldM add_dim (combine (fst x) (snd x)) m.
(* einsum.rs:118-168 validate_subscript *)
Definition validate (ins : list chars) (out : chars) (shapes : list (list nat)) : res dim_map :=
  if negb (length ins =? length shapes) then Err
  else bind (foldM add_operand (combine ins shapes) []) (fun m =>
       if forallb (fun c => match lookup c m with Some _ => true | None => false end) out then Ok m else Err).
(* dim_map[c]; validate has checked that the letter is there *)
Definition dim (m : dim_map) (c : ascii) : nat := match lookup c m with Some n => n | None => 0 end.

(* iter().position(..) *)
Fixpoint position (c : ascii) (l : chars) : option nat :=
  match l with [] => None | d :: l' => if Ascii.eqb d c then Some 0 else option_map S (position c l') end.
(* position(..).unwrap() of a letter that is known to occur *)
Definition pos (l : chars) (c : ascii) : nat := match position c l with Some i => i | None => 0 end.
Fixpoint repeated (l : chars) : bool := match l with [] => false | c :: l' => has c l' || repeated l' end.
Definition set_eqb (l m : chars) : bool := forallb (fun c => has c m) l && forallb (fun c => has c l) m.

(* einsum.rs:205-212 contraction_indices *)
Definition contraction (m : dim_map) (out : chars) : chars :=
  sort_letters (filter (fun c => negb (has c out)) (map fst m)).

(* einsum.rs:343-350 compute_strides *)
Fixpoint compute_strides (sh : list nat) : list nat :=
  match sh with
  | [] => []
  | _ :: sh' => let st := compute_strides sh' in
                match st with
                | s :: _ => s * hd 1 sh' :: st
                | [] => [1]
                end
  end.
(* einsum.rs:398-403, 678-683; a zero divisor panics *)
Fixpoint decode_div (st : list nat) (k : nat) : res (list nat) :=
  match st with
  | [] => Ok []
  | s :: st' => if s =? 0 then Panic else bind (decode_div st' (k mod s)) (fun r => Ok (k / s :: r))
  end.
(* einsum.rs:434-439, 694-700: from the last axis *)
Fixpoint decode_mod_aux (dims : list nat) (k : nat) : res (list nat * nat) :=
  match dims with
  | [] => Ok ([], k)
  | d :: dims' => bind (decode_mod_aux dims' k) (fun '(r, rest) =>
                  if d =? 0 then Panic else Ok (rest mod d :: r, rest / d))
  end.
Definition decode_mod (dims : list nat) (k : nat) : res (list nat) := bind (decode_mod_aux dims k) (fun r => Ok (fst r)).

(* a series of idx[p] = v *)
Definition set_all (ps : list (nat * nat)) (idx : list nat) : list nat := fold_left (fun idx p => upd idx (fst p) (snd p)) ps idx.
(* einsum.rs:443-448, 703-708: the first position of each output letter *)
Definition out_writes (sub out : chars) (oi : list nat) : list (nat * nat) :=
  flat_map (fun cv => match position (fst cv) sub with Some p => [(p, snd cv)] | None => [] end) (combine out oi).
(* einsum.rs:369-376, 449-458: every position of each summed letter *)
Definition single_writes (sub con : chars) (ci : list nat) : list (nat * nat) :=
  flat_map (fun cv => map (fun p => (fst p, snd cv)) (filter (fun p => Ascii.eqb (snd p) (fst cv)) (combine (seq 0 (length sub)) sub))) (combine con ci).
(* einsum.rs:655-660, 709-711: the first position of the i-th of the summed letters that
   occur gets the i-th value *)
Definition binary_writes (sub con : chars) (ci : list nat) : list (nat * nat) :=
  combine (flat_map (fun c => match position c sub with Some p => [p] | None => [] end) con) ci.
(* einsum.rs:461-478 *)
Definition consistent (sub : chars) (idx : list nat) : bool :=
  forallb (fun cv => snd cv =? nth (pos sub (fst cv)) idx 0) (combine sub idx).
(* einsum.rs:413-425: letters looked up in the map of output values; later entries win *)
Definition copy_index (sub out : chars) (oi : list nat) : list nat :=
  map (fun c => match lookup c (rev (combine out oi)) with Some v => v | None => 0 end) sub.

Section Ein.
Context {V R : Type}.
Variables (vzero : V) (rzero : R) (radd rmul : R -> R -> R).
Variables (rd : kind -> V -> R) (wr raw : kind -> R -> V).
Variables (vadd vmul : kind -> V -> V -> V).
Variable mm : @operand V -> @operand V -> res (@operand V).

(* ufunc.rs:529-600 reduce_all_f64(Sum) *)
Definition sum_all (o : @operand V) : res R :=
  let k := o_kind o in
  bind (dispatch_reduce vzero (vadd k) (fst (snd o)) (o_arr o)) (fun r =>
  match r with
  | Some v => Ok (rd k (wr k (rd k v)))
  | None => bind (trait_reduce vzero (vadd k) (fst (snd o)) (o_arr o)) (fun v => Ok (rd k v))
  end).
(* ufunc.rs:607-620 reduce_axis_op(Sum), the dispatched dtypes *)
Definition sum_axis (o : @operand V) (axis : nat) : res operand :=
  bind (dispatch_reduce_axis vzero (vadd (o_kind o)) (fst (snd o)) (o_arr o) axis) (fun '(sh, out) => Ok (array (o_kind o) sh out)).
Definition full0 (k : kind) (s : R) : @operand V := array k [] [wr k s].

(* einsum.rs:266-309 try_single_operand_optimized *)
Definition single_fast (sub out : chars) (x : @operand V) : option (res operand) :=
  if negb (repeated sub) && negb (repeated out) && set_eqb sub out then
    Some (bind (transpose_axes (o_arr x) (map (pos sub) out)) (fun a => Ok (with_arr x a)))
  else
    let pair := match sub with [c; d] => Ascii.eqb c d | _ => false end in
    if pair && (length out =? 0) then
      Some (bind (diagonal (o_arr x)) (fun a => bind (sum_all (with_arr x a)) (fun s => Ok (full0 (o_kind x) s))))
    else if pair && (match sub, out with c :: _, [d] => Ascii.eqb d c | _, _ => false end) then
      Some (bind (diagonal (o_arr x)) (fun a => Ok (with_arr x a)))
    else match sub, out with
    | [c; d], [o] => if negb (Ascii.eqb c d) then Some (sum_axis x (if Ascii.eqb o c then 1 else 0)) else None
    | _ :: _, [] => if negb (repeated sub) then Some (bind (sum_all x) (fun s => Ok (full0 (o_kind x) s))) else None
    | _, _ => None
    end.

(* read_f64(ptr, offset).unwrap_or(0.0) at the sum of idx[i] * strides[i] *)
Definition value_at (x : @operand V) (idx : list nat) : res R :=
  bind (read (fst (snd x)) (o_arr x) (dot idx (a_strides (o_arr x)))) (fun v => Ok (rd (o_kind x) v)).
Definition write_at (k : kind) (buf : list V) (i : nat) (s : R) : res (list V) :=
  if i <? length buf then Ok (upd buf i (wr k s)) else Fault.
Definition or_one (sh : list nat) : list nat := match sh with [] => [1] | _ => sh end.

(* einsum.rs:353-490 einsum_single *)
Definition einsum_single (sub out : chars) (x : @operand V) (kout : kind) (m : dim_map) (con : chars) (buf : list V) : res (list V) :=
  let osh := or_one (map (dim m) out) in
  let cdims := map (dim m) con in
  foldM (fun buf i =>
    bind (decode_div (compute_strides osh) i) (fun oi =>
    bind (if length con =? 0 then value_at x (copy_index sub out oi)
          else foldM (fun s c =>
                 bind (decode_mod cdims c) (fun ci =>
                 let idx := set_all (single_writes sub con ci) (set_all (out_writes sub out oi) (repeat 0 (length sub))) in
                 if repeated sub && negb (consistent sub idx) then Ok s
                 else bind (value_at x idx) (fun v => Ok (radd s v)))) (seq 0 (prod cdims)) rzero)
    (write_at kout buf i))) (seq 0 (prod osh)) buf.

(* einsum.rs:626-746 einsum_binary_elementwise *)
Definition einsum_elementwise (sa sb out : chars) (x y : @operand V) (kout : kind) (m : dim_map) (con : chars) (buf : list V) : res (list V) :=
  let osh := or_one (map (dim m) out) in
  let cdims := map (dim m) con in
  let index sub oi ci := set_all (binary_writes sub con ci) (set_all (out_writes sub out oi) (repeat 0 (length sub))) in
  foldM (fun buf i =>
    bind (decode_div (compute_strides osh) i) (fun oi =>
    bind (foldM (fun s c =>
            bind (decode_mod cdims c) (fun ci =>
            bind (value_at x (index sa oi ci)) (fun u => bind (value_at y (index sb oi ci)) (fun v =>
            Ok (radd s (rmul u v)))))) (seq 0 (if prod cdims =? 0 then 1 else prod cdims)) rzero)
    (write_at kout buf i))) (seq 0 (prod osh)) buf.

(* the "?" operator inside a function that returns an Option *)
Definition opt {A B} (r : res A) (k : A -> res (option B)) : res (option B) :=
  match r with Ok a => k a | Err => Ok None | Panic => Panic | Fault => Fault end.
Definition is_identity (perm : list nat) : bool := if list_eq_dec Nat.eq_dec perm (seq 0 (length perm)) then true else false.
Definition permuted (a : arr) (perm : list nat) : res arr := if is_identity perm then Ok a else transpose_axes a perm.
Definition chars_eq (a b : chars) : bool := if list_eq_dec ascii_dec a b then true else false.
Fixpoint positions (l : chars) (cs : chars) : option (list nat) :=
  match cs with
  | [] => Some []
  | c :: cs' => match position c l, positions l cs' with Some p, Some ps => Some (p :: ps) | _, _ => None end
  end.
(* einsum.rs:563-623 try_blas_contraction *)
Definition blas_contraction (x y : @operand V) (sa sb out : chars) (m : dim_map) (con : chars) : res (option operand) :=
  let in_con := fun c => has c con in
  let fa := filter (fun c => negb (in_con c)) sa in let ca := filter in_con sa in
  let fb := filter (fun c => negb (in_con c)) sb in let cb := filter in_con sb in
  let size l := Nat.max (prod (map (dim m) l)) 1 in
  if negb (size ca =? size cb) then Ok None
  else
    bind (permuted (o_arr x) (map (pos sa) (fa ++ ca))) (fun pa =>
    opt (reshape pa [size fa; size ca]) (fun a2 =>
    bind (permuted (o_arr y) (map (pos sb) (cb ++ fb))) (fun pb =>
    opt (reshape pb [size cb; size fb]) (fun b2 =>
    opt (mm (with_arr x a2) (with_arr y b2)) (fun r =>
    let inter := map (dim m) fa ++ map (dim m) fb in
    if length inter =? 0 then Ok (Some r)
    else opt (reshape (o_arr r) inter) (fun a =>
         if chars_eq (fa ++ fb) out then Ok (Some (with_arr r a))
         else match positions (fa ++ fb) out with
              | None => Ok None
              | Some perm => bind (transpose_axes a perm) (fun a' => Ok (Some (with_arr r a')))
              end)))))).
(* ptr::copy_nonoverlapping of n items of the result's dtype, from data_ptr() on *)
Definition raw_copy (o : @operand V) (item : Z) (n : nat) : res (list V) :=
  mapM (fun i => of_load (load (fst (snd o)) item (a_off (o_arr o) + Z.of_nat i * item))) (seq 0 n).

(* einsum.rs:527-560 einsum_binary *)
Definition einsum_binary (sa sb out : chars) (x y : @operand V) (kout : kind) (m : dim_map) (con : chars) (buf : list V) : res (list V) :=
  let slow := einsum_elementwise sa sb out x y kout m con buf in
  if negb (repeated sa) && negb (repeated sb) && negb (length con =? 0) then
    bind (blas_contraction x y sa sb out m con) (fun r =>
    match r with Some o => raw_copy o (itemsize kout) (List.length buf) | None => slow end)
  else slow.

(* binary_op(Mul): both operands brought to the common dtype *)
Definition hadamard (x y : @operand V) : res operand :=
  let k := promote (o_kind x) (o_kind y) in
  let cvt from v := if kind_eqb from k then v else wr k (rd from v) in
  bind (elementwise2 (fun u v => Ok (vmul k (cvt (o_kind x) u) (cvt (o_kind y) v))) PKernel
          (fst (snd x)) (o_arr x) (fst (snd y)) (o_arr y)) (fun '(sh, buf) => Ok (array k sh buf)).
(* Option::ok: the fast path gives up when the operation fails *)
Definition or_else {A} (r : res A) (k : res A) : res A := match r with Err => k | _ => r end.
(* einsum.rs:312-340 try_binary_optimized, continued by k when it answers None *)
Definition binary_fast (sa sb out : chars) (x y : @operand V) (k : res operand) : res operand :=
  let hada := if chars_eq sa sb && chars_eq sa out then or_else (hadamard x y) k else k in
  if forallb (fun c => negb (has c sb)) sa && (ndim (o_arr x) =? 1) && (ndim (o_arr y) =? 1) && (length out =? 2) then
    match outer vzero rmul rd wr raw x y with
    | Ok o => Ok (if chars_eq (sa ++ sb) out then o else with_arr o (transpose (o_arr o)))
    | Err => k
    | Panic => Panic
    | Fault => Fault
    end
  else hada.

(* einsum.rs:192-203, 245-251: the output array around a kernel *)
Definition with_output (kout : kind) (osh : list nat) (fill : list V -> res (list V)) : res operand :=
  let buf := repeat vzero (prod (or_one osh)) in
  if prod osh =? 0 then Ok (array kout osh buf)
  else bind (fill buf) (fun buf =>
       match osh with
       | [] => bind (reshape (fresh [1] (itemsize kout)) []) (fun a => Ok (kout, (buf, a)))
       | _ => Ok (array kout osh buf)
       end).

Definition einsum1 (sub out : chars) (x : @operand V) (m : dim_map) : res operand :=
  match single_fast sub out x with
  | Some r => r
  | None => with_output (o_kind x) (map (dim m) out) (einsum_single sub out x (o_kind x) m (contraction m out))
  end.
Definition einsum2 (sa sb out : chars) (x y : @operand V) (m : dim_map) : res operand :=
  let kout := promote (o_kind x) (o_kind y) in
  binary_fast sa sb out x y
    (with_output kout (map (dim m) out) (einsum_binary sa sb out x y kout m (contraction m out))).
(* einsum on a pair, from text *)
Definition einsum_pair (s : chars) (x y : @operand V) : res operand :=
  bind (parse_subscript s) (fun '(ins, out) =>
  bind (validate ins out [a_shape (o_arr x); a_shape (o_arr y)]) (fun m =>
  match ins with [sa; sb] => einsum2 sa sb out x y m | _ => Err end)).

(* format!("{},{}->{}") *)
Definition fmt (a b o : chars) : chars := a ++ ","%char :: b ++ "-"%char :: ">"%char :: o.
(* einsum.rs:767-788, 806-823 the letters kept after a step *)
Definition kept (a b : chars) (rest : list chars) (out : chars) : chars :=
  sort_letters (nodup ascii_dec (filter (fun c => has c (concat rest ++ out)) (a ++ b))).
(* einsum.rs:799-846 *)
Fixpoint multi_loop (cur : @operand V) (sub : chars) (rest : list (chars * @operand V)) (out : chars) : res operand :=
  match rest with
  | [] => Ok cur
  | (s, y) :: rest' =>
      let o := match rest' with [] => out | _ => kept sub s (map fst rest') out end in
      bind (einsum_pair (fmt sub s o) cur y) (fun cur' => multi_loop cur' o rest' out)
  end.
(* einsum.rs:753-858 einsum_multi *)
Definition einsum_multi (ins : list chars) (out : chars) (xs : list (@operand V)) (kout : kind) (n : nat) : res (list V) :=
  match combine ins xs with
  | (s0, x0) :: (s1, x1) :: rest =>
      let o := kept s0 s1 (map fst rest) out in
      bind (einsum_pair (fmt s0 s1 o) x0 x1) (fun cur =>
      bind (multi_loop cur o rest out) (fun r => raw_copy r (itemsize kout) n))
  | _ => Err
  end.

(* einsum.rs:16-25, 178-257 einsum *)
Definition einsum (s : chars) (xs : list (@operand V)) : res operand :=
  bind (parse_subscript s) (fun '(ins, out) =>
  bind (validate ins out (map (fun x => a_shape (o_arr x)) xs)) (fun m =>
  match ins, xs with
  | [sub], [x] => einsum1 sub out x m
  | [sa; sb], [x; y] => einsum2 sa sb out x y m
  | _, x :: xs' =>
      let kout := fold_left (fun k y => promote k (o_kind y)) xs' (o_kind x) in
      with_output kout (map (dim m) out) (fun buf => einsum_multi ins out xs kout (List.length buf))
  | _, [] => Err
  end)).
End Ein.

(* whole numbers, as in Prod_Model *)
Definition z_vadd (k : kind) (x y : Z) : Z := match k with Int64 => wrap i64 (x + y) | _ => zf_add x y end.
Definition z_einsum (s : string) := einsum 0%Z 0%Z zf_add zf_mul z_rd z_wr z_raw z_vadd z_vmul z_mm (list_ascii_of_string s).
