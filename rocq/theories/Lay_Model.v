(* Layout and conversion: src/python/creation.rs:304-420 (array, asarray, the array
   interface), 676-757 (typestr), 933-1122 (ascontiguousarray, asfortranarray, require,
   copyto), src/array/mod.rs:349-425 (astype), src/python/pyarray/mod.rs:243-257.  Numbers
   are of the dtypes of New_Spec; the array interface part works on raw bytes and all
   fixed-size dtypes. *)
From Coq Require Import SpecFloat Ascii String.
From Verif Require Import Base Int_Model Arr_Spec Arr_Model Copy_Model Idx_Model Gu_Model New_Spec New_Model Grid_Model
  Date_Model Promo_Spec Promo_Model Io_Spec Io_Model.
Local Open Scope nat_scope.
Local Open Scope list_scope.

Definition ldt_eqb (d d' : ldt) : bool :=
  match d, d' with
  | LInt t, LInt t' => (bits t =? bits t')%Z && Bool.eqb (signed t) (signed t')
  | LBool, LBool | LF64, LF64 => true
  | _, _ => false
  end.
Definition typed_ldt (d : ldt) : bool := match d with LInt t => (bits t =? 64)%Z && signed t | LBool => false | LF64 => true end.
(* one element through binary64: read_f64 then write_f64 *)
Definition through_f64 (d d' : ldt) (c : cell) : cell := write_f64 d' (read_f64 d c).

(* array/mod.rs:354-425 astype: contents of the new buffer (its array is fresh) *)
Definition astype (d d' : ldt) (buf : list cell) (a : arr) : res (list cell) :=
  if ldt_eqb d d' then copy_buf buf a (typed_ldt d)
  else if size a =? 0 then Ok []
  else astype_conv (through_f64 d d') buf a.

(* what the caller gets: an array on the buffer of the argument, or on a new buffer *)
Inductive placed := Shared (d : ldt) (a : arr) | New (d : ldt) (buf : list cell) (a : arr).

Definition to_new (d d' : ldt) (buf : list cell) (a : arr) : res placed :=
  bind (astype d d' buf a) (fun b => Ok (New d' b (fresh (a_shape a) (ld_item d')))).

Definition choose (d : ldt) (dtype : option ldt) : ldt := match dtype with Some d' => d' | None => d end.
(* creation.rs:313-325 array_impl on an array; array and asarray are the same function *)
Definition array_of (d : ldt) (buf : list cell) (a : arr) (dtype : option ldt) : res placed :=
  if ldt_eqb d (choose d dtype) then Ok (Shared d a) else to_new d (choose d dtype) buf a.
(* creation.rs:943-957 *)
Definition ascontiguousarray (d : ldt) (buf : list cell) (a : arr) (dtype : option ldt) : res placed :=
  if a_c a && ldt_eqb d (choose d dtype) then Ok (Shared d a) else to_new d (choose d dtype) buf a.
(* creation.rs:963-975 *)
Definition asfortranarray (d : ldt) (buf : list cell) (a : arr) (dtype : option ldt) : res placed :=
  let t := transpose a in
  bind (astype d (choose d dtype) buf t) (fun b => Ok (New (choose d dtype) b (transpose (fresh (a_shape t) (ld_item (choose d dtype)))))).
(* creation.rs:989-1026 require; the letters other than C and F are not looked at *)
Definition has (c : ascii) (s : bytes) : bool := existsb (Ascii.eqb c) s.
Definition require (d : ldt) (buf : list cell) (a : arr) (dtype : option ldt) (reqs : bytes) : res placed :=
  let d' := choose d dtype in
  let need_c := has "C"%char reqs in
  let need_f := has "F"%char reqs in
  let satisfies := if need_c then a_c a && ldt_eqb d d' else if need_f then a_f a && ldt_eqb d d' else ldt_eqb d d' in
  if satisfies then Ok (Shared d a)
  else if need_f then asfortranarray d buf a dtype
  else to_new d d' buf a.

(* ---------------- copyto ---------------- *)
(* a source array: its own buffer, or None when it is a view of the destination's *)
Definition operand := (ldt * option (list cell) * arr)%type.
Definition op_dt (x : operand) : ldt := fst (fst x).
Definition op_arr (x : operand) : arr := snd x.
Definition op_buf (x : operand) (dbuf : list cell) : list cell := match snd (fst x) with Some b => b | None => dbuf end.
Definition shape_to (a : arr) (sh : list nat) : res arr := if list_eqb (a_shape a) sh then Ok a else broadcast_to a sh.

(* ptr::copy_nonoverlapping of n elements: overlapping ranges are undefined behaviour *)
Definition memcpy (shares : bool) (dbuf sbuf : list cell) (dst src : arr) (n : nat) : res (list cell) :=
  let len := (Z.of_nat n * a_item dst)%Z in
  if shares && (a_off dst <? a_off src + len)%Z && (a_off src <? a_off dst + len)%Z then Fault
  else foldM (fun b k => bind (of_load (load sbuf (a_item src) (a_off src + Z.of_nat k * a_item dst)))
                           (fun c => store b (a_item dst) (a_off dst + Z.of_nat k * a_item dst) c)) (seq 0 n) dbuf.

Definition copy_one (dd : ldt) (dst : arr) (src : operand) (bs : arr) (b : list cell) (od os : Z) : res (list cell) :=
  bind (read (op_buf src b) bs os) (fun c => store b (a_item dst) (a_off dst + od) (through_f64 (op_dt src) dd c)).

(* mask_val != 0.0 after read_f64 (NaN counts as true) *)
Definition mask_true (d : ldt) (c : cell) : bool := match read_f64 d c with S754_zero _ => false | _ => true end.

(* creation.rs:1040-1122 *)
Definition copyto (dd : ldt) (dbuf : list cell) (dst : arr) (src : operand) (mask : option operand) : res (list cell) :=
  bind (shape_to (op_arr src) (a_shape dst)) (fun bs =>
  if size dst =? 0 then Ok dbuf else
  match mask with
  | Some m =>
      bind (shape_to (op_arr m) (a_shape dst)) (fun bm =>
      foldM (fun b (p : Z * Z * Z) => let '(od, os, om) := p in
               bind (read (op_buf m b) bm om) (fun mc =>
               if mask_true (op_dt m) mc then copy_one dd dst src bs b od os else Ok b))
            (combine (combine (iter_offsets dst) (iter_offsets bs)) (iter_offsets bm)) dbuf)
  | None =>
      if ldt_eqb dd (op_dt src) && a_c dst && a_c bs
      then memcpy (match snd (fst src) with None => true | Some _ => false end) dbuf (op_buf src dbuf) dst bs (size dst)
      else foldM (fun b (p : Z * Z) => copy_one dd dst src bs b (fst p) (snd p)) (combine (iter_offsets dst) (iter_offsets bs)) dbuf
  end).

(* ---------------- the array interface ---------------- *)
(* the dictionary: shape, type string, data pointer, strides.  The pointer is relative to
   the start of the allocation it points into *)
Record iface := mkIface { if_shape : list nat; if_type : bytes; if_data : Z; if_strides : option (list Z) }.
(* python/pyarray/mod.rs:243-257 *)
Definition export (k : kind) (a : arr) : iface := mkIface (a_shape a) (typestr k) (a_off a) (Some (a_strides a)).

(* creation.rs:676-757 dtype_from_typestr.  `typestr[2..]` panics on strings shorter than
   two bytes; units as in TimeUnit::from_str *)
Definition unit_of (s : bytes) : option Date_Spec.unit :=
  first_some (fun u => if chars_eqb (unit_code u) s then Some u else None) units.
Definition time_kind (mk : Date_Spec.unit -> kind) (s : bytes) : res kind :=
  match until (fun c => Ascii.eqb c "]"%char) s with
  | Some u => match unit_of u with Some x => Ok (mk x) | None => Err end
  | None => Err
  end.
Definition sized_prefix (c : ascii) (mk : nat -> kind) (s : bytes) : option kind :=
  match s with
  | x :: r => if Ascii.eqb x c then option_map (fun z => mk (Z.to_nat z)) (parse_usize r) else None
  | [] => None
  end.
Definition number_kind (c : ascii) (n : Z) : res kind :=
  match assoc [c] [(txt "f", [(8%Z, Float64); (4%Z, Float32); (2%Z, Float16)]);
                   (txt "i", [(8%Z, Int64); (4%Z, Int32); (2%Z, Int16); (1%Z, Int8)]);
                   (txt "u", [(8%Z, Uint64); (4%Z, Uint32); (2%Z, Uint16); (1%Z, Uint8)]);
                   (txt "b", [(1%Z, Bool)]); (txt "c", [(8%Z, Complex64); (16%Z, Complex128)])] with
  | Some l => match find (fun p => (fst p =? n)%Z) l with Some p => Ok (snd p) | None => Err end
  | None => Err
  end.
Definition dtype_from_typestr (s : bytes) : res kind :=
  if starts_with (txt "<M8[") s || starts_with (txt ">M8[") s then time_kind DateTime64 (skipn 4 s)
  else if starts_with (txt "<m8[") s || starts_with (txt ">m8[") s then time_kind TimeDelta64 (skipn 4 s)
  else match sized_prefix "U"%char Str (strip ">"%char (strip "<"%char s)) with
  | Some k => Ok k
  | None =>
  match sized_prefix "S"%char Bytes (strip "|"%char s) with
  | Some k => Ok k
  | None =>
      if List.length s <? 2 then Panic
      else number_kind (nth 1 s "f"%char) (match parse_usize (skipn 2 s) with Some z => z | None => 8%Z end)
  end end.

(* creation.rs:351-430 from_array_interface: bytes of every element copied along the
   odometer; the result is a new contiguous array of [override] or of the type string.
   Sizes are assumed to be below 2^64 *)
Definition import (mem : bytes) (i : iface) (override : option kind) : res (kind * list bytes * arr) :=
  bind (match override with Some k => Ok k | None => dtype_from_typestr (if_type i) end) (fun k =>
  let item := itemsize k in
  let st := match if_strides i with Some st => st | None => c_strides (if_shape i) item end in
  bind (mapM (fun idx => raw mem (if_data i + dot idx st) item)
          (odometer (prod (if_shape i)) (repeat 0 (List.length (if_shape i))) (if_shape i))) (fun vals =>
  Ok (k, vals, fresh (if_shape i) item))).
