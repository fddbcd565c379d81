(* Binary input and output: src/ops/io.rs:366-911 (npy and npz files, frombuffer, fromfile,
   tofile), src/python/pyarray/mod.rs:626-638 (tobytes), src/python/io.rs:105-205, and the
   dtype codes of src/array/dtype.  A buffer is a list of elements, each the list of its
   bytes; a file is a list of bytes.  The operating system's files and the zip container
   are not modelled: writing produces the list of bytes (or of named members) that reading
   is given.  I/O errors of the operating system are left out. *)
From Coq Require Import Ascii String.
From Verif Require Import Base Arr_Spec Arr_Model Copy_Model Date_Spec Date_Model Promo_Spec Promo_Model Gu_Model Io_Spec.
Local Open Scope nat_scope.
Local Open Scope list_scope.

(* ---------------- dtype codes ---------------- *)
Definition unit_code (u : Date_Spec.unit) : bytes :=
  txt (match u with Years => "Y" | Months => "M" | Weeks => "W" | Days => "D" | Hours => "h"
       | Minutes => "m" | Seconds => "s" | Milli => "ms" | Micro => "us" | Nano => "ns" end)%string.
(* typestr of each dtype: dtype/{floats,integers,bool,float16,complex64,complex128,
   datetime64,string}.rs; a string's code does not mention its width (string.rs:92-96, 327-329) *)
Definition typestr (k : kind) : bytes :=
  match k with
  | Float16 => txt "<f2" | Float32 => txt "<f4" | Float64 => txt "<f8"
  | Int8 => txt "|i1" | Int16 => txt "<i2" | Int32 => txt "<i4" | Int64 => txt "<i8"
  | Uint8 => txt "|u1" | Uint16 => txt "<u2" | Uint32 => txt "<u4" | Uint64 => txt "<u8"
  | Bool => txt "|b1" | Complex64 => txt "<c8" | Complex128 => txt "<c16"
  | DateTime64 u => txt "<M8[" ++ unit_code u ++ txt "]"
  | TimeDelta64 u => txt "<m8[" ++ unit_code u ++ txt "]"
  | Str _ => txt "<U0" | Bytes _ => txt "|S0"
  end.

Definition units := [Years; Months; Weeks; Days; Hours; Minutes; Seconds; Milli; Micro; Nano].
(* dtype/mod.rs:429-471: the literal cases of FromStr *)
Definition dtype_names : list (bytes * kind) :=
  map (fun p => (txt (fst p), snd p))
   [("float16", Float16); ("f2", Float16); ("<f2", Float16);
    ("float32", Float32); ("f4", Float32); ("<f4", Float32);
    ("float64", Float64); ("f8", Float64); ("<f8", Float64); ("float", Float64);
    ("int8", Int8); ("i1", Int8); ("|i1", Int8);
    ("int16", Int16); ("i2", Int16); ("<i2", Int16);
    ("int32", Int32); ("i4", Int32); ("<i4", Int32);
    ("int64", Int64); ("i8", Int64); ("<i8", Int64); ("int", Int64);
    ("uint8", Uint8); ("u1", Uint8); ("|u1", Uint8);
    ("uint16", Uint16); ("u2", Uint16); ("<u2", Uint16);
    ("uint32", Uint32); ("u4", Uint32); ("<u4", Uint32);
    ("uint64", Uint64); ("u8", Uint64); ("<u8", Uint64);
    ("bool", Bool); ("?", Bool); ("|b1", Bool)]%string
  ++ flat_map (fun u => [(txt "datetime64[" ++ unit_code u ++ txt "]", DateTime64 u);
                         (txt "<M8[" ++ unit_code u ++ txt "]", DateTime64 u);
                         (txt ">M8[" ++ unit_code u ++ txt "]", DateTime64 u)]) units
  ++ flat_map (fun u => [(txt "timedelta64[" ++ unit_code u ++ txt "]", TimeDelta64 u);
                         (txt "<m8[" ++ unit_code u ++ txt "]", TimeDelta64 u);
                         (txt ">m8[" ++ unit_code u ++ txt "]", TimeDelta64 u)]) units
  ++ map (fun p => (txt (fst p), snd p))
   [("complex64", Complex64); ("c8", Complex64); ("<c8", Complex64);
    ("complex128", Complex128); ("c16", Complex128); ("<c16", Complex128);
    ("str", Str 0); ("str_", Str 0); ("bytes", Bytes 0); ("bytes_", Bytes 0)]%string.
Fixpoint assoc {A} (s : bytes) (l : list (bytes * A)) : option A :=
  match l with [] => None | (n, x) :: l' => if chars_eqb n s then Some x else assoc s l' end.
Fixpoint strip (c : ascii) (s : bytes) : bytes := (* trim_start_matches(c) *)
  match s with x :: s' => if Ascii.eqb x c then strip c s' else s | [] => [] end.
(* usize::from_str: an optional plus sign and at least one digit, in range *)
Definition parse_usize (s : bytes) : option Z :=
  let t := match s with c :: s' => if Ascii.eqb c "+"%char then s' else s | [] => [] end in
  match t with
  | [] => None
  | _ => match number t 0 with Some z => if (z <? two64)%Z then Some z else None | None => None end
  end.
(* dtype/mod.rs:429-489 FromStr for DType *)
Definition parse_dtype (s : bytes) : option kind :=
  match assoc s dtype_names with
  | Some k => Some k
  | None =>
      match strip "|"%char (strip "<"%char s) with
      | c :: rest =>
          if Ascii.eqb c "U"%char then option_map (fun z => Str (Z.to_nat z)) (parse_usize rest)
          else if Ascii.eqb c "S"%char then option_map (fun z => Bytes (Z.to_nat z)) (parse_usize rest)
          else None
      | [] => None
      end
  end.

(* ---------------- raw memory ---------------- *)
(* slice::from_raw_parts(base + off, n) *)
Definition raw (b : bytes) (off n : Z) : res bytes :=
  if (n =? 0)%Z then Ok []
  else if (0 <=? off)%Z && (off + n <=? Z.of_nat (List.length b))%Z then Ok (firstn (Z.to_nat n) (skipn (Z.to_nat off) b))
  else Fault.
Definition typed_kind (k : kind) : bool := match k with Float64 | Int64 => true | _ => false end.
(* python/pyarray/mod.rs:626-638 tobytes; the same lines in io.rs:438-446 (write_npy) and
   io.rs:800-807 (tofile): the array's own memory when C-contiguous, else that of a copy *)
Definition tobytes (k : kind) (buf : list bytes) (a : arr) : res bytes :=
  let n := (Z.of_nat (size a) * a_item a)%Z in
  if a_c a then raw (concat buf) (a_off a) n
  else bind (copy_buf buf a (typed_kind k)) (fun vals => raw (concat vals) 0 n).

(* n elements of [item] bytes cut from the front of a byte string *)
Fixpoint chunks (n item : nat) (b : bytes) : list bytes :=
  match n with O => [] | S n' => firstn item b :: chunks n' item (skipn item b) end.

(* ---------------- writing npy ---------------- *)
(* io.rs:384-392: the shape tuple *)
Definition join (sep : bytes) (l : list bytes) : bytes :=
  match l with [] => [] | x :: l' => x ++ concat (map (fun y => sep ++ y) l') end.
Definition shape_str (sh : list nat) : bytes :=
  txt "(" ++ join (txt ", ") (map (fun d => digits (Z.of_nat d)) sh)
  ++ (if Nat.eqb (List.length sh) 1 then txt "," else []) ++ txt ")".
(* io.rs:394-399 *)
Definition header (k : kind) (sh : list nat) (fortran : bool) : bytes :=
  txt "{'descr': '" ++ typestr k ++ txt "', 'fortran_order': " ++ (if fortran then txt "True" else txt "False")
  ++ txt ", 'shape': " ++ shape_str sh ++ txt "}".
(* to_le_bytes of a number truncated to n bytes *)
Fixpoint le_bytes (n : nat) (z : Z) : bytes :=
  match n with O => [] | S n' => byte z :: le_bytes n' (z / 256) end.
(* io.rs:431-436: spaces, the last of them a newline *)
Definition padding (n : nat) : bytes :=
  match n with O => [] | S n' => repeat " "%char n' ++ [byte 10] end.
(* io.rs:366-368, 401-436: magic, version, length, header, padding *)
Definition preamble (h : bytes) : bytes :=
  let pad := ((64 - ((10 + List.length h) mod 64)) mod 64) in
  let n := Z.of_nat (List.length h + pad) in
  (byte 147 :: txt "NUMPY")
  ++ (if (65535 <? n)%Z then [byte 2; byte 0] ++ le_bytes 4 n else [byte 1; byte 0] ++ le_bytes 2 n)
  ++ h ++ padding pad.
(* io.rs:380-449 write_npy *)
Definition write_npy (k : kind) (buf : list bytes) (a : arr) : res bytes :=
  let fortran := a_f a && negb (a_c a) in
  bind (tobytes k buf a) (fun data => Ok (preamble (header k (a_shape a) fortran) ++ data)).

(* ---------------- reading npy ---------------- *)
(* Read::read_exact *)
Definition take (n : nat) (s : bytes) : option (bytes * bytes) :=
  if Nat.leb n (List.length s) then Some (firstn n s, skipn n s) else None.
Fixpoint starts_with (p s : bytes) : bool :=
  match p, s with
  | [], _ => true
  | c :: p', x :: s' => Ascii.eqb c x && starts_with p' s'
  | _ :: _, [] => false
  end.
(* str::find(p): what follows the first occurrence of p *)
Fixpoint after (p s : bytes) : option bytes :=
  if starts_with p s then Some (skipn (List.length p) s)
  else match s with [] => None | _ :: s' => after p s' end.
(* the text before the first character satisfying f *)
Fixpoint until (f : ascii -> bool) (s : bytes) : option bytes :=
  match s with
  | [] => None
  | c :: s' => if f c then Some [] else option_map (cons c) (until f s')
  end.
Definition quote : ascii := """"%char.
Fixpoint first_some {A B} (f : A -> option B) (l : list A) : option B :=
  match l with [] => None | x :: l' => match f x with Some y => Some y | None => first_some f l' end end.
(* io.rs:560-583 extract_string_value *)
Definition extract_string (h key : bytes) : option bytes :=
  first_some (fun p => match after p h with
                       | Some rest => until (fun c => Ascii.eqb c "'" || Ascii.eqb c quote) rest
                       | None => None end)
    [txt "'" ++ key ++ txt "': '"; quote :: key ++ txt "': '";
     txt "'" ++ key ++ txt "': " ++ [quote]; quote :: key ++ txt "': " ++ [quote]].
(* io.rs:586-602 extract_bool_value *)
Definition extract_bool (h key : bytes) : option bool :=
  first_some (fun p => match after p h with
                       | Some rest => if starts_with (txt "True") rest then Some true
                                      else if starts_with (txt "False") rest then Some false else None
                       | None => None end)
    [txt "'" ++ key ++ txt "': "; quote :: key ++ txt "': "].
Fixpoint filter_map {A B} (f : A -> option B) (l : list A) : list B :=
  match l with [] => [] | x :: l' => match f x with Some y => y :: filter_map f l' | None => filter_map f l' end end.
(* io.rs:605-637 extract_shape: entries that are not numbers are dropped *)
Definition extract_shape (h : bytes) : option (list nat) :=
  first_some (fun p => match after p h with
                       | Some rest =>
                           match until (fun c => Ascii.eqb c ")") rest with
                           | Some s => Some (filter_map (fun t => option_map Z.to_nat (parse_usize (trim t))) (split_comma s []))
                           | None => None
                           end
                       | None => None end)
    [txt "'shape': ("; quote :: txt "shape': ("; txt "'shape':("].
(* io.rs:541-557 parse_npy_header *)
Definition parse_header (h : bytes) : option (kind * list nat * bool) :=
  let h := trim h in
  match extract_string h (txt "descr") with
  | None => None
  | Some d =>
      match parse_dtype d with
      | None => None
      | Some k =>
          match extract_bool h (txt "fortran_order") with
          | None => None
          | Some f => match extract_shape h with Some sh => Some (k, sh, f) | None => None end
          end
      end
  end.
Definition is_ascii (c : ascii) : bool := (value c <? 128)%Z.
(* io.rs:504-538: the array over the bytes that follow the header.  Products are usize
   (release build: modulo 2^64).  An allocation above isize::MAX panics, any other succeeds. *)
Definition read_body (k : kind) (sh : list nat) (fortran : bool) (s : bytes) : res (kind * list bytes * arr) :=
  let item := itemsize k in
  let nbytes := wrap_usize (usize_prod sh * item) in
  if (2 ^ 63 <=? nbytes)%Z then Panic
  else if (Z.of_nat (List.length s) <? nbytes)%Z then Err
  else
    let st := if fortran then f_strides sh item else c_strides sh item in
    let f := fortran || Nat.leb (List.length (filter (fun d => Nat.ltb 1 d) sh)) 1 in
    Ok (k, chunks (Z.to_nat (nbytes / item)) (Z.to_nat item) s, mkArr 0 sh st item (negb fortran) f).
(* io.rs:459-538 read_npy: dtype, buffer and array.  String::from_utf8 is modelled by the
   test that the header is ASCII (other UTF-8 headers are rejected by the model). *)
Definition read_npy (s : bytes) : res (kind * list bytes * arr) :=
  match take 6 s with
  | None => Err
  | Some (m, s) =>
      if negb (chars_eqb m (byte 147 :: txt "NUMPY")) then Err else
      match take 2 s with
      | None => Err
      | Some (v, s) =>
          let major := value (hd (byte 0) v) in
          let width := if (major =? 1)%Z then Some 2 else if (2 <=? major)%Z then Some 4 else None in
          match width with
          | None => Err
          | Some w =>
              match take w s with
              | None => Err
              | Some (l, s) =>
                  if (Z.of_nat (List.length s) <? le_value l)%Z then Err else
                  let n := Z.to_nat (le_value l) in
                  let h := firstn n s in
                  if negb (forallb is_ascii h) then Err else
                  match parse_header h with
                  | None => Err
                  | Some (k, sh, f) => read_body k sh f (skipn n s)
                  end
              end
          end
      end
  end.

(* ---------------- raw element streams ---------------- *)
(* io.rs:662-700 frombuffer; flags.rs default = C | WRITEABLE.  usize division by a zero
   item size panics. *)
Definition frombuffer (data : bytes) (item count offset : Z) : res (list bytes * arr) :=
  if (item =? 0)%Z then Panic else
  let available := Z.max 0 (Z.of_nat (List.length data) - offset) in
  let most := (available / item)%Z in
  if (0 <=? count)%Z && (most <? count)%Z then Err else
  let n := if (count <? 0)%Z then most else count in
  Ok (chunks (Z.to_nat n) (Z.to_nat item) (skipn (Z.to_nat offset) data),
      mkArr 0 [Z.to_nat n] [item] item true false).
(* io.rs:703-764 fromfile, binary mode: a count larger than what is there is reduced *)
Definition fromfile (data : bytes) (item count offset : Z) : res (list bytes * arr) :=
  if (item =? 0)%Z then Panic else
  let available := Z.max 0 (Z.of_nat (List.length data) - offset) in
  let most := (available / item)%Z in
  let n := if (count <? 0)%Z then most else Z.min count most in
  Ok (chunks (Z.to_nat n) (Z.to_nat item) (skipn (Z.to_nat offset) data),
      mkArr 0 [Z.to_nat n] [item] item true false).

(* ---------------- npz ---------------- *)
Definition named := (bytes * (kind * list bytes * arr))%type.
Definition suffix : bytes := txt ".npy".
Definition ends_with (p s : bytes) : bool := starts_with (rev p) (rev s).
(* str::trim_end_matches(p), which removes p repeatedly; fuel = length of the text *)
Fixpoint trim_end_fuel (fuel : nat) (p s : bytes) : bytes :=
  match fuel with
  | O => s
  | S f => if ends_with p s then trim_end_fuel f p (firstn (List.length s - List.length p) s) else s
  end.
Definition trim_end_matches (p s : bytes) : bytes := trim_end_fuel (List.length s) p s.
(* io.rs:854-876 savez_impl: the members of the archive in order; zip 2.x rejects a second
   member of the same name *)
Fixpoint savez_loop (l : list named) (done : list (bytes * bytes)) : res (list (bytes * bytes)) :=
  match l with
  | [] => Ok done
  | (name, (k, buf, a)) :: l' =>
      let file := name ++ suffix in
      if existsb (fun m => chars_eqb (fst m) file) done then Err
      else bind (write_npy k buf a) (fun b => savez_loop l' (done ++ [(file, b)]))
  end.
Definition savez (l : list named) : res (list (bytes * bytes)) := savez_loop l [].
(* io.rs:880-911 load_npz *)
Fixpoint load_npz (members : list (bytes * bytes)) : res (list named) :=
  match members with
  | [] => Ok []
  | (name, b) :: ms =>
      if ends_with suffix name then
        bind (read_npy b) (fun x => bind (load_npz ms) (fun l => Ok ((trim_end_matches suffix name, x) :: l)))
      else load_npz ms
  end.
(* python/io.rs:131-142: the pairs go into a dict, later ones replacing earlier ones *)
Definition dict (l : list named) (name : bytes) : option (kind * list bytes * arr) := assoc name (rev l).
