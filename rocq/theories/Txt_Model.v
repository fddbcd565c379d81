(* Text files: src/ops/io.rs:13-363 (loadtxt, savetxt, format_value, genfromtxt) and
   src/python/io.rs:11-102.  A file is the list of its characters; the model is for
   ASCII text.  Errors of the operating system are left out.  Rust's formatting and
   parsing of f64 are outside the project: {:.pe} and {:.p} are modelled as correctly
   rounded decimals, from_str as the nearest double (what their documentation
   promises), {} by a parameter. *)
From Coq Require Import Ascii String SpecFloat.
From Verif Require Import Base Int_Model F64_Model Arr_Model Copy_Model Rng_Model Date_Model Gu_Model Io_Spec Io_Model New_Spec New_Model.
Local Open Scope nat_scope.
Local Open Scope list_scope.

(* ---- f64 and decimal text ---------------------------------------------------------- *)
(* the fraction num/den divided by b^k *)
Definition scaled (b : Z) (k : Z) (q : Z * Z) : Z * Z :=
  (if 0 <=? k then (fst q, snd q * b ^ k) else (fst q * b ^ (- k), snd q))%Z.
Definition rne_q (q : Z * Z) : Z := rne (fst q) (snd q).
(* m * 2^e as a fraction *)
Definition fraction (m : positive) (e : Z) : Z * Z := scaled 2 (- e) (Zpos m, 1%Z).

(* p+1 significant digits of a positive fraction of at least 10^-400: the digits D and
   the exponent k of D * 10^(k-p).  Ties go to the even digit. *)
Definition decimal_exponent (q : Z * Z) : Z := (Z.of_nat (List.length (digits (fst q * 10 ^ 400 / snd q))) - 401)%Z.
Definition sci (p : nat) (q : Z * Z) : Z * Z :=
  let k := decimal_exponent q in
  let d := rne_q (scaled 10 (k - Z.of_nat p) q) in
  (if d =? 10 ^ (Z.of_nat p + 1) then (10 ^ Z.of_nat p, k + 1) else (d, k))%Z.
Definition show_int (z : Z) : bytes := if (z <? 0)%Z then "-"%char :: digits (- z) else digits z.
Definition sign_text (s : bool) : bytes := if s then txt "-" else [].
Definition with_point (t : bytes) : bytes := match t with c :: x :: r => c :: "."%char :: x :: r | _ => t end.
(* format!("{:.p$e}") *)
Definition show_sci (p : nat) (x : spec_float) : bytes :=
  match x with
  | S754_nan => txt "NaN"
  | S754_infinity s => sign_text s ++ txt "inf"
  | S754_zero s => sign_text s ++ with_point (repeat "0"%char (p + 1)) ++ txt "e0"
  | S754_finite s m e => let '(d, k) := sci p (fraction m e) in sign_text s ++ with_point (digits d) ++ txt "e" ++ show_int k
  end.
(* format!("{:.p$}") *)
Definition show_fixed (p : nat) (x : spec_float) : bytes :=
  match x with
  | S754_nan => txt "NaN"
  | S754_infinity s => sign_text s ++ txt "inf"
  | S754_zero s => sign_text s ++ txt "0" ++ (if p =? 0 then [] else "."%char :: repeat "0"%char p)
  | S754_finite s m e =>
      let n := rne_q (scaled 10 (- Z.of_nat p) (fraction m e)) in
      sign_text s ++ digits (n / 10 ^ Z.of_nat p) ++ (if p =? 0 then [] else "."%char :: pad p (n mod 10 ^ Z.of_nat p))
  end.

(* the double nearest to a positive fraction, ties to even *)
Definition log2_q (q : Z * Z) : Z :=
  let l := (Z.log2 (fst q) - Z.log2 (snd q))%Z in
  let r := scaled 2 l q in if (fst r <? snd r)%Z then (l - 1)%Z else l.
Definition nearest (s : bool) (q : Z * Z) : spec_float :=
  let e := Z.max (log2_q q - 52) (-1074) in
  match rne_q (scaled 2 e q) with
  | Zpos m => let '(m', e') := if (Zpos m =? 2 ^ 53)%Z then (4503599627370496%positive, (e + 1)%Z) else (m, e) in
              if (971 <? e')%Z then S754_infinity s else S754_finite s m' e'
  | _ => S754_zero s
  end.
Definition of_decimal (s : bool) (d e : Z) : spec_float :=
  if (d =? 0)%Z then S754_zero s else nearest s (scaled 10 (- e) (d, 1%Z)).

(* f64::from_str *)
Definition numeric (c : ascii) : bool := match is_digit c with Some _ => true | None => false end.
Fixpoint span_digits (s : bytes) : bytes * bytes :=
  match s with
  | c :: s' => if numeric c then let '(a, b) := span_digits s' in (c :: a, b) else ([], s)
  | [] => ([], [])
  end.
Definition one_of (l : bytes) (c : ascii) : bool := existsb (Ascii.eqb c) l.
Definition take_sign (s : bytes) : bool * bytes :=
  match s with
  | c :: s' => if Ascii.eqb c "-" then (true, s') else if Ascii.eqb c "+" then (false, s') else (false, s)
  | [] => (false, [])
  end.
(* the optional exponent must be the rest of the text *)
Definition parse_exponent (s : bytes) : option Z :=
  match s with
  | [] => Some 0%Z
  | c :: s' =>
      if one_of (txt "eE") c then
        let '(neg, t) := take_sign s' in
        match t with
        | [] => None
        | _ => option_map (fun z => if neg then (- z)%Z else z) (number t 0)
        end
      else None
  end.
Definition parse_decimal (s : bytes) : option (Z * Z) :=
  let '(ip, r) := span_digits s in
  let '(fp, r') := match r with c :: r1 => if Ascii.eqb c "." then span_digits r1 else ([], r) | [] => ([], []) end in
  match ip ++ fp with
  | [] => None
  | ds => match number ds 0, parse_exponent r' with
          | Some d, Some e => Some (d, (e - Z.of_nat (List.length fp))%Z)
          | _, _ => None
          end
  end.
Definition lower (c : ascii) : ascii := if ((65 <=? value c) && (value c <=? 90))%Z then byte (value c + 32) else c.
Definition parse_f64 (s : bytes) : option spec_float :=
  let '(neg, t) := take_sign s in
  match parse_decimal t with
  | Some (d, e) => Some (of_decimal neg d e)
  | None =>
      let w := map lower t in
      if chars_eqb w (txt "inf") || chars_eqb w (txt "infinity") then Some (S754_infinity neg)
      else if chars_eqb w (txt "nan") then Some S754_nan else None
  end.

(* ---- lines and fields -------------------------------------------------------------- *)
Definition nl : ascii := byte 10.
Definition cr : ascii := byte 13.
Definition strip_cr (s : bytes) : bytes :=
  match rev s with c :: r => if Ascii.eqb c cr then rev r else s | [] => s end.
(* BufRead::lines and str::lines: what follows the last newline is a line if not empty *)
Definition lines (s : bytes) : list bytes :=
  let ps := split nl s in
  map strip_cr (removelast ps) ++ match last ps [] with [] => [] | l => [l] end.
(* str::split_whitespace *)
Fixpoint words (cur s : bytes) : list bytes :=
  match s with
  | [] => match cur with [] => [] | _ => [rev cur] end
  | c :: s' => if is_space c then match cur with [] => words [] s' | _ => rev cur :: words [] s' end
               else words (c :: cur) s'
  end.
(* str::split(d) for a nonempty d; k characters of a separator are still to be skipped *)
Fixpoint split_at (d : bytes) (k : nat) (cur s : bytes) : list bytes :=
  match s with
  | [] => [rev cur]
  | c :: s' =>
      match k with
      | S k' => split_at d k' cur s'
      | O => if starts_with d s then rev cur :: split_at d (List.length d - 1) [] s' else split_at d 0 (c :: cur) s'
      end
  end.
(* io.rs:49-54, 305-310 *)
Definition fields (delim : bytes) (t : bytes) : list bytes :=
  match delim with [] => words [] t | _ => map trim (split_at delim 0 [] t) end.
(* io.rs:57-63, 313-319: columns that do not exist are dropped *)
Definition choose_cols (usecols : option (list nat)) (vs : list bytes) : list bytes :=
  match usecols with Some cols => filter_map (nth_error vs) cols | None => vs end.
(* io.rs:44-46, 299-302 *)
Definition ignored (comments t : bytes) : bool :=
  match t with [] => true | _ => match comments with [] => false | _ => starts_with comments t end end.

(* ---- loadtxt and genfromtxt -------------------------------------------------------- *)
(* io.rs:30-88 and 281-350: the loop over the lines after the skipped ones.  [field]
   turns one field into a number; the state is ncols, nrows and the numbers so far. *)
Fixpoint scan (field : bytes -> res spec_float) (comments delim : bytes) (usecols : option (list nat)) (max_rows : option nat)
    (ls : list bytes) (ncols : option nat) (nrows : nat) (data : list spec_float) : res (option nat * nat * list spec_float) :=
  match ls with
  | [] => Ok (ncols, nrows, data)
  | l :: ls' =>
      if match max_rows with Some m => m <=? nrows | None => false end then Ok (ncols, nrows, data)
      else
        let t := trim l in
        if ignored comments t then scan field comments delim usecols max_rows ls' ncols nrows data
        else
          let sel := choose_cols usecols (fields delim t) in
          if match ncols with Some n => negb (n =? List.length sel) | None => false end then Err
          else bind (mapM field sel) (fun vs =>
               scan field comments delim usecols max_rows ls' (Some (List.length sel)) (S nrows) (data ++ vs))
  end.
(* io.rs:90-102, 352-363: the numbers fill the shape, so the reshape of
   from_vec_with_shape does not fail (sizes below 2^64) *)
Definition table (d : ldt) (r : option nat * nat * list spec_float) : list nat * list cell :=
  let '(ncols, nrows, data) := r in
  if nrows =? 0 then ([0; 0], [])
  else
    let n := match ncols with Some n => n | None => 0 end in
    ((if n =? 1 then [nrows] else [nrows; n]), map (write_f64 d) data).

Definition opt_text (o : option bytes) : bytes := match o with Some d => d | None => [] end.
(* io.rs:13-103 *)
Definition number_field (s : bytes) : res spec_float := match parse_f64 s with Some x => Ok x | None => Err end.
Definition loadtxt (file : bytes) (d : ldt) (comments : bytes) (delim : option bytes) (skiprows : nat)
    (usecols : option (list nat)) (max_rows : option nat) : res (list nat * list cell) :=
  bind (scan number_field comments (opt_text delim) usecols max_rows (skipn skiprows (lines file)) None 0 [])
       (fun r => Ok (table d r)).
(* io.rs:252-363; lines() fails on nothing but I/O errors here *)
Definition filled_field (missing : bytes) (filling : spec_float) (s : bytes) : res spec_float :=
  Ok (match s with
      | [] => filling
      | _ => if chars_eqb s missing then filling else match parse_f64 s with Some x => x | None => filling end
      end).
Definition genfromtxt (file : bytes) (d : ldt) (comments : bytes) (delim : option bytes) (skip_header skip_footer : nat)
    (usecols : option (list nat)) (missing : bytes) (filling : spec_float) (max_rows : option nat) : res (list nat * list cell) :=
  let ls := lines file in
  bind (scan (filled_field missing filling) comments (opt_text delim) usecols max_rows
             (skipn skip_header (firstn (List.length ls - skip_footer) ls)) None 0 [])
       (fun r => Ok (table d r)).

(* python/io.rs:11-34, 61-102: defaults *)
Definition or_else {A} (o : option A) (x : A) : A := match o with Some y => y | None => x end.
Definition py_loadtxt (file : bytes) (d : option ldt) (comments delim : option bytes) (skiprows : option nat)
    (usecols : option (list nat)) (max_rows : option nat) :=
  loadtxt file (or_else d LF64) (or_else comments (txt "#")) delim (or_else skiprows 0) usecols max_rows.
Definition py_genfromtxt (file : bytes) (d : option ldt) (comments delim : option bytes) (skip_header skip_footer : option nat)
    (usecols : option (list nat)) (missing : option bytes) (filling : option spec_float) (max_rows : option nat) :=
  genfromtxt file (or_else d LF64) (or_else comments (txt "#")) delim (or_else skip_header 0) (or_else skip_footer 0)
    usecols (or_else missing []) (or_else filling S754_nan) max_rows.

(* ---- savetxt ----------------------------------------------------------------------- *)
Section Save.
Variable display : spec_float -> bytes.        (* format!("{}") *)
Variable powi10 : Z -> spec_float.             (* 10f64.powi(p) *)
Variable f1em4 : spec_float.                   (* the literal 1e-4 *)

(* val as i64 *)
Definition show_i64 (x : spec_float) : bytes :=
  match write_f64 (LInt i64_ty) x with CInt z => show_int z | CFlt _ => [] end.
(* fmt[2..fmt.len()-1].parse::<usize>() *)
Definition precision (fmt : bytes) : option nat := option_map Z.to_nat (parse_usize (removelast (skipn 2 fmt))).
(* io.rs:216-249 format_value *)
Definition format_value (x : spec_float) (fmt : bytes) : bytes :=
  if chars_eqb fmt [] || chars_eqb fmt (txt "%.18e") then show_sci 18 x
  else if starts_with (txt "%.") fmt && ends_with (txt "e") fmt then
    match precision fmt with Some p => show_sci p x | None => show_sci 18 x end
  else if starts_with (txt "%.") fmt && ends_with (txt "f") fmt then
    match precision fmt with Some p => show_fixed p x | None => display x end
  else if starts_with (txt "%.") fmt && ends_with (txt "g") fmt then
    match precision fmt with
    | Some p => if SFltb (SFabs x) f1em4 || SFleb (powi10 (Z.of_nat p)) (SFabs x) then show_sci p x else show_fixed p x
    | None => display x
    end
  else if starts_with (txt "%") fmt && ends_with (txt "d") fmt then show_i64 x
  else display x.

(* io.rs:119-132, 195-208 *)
Definition comment_lines (comments newline text : bytes) : bytes :=
  flat_map (fun l => comments ++ l ++ newline) (lines text).
Context {V : Type}.
Variable rd : V -> option spec_float.          (* DTypeOps::read_f64; None for complex *)
(* read_f64(..).unwrap_or(0.0) *)
Definition number_of (v : V) : spec_float := match rd v with Some x => x | None => S754_zero false end.
(* io.rs:106-213 *)
Definition save_rows (buf : list V) (a : arr) (delimiter newline fmt : bytes) : res bytes :=
  match a_shape a with
  | [] => bind (read buf a 0) (fun v => Ok (format_value (number_of v) fmt ++ newline))
  | [_] => bind (mapM (read buf a) (iter_offsets a)) (fun vs =>
           Ok (flat_map (fun v => format_value (number_of v) fmt ++ newline) vs))
  | nrows :: rest =>
      let ncols := prod rest in
      bind (mapM (fun row =>
        bind (mapM (fun col => bind (match nth_error (iter_offsets a) (row * ncols + col) with Some o => Ok o | None => Panic end)
                                    (fun o => bind (read buf a o) (fun v => Ok (format_value (number_of v) fmt))))
                   (seq 0 ncols)) (fun cs => Ok (join delimiter cs ++ newline)))
        (seq 0 nrows)) (fun rs => Ok (concat rs))
  end.
Definition savetxt (buf : list V) (a : arr) (delimiter newline header footer fmt comments : bytes) : res bytes :=
  bind (save_rows buf a delimiter newline fmt) (fun body =>
  Ok (comment_lines comments newline header ++ body ++ comment_lines comments newline footer)).
(* python/io.rs:36-59: defaults *)
Definition py_savetxt (buf : list V) (a : arr) (fmt delimiter newline header footer comments : option bytes) : res bytes :=
  savetxt buf a (or_else delimiter (txt " ")) (or_else newline [nl]) (or_else header []) (or_else footer [])
    (or_else fmt (txt "%.18e")) (or_else comments (txt "# ")).
End Save.
