(* src/ops/char.rs and src/python/char.rs (the char submodule), and
   src/array/constructors.rs:215-252 (arrays of strings).
   Memory is a list of u32 code points.  [k] is the dtype kind of an array:
   Some w = Str(w), None = any other kind.  A new string array is returned as
   its width and its memory, in row-major order. *)
From Verif Require Import Base Arr_Spec Arr_Model Char_Spec.
Local Open Scope Z_scope.

(* the code point number i after the pointer p *)
Definition cp (m : list Z) (p : Z) (i : nat) : res Z := of_load (load m 4 (p + 4 * Z.of_nat i)).

(* the start of every element: consecutive when is_c_contiguous(), else through
   iter_offsets (e.g. char.rs:77-112, 188-216) *)
Definition starts (w : nat) (a : arr) : list Z :=
  if a_c a then map (fun k => a_off a + 4 * Z.of_nat (k * w)) (seq 0 (size a))
  else map (fun o => a_off a + o) (iter_offsets a).
(* char.rs:280-330, 336-364: read_string(arr, flat_idx) always counts itemsizes
   from data_ptr, whatever the strides *)
Definition flat_starts (w : nat) (a : arr) : list Z :=
  map (fun k => a_off a + 4 * Z.of_nat (k * w)) (seq 0 (size a)).

(* char.rs:153-160 utf32_strlen *)
Fixpoint strlen_from (m : list Z) (p : Z) (i n : nat) : res nat :=
  match n with
  | O => Ok i
  | S n' => bind (cp m p i) (fun c => if c =? 0 then Ok i else strlen_from m p (S i) n')
  end.
(* the code points before the first NUL.  The loops of char.rs index src_str at
   positions below utf32_strlen only (char.rs:1412-1464 startswith excepted);
   here these are read beforehand. *)
Definition text_at (m : list Z) (w : nat) (p : Z) : res (list Z) :=
  bind (strlen_from m p 0 w) (fun n => mapM (cp m p) (seq 0 n)).
(* code points written at the start of a zeroed slot of w; Fault: past its end *)
Definition place (w : nat) (t : list Z) : res (list Z) :=
  if (length t <=? w)%nat then Ok (t ++ repeat 0 (w - length t)) else Fault.

(* ---- case ---- *)
(* char.rs:18-34 codepoint_to_upper, 38-53 codepoint_to_lower *)
Definition cp_to_upper (U : unicode) (c : Z) : Z :=
  if between 0x61 0x7A c then c - 32
  else if is_char c then match u_upper U c with [x] => x | _ => c end else c.
Definition cp_to_lower (U : unicode) (c : Z) : Z :=
  if between 0x41 0x5A c then c + 32
  else if is_char c then match u_lower U c with [x] => x | _ => c end else c.
(* char.rs:226-279 *)
Definition cp_is_alpha (U : unicode) (c : Z) : bool :=
  if c <=? 0x7F then between 0x41 0x5A c || between 0x61 0x7A c else is_char c && u_alpha U c.
Definition cp_is_digit (c : Z) : bool :=
  if c <=? 0x7F then between 0x30 0x39 c else is_char c && between 48 57 c.
Definition cp_is_alnum (U : unicode) (c : Z) : bool := cp_is_alpha U c || cp_is_digit c.
(* char::is_whitespace (the White_Space property) above ASCII *)
Definition white_space (c : Z) : bool :=
  between 9 13 c || (c =? 32) || (c =? 0x85) || (c =? 0xA0) || (c =? 0x1680) ||
  between 0x2000 0x200A c || (c =? 0x2028) || (c =? 0x2029) || (c =? 0x202F) ||
  (c =? 0x205F) || (c =? 0x3000).
Definition cp_is_space (c : Z) : bool :=
  if c <=? 0x7F then (c =? 0x20) || (c =? 9) || (c =? 10) || (c =? 11) || (c =? 12) || (c =? 13)
  else is_char c && white_space c.
Definition cp_is_upper (U : unicode) (c : Z) : bool :=
  if c <=? 0x7F then between 0x41 0x5A c else is_char c && u_isup U c.
Definition cp_is_lower (U : unicode) (c : Z) : bool :=
  if c <=? 0x7F then between 0x61 0x7A c else is_char c && u_islow U c.
Definition cp_is_cased (U : unicode) (c : Z) : bool := cp_is_upper U c || cp_is_lower U c.

(* char.rs:56-116 apply_codepoint_transform_strided *)
Definition transform (f : Z -> Z) (k : option nat) (m : list Z) (a : arr) : res (nat * list Z) :=
  match k with
  | None => Err
  | Some w =>
      bind (mapM (fun p => bind (mapM (cp m p) (seq 0 w))
                    (fun s => Ok (map (fun c => if c =? 0 then 0 else f c) s))) (starts w a))
           (fun ss => Ok (w, concat ss))
  end.
(* char.rs:122-149, 426-433 upper, lower; 1768-1780 swapcase *)
Definition upper (U : unicode) := transform (fun c =>
  if between 0x61 0x7A c then c - 32 else if c <=? 0x7F then c else cp_to_upper U c).
Definition lower (U : unicode) := transform (fun c =>
  if between 0x41 0x5A c then c + 32 else if c <=? 0x7F then c else cp_to_lower U c).
Definition swapcase (U : unicode) := transform (fun c =>
  if cp_is_upper U c then cp_to_lower U c else if cp_is_lower U c then cp_to_upper U c else c).

(* the other loops that write into a string array of the same shape: one text
   per element, g into a slot of w' code points *)
Definition write_texts (w w' : nat) (g : list Z -> list Z) (m : list Z) (ps : list Z) : res (nat * list Z) :=
  bind (mapM (fun p => bind (text_at m w p) (fun t => place w' (g t))) ps)
       (fun ss => Ok (w', concat ss)).
Definition with_width (k : option nat) (f : nat -> res (nat * list Z)) : res (nat * list Z) :=
  match k with None => Err | Some w => f w end.

(* char.rs:1642-1693 capitalize *)
Definition capitalize_text (U : unicode) (t : list Z) : list Z :=
  match t with [] => [] | c :: t' => cp_to_upper U c :: map (cp_to_lower U) t' end.
Definition capitalize (U : unicode) (k : option nat) (m : list Z) (a : arr) :=
  with_width k (fun w => write_texts w w (capitalize_text U) m (starts w a)).
(* char.rs:1696-1765 title: prev_cased is the loop variable *)
Fixpoint title_loop (U : unicode) (prev : bool) (t : list Z) : list Z :=
  match t with
  | [] => []
  | c :: t' =>
      let is := cp_is_cased U c in
      (if is then if prev then cp_to_lower U c else cp_to_upper U c else c) :: title_loop U is t'
  end.
Definition title (U : unicode) (k : option nat) (m : list Z) (a : arr) :=
  with_width k (fun w => write_texts w w (title_loop U false) m (starts w a)).

(* ---- strip ---- *)
(* char.rs:437-505 strip_fast; mode 0 both, 1 left, 2 right *)
Fixpoint skip_spaces (t : list Z) : list Z :=
  match t with [] => [] | c :: t' => if cp_is_space c then skip_spaces t' else t end.
Definition strip_text (mode : nat) (t : list Z) : list Z :=
  let t1 := if Nat.eqb mode 2 then t else skip_spaces t in
  if Nat.eqb mode 1 then t1 else rev (skip_spaces (rev t1)).
(* python/char.rs:43-72: the chars argument is ignored *)
Definition strip (mode : nat) (chars : option (list Z)) (k : option nat) (m : list Z) (a : arr) :=
  with_width k (fun w => write_texts w w (strip_text mode) m (starts w a)).

(* ---- search ---- *)
(* the inner loop over j: does sub stand at the start of s *)
Fixpoint match_at (sub s : list Z) : bool :=
  match sub, s with
  | [], _ => true
  | c :: sub', x :: s' => (x =? c) && match_at sub' s'
  | _ :: _, [] => false
  end.
Definition candidates (sub t : list Z) : list nat := seq 0 (S (length t - length sub)).
Definition first_match (sub t : list Z) : option nat :=
  if (length t <? length sub)%nat then None
  else find (fun i => match_at sub (skipn i t)) (candidates sub t).
Definition last_match (sub t : list Z) : option nat :=
  if (length t <? length sub)%nat then None
  else find (fun i => match_at sub (skipn i t)) (rev (candidates sub t)).
Definition as_i64 (o : option nat) : Z := match o with Some i => Z.of_nat i | None => -1 end.
(* integer and boolean results, one per element *)
Definition per_text {B} (g : list Z -> B) (k : option nat) (m : list Z) (a : arr) : res (list B) :=
  match k with
  | None => Err
  | Some w => mapM (fun p => bind (text_at m w p) (fun t => Ok (g t))) (starts w a)
  end.
(* char.rs:531-607 find (0 for an empty sub), 611-708 rfind (the length);
   python/char.rs:76-91: start and end are ignored *)
Definition find_text (sub t : list Z) : Z :=
  if Nat.eqb (length sub) 0 then 0 else as_i64 (first_match sub t).
Definition rfind_text (sub t : list Z) : Z :=
  if Nat.eqb (length sub) 0 then Z.of_nat (length t) else as_i64 (last_match sub t).
Definition find_str (sub : list Z) (start stop : option nat) := per_text (find_text sub).
Definition rfind_str (sub : list Z) (start stop : option nat) := per_text (rfind_text sub).
(* python/char.rs:93-131 index, rindex: ValueError as soon as one answer is -1 *)
Definition no_minus_one (l : list Z) : res (list Z) :=
  if existsb (fun z => z =? -1) l then Err else Ok l.
Definition index_str (sub : list Z) (start stop : option nat) k m a :=
  bind (find_str sub start stop k m a) no_minus_one.
Definition rindex_str (sub : list Z) (start stop : option nat) k m a :=
  bind (rfind_str sub start stop k m a) no_minus_one.
(* char.rs:1412-1464 startswith: reads the length of the prefix from each
   element, without regard to the width of the array *)
Fixpoint prefix_loop (m : list Z) (p : Z) (i : nat) (pre : list Z) : res bool :=
  match pre with
  | [] => Ok true
  | c :: pre' => bind (cp m p i) (fun x => if x =? c then prefix_loop m p (S i) pre' else Ok false)
  end.
Definition startswith (pre : list Z) (k : option nat) (m : list Z) (a : arr) : res (list bool) :=
  match k with None => Err | Some w => mapM (fun p => prefix_loop m p 0 pre) (starts w a) end.
(* char.rs:1467-1530 endswith *)
Definition endswith_text (suf t : list Z) : bool :=
  if (length suf <=? length t)%nat then match_at suf (skipn (length t - length suf) t) else false.
Definition endswith (suf : list Z) := per_text (endswith_text suf).

(* char.rs:1244-1332 count; every round of the loop advances i *)
Fixpoint count_loop (fuel : nat) (sub t : list Z) (i : nat) (cnt : Z) : Z :=
  match fuel with
  | O => cnt
  | S f =>
      if (i <=? length t - length sub)%nat then
        if match_at sub (skipn i t) then count_loop f sub t (i + length sub)%nat (cnt + 1)
        else count_loop f sub t (S i) cnt
      else cnt
  end.
Definition count_text (sub t : list Z) : Z :=
  if Nat.eqb (length sub) 0 then Z.of_nat (length t) + 1
  else if (length sub <=? length t)%nat then count_loop (S (length t)) sub t 0 0 else 0.
Definition count_str (sub : list Z) (start stop : option nat) := per_text (count_text sub).

(* char.rs:1062-1240 replace.  max_count: None is usize::MAX, which cnt (at most
   the length of a text) never reaches. *)
Definition below (cnt : nat) (mc : option nat) : bool :=
  match mc with Some n => (cnt <? n)%nat | None => true end.
(* 1092-1108, 1121-1137: first pass, number of replacements *)
Fixpoint replace_count (fuel : nat) (old t : list Z) (mc : option nat) (i cnt : nat) : nat :=
  match fuel with
  | O => cnt
  | S f =>
      if (i + length old <=? length t)%nat && below cnt mc then
        if match_at old (skipn i t) then replace_count f old t mc (i + length old) (S cnt)
        else replace_count f old t mc (S i) cnt
      else cnt
  end.
(* 1160-1193, 1203-1233: second pass *)
Fixpoint replace_loop (fuel : nat) (old new t : list Z) (mc : option nat) (i cnt : nat) : list Z :=
  match fuel with
  | O => []
  | S f =>
      match nth_error t i with
      | None => []
      | Some c =>
          if (i + length old <=? length t)%nat && below cnt mc && match_at old (skipn i t)
          then new ++ replace_loop f old new t mc (i + length old) (S cnt)
          else c :: replace_loop f old new t mc (S i) cnt
      end
  end.
Definition replace_text (old new : list Z) (mc : option nat) (t : list Z) : list Z :=
  replace_loop (S (length t)) old new t mc 0 0.
Definition replaced_len (old new : list Z) (mc : option nat) (t : list Z) : nat :=
  let cnt := replace_count (S (length t)) old t mc 0 0 in
  (length t - cnt * length old + cnt * length new)%nat.
Definition list_max_nat (l : list nat) : nat := fold_left Nat.max l 0%nat.
Definition replace (old new : list Z) (mc : option nat) (k : option nat) (m : list Z) (a : arr)
  : res (nat * list Z) :=
  with_width k (fun w =>
    if Nat.eqb (size a) 0 then Ok (w, [])
    else if Nat.eqb (length old) 0 then
      (* 1085-1087: arr.copy(), string by string (dtype/string.rs:126-129) or by memcpy *)
      write_texts w w (fun t => t) m (starts w a)
    else
      bind (mapM (fun p => bind (text_at m w p) (fun t => Ok (replaced_len old new mc t))) (starts w a))
           (fun lens => write_texts w (Nat.max w (list_max_nat lens)) (replace_text old new mc) m (starts w a))).

(* ---- partition, join ---- *)
(* char.rs:725-848 partition, 851-979 rpartition: three slots of w per element *)
Definition cut3 (sep t : list Z) (o : option nat) (none : list Z * list Z * list Z)
  : list Z * list Z * list Z :=
  match o with
  | Some i => (firstn i t, sep, skipn (i + length sep) t)
  | None => none
  end.
Definition partition_text (sep t : list Z) := cut3 sep t (first_match sep t) (t, [], []).
Definition rpartition_text (sep t : list Z) := cut3 sep t (last_match sep t) ([], [], t).
Definition place3 (w : nat) (r : list Z * list Z * list Z) : res (list Z) :=
  let '(x, y, z) := r in
  bind (place w x) (fun x' => bind (place w y) (fun y' => bind (place w z) (fun z' => Ok (x' ++ y' ++ z')))).
Definition partition_with (g : list Z -> list Z * list Z * list Z) (sep : list Z)
    (k : option nat) (m : list Z) (a : arr) : res (list nat * (nat * list Z)) :=
  match k with
  | None => Err
  | Some w =>
      if Nat.eqb (length sep) 0 then Err
      else bind (mapM (fun p => bind (text_at m w p) (fun t => place3 w (g t))) (starts w a))
                (fun ss => Ok (a_shape a ++ [3%nat], (w, concat ss)))
  end.
Definition partition (sep : list Z) := partition_with (partition_text sep) sep.
Definition rpartition (sep : list Z) := partition_with (rpartition_text sep) sep.
(* char.rs:982-1059 join *)
Definition join_text (sep t : list Z) : list Z :=
  match t with [] => [] | c :: t' => c :: flat_map (fun x => sep ++ [x]) t' end.
Definition join (sep : list Z) (k : option nat) (m : list Z) (a : arr) : res (nat * list Z) :=
  with_width k (fun w =>
    if Nat.eqb (size a) 0 then Ok (w, [])
    else write_texts w (w + (w - 1) * length sep)%nat (join_text sep) m (starts w a)).

(* ---- operations on Rust Strings ---- *)
(* char.rs:280-305 read_string: stops at NUL, drops what is not a char; "" when
   the dtype is not a string *)
Definition read_string (k : option nat) (m : list Z) (p : Z) : res (list Z) :=
  match k with
  | None => Ok []
  | Some w => bind (text_at m w p) (fun t => Ok (filter is_char t))
  end.
(* char.rs:308-332 write_string: truncates and pads *)
Definition write_string (w : nat) (t : list Z) : list Z :=
  let t' := firstn w t in t' ++ repeat 0 (w - length t').
(* char.rs:336-366 apply_unary_string_op *)
Definition unary_string (g : list Z -> list Z) (k : option nat) (m : list Z) (a : arr) : res (nat * list Z) :=
  with_width k (fun w =>
    bind (mapM (fun p => bind (read_string k m p) (fun t => Ok (g t))) (flat_starts w a))
         (fun rs => let w' := Nat.max w (list_max_nat (map (@length Z) rs)) in
                    Ok (w', concat (map (write_string w') rs)))).
(* char.rs:369-409 apply_binary_string_op *)
Fixpoint shape_eqb (s t : list nat) : bool :=
  match s, t with
  | [], [] => true
  | x :: s', y :: t' => Nat.eqb x y && shape_eqb s' t'
  | _, _ => false
  end.
Definition binary_string (g : list Z -> list Z -> list Z) (ka : option nat) (ma : list Z) (a : arr)
    (kb : option nat) (mb : list Z) (b : arr) : res (nat * list Z) :=
  match ka, kb with
  | Some wa, Some wb =>
      if shape_eqb (a_shape a) (a_shape b) then
        bind (mapM (fun pq => bind (read_string ka ma (fst pq)) (fun t =>
                              bind (read_string kb mb (snd pq)) (fun u => Ok (g t u))))
                   (combine (flat_starts wa a) (flat_starts wb b)))
             (fun rs => let w' := Nat.max (Nat.max wa wb) (list_max_nat (map (@length Z) rs)) in
                        Ok (w', concat (map (write_string w') rs)))
      else Err
  | _, _ => Err
  end.
(* char.rs:416-423 add, multiply *)
Definition add_str := binary_string (fun t u => t ++ u).
Definition multiply_str (n : nat) := unary_string (fun t => concat (repeat t n)).
(* char.rs:1580-1639 center, ljust, rjust, zfill *)
Definition center_text (width : nat) (fill : Z) (t : list Z) : list Z :=
  if (width <=? length t)%nat then t
  else let total := (width - length t)%nat in
       let l := (total / 2)%nat in
       repeat fill l ++ t ++ repeat fill (total - l).
Definition ljust_text (width : nat) (fill : Z) (t : list Z) : list Z :=
  if (width <=? length t)%nat then t else t ++ repeat fill (width - length t).
Definition rjust_text (width : nat) (fill : Z) (t : list Z) : list Z :=
  if (width <=? length t)%nat then t else repeat fill (width - length t) ++ t.
Definition zfill_text (width : nat) (t : list Z) : list Z :=
  if (width <=? length t)%nat then t
  else match t with
       | c :: t' => if (c =? 45) || (c =? 43) then c :: repeat 48 (width - length t) ++ t'
                    else repeat 48 (width - length t) ++ t
       | [] => repeat 48 width
       end.
(* python/char.rs:283-310: first character of fillchar, a space when absent or empty *)
Definition fill_of (fillchar : option (list Z)) : Z :=
  match fillchar with Some (c :: _) => c | _ => 32 end.
Definition center width fill := unary_string (center_text width (fill_of fill)).
Definition ljust width fill := unary_string (ljust_text width (fill_of fill)).
Definition rjust width fill := unary_string (rjust_text width (fill_of fill)).
Definition zfill width := unary_string (zfill_text width).
(* char.rs:1846-1867 expandtabs; python/char.rs:398-403 default 8 *)
Fixpoint tabs_loop (n col : nat) (t : list Z) : list Z :=
  match t with
  | [] => []
  | c :: t' =>
      if c =? 9 then
        let spaces := if Nat.eqb n 0 then 0%nat else (n - col mod n)%nat in
        repeat 32 spaces ++ tabs_loop n (col + spaces) t'
      else if (c =? 10) || (c =? 13) then c :: tabs_loop n 0 t'
      else c :: tabs_loop n (S col) t'
  end.
Definition expandtabs (tabsize : option nat) :=
  unary_string (tabs_loop (match tabsize with Some n => n | None => 8%nat end) 0).

(* char.rs:1335-1373 str_len *)
Definition str_len := per_text (fun t => Z.of_nat (length t)).

(* ---- comparison: char.rs:1789-1844 compare_strings ---- *)
Inductive str_cmp := CEq | CNe | CLt | CLe | CGt | CGe.
(* str::cmp compares UTF-8 bytes; UTF-8 preserves the order of code points *)
Fixpoint cmp_text (t u : list Z) : comparison :=
  match t, u with
  | [], [] => Eq
  | [], _ :: _ => Lt
  | _ :: _, [] => Gt
  | c :: t', d :: u' => match c ?= d with Eq => cmp_text t' u' | o => o end
  end.
Definition cmp_holds (op : str_cmp) (c : comparison) : bool :=
  match op, c with
  | CEq, Eq | CNe, Lt | CNe, Gt | CLt, Lt | CLe, Lt | CLe, Eq | CGt, Gt | CGe, Gt | CGe, Eq => true
  | _, _ => false
  end.
(* the item size of a dtype that is not a string does not matter: nothing is read *)
Definition width_of (k : option nat) : nat := match k with Some w => w | None => 0%nat end.
Definition compare_str (op : str_cmp) (ka : option nat) (ma : list Z) (a : arr)
    (kb : option nat) (mb : list Z) (b : arr) : res (list bool) :=
  if shape_eqb (a_shape a) (a_shape b) then
    mapM (fun pq => bind (read_string ka ma (fst pq)) (fun t =>
                    bind (read_string kb mb (snd pq)) (fun u => Ok (cmp_holds op (cmp_text t u)))))
         (combine (flat_starts (width_of ka) a) (flat_starts (width_of kb) b))
  else Err.

(* ---- predicates: char.rs:166-222 apply_predicate_fast, 1376-1410, 1532-1572 ---- *)
Definition nonempty_all (p : Z -> bool) (t : list Z) : bool :=
  negb (Nat.eqb (length t) 0) && forallb p t.
Definition isalpha (U : unicode) := per_text (nonempty_all (cp_is_alpha U)).
Definition isdigit := per_text (nonempty_all cp_is_digit).
Definition isdecimal := per_text (nonempty_all cp_is_digit).
Definition isalnum (U : unicode) := per_text (nonempty_all (cp_is_alnum U)).
Definition isspace := per_text (nonempty_all cp_is_space).
Definition isnumeric (U : unicode) := per_text (nonempty_all (fun c => is_char c && u_num U c)).
Definition isupper (U : unicode) := per_text (fun t =>
  existsb (cp_is_cased U) t && forallb (fun c => negb (cp_is_lower U c)) t).
Definition islower (U : unicode) := per_text (fun t =>
  existsb (cp_is_cased U) t && forallb (fun c => negb (cp_is_upper U c)) t).
Fixpoint istitle_loop (U : unicode) (has prev : bool) (t : list Z) : bool :=
  match t with
  | [] => has
  | c :: t' =>
      if cp_is_upper U c then (if prev then false else istitle_loop U true true t')
      else if cp_is_lower U c then (if prev then istitle_loop U true true t' else false)
      else istitle_loop U has false t'
  end.
Definition istitle (U : unicode) := per_text (istitle_loop U false false).

(* ---- arrays of strings ---- *)
(* array/constructors.rs:215-246 from_vec_str *)
Definition from_vec_str (w : nat) (data : list (list Z)) : nat * list Z :=
  (w, concat (map (write_string w) data)).
(* python/creation.rs:450-453, 464-477: without a dtype, the width of the longest
   string; dtype/mod.rs:467: "str" is Str(0); dtype/mod.rs:471-476: "U<n>" is Str(n) *)
Inductive str_dtype := DtNone | DtStr | DtU (n : nat).
Definition array_of_strings (dt : str_dtype) (data : list (list Z)) : nat * list Z :=
  from_vec_str (match dt with
                | DtNone => list_max_nat (map (@length Z) data)
                | DtStr => 0%nat
                | DtU n => n
                end) data.
