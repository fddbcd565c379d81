(* What the string functions should compute, on texts = lists of code points. *)
From Verif Require Import Base Arr_Spec Arr_Model Arr_Wf.
Local Open Scope Z_scope.

(* a Unicode scalar value: a code point that is not a surrogate *)
Definition is_char (c : Z) : bool :=
  ((0 <=? c) && (c <? 0xD800)) || ((0xE000 <=? c) && (c <=? 0x10FFFF)).

(* a text: scalar values, none of them NUL *)
Definition text (t : list Z) : Prop := Forall (fun c => is_char c = true /\ c <> 0) t.
Definition fits (w : nat) (t : list Z) : Prop := text t /\ (length t <= w)%nat.

(* memory of a string array of width w: every text padded with NULs to w code points *)
Definition pad (w : nat) (t : list Z) : list Z := t ++ repeat 0 (w - length t).
Definition strs (w : nat) (ts : list (list Z)) : list Z := concat (map (pad w) ts).

(* the view [a] of the texts [ts], each stored in w code points of 4 bytes *)
Record string_array (w : nat) (ts : list (list Z)) (a : arr) : Prop := {
  sa_pos : (0 < w)%nat;
  sa_fits : Forall (fits w) ts;
  sa_wf : wf ts a;
  sa_item : a_item a = 4 * Z.of_nat w
}.

(* ts' lists, in row-major order, the images of the elements of the view *)
Definition elementwise {B} (f : list Z -> B) (ts : list (list Z)) (a : arr) (out : list B) : Prop :=
  length out = size a /\
  forall idx t, inb idx (a_shape a) -> get ts a idx = Some t ->
    nth_error out (rm_rank (a_shape a) idx) = Some (f t).
Definition elementwise2 {B} (f : list Z -> list Z -> B) (ts : list (list Z)) (a : arr)
    (us : list (list Z)) (b : arr) (out : list B) : Prop :=
  length out = size a /\
  forall idx t u, inb idx (a_shape a) -> get ts a idx = Some t -> get us b idx = Some u ->
    nth_error out (rm_rank (a_shape a) idx) = Some (f t u).

(* the same with a relation in place of a function *)
Definition related {B} (R : list Z -> B -> Prop) (ts : list (list Z)) (a : arr) (out : list B) : Prop :=
  length out = size a /\
  forall idx t, inb idx (a_shape a) -> get ts a idx = Some t ->
    exists r, nth_error out (rm_rank (a_shape a) idx) = Some r /\ R t r.

(* the character tables of the Unicode standard *)
Record unicode := mkUni {
  u_upper : Z -> list Z;   (* full upper-case mapping of a character *)
  u_lower : Z -> list Z;
  u_alpha : Z -> bool;     (* letters *)
  u_isup : Z -> bool;      (* upper-case letters *)
  u_islow : Z -> bool;     (* lower-case letters *)
  u_digit : Z -> bool;     (* decimal digits of any script *)
  u_num : Z -> bool        (* numeric characters *)
}.
Definition between (lo hi c : Z) : bool := (lo <=? c) && (c <=? hi).
Definition up_letter (c : Z) : bool := between 65 90 c.
Definition low_letter (c : Z) : bool := between 97 122 c.
(* what the tables say about ASCII characters *)
Definition ascii_tables (U : unicode) : Prop := forall c, 0 <= c <= 127 ->
  u_upper U c = [if low_letter c then c - 32 else c] /\
  u_lower U c = [if up_letter c then c + 32 else c] /\
  u_alpha U c = (up_letter c || low_letter c) /\
  u_isup U c = up_letter c /\ u_islow U c = low_letter c /\
  u_digit U c = between 48 57 c /\ u_num U c = between 48 57 c.
Definition cased (U : unicode) (c : Z) : bool := u_isup U c || u_islow U c.
Definition ascii (t : list Z) : Prop := Forall (fun c => 0 <= c <= 127) t.

(* case mappings *)
Definition one_to_one (m : Z -> list Z) (t : list Z) : Prop := Forall (fun c => length (m c) = 1%nat) t.
Definition swap_cp (U : unicode) (c : Z) : list Z :=
  if u_isup U c then u_lower U c else if u_islow U c then u_upper U c else [c].
(* first character upper-case, the others lower-case *)
Definition capitalized (U : unicode) (t : list Z) : list Z :=
  match t with [] => [] | c :: t' => u_upper U c ++ flat_map (u_lower U) t' end.
(* position i of a titled text, from the original text *)
Definition titled_at (U : unicode) (t : list Z) (i : nat) : list Z :=
  let c := nth i t 0 in
  if negb (cased U c) then [c]
  else match i with
       | O => u_upper U c
       | S j => if cased U (nth j t 0) then u_lower U c else u_upper U c
       end.
Definition titled (U : unicode) (t : list Z) : list Z := flat_map (titled_at U t) (seq 0 (length t)).

(* white space *)
Definition py_space (c : Z) : bool :=   (* Python str.isspace *)
  between 9 13 c || between 28 32 c || (c =? 0x85) || (c =? 0xA0) || (c =? 0x1680) ||
  between 0x2000 0x200A c || (c =? 0x2028) || (c =? 0x2029) || (c =? 0x202F) ||
  (c =? 0x205F) || (c =? 0x3000).
(* r is t without its leading / trailing characters satisfying p *)
Definition stripped (p : Z -> bool) (left right : bool) (t r : list Z) : Prop :=
  exists pre post, t = pre ++ r ++ post /\ forallb p pre = true /\ forallb p post = true /\
    (if left then match r with [] => True | c :: _ => p c = false end else pre = []) /\
    (if right then match rev r with [] => True | c :: _ => p c = false end else post = []).

(* occurrences *)
Definition occurs_at (sub t : list Z) (i : nat) : Prop :=
  exists u v, t = u ++ sub ++ v /\ length u = i.
Definition first_occ (sub t : list Z) (i : nat) : Prop :=
  occurs_at sub t i /\ forall j, occurs_at sub t j -> (i <= j)%nat.
Definition last_occ (sub t : list Z) (i : nat) : Prop :=
  occurs_at sub t i /\ forall j, occurs_at sub t j -> (j <= i)%nat.
(* the answer of find: lowest (highest) position, -1 when there is none *)
Definition found (occ : list Z -> list Z -> nat -> Prop) (sub t : list Z) (r : Z) : Prop :=
  (exists i, occ sub t i /\ r = Z.of_nat i) \/ ((forall i, ~ occurs_at sub t i) /\ r = -1).

(* t cut at the left-most non-overlapping occurrences of sub, at most n cuts *)
Inductive pieces (sub : list Z) : option nat -> list Z -> list (list Z) -> Prop :=
| pieces_none t : pieces sub (Some 0%nat) t [t]
| pieces_last n t : (forall i, ~ occurs_at sub t i) -> pieces sub n t [t]
| pieces_cut n t i ps : n <> Some 0%nat -> first_occ sub t i ->
    pieces sub (option_map Nat.pred n) (skipn (i + length sub) t) ps ->
    pieces sub n t (firstn i t :: ps).
Fixpoint intercalate (sep : list Z) (ps : list (list Z)) : list Z :=
  match ps with [] => [] | [p] => p | p :: ps' => p ++ sep ++ intercalate sep ps' end.

(* t cut in three at the first (last) occurrence of sep *)
Definition partitioned (sep t : list Z) (r : list Z * list Z * list Z) : Prop :=
  let '(x, y, z) := r in
  (exists i, first_occ sep t i /\ x = firstn i t /\ y = sep /\ z = skipn (i + length sep) t) \/
  ((forall i, ~ occurs_at sep t i) /\ x = t /\ y = [] /\ z = []).
Definition rpartitioned (sep t : list Z) (r : list Z * list Z * list Z) : Prop :=
  let '(x, y, z) := r in
  (exists i, last_occ sep t i /\ x = firstn i t /\ y = sep /\ z = skipn (i + length sep) t) \/
  ((forall i, ~ occurs_at sep t i) /\ x = [] /\ y = [] /\ z = t).

(* justification *)
Definition ljust_spec (n : nat) (c : Z) (t : list Z) : list Z := t ++ repeat c (n - length t).
Definition rjust_spec (n : nat) (c : Z) (t : list Z) : list Z := repeat c (n - length t) ++ t.
(* Python str.center: the odd space goes left exactly when the width is odd *)
Definition center_spec (n : nat) (c : Z) (t : list Z) : list Z :=
  let p := (n - length t)%nat in
  let l := (p / 2 + (if Nat.odd p && Nat.odd n then 1 else 0))%nat in
  repeat c l ++ t ++ repeat c (p - l).
Definition zfill_spec (n : nat) (t : list Z) : list Z :=
  match t with
  | c :: t' => if (c =? 43) || (c =? 45) then c :: repeat 48 (n - length t) ++ t'
               else repeat 48 (n - length t) ++ t
  | [] => repeat 48 n
  end.
(* column after a text, counted from the last line break *)
Fixpoint column (t : list Z) (col : nat) : nat :=
  match t with
  | [] => col
  | c :: t' => column t' (if (c =? 10) || (c =? 13) then 0%nat else S col)
  end.
(* tabs replaced by spaces up to the next multiple of n columns *)
Inductive tabs_expanded (n : nat) : list Z -> list Z -> Prop :=
| tabs_nil : tabs_expanded n [] []
| tabs_char t r c : tabs_expanded n t r -> c <> 9 -> tabs_expanded n (t ++ [c]) (r ++ [c])
| tabs_tab t r k : tabs_expanded n t r ->
    (n = 0%nat -> k = 0%nat) ->
    (n <> 0%nat -> (1 <= k <= n)%nat /\ ((column r 0 + k) mod n = 0)%nat) ->
    tabs_expanded n (t ++ [9]) (r ++ repeat 32 k).

(* lexicographic order of code points *)
Inductive lex : list Z -> list Z -> Prop :=
| lex_nil c t : lex [] (c :: t)
| lex_lt c d t u : c < d -> lex (c :: t) (d :: u)
| lex_eq c t u : lex t u -> lex (c :: t) (c :: u).

(* predicates *)
Definition all_of (p : Z -> bool) (t : list Z) : bool := negb (Nat.eqb (length t) 0) && forallb p t.
Definition some_cased (U : unicode) (t : list Z) : bool := existsb (cased U) t.
(* title case: an upper-case letter never follows a cased one, a lower-case one always does *)
Definition is_titled (U : unicode) (t : list Z) : Prop :=
  (exists c, In c t /\ cased U c = true) /\
  forall i c, nth_error t i = Some c ->
    let after := match i with O => false | S j => cased U (nth j t 0) end in
    (u_isup U c = true -> after = false) /\
    (u_isup U c = false -> u_islow U c = true -> after = true).
