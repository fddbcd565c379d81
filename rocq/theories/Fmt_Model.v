(* repr and str of an array: src/array/format.rs.  The text of one element is a
   parameter (FmtE_Model has the dtypes'); texts are ASCII, so bytes and characters agree. *)
From Coq Require Import Ascii String.
From Verif Require Import Base Arr_Model Copy_Model Fmt_Spec.
Local Open Scope nat_scope.
Local Open Scope list_scope.

Definition str (s : string) : text := list_ascii_of_string s.
(* [T]::join *)
Fixpoint join (sep : text) (l : list text) : text :=
  match l with [] => [] | [t] => t | t :: l' => t ++ sep ++ join sep l' end.
(* str::trim_end, for separators *)
Fixpoint trim_end (t : text) : text :=
  match t with [] => [] | c :: t' => match trim_end t' with [] => if Ascii.eqb c " " then [] else [c] | r => c :: r end end.
Definition blanks (n : nat) : text := repeat " "%char n.
(* format!("{:>w$}") *)
Definition right_align (w : nat) (t : text) : text := blanks (w - length t) ++ t.
(* format.rs:90-104 display_indices *)
Definition display_indices (d : nat) (truncate : bool) (edge : nat) : list nat * bool :=
  if truncate && (2 * edge <? d) then (seq 0 edge ++ seq (d - edge) edge, true) else (seq 0 d, false).

Section Format.
Context {V : Type}.
Variable show : V -> text.
Variables (buf : list V) (a : arr).

(* format_element at an index *)
Definition element_at (idx : list nat) : res text := bind (read buf a (byte_offset_for a idx)) (fun v => Ok (show v)).
(* format.rs:107-144 collect_elements; [rest] are the lengths of the axes after the prefix *)
Fixpoint collect (truncate : bool) (edge : nat) (rest prefix : list nat) : res (list text) :=
  match rest with
  | [] => bind (element_at prefix) (fun t => Ok [t])
  | d :: rest' =>
      bind (mapM (fun i => collect truncate edge rest' (prefix ++ [i])) (fst (display_indices d truncate edge))) (fun l =>
      Ok (concat l))
  end.
(* format.rs:170-174: the dots go before the part numbered edgeitems *)
Definition with_dots (ellipsis : bool) (edge : nat) (parts : list text) : list text :=
  if ellipsis then firstn edge parts ++ [str "..."] ++ skipn edge parts else parts.
(* format.rs:147-201 format_recursive *)
Fixpoint format_rec (sep : text) (truncate : bool) (edge width base : nat) (rest prefix : list nat) : res text :=
  match rest with
  | [] => bind (element_at prefix) (fun t => Ok (right_align width t))
  | d :: rest' =>
      let (ind, ellipsis) := display_indices d truncate edge in
      bind (mapM (fun i => format_rec sep truncate edge width base rest' (prefix ++ [i])) ind) (fun parts =>
      let inner := match rest' with
                   | [] => sep
                   | [_] => trim_end sep ++ [newline] ++ blanks (base + length prefix)
                   | _ => trim_end sep ++ [newline; newline] ++ blanks (base + length prefix)
                   end in
      Ok (str "[" ++ join inner (with_dots ellipsis edge parts) ++ str "]"))
  end.
(* format.rs:67-86 format_data *)
Definition format_data (sep : text) (truncate : bool) (edge base : nat) : res text :=
  if size a =? 0 then Ok (str "[]")
  else bind (collect truncate edge (a_shape a) []) (fun l =>
       format_rec sep truncate edge (list_max (map (@length ascii) l)) base (a_shape a) []).
(* format.rs:57-63 format_str *)
Definition format_str : res text := format_data (str " ") (1000 <? size a) 3 1.
(* format.rs:8-54 format_repr; [name]: the dtype's name, [needs_dtype]: it is not int64,
   float64 or bool; [shape_text]: the shape as a tuple *)
Definition format_repr (name shape_text : text) (needs_dtype : bool) : res text :=
  let truncate := 1000 <? size a in
  bind (format_data (str ", ") truncate 3 7) (fun data =>
  let dtype := str ", dtype=" ++ name in
  let suffix := if size a =? 0 then dtype
                else if truncate && needs_dtype then str ", shape=" ++ shape_text ++ dtype
                else if truncate then str ", shape=" ++ shape_text
                else if needs_dtype then dtype else [] in
  Ok (str "array(" ++ data ++ suffix ++ str ")")).
End Format.
