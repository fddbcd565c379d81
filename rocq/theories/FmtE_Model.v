(* The text of one element in repr and str: format_element in src/array/dtype. *)
From Coq Require Import Ascii String SpecFloat.
From Verif Require Import Base Int_Model F64_Model Date_Model Io_Spec Io_Model Txt_Model Promo_Spec Cast_Spec Fmt_Spec Fmt_Model.
Local Open Scope nat_scope.
Local Open Scope list_scope.

(* str::trim_end_matches('0') *)
Fixpoint trim_zeros (t : text) : text :=
  match t with [] => [] | c :: t' => match trim_zeros t' with [] => if Ascii.eqb c "0" then [] else [c] | r => c :: r end end.
(* str::replace: left to right, without overlap; [skip] characters of a match remain *)
Fixpoint replace_from (pat rep : text) (skip : nat) (t : text) : text :=
  match t with
  | [] => []
  | c :: t' =>
      match skip with
      | S k => replace_from pat rep k t'
      | O => if text_eqb (firstn (length pat) t) pat then rep ++ replace_from pat rep (length pat - 1) t' else c :: replace_from pat rep 0 t'
      end
  end.
Definition replace (pat rep : string) (t : text) : text := replace_from (str pat) (str rep) 0 t.
(* macros.rs:166-170; float16.rs:158-162 with four digits *)
Definition float_text (p : nat) (x : spec_float) : text := trim_zeros (show_fixed p x).
(* complex128.rs:382-390, complex64.rs:379-387 with six digits *)
Definition complex_text (p : nat) (x y : spec_float) : text :=
  let t := str "(" ++ show_fixed p x ++ (if SFleb (S754_zero false) y then str "+" else []) ++ show_fixed p y ++ str "j)" in
  replace "0j" "j" (replace_from ("."%char :: repeat "0"%char p) (str ".") 0 t).
(* bool.rs:95-98; macros.rs:352-354, 554-556 for integers *)
Definition element_text (k : kind) (v : scalar) : text :=
  match k, v with
  | Bool, SInt z => if (z =? 0)%Z then str "False" else str "True"
  | _, SInt z => show_int z
  | Float16, SFlt x => float_text 4 x
  | _, SFlt x => float_text 8 x
  | Complex64, SCpx x y => complex_text 6 x y
  | _, SCpx x y => complex_text 8 x y
  end.
