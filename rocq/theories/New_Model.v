(* array(list) and tolist(): src/python/creation.rs, src/array/constructors.rs,
   src/ops/mod.rs. *)
From Coq Require Import SpecFloat.
From Verif Require Import Base Int_Model F64_Model Arr_Model Rng_Model Date_Model New_Spec.

(* itemsize of the dtypes of this part *)
Definition ld_item (d : ldt) : Z := match d with LInt t => (bits t / 8)%Z | LBool => 1%Z | LF64 => 8%Z end.

(* PyO3 extract::<i64>: int and bool objects within the i64 range, an error
   (OverflowError, TypeError) otherwise *)
Definition extract_i64 (o : py) : option Z :=
  match o with
  | PInt z => if ((- 2 ^ 63 <=? z) && (z <? 2 ^ 63))%Z then Some z else None
  | PBool b => Some (if b then 1%Z else 0%Z)
  | _ => None
  end.
(* PyO3 extract::<f64>: PyFloat_AsDouble; an int is rounded to the nearest double,
   an error when that overflows *)
Definition extract_f64 (o : py) : option spec_float :=
  match o with
  | PFloat f => Some f
  | PInt z => match f64_int z with S754_infinity _ => None | x => Some x end
  | PBool b => Some (f64_int (if b then 1%Z else 0%Z))
  | _ => None
  end.

(* array/dtype/macros.rs (integers) and bool.rs:122-125 write_i64 *)
Definition write_i64 (d : ldt) (z : Z) : cell :=
  match d with
  | LInt t => CInt (wrap t z)
  | LBool => CInt (if (z =? 0)%Z then 0%Z else 1%Z)
  | LF64 => CFlt (f64_int z)
  end.
(* `x as intN`: truncation, saturating; NaN gives 0 *)
Definition as_int (t : ity) (x : spec_float) : Z :=
  match x with
  | S754_infinity s => if s then i_min t else i_max t
  | S754_nan => 0%Z
  | _ => sat t (sf_trunc x)
  end.
(* array/dtype/macros.rs write_f64, bool.rs:109-112 (val != 0.0) *)
Definition write_f64 (d : ldt) (x : spec_float) : cell :=
  match d with
  | LInt t => CInt (as_int t x)
  | LBool => CInt (match x with S754_zero _ => 0%Z | _ => 1%Z end)
  | LF64 => CFlt x
  end.

(* creation.rs:596-633 flatten_nested_list and flatten_nested_list_i64: the same
   loop with two element extractions.  The argument is a list; an item that is a
   list is flattened recursively and the first such item decides the inner shape. *)
Fixpoint flatten {A} (ex : py -> option A) (o : py) : option (list nat * list A) :=
  match o with
  | PList l =>
      (fix go (l : list py) (shape : list nat) (data : list A) : option (list nat * list A) :=
         match l with
         | [] => Some (shape, data)
         | x :: l' =>
             match x with
             | PList _ =>
                 match flatten ex x with
                 | Some (s, d) => go l' (if length shape =? 1 then shape ++ s else shape) (data ++ d)
                 | None => None
                 end
             | _ => match ex x with Some v => go l' shape (data ++ [v]) | None => None end
             end
         end) l [length l] []
  | _ => None
  end.

(* creation.rs:432-462 infer_dtype_from_list: the first scalar decides.  String
   and bytes lists are outside this model (POther gives float64 here and fails). *)
Fixpoint infer (o : py) : ldt :=
  match o with
  | PList [] => LF64
  | PList (x :: _) => infer x
  | PBool _ => LBool
  | PInt _ => LInt i64_ty
  | PFloat _ => LF64
  | POther => LF64
  end.

(* constructors.rs:29-70 from_vec, from_vec_i64: a new 1-D array *)
Definition from_cells (d : ldt) (data : list cell) : list cell * arr := (data, fresh [length data] (ld_item d)).
(* constructors.rs:48-52, 72-76: arr.reshape(shape).unwrap_or(arr) *)
Definition from_cells_with_shape (d : ldt) (data : list cell) (sh : list nat) : list cell * arr :=
  let (buf, a) := from_cells d data in
  match reshape a sh with Ok b => (buf, b) | _ => (buf, a) end.

Fixpoint all_some {A B} (f : A -> option B) (l : list A) : option (list B) :=
  match l with
  | [] => Some []
  | x :: l' => match f x, all_some f l' with Some y, Some ys => Some (y :: ys) | _, _ => None end
  end.
Definition is_list (o : py) : bool := match o with PList _ => true | _ => false end.

(* creation.rs:495-593 from_list for integer, bool and float64 dtypes *)
Definition from_list (dtype : option ldt) (l : list py) : res (ldt * (list cell * arr)) :=
  let d := match dtype with Some d => d | None => infer (PList l) end in
  match l with
  | [] => Ok (d, ([], fresh [0] (ld_item d)))
  | first :: _ =>
      if is_list first then
        let slow := match flatten extract_f64 (PList l) with
                    | Some (sh, data) => Ok (d, from_cells_with_shape d (map (write_f64 d) data) sh)
                    | None => Err
                    end in
        match d with
        | LInt _ => match flatten extract_i64 (PList l) with
                    | Some (sh, data) => Ok (d, from_cells_with_shape d (map (write_i64 d) data) sh)
                    | None => slow
                    end
        | _ => slow
        end
      else
        let slow := match all_some extract_f64 l with
                    | Some data => Ok (d, from_cells d (map (write_f64 d) data))
                    | None => Err
                    end in
        match d with
        | LInt _ => match all_some extract_i64 l with
                    | Some data => Ok (d, from_cells d (map (write_i64 d) data))
                    | None => slow
                    end
        | _ => slow
        end
  end.
(* creation.rs:313-348 array_impl on a Python list; numbers are not iterable: TypeError *)
Definition array_of_list (dtype : option ldt) (o : py) : res (ldt * (list cell * arr)) :=
  match o with PList l => from_list dtype l | _ => Err end.

(* array/dtype: read_i64 (`as i64`: wraps) and read_f64 of one element; ops/mod.rs:
   292-298 uses the first for integer dtypes only, so bool elements become floats *)
Definition read_py (d : ldt) (c : cell) : py :=
  match d, c with
  | LInt _, CInt z => PInt (wrap i64_ty z)
  | LBool, CInt z => PFloat (f64_int (if (z =? 0)%Z then 0%Z else 1%Z))
  | LF64, CFlt f => PFloat f
  | _, _ => POther
  end.
(* ops/mod.rs:274-314 to_pylist / build_list: idx is the index prefix already fixed,
   sh the remaining axes *)
Fixpoint build_list (d : ldt) (buf : list cell) (a : arr) (idx sh : list nat) : res py :=
  match sh with
  | [] => bind (of_load (get buf a idx)) (fun c => Ok (read_py d c))
  | n :: sh' => bind (mapM (fun i => build_list d buf a (idx ++ [i]) sh') (seq 0 n)) (fun l => Ok (PList l))
  end.
Definition tolist (d : ldt) (buf : list cell) (a : arr) : res py := build_list d buf a [] (a_shape a).
