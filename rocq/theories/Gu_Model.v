(* Generalised ufuncs: src/ops/gufunc/{signature,dims,mod}.rs, the sub-array
   extraction of src/array/views.rs, and the kernels that use them:
   src/ops/{matmul,inner,outer,dot}.rs. *)
From Coq Require Import Ascii String.
From Verif Require Import Base Arr_Spec Arr_Model Bcast_Model Idx_Model.
Local Open Scope nat_scope.
Local Open Scope list_scope.

(* ---------------- signature.rs ---------------- *)
Definition chars := list ascii.
Definition dimname := chars.
Definition chars_eqb (a b : chars) : bool := if list_eq_dec ascii_dec a b then true else false.

(* str::trim, for ASCII text *)
Definition is_space (c : ascii) : bool :=
  match nat_of_ascii c with 9 | 10 | 11 | 12 | 13 | 32 => true | _ => false end.
Fixpoint trim_start (s : chars) : chars :=
  match s with c :: s' => if is_space c then trim_start s' else s | [] => [] end.
Definition trim (s : chars) : chars := rev (trim_start (rev (trim_start s))).

(* str::split(',') *)
Fixpoint split_comma (s : chars) (cur : chars) : list chars :=
  match s with
  | [] => [rev cur]
  | c :: s' => if Ascii.eqb c ","%char then rev cur :: split_comma s' [] else split_comma s' (c :: cur)
  end.

(* signature.rs:36-59 CoreDims::parse *)
Definition parse_core (s : chars) : option (list dimname) :=
  let s := trim s in
  match s, rev s with
  | "("%char :: _, ")"%char :: _ =>
      let inner := trim (firstn (List.length s - 2) (skipn 1 s)) in
      if Nat.eqb (List.length inner) 0 then Some []
      else
        let dims := map trim (split_comma inner []) in
        if existsb (fun d => Nat.eqb (List.length d) 0) dims then None else Some dims
  | _, _ => None
  end.

(* signature.rs:117-150 parse_core_dims_list: [pos] is the byte index *)
Fixpoint core_list_loop (s rest : chars) (pos : nat) (depth : Z) (start : nat) (acc : list (list dimname))
  : option (list (list dimname)) :=
  match rest with
  | [] => if (depth =? 0)%Z then Some acc else None
  | c :: rest' =>
      if Ascii.eqb c "("%char then core_list_loop s rest' (S pos) (depth + 1) start acc
      else if Ascii.eqb c ")"%char then
        if (depth - 1 =? 0)%Z then
          match parse_core (firstn (S pos - start) (skipn start s)) with
          | None => None
          | Some d => core_list_loop s rest' (S pos) (depth - 1) start (acc ++ [d])
          end
        else core_list_loop s rest' (S pos) (depth - 1) start acc
      else if Ascii.eqb c ","%char && (depth =? 0)%Z then core_list_loop s rest' (S pos) depth (S pos) acc
      else core_list_loop s rest' (S pos) depth start acc
  end.
Definition parse_core_list (s : chars) : option (list (list dimname)) :=
  let s := trim s in
  if Nat.eqb (List.length s) 0 then Some [] else core_list_loop s s 0 0%Z 0 [].

(* str::find("->"): what comes before and after the first arrow *)
Fixpoint find_arrow (s : chars) (before : chars) : option (chars * chars) :=
  match s with
  | "-"%char :: (">"%char :: after) => Some (rev before, after)
  | c :: s' => find_arrow s' (c :: before)
  | [] => None
  end.

(* signature.rs:66-69, 77-95 GufuncSignature and its parser *)
Record gusig := mkSig { g_in : list (list dimname); g_out : list (list dimname) }.
Definition parse_sig (s : string) : option gusig :=
  match find_arrow (trim (list_ascii_of_string s)) [] with
  | None => None
  | Some (i, o) =>
      match parse_core_list i, parse_core_list o with
      | Some ins, Some outs => if Nat.eqb (List.length ins) 0 then None else Some (mkSig ins outs)
      | _, _ => None
      end
  end.

(* ---------------- dims.rs ---------------- *)
Record gudims := mkDims {
  d_loop : list nat;                  (* loop_shape *)
  d_core : list (dimname * nat);      (* core_sizes *)
  d_loop_ndims : list nat;            (* input_loop_ndims *)
  d_out_core : list (list nat)        (* output_core_shapes *)
}.
Fixpoint lookup (d : dimname) (m : list (dimname * nat)) : option nat :=
  match m with
  | [] => None
  | (d', n) :: m' => if chars_eqb d d' then Some n else lookup d m'
  end.

(* dims.rs:60-70: one operand's core axes against the sizes known so far *)
Fixpoint bind_core (dims : list dimname) (core : list nat) (m : list (dimname * nat))
  : option (list (dimname * nat)) :=
  match dims, core with
  | [], _ => Some m
  | d :: dims', n :: core' =>
      match lookup d m with
      | Some e => if Nat.eqb e n then bind_core dims' core' m else None
      | None => bind_core dims' core' ((d, n) :: m)
      end
  | _, [] => None
  end.
(* dims.rs:44-71: the loop over the operands *)
Fixpoint bind_inputs (ins : list (list dimname)) (shapes : list (list nat))
         (m : list (dimname * nat)) (loops : list (list nat))
  : option (list (dimname * nat) * list (list nat)) :=
  match ins, shapes with
  | dims :: ins', sh :: shapes' =>
      if List.length sh <? List.length dims then None
      else
        let k := List.length sh - List.length dims in
        match bind_core dims (skipn k sh) m with
        | None => None
        | Some m' => bind_inputs ins' shapes' m' (loops ++ [firstn k sh])
        end
  | _, _ => Some (m, loops)
  end.
(* dims.rs:35-97 GufuncDims::resolve (of the operands, only the shapes matter) *)
Definition resolve (sig : gusig) (shapes : list (list nat)) : option gudims :=
  if negb (Nat.eqb (List.length shapes) (List.length (g_in sig))) then None
  else
    match bind_inputs (g_in sig) shapes [] [] with
    | None => None
    | Some (m, loops) =>
        match broadcast_multi_shapes loops with
        | None => None
        | Some loop =>
            Some (mkDims loop m (map (@List.length nat) loops)
                    (map (map (fun d => match lookup d m with Some n => n | None => 1 end)) (g_out sig)))
        end
    end.
(* dims.rs:109-113 output_shape *)
Definition output_shape (d : gudims) (core : list nat) : list nat := d_loop d ++ core.

(* ---------------- views.rs:232-260 gufunc_subarray ---------------- *)
(* the isize sum is exact *)
Fixpoint gu_delta (k : nat) (sh : list nat) (st : list Z) (loop : list nat) : Z :=
  match k, sh, st, loop with
  | S k', s :: sh', x :: st', i :: loop' =>
      (Z.of_nat (if Nat.eqb s 1 then 0 else i) * x + gu_delta k' sh' st' loop')%Z
  | _, _, _, _ => 0%Z
  end.
Definition gu_sub (a : arr) (loop : list nat) (loop_ndim : nat) : arr :=
  let k := Nat.min loop_ndim (ndim a) in
  let delta := Z.max (gu_delta k (a_shape a) (a_strides a) loop) 0 in
  match skipn k (a_shape a) with
  | [] => view_with a delta [1] [a_item a]
  | sh => view_with a delta sh (skipn k (a_strides a))
  end.

(* a for loop with a mutable state *)
Fixpoint foldM {A S} (f : S -> A -> res S) (l : list A) (s : S) : res S :=
  match l with [] => Ok s | x :: l' => bind (f s x) (foldM f l') end.

(* ---------------- mod.rs:36-89 gufunc_call ---------------- *)
(* The kernel gets the core sub-arrays, the output's core sub-array and the output
   buffer, and returns the new output buffer.  All kernels of the code base have one
   output; a signature with another number of outputs is not modelled. *)
Section Call.
Context {V W : Type}.
Definition gufunc_call (sig : gusig) (kernel : list (list V * arr) -> arr -> list W -> res (list W))
           (inputs : list (list V * arr)) (zero : W) (item : Z) : res (list W * arr) :=
  match resolve sig (map (fun x => a_shape (snd x)) inputs) with
  | None => Err
  | Some d =>
      match d_out_core d with
      | [core] =>
          let out := fresh (output_shape d core) item in
          bind (foldM (fun buf loop =>
                  kernel (zip_with (fun x k => (fst x, gu_sub (snd x) loop k)) inputs (d_loop_ndims d))
                         (gu_sub out loop (List.length (d_loop d))) buf)
                (odometer (prod (d_loop d)) (repeat 0 (List.length (d_loop d))) (d_loop d))
                (repeat zero (prod (output_shape d core))))
          (fun buf => Ok (buf, out))
      | _ => Panic
      end
  end.
End Call.

Definition no_sig : gusig := mkSig [] [].
Definition sig_of (s : string) : gusig := match parse_sig s with Some g => g | None => no_sig end.
Definition matmul_sig : gusig := sig_of "(m,n),(n,p)->(m,p)".
Definition inner_sig : gusig := sig_of "(n),(n)->()".
Definition outer_sig : gusig := sig_of "(m),(n)->(m,n)".
