(* C163: what repr and str of an array show. *)
From Coq Require Import Ascii String.
From Verif Require Import Base Lists Arr_Spec Arr_Model Arr_Wf Arr_Proofs Wf_Check Copy_Model Sel_Ops2 Cast_Proofs Fmt_Spec Fmt_Model Fmt_Proofs.
Local Open Scope nat_scope.
Local Open Scope list_scope.

(* str of an array with elements is the nested list of the texts of its elements in index
   order, whatever its layout; with more than 1000 elements, long axes are abbreviated *)
Theorem C163_str {V} (show : V -> text) buf a :
  wf buf a -> printable show buf a -> size a <> 0 ->
  exists t, format_str show buf a = Ok t /\ tokens t = nested (1000 <? size a) (a_shape a) (shown_at show buf a).
Proof. intros W P N. apply format_data_ok; try assumption. split; [discriminate|]. repeat constructor. Qed.

(* repr shows the same list inside array(...), with the dtype when it is not a default one *)
Theorem C163_repr {V} (show : V -> text) buf a name shape_text needs_dtype :
  wf buf a -> printable show buf a -> size a <> 0 ->
  exists data suffix, format_repr show buf a name shape_text needs_dtype = Ok (str "array(" ++ data ++ suffix ++ str ")") /\
    tokens data = nested (1000 <? size a) (a_shape a) (shown_at show buf a) /\
    suffix = (if 1000 <? size a then str ", shape=" ++ shape_text else []) ++ (if needs_dtype then str ", dtype=" ++ name else []).
Proof.
  intros W P N. destruct (format_data_ok show buf a (str ", ") (1000 <? size a) 7) as (t & E & T); try assumption.
  { split; [discriminate|]. repeat constructor. }
  unfold format_repr. rewrite E. cbn [bind]. destruct (Nat.eqb_spec (size a) 0) as [E0|_]; [contradiction|].
  eexists; eexists. split; [reflexivity|]. split; [exact T|].
  destruct (1000 <? size a), needs_dtype; cbn [andb]; rewrite ?app_nil_r, <- ?app_assoc; reflexivity.
Qed.

(* arrays of at most 1000 elements with the same printed form have the same shape and the
   same texts of elements: a view, a copy, any layout *)
Theorem C163_faithful {V W} (show : V -> text) (show' : W -> text) buf a buf' a' t :
  wf buf a -> wf buf' a' -> printable show buf a -> printable show' buf' a' -> 0 < size a <= 1000 -> 0 < size a' <= 1000 ->
  format_str show buf a = Ok t -> format_str show' buf' a' = Ok t ->
  a_shape a = a_shape a' /\ forall idx, inb idx (a_shape a) -> shown_at show buf a idx = shown_at show' buf' a' idx.
Proof.
  intros H H' P P' S S' E E'. destruct (C163_str show buf a H P ltac:(lia)) as (t1 & E1 & T1). destruct (C163_str show' buf' a' H' P' ltac:(lia)) as (t2 & E2 & T2).
  rewrite E in E1. injection E1 as E1. rewrite E' in E2. injection E2 as E2. subst t1 t2. rewrite T1 in T2.
  replace (1000 <? size a) with false in T2 by (symmetry; apply Nat.ltb_ge; lia). replace (1000 <? size a') with false in T2 by (symmetry; apply Nat.ltb_ge; lia).
  assert (forall sh, 0 < prod sh -> Forall (fun d => 0 < d) sh) as PP.
  { induction sh as [|d sh IH]; intros L; [constructor|]. change (prod (d :: sh)) with (d * prod sh) in L. constructor; [destruct d; lia|]. apply IH. destruct (prod sh); lia. }
  destruct (nested_inj (a_shape a) (a_shape a') (shown_at show buf a) (shown_at show' buf' a') [] []) as (A & B & _).
  - apply PP. unfold size in S. lia.
  - apply PP. unfold size in S'. lia.
  - rewrite !app_nil_r. exact T2.
  - split; assumption.
Qed.
(* conversely, arrays alike in shape and texts of elements print alike, to the character *)
Theorem C163_layout {V W} (show : V -> text) (show' : W -> text) buf a buf' a' name shape_text needs_dtype :
  wf buf a -> wf buf' a' -> a_shape a = a_shape a' ->
  (forall idx, inb idx (a_shape a) -> shown_at show buf a idx = shown_at show' buf' a' idx) ->
  format_str show buf a = format_str show' buf' a' /\
  format_repr show buf a name shape_text needs_dtype = format_repr show' buf' a' name shape_text needs_dtype.
Proof.
  intros H H' ES ET. pose proof (format_data_same show show' buf buf' a a' H H' ES ET) as F. assert (size a = size a') as EZ by (unfold size; rewrite ES; reflexivity).
  unfold format_str, format_repr. rewrite EZ, !F. split; reflexivity.
Qed.

(* the printed form of an empty array does not show its shape *)
Theorem C163_empty_refuted : exists sh sh' : list nat, sh <> sh' /\ length sh <> length sh' /\
  forall V (show : V -> text) name shape_text shape_text' needs_dtype,
    format_repr show [] (fresh sh 8) name shape_text needs_dtype = format_repr show [] (fresh sh' 8) name shape_text' needs_dtype /\
    format_str show [] (fresh sh 8) = format_str show [] (fresh sh' 8).
Proof. exists [0], [2; 0]. split; [discriminate|]. split; [discriminate|]. intros. split; reflexivity. Qed.

Definition bit (b : bool) : text := if b then str "1" else str "10".
Lemma bit_plain b : plain (bit b).
Proof. destruct b; (split; [discriminate|]; split; [discriminate|]; repeat constructor). Qed.
Definition square : arr := mkArr 0 [2; 3] [8; 16]%Z 8 false true.
Definition bits : list bool := [true; false; true; true; false; false].
Example C163_str_nonvacuous :
  wf bits square /\ printable bit bits square /\ size square <> 0 /\
  format_str bit bits square = Ok (str "[[ 1  1 10]" ++ [newline] ++ str " [10  1 10]]").
Proof.
  assert (wf bits square) as W by (apply wf_check_sound; vm_compute; reflexivity).
  split; [exact W|]. split; [apply printable_all; [exact W|apply bit_plain]|]. split; [discriminate|]. vm_compute. reflexivity.
Qed.
Definition long : arr := mkArr 0 [7; 1; 143] [0; 0; 0]%Z 8 false false.
Example C163_repr_nonvacuous :
  wf bits long /\ printable bit bits long /\ (1000 <? size long) = true /\
  format_repr bit bits square (str "uint8") [] true = Ok (str "array([[ 1,  1, 10]," ++ [newline] ++ str "       [10,  1, 10]], dtype=uint8)") /\
  (exists t, format_str bit bits long = Ok t /\ length (tokens t) = 69).
Proof.
  assert (wf bits long) as W by (apply wf_check_sound; vm_compute; reflexivity).
  split; [exact W|]. split; [apply printable_all; [exact W|apply bit_plain]|]. split; [vm_compute; reflexivity|]. split; [vm_compute; reflexivity|].
  eexists. split; vm_compute; reflexivity.
Qed.
(* a transposed array and its copy *)
Example C163_faithful_nonvacuous :
  wf bits square /\ wf [true; true; false; false; true; false] (fresh [2; 3] 8) /\
  (forall idx, inb idx [2; 3] -> shown_at bit bits square idx = shown_at bit [true; true; false; false; true; false] (fresh [2; 3] 8) idx) /\
  format_str bit bits square = format_str bit [true; true; false; false; true; false] (fresh [2; 3] 8) /\
  format_str bit bits square <> format_str bit bits (fresh [2; 3] 8) /\ format_str bit bits (fresh [3; 2] 8) <> format_str bit bits (fresh [2; 3] 8).
Proof.
  split; [apply wf_check_sound; vm_compute; reflexivity|]. split; [apply wf_check_sound; vm_compute; reflexivity|]. split.
  { intros idx I. apply in_all_idx in I. revert idx I. apply Forall_forall. repeat (constructor; [vm_compute; reflexivity|]). constructor. }
  split; [vm_compute; reflexivity|]. split; vm_compute; discriminate.
Qed.

Print Assumptions C163_str.
Print Assumptions C163_repr.
Print Assumptions C163_faithful.
Print Assumptions C163_layout.
Print Assumptions C163_empty_refuted.
