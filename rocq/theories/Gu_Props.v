(* C62: generalised ufunc dimension resolution. *)
From Coq Require Import Ascii String.
From Verif Require Import Base Lists Arr_Spec Arr_Model Arr_Wf Wf_Check Arr_Proofs Bcast_Model Bcast_Proofs Idx_Model Elem_Proofs Gu_Spec Gu_Model Gu_Proofs Gu_Text.
Local Open Scope nat_scope.
Local Open Scope list_scope.

(* ---- which calls are accepted ---------------------------------------------------- *)

(* exactly those whose shapes are loop axes followed by named axes with one size per
   name, the loop axes broadcasting together *)
Theorem C62_accepts : forall sig shapes,
  (exists d, resolve sig shapes = Some d) <-> exists sizes loops loop, fits (g_in sig) shapes sizes loops loop.
Proof.
  intros sig shapes. split.
  - intros [d H]. destruct (resolve_sound _ _ _ H) as (sizes & loops & HF). exists sizes, loops, (d_loop d). exact HF.
  - intros (sizes & loops & loop & HF). destruct (resolve_complete _ _ _ _ _ HF) as (d & H & _). exists d. exact H.
Qed.

(* and then the result is determined by the operands: the loop axes are the broadcast,
   every output axis has the size of its name *)
Theorem C62_resolved : forall sig shapes sizes loops loop d,
  fits (g_in sig) shapes sizes loops loop -> resolve sig shapes = Some d ->
  d_loop d = loop /\ d_loop_ndims d = map (@List.length nat) loops /\
  d_out_core d = map (map (size_or_1 (g_in sig) sizes)) (g_out sig) /\
  (forall n k, In n (List.concat (g_in sig)) -> lookup n (d_core d) = Some k -> k = sizes n).
Proof.
  intros sig shapes sizes loops loop d HF HR. destruct (resolve_complete _ _ _ _ _ HF) as (d' & H1 & H2 & H3 & H4).
  rewrite HR in H1. injection H1 as <-. split; [exact H2|]. split; [exact H3|]. split; [exact H4|].
  intros n k Hn HK. destruct HF as (ES & HL & HJ). unfold resolve in HR.
  rewrite ES, zip_with_length, Nat.eqb_refl in HR by exact HL. cbn [negb] in HR.
  destruct (bind_inputs_complete (g_in sig) sizes loops [] [] HL) as (m & E & A & N); [intros ? ? ?; discriminate|].
  rewrite E in HR. destruct (broadcast_multi_shapes _); [|discriminate]. injection HR as <-. cbn [d_core] in HK. symmetry. apply A, HK.
Qed.

(* a call that does not fit is refused, whatever the kernel *)
Theorem C62_rejects : forall V W sig kernel (inputs : list (list V * arr)) (zero : W) item,
  ~ (exists sizes loops loop, fits (g_in sig) (map (fun x => a_shape (snd x)) inputs) sizes loops loop) ->
  gufunc_call sig kernel inputs zero item = Err.
Proof.
  intros V W sig kernel inputs zero item H. unfold gufunc_call.
  destruct (resolve sig (map (fun x => a_shape (snd x)) inputs)) as [d|] eqn:E; [|reflexivity].
  exfalso. apply H. apply C62_accepts. exists d. exact E.
Qed.

(* two operands with different sizes for one name *)
Theorem C62_one_size_per_name : forall V W ins outs kernel (inputs : list (list V * arr)) (zero : W) item i j dims1 dims2 p q n sh1 sh2,
  nth_error ins i = Some dims1 -> nth_error ins j = Some dims2 ->
  nth_error (rev dims1) p = Some n -> nth_error (rev dims2) q = Some n ->
  nth_error (map (fun x => a_shape (snd x)) inputs) i = Some sh1 -> nth_error (map (fun x => a_shape (snd x)) inputs) j = Some sh2 ->
  nth_error (rev sh1) p <> nth_error (rev sh2) q ->
  gufunc_call (mkSig ins outs) kernel inputs zero item = Err.
Proof.
  intros V W ins outs kernel inputs zero item i j dims1 dims2 p q n sh1 sh2 Hi Hj Hp Hq H1 H2 HN.
  apply C62_rejects. intros (sizes & loops & loop & ES & HL & _). cbn [g_in] in *. apply HN.
  assert (G : forall i dims sh p, nth_error ins i = Some dims -> nth_error (rev dims) p = Some n ->
     nth_error (map (fun x => a_shape (snd x)) inputs) i = Some sh -> nth_error (rev sh) p = Some (sizes n)).
  { clear - ES HL. rewrite ES. clear ES. revert loops HL. induction ins as [|ds ins IH]; intros [|l loops] HL i dims sh p Hi Hp Hs; try discriminate HL.
    - destruct i; discriminate.
    - destruct i as [|i]; cbn [nth_error zip_with] in *.
      + injection Hi as ->. injection Hs as <-. rewrite rev_app_distr, <- map_rev.
        rewrite nth_error_app1.
        * rewrite nth_error_map, Hp. reflexivity.
        * rewrite map_length. apply nth_error_Some. congruence.
      + apply (IH loops ltac:(cbn in HL; lia) i dims sh p Hi Hp Hs). }
  rewrite (G i dims1 sh1 p Hi Hp H1), (G j dims2 sh2 q Hj Hq H2). reflexivity.
Qed.

(* ---- what the kernel sees --------------------------------------------------------- *)

(* at loop position l the kernel gets the sub-array of each operand that broadcasting
   assigns to l: element x of it is element (l, x) of the operand, axes of size 1
   repeated.  Missing from "every list of shapes and layouts": operands with fewer loop
   axes than the result (but some), and operands whose loop axes have negative strides *)
Theorem C62_core_partial : forall V (buf : list V) a lsh core loop l,
  wf buf a -> a_shape a = lsh ++ core -> core <> [] -> broadcastable lsh loop -> inb l loop ->
  lsh = [] \/ List.length lsh = List.length loop ->
  Forall (fun s => (0 <= s)%Z) (firstn (List.length lsh) (a_strides a)) ->
  wf buf (gu_sub a l (List.length lsh)) /\ a_shape (gu_sub a l (List.length lsh)) = core /\
  forall x, inb x core -> get buf (gu_sub a l (List.length lsh)) x = get buf a (unbroadcast lsh l ++ x).
Proof.
  intros V buf a lsh core loop l W ES HC [HL HS] Hl HA HF. pose proof (inb_length _ _ Hl) as HLl.
  assert (EU : unstretch lsh (firstn (List.length lsh) l) = unbroadcast lsh l).
  { unfold unbroadcast. destruct HA as [->|HA]; [reflexivity|].
    replace (List.length l - List.length lsh) with 0 by lia. cbn [skipn]. rewrite HA, <- HLl, firstn_all. reflexivity. }
  assert (HI : inb (unbroadcast lsh l) lsh).
  { unfold unbroadcast. assert (HI' : inb (skipn (List.length l - List.length lsh) l) (skipn (List.length loop - List.length lsh) loop)).
    { rewrite HLl. apply inb_skipn, Hl. }
    apply (unstretch_inb _ _ _ HS HI'). }
  assert (HD : (0 <= dot (unstretch lsh (firstn (List.length lsh) l)) (firstn (List.length lsh) (a_strides a)))%Z).
  { apply dot_nonneg, HF. }
  pose proof (gu_sub_is_view buf a lsh core l W ES ltac:(lia)) as H. rewrite EU in *. specialize (H HI HD).
  destruct core as [|c0 core]; [congruence|]. destruct H as (H1 & H2 & H3). split; [exact H2|]. split; [exact H1|].
  intros x Hx. apply H3, Hx.
Qed.

(* the whole call: if at every loop position the kernel fills its core block with G l
   and touches nothing else, the result holds G l c at (l, c) *)
Theorem C62_call : forall V W sig (kernel : list (list V * arr) -> arr -> list W -> res (list W)) inputs zero item d core (G : list nat -> list nat -> W),
  (0 < item)%Z ->
  resolve sig (map (fun x => a_shape (snd x)) inputs) = Some d -> d_out_core d = [core] ->
  (forall l, inb l (d_loop d) -> call_ok (d_loop d) core
     (fun buf => kernel (zip_with (fun x k => (fst x, gu_sub (snd x) l k)) inputs (d_loop_ndims d))
                        (gu_sub (fresh (d_loop d ++ core) item) l (List.length (d_loop d))) buf) l (G l)) ->
  exists out, gufunc_call sig kernel inputs zero item = Ok (out, fresh (d_loop d ++ core) item) /\
    forall l c, inb l (d_loop d) -> inb c core ->
      get out (fresh (d_loop d ++ core) item) (l ++ c) = Some (G l c).
Proof.
  intros. destruct (gufunc_call_spec sig kernel inputs zero item d core G) as (out & H3 & _ & H4); try assumption.
  exists out. split; assumption.
Qed.

(* ---- where the code departs ------------------------------------------------------- *)

(* loop axes (2,3) and (3): broadcasting pairs position (i,j) with position j of the
   second operand; the code pairs it with position i *)
Theorem C62_core_refuted_left_aligned : exists (buf : list Z) a lsh core loop l,
  wf buf a /\ a_shape a = lsh ++ core /\ joint [[2; 3]; lsh] loop /\ inb l loop /\ unbroadcast lsh l = [2] /\
  get buf (gu_sub a l (List.length lsh)) [0] <> get buf a (unbroadcast lsh l ++ [0]).
Proof.
  exists [10; 11; 12]%Z, (fresh [3; 1] 8), [3], [1], [2; 3], [0; 2].
  split; [apply wf_check_sound; reflexivity|]. split; [reflexivity|]. split; [apply broadcast_multi_joint; reflexivity|].
  split; [repeat constructor; lia|]. split; [reflexivity|]. vm_compute. discriminate.
Qed.
(* a reversed loop axis: every position gets the sub-array at position 0 *)
Theorem C62_core_refuted_reversed : exists (buf : list Z) a lsh core l,
  wf buf a /\ a_shape a = lsh ++ core /\ inb l lsh /\
  get buf (gu_sub a l (List.length lsh)) [0] = Some 12%Z /\ get buf a (l ++ [0]) = Some 11%Z.
Proof.
  exists [10; 11; 12]%Z, (mkArr 16 [3; 1] [-8; 8]%Z 8 false false), [3], [1], [1].
  split; [apply wf_check_sound; reflexivity|]. split; [reflexivity|]. split; [repeat constructor; lia|]. split; reflexivity.
Qed.

(* ---- the text of a signature -------------------------------------------------------- *)

(* the text of a signature is read back as that signature *)
Theorem C62_parse : forall g, g_in g <> [] -> Forall (Forall good_name) (g_in g) -> Forall (Forall good_name) (g_out g) ->
  parse_sig (show_sig g) = Some g.
Proof. exact parse_show. Qed.
(* and whatever is accepted has an arrow with balanced parentheses on both sides *)
Theorem C62_parse_balanced : forall s g, parse_sig s = Some g ->
  exists i o, trim (list_ascii_of_string s) = i ++ ["-"%char; ">"%char] ++ o /\ opens i = closes i /\ opens o = closes o /\ g_in g <> [].
Proof.
  intros s g H. unfold parse_sig in H. destruct (find_arrow _ []) as [[i o]|] eqn:EA; [|discriminate].
  destruct (parse_core_list i) as [ins|] eqn:EI; [|discriminate]. destruct (parse_core_list o) as [outs|] eqn:EO; [|discriminate].
  destruct (Nat.eqb_spec (List.length ins) 0) as [|HN]; [discriminate|]. injection H as <-. apply find_arrow_inv in EA as (m & -> & ->).
  exists m, o. split; [reflexivity|]. split; [apply (cores_balanced m ins), EI|]. split; [apply (cores_balanced o outs), EO|]. intros E. apply HN. cbn [g_in] in E. rewrite E. reflexivity.
Qed.

(* ---- concrete instances ----------------------------------------------------------- *)
Local Open Scope string_scope.
Example C62_signatures : parse_sig "(m,n),(n,p)->(m,p)" = Some (mkSig [[["m"%char]; ["n"%char]]; [["n"%char]; ["p"%char]]] [[["m"%char]; ["p"%char]]]) /\
  parse_sig " ( n ) , (n)->()" = Some (mkSig [[["n"%char]]; [["n"%char]]] [[]]) /\
  parse_sig "(m),(n" = None /\ parse_sig "->()" = None /\ parse_sig "(m,,n)->()" = None.
Proof. repeat split; reflexivity. Qed.
Example C62_parse_nonvacuous : show_sig (mkSig [[["m"%char]; ["n"%char]]; [["n"%char]; ["p"%char]]] [[["m"%char]; ["p"%char]]]) = "(m,n),(n,p)->(m,p)" /\
  Forall (Forall good_name) [[["m"%char]; ["n"%char]]; [["n"%char]; ["p"%char]]] /\ parse_sig "(m),(n->()" = None /\ parse_sig "(n)->(" = None.
Proof. split; [reflexivity|]. split; [repeat constructor; discriminate|]. split; reflexivity. Qed.
Example C62_accepts_nonvacuous :
  (exists d, resolve matmul_sig [[5; 1; 2; 3]; [4; 3; 7]] = Some d /\ d_loop d = [5; 4] /\ d_out_core d = [[2; 7]]) /\
  resolve matmul_sig [[2; 3]; [4; 7]] = None /\ resolve matmul_sig [[5; 2; 3]; [4; 3; 7]] = None /\ resolve matmul_sig [[3]; [3; 7]] = None.
Proof. split; [eexists; split; [reflexivity|split; reflexivity]|]. repeat split; reflexivity. Qed.
Example C62_resolved_nonvacuous : fits (g_in matmul_sig) [[5; 1; 2; 3]; [4; 3; 7]]
  (fun d => match d with ["m"%char] => 2 | ["n"%char] => 3 | _ => 7 end) [[5; 1]; [4]] [5; 4].
Proof. split; [reflexivity|]. split; [reflexivity|]. apply broadcast_multi_joint. reflexivity. Qed.
Example C62_one_size_nonvacuous : @gufunc_call Z Z inner_sig (fun _ _ b => Ok b) [([1; 2; 3]%Z, fresh [3] 8); ([1; 2]%Z, fresh [2] 8)] 0%Z 8 = Err.
Proof.
  apply (C62_one_size_per_name Z Z [[["n"%char]]; [["n"%char]]] [[]] _ _ _ _ 0 1 [["n"%char]] [["n"%char]] 0 0 ["n"%char] [3] [2]); try reflexivity. discriminate.
Qed.
Example C62_core_nonvacuous : wf [1; 2; 3; 4; 5; 6]%Z (fresh [1; 2; 3] 8) /\ broadcastable [1; 2] [4; 2] /\ inb [3; 1] [4; 2] /\
  get [1; 2; 3; 4; 5; 6]%Z (gu_sub (fresh [1; 2; 3] 8) [3; 1] 2) [2] = Some 6%Z.
Proof.
  split; [apply wf_check_sound; reflexivity|]. split; [split; [cbn; lia|]; repeat constructor; cbn; lia|].
  split; [repeat constructor; lia|reflexivity].
Qed.
(* a kernel writing the sum of its two one-element cores *)
Example C62_call_nonvacuous : exists out, @gufunc_call Z Z inner_sig (fun ins c buf =>
    match ins with
    | [x; y] => match get (fst x) (snd x) [0], get (fst y) (snd y) [0] with
                | Some u, Some v => store buf 8 (a_off c) (u + v)%Z | _, _ => Fault end
    | _ => Panic end) [([1; 2]%Z, fresh [2; 1] 8); ([10; 20]%Z, fresh [2; 1] 8)] 0%Z 8 = Ok (out, fresh [2] 8) /\ out = [11; 22]%Z.
Proof. eexists. split; reflexivity. Qed.

Print Assumptions C62_accepts.
Print Assumptions C62_resolved.
Print Assumptions C62_rejects.
Print Assumptions C62_one_size_per_name.
Print Assumptions C62_core_partial.
Print Assumptions C62_call.
Print Assumptions C62_core_refuted_left_aligned.
Print Assumptions C62_core_refuted_reversed.
Print Assumptions C62_parse.
Print Assumptions C62_parse_balanced.
