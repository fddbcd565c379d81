(* Claims C16 (binary operations), C17 (unary, comparison, predicate), C18 and
   C19 (temporary elision), C22 (where). *)
From Verif Require Import Base Lists Arr_Spec Arr_Model Arr_Wf Arr_Proofs Bcast_Model Bcast_Proofs
  Copy_Model Copy_Proofs Idx_Model Idx_Assign Int_Model Elem_Spec Elem_Model Elem_Proofs Elem_Heap.
Local Open Scope nat_scope.

(* ---- C16 ------------------------------------------------------------------ *)

(* whichever loop is selected, result[i] = f(a[i], b[i]) *)
Theorem C16_binary_layout_independent : forall A B W (f : A -> B -> W) bufA a bufB b sh item,
  wf bufA a -> wf bufB b -> a_shape a = sh -> a_shape b = sh -> (0 < item)%Z ->
  exists vals,
    dispatch_zip (fun x y => Ok (f x y)) bufA bufB a b sh = Ok vals /\ length vals = prod sh /\
    forall idx, inb idx sh ->
      exists x y, get bufA a idx = Some x /\ get bufB b idx = Some y /\
                  get vals (fresh sh item) idx = Some (f x y).
Proof.
  intros A B W f bufA a bufB b sh item WA WB EA EB HI.
  rewrite dispatch_zip_spec by assumption.
  assert (HG : forall idx, inb idx sh -> exists x y, get bufA a idx = Some x /\ get bufB b idx = Some y).
  { intros idx Hi. destruct (wf_get bufA a idx WA) as [x Hx]; [congruence|].
    destruct (wf_get bufB b idx WB) as [y Hy]; [congruence|]. eauto. }
  destruct (mapM_all_ok (lift2 (fun x y => Ok (f x y)) bufA bufB a b) (all_idx sh)) as [vals E].
  { intros idx Hi. apply in_all_idx in Hi. destruct (HG idx Hi) as (x & y & Hx & Hy).
    unfold lift2. rewrite Hx, Hy. cbn. eauto. }
  exists vals. split; [exact E|]. split; [rewrite (mapM_length _ _ _ E); apply all_idx_length|].
  intros idx Hi. destruct (HG idx Hi) as (x & y & Hx & Hy). exists x, y. split; [exact Hx|]. split; [exact Hy|].
  destruct (mapM_all_idx_get _ sh vals item idx HI E Hi) as (w & Hw & Ew).
  rewrite Hw. unfold lift2 in Ew. rewrite Hx, Hy in Ew. cbn in Ew. congruence.
Qed.

(* kernels that can panic: the operation panics exactly when some element's
   kernel does, otherwise element i is the kernel's value *)
Theorem C16_binary_panics : forall A B W (f : A -> B -> res W) bufA a bufB b sh item,
  wf bufA a -> wf bufB b -> a_shape a = sh -> a_shape b = sh -> (0 < item)%Z ->
  (forall x y, f x y = Panic \/ exists w, f x y = Ok w) ->
  (dispatch_zip f bufA bufB a b sh = Panic <->
     exists idx x y, inb idx sh /\ get bufA a idx = Some x /\ get bufB b idx = Some y /\ f x y = Panic) /\
  (forall vals, dispatch_zip f bufA bufB a b sh = Ok vals ->
     forall idx, inb idx sh ->
       exists x y w, get bufA a idx = Some x /\ get bufB b idx = Some y /\ f x y = Ok w /\
                     get vals (fresh sh item) idx = Some w).
Proof.
  intros A B W f bufA a bufB b sh item WA WB EA EB HI HF.
  rewrite dispatch_zip_spec by assumption.
  assert (HG : forall idx, inb idx sh -> exists x y, get bufA a idx = Some x /\ get bufB b idx = Some y).
  { intros idx Hi. destruct (wf_get bufA a idx WA) as [x Hx]; [congruence|].
    destruct (wf_get bufB b idx WB) as [y Hy]; [congruence|]. eauto. }
  assert (HL : forall idx, In idx (all_idx sh) ->
     lift2 f bufA bufB a b idx = Panic \/ exists y, lift2 f bufA bufB a b idx = Ok y).
  { intros idx Hi. apply in_all_idx in Hi. destruct (HG idx Hi) as (x & y & Hx & Hy).
    unfold lift2. rewrite Hx, Hy. cbn. apply HF. }
  split.
  - split.
    + intros E. destruct (Exists_dec (fun idx => lift2 f bufA bufB a b idx = Panic) (all_idx sh)) as [HE|HE].
      { intros idx. destruct (lift2 f bufA bufB a b idx); [right; discriminate|right; discriminate|left; reflexivity|right; discriminate]. }
      * apply Exists_exists in HE as (idx & Hi & Ep). apply in_all_idx in Hi.
        destruct (HG idx Hi) as (x & y & Hx & Hy). exists idx, x, y.
        unfold lift2 in Ep. rewrite Hx, Hy in Ep. cbn in Ep. auto.
      * exfalso. destruct (mapM_all_ok (lift2 f bufA bufB a b) (all_idx sh)) as [vals Ev]; [|congruence].
        intros idx Hi. destruct (HL idx Hi) as [Hp|Hp]; [|exact Hp].
        exfalso. apply HE, Exists_exists. eauto.
    + intros (idx & x & y & Hi & Hx & Hy & Ef).
      apply (mapM_no_err (lift2 f bufA bufB a b) (all_idx sh) _ eq_refl HL).
      exists idx. split; [apply in_all_idx; exact Hi|]. unfold lift2. rewrite Hx, Hy. exact Ef.
  - intros vals E idx Hi. destruct (HG idx Hi) as (x & y & Hx & Hy).
    destruct (mapM_all_idx_get _ sh vals item idx HI E Hi) as (w & Hw & Ew).
    exists x, y, w. unfold lift2 in Ew. rewrite Hx, Hy in Ew. auto.
Qed.

(* the typed kernel loop, the per-dtype trait loop and the get_element loop
   compute the same thing from the same kernel, with broadcasting included;
   incompatible shapes are an error on every path *)
Theorem C16_paths_agree : forall A B W (f : A -> B -> res W) p1 p2 bufA a bufB b,
  wf bufA a -> wf bufB b ->
  elementwise2 f p1 bufA a bufB b = elementwise2 f p2 bufA a bufB b.
Proof.
  intros A B W f p1 p2 bufA a bufB b WA WB.
  pose proof (elementwise2_spec f p1 bufA a bufB b WA WB) as H1.
  pose proof (elementwise2_spec f p2 bufA a bufB b WA WB) as H2.
  destruct (broadcast_shapes (a_shape a) (a_shape b)); congruence.
Qed.

(* a op b as a user sees it: broadcast shape, element-wise values *)
Theorem C16_binary_broadcast : forall A B W (f : A -> B -> W) path bufA a bufB b item,
  wf bufA a -> wf bufB b -> (0 < item)%Z ->
  match broadcast_shapes (a_shape a) (a_shape b) with
  | None => elementwise2 (fun x y => Ok (f x y)) path bufA a bufB b = Err
  | Some sh =>
      exists vals, elementwise2 (fun x y => Ok (f x y)) path bufA a bufB b = Ok (sh, vals) /\
        forall idx, inb idx sh ->
          exists x y, get bufA a (unbroadcast (a_shape a) idx) = Some x /\
                      get bufB b (unbroadcast (a_shape b) idx) = Some y /\
                      get vals (fresh sh item) idx = Some (f x y)
  end.
Proof.
  intros A B W f path bufA a bufB b item WA WB HI.
  pose proof (elementwise2_spec (fun x y => Ok (f x y)) path bufA a bufB b WA WB) as H.
  destruct (broadcast_shapes (a_shape a) (a_shape b)) as [sh|] eqn:E; [|exact H].
  destruct (bshape_upper _ _ _ E) as [UA UB].
  destruct (proj1 (broadcast_to_is_view bufA a sh WA) UA) as (a' & _ & _ & _ & GA).
  destruct (proj1 (broadcast_to_is_view bufB b sh WB) UB) as (b' & _ & _ & _ & GB).
  assert (HG : forall idx, inb idx sh -> exists x y, get bufA a (unbroadcast (a_shape a) idx) = Some x /\
             get bufB b (unbroadcast (a_shape b) idx) = Some y).
  { intros idx Hi. destruct (wf_get bufA a _ WA (proj1 (GA idx Hi))) as [x Hx].
    destruct (wf_get bufB b _ WB (proj1 (GB idx Hi))) as [y Hy]. eauto. }
  match type of H with _ = bind (mapM ?g ?l) _ => destruct (mapM_all_ok g l) as [vals Ev] end.
  { intros idx Hi. apply in_all_idx in Hi. destruct (HG idx Hi) as (x & y & Hx & Hy).
    rewrite Hx, Hy. cbn. eauto. }
  rewrite Ev in H. cbn [bind] in H. exists vals. split; [exact H|].
  intros idx Hi. destruct (HG idx Hi) as (x & y & Hx & Hy). exists x, y. split; [exact Hx|]. split; [exact Hy|].
  destruct (mapM_all_idx_get _ sh vals item idx HI Ev Hi) as (w & Hw & Ew).
  rewrite Hx, Hy in Ew. cbn in Ew. congruence.
Qed.

Section C16_example.
(* [[0 1 2] [3 4 5]] minus its transpose's transpose read backwards (negative stride) *)
Let buf := [0; 1; 2; 3; 4; 5]%Z.
Let a := fresh [2; 3] 8.
Let b := mkArr 40 [2; 3] [-24; -8]%Z 8 false false.
Example C16_nonvacuous :
  is_c_contiguous [2; 3] [-24; -8]%Z 8 = false /\
  forallb (fun idx => match get buf b idx with Some _ => true | None => false end) (all_idx [2; 3]) = true /\
  dispatch_zip (fun x y => Ok (x - y)%Z) buf buf a b [2; 3] = Ok [-5; -3; -1; 1; 3; 5]%Z /\
  dispatch_zip (fun x y => Ok (x - y)%Z) buf buf a a [2; 3] = Ok [0; 0; 0; 0; 0; 0]%Z /\
  elementwise2 (fun x y => Ok (x + y)%Z) PKernel buf a [10; 20]%Z (fresh [2; 1] 8)
    = Ok ([2; 3], [10; 11; 12; 23; 24; 25]%Z).
Proof. repeat split; vm_compute; reflexivity. Qed.
End C16_example.

(* ---- C17 ------------------------------------------------------------------ *)

Theorem C17_unary_layout_independent : forall A W (f : A -> W) buf a item,
  wf buf a -> (0 < item)%Z ->
  exists vals,
    dispatch_map (fun x => Ok (f x)) buf a = Ok vals /\ length vals = size a /\
    forall idx, inb idx (a_shape a) ->
      exists x, get buf a idx = Some x /\ get vals (fresh (a_shape a) item) idx = Some (f x).
Proof.
  intros A W f buf a item WA HI. rewrite dispatch_map_spec by exact WA.
  destruct (mapM_all_ok (lift1 (fun x => Ok (f x)) buf a) (all_idx (a_shape a))) as [vals E].
  { intros idx Hi. apply in_all_idx in Hi. destruct (wf_get buf a idx WA Hi) as [x Hx].
    unfold lift1. rewrite Hx. cbn. eauto. }
  exists vals. split; [exact E|]. split; [rewrite (mapM_length _ _ _ E); apply all_idx_length|].
  intros idx Hi. destruct (wf_get buf a idx WA Hi) as [x Hx]. exists x. split; [exact Hx|].
  destruct (mapM_all_idx_get _ _ vals item idx HI E Hi) as (w & Hw & Ew).
  unfold lift1 in Ew. rewrite Hx in Ew. cbn in Ew. congruence.
Qed.

(* the kernel loops and the per-dtype trait loop agree for the same function *)
Theorem C17_unary_paths_agree : forall A W (f : A -> res W) buf a,
  wf buf a -> dispatch_map f buf a = trait_map f buf a.
Proof. intros A W f buf a WA. rewrite dispatch_map_spec, trait_map_spec by exact WA. reflexivity. Qed.

(* comparisons: with broadcasting, through the typed loop or get_element *)
Theorem C17_compare : forall A B (cmp : A -> B -> bool) path bufA a bufB b,
  wf bufA a -> wf bufB b ->
  match broadcast_shapes (a_shape a) (a_shape b) with
  | None => elementwise2 (fun x y => Ok (cmp x y)) path bufA a bufB b = Err
  | Some sh =>
      exists vals, elementwise2 (fun x y => Ok (cmp x y)) path bufA a bufB b = Ok (sh, vals) /\
        forall idx, inb idx sh ->
          exists x y, get bufA a (unbroadcast (a_shape a) idx) = Some x /\
                      get bufB b (unbroadcast (a_shape b) idx) = Some y /\
                      get vals (fresh sh 1) idx = Some (cmp x y)
  end.
Proof. intros A B cmp path bufA a bufB b WA WB. apply C16_binary_broadcast; [exact WA|exact WB|lia]. Qed.

(* a unary operation commutes with taking any view: op(a)[v] = op(a[v]) *)
Theorem C17_unary_commutes_with_views : forall A W (f : A -> W) buf a a' sh' g vals vals' item,
  wf buf a -> is_view buf a a' sh' g -> (0 < item)%Z ->
  dispatch_map (fun x => Ok (f x)) buf a = Ok vals ->
  dispatch_map (fun x => Ok (f x)) buf a' = Ok vals' ->
  forall idx, inb idx sh' ->
    get vals' (fresh sh' item) idx = get vals (fresh (a_shape a) item) (g idx).
Proof.
  intros A W f buf a a' sh' g vals vals' item WA (S' & W' & G') HI E E' idx Hi.
  destruct (C17_unary_layout_independent A W f buf a item WA HI) as (v & Ev & _ & Hv).
  destruct (C17_unary_layout_independent A W f buf a' item W' HI) as (v' & Ev' & _ & Hv').
  rewrite E in Ev. injection Ev as <-. rewrite E' in Ev'. injection Ev' as <-.
  destruct (G' idx Hi) as [Gi Ge]. destruct (Hv _ Gi) as (x & Hx & Rx).
  rewrite S' in Hv'. destruct (Hv' idx Hi) as (x' & Hx' & Rx'). congruence.
Qed.

Example C17_nonvacuous :
  let buf := [0; 1; 2; 3; 4; 5; 6; 7]%Z in
  let a := mkArr 56 [2; 2; 2] [-8; -32; -16]%Z 8 false false in
  dispatch_map (fun x => Ok (x * x)%Z) buf a = Ok [49; 25; 9; 1; 36; 16; 4; 0]%Z /\
  trait_map (fun x => Ok (x * x)%Z) buf a = Ok [49; 25; 9; 1; 36; 16; 4; 0]%Z /\
  dispatch_map (fun x => Ok (Z.even x)) buf (mkArr 8 [3] [16]%Z 8 false false) = Ok [false; false; false].
Proof. repeat split; vm_compute; reflexivity. Qed.

(* ---- C18 ------------------------------------------------------------------ *)

(* x op y allocates its result and changes no existing allocation (neither its
   contents nor its reference count), whatever the Python reference count, the
   sizes, the dtypes and the kernels *)
Theorem C18_operands_unchanged : forall V kern trait_ mixed promote isz (h : heap V) refcount x y h' r,
  binary_with_elision kern trait_ mixed promote isz h refcount x y = Ok (h', r) ->
  (forall i, i < length h -> nth_error h' i = nth_error h i) /\
  length h <= o_buf r < length h'.
Proof.
  intros V kern trait_ mixed promote isz h rc x y h' r E.
  destruct (binary_with_elision_grows kern trait_ mixed promote isz h rc x y h' r E) as (vals & -> & ->).
  rewrite app_length. cbn [length]. split; [|lia].
  intros i Hi. apply nth_error_app1. exact Hi.
Qed.

(* after any sequence of such operations, every array that existed before still
   has the same elements *)
Fixpoint run_binops {V} (promote : nat -> nat -> nat) (isz : nat -> Z)
    (l : list (option (V -> V -> res V) * (V -> V -> res V) * (V -> V -> res V) * nat * obj * obj))
    (h : heap V) : res (heap V) :=
  match l with
  | [] => Ok h
  | (kern, trait_, mixed, refcount, x, y) :: l' =>
      bind (binary_with_elision kern trait_ mixed promote isz h refcount x y)
           (fun p => run_binops promote isz l' (fst p))
  end.
Theorem C18_history : forall V promote isz l (h h' : heap V),
  run_binops promote isz l h = Ok h' ->
  forall z idx, o_buf z < length h ->
    get (data_of h' (o_buf z)) (o_arr z) idx = get (data_of h (o_buf z)) (o_arr z) idx.
Proof.
  intros V promote isz l. induction l as [|[[[[[kern trait_] mixed] rc] x] y] l IH]; intros h h' E z idx Hz;
    cbn [run_binops] in E.
  - injection E as <-. reflexivity.
  - destruct (binary_with_elision kern trait_ mixed promote isz h rc x y) as [[h1 r]| | |] eqn:E1;
      cbn [bind fst] in E; try discriminate.
    destruct (C18_operands_unchanged V kern trait_ mixed promote isz h rc x y h1 r E1) as [HU HL].
    rewrite (IH h1 h' E z idx) by lia. unfold data_of. rewrite HU by exact Hz. reflexivity.
Qed.

(* a 32768-element temporary with no other owner is a candidate for elision *)
Example C18_nonvacuous :
  let n := Z.to_nat 32768 in
  let h := [mkAlloc (repeat 1%Z n) 1; mkAlloc [2]%Z 1] in
  let x := mkObj 0 0 (fresh [n] 8) in
  let y := mkObj 1 0 (fresh [1] 8) in
  elision_candidate h 1 x [n] 0 = true /\ strong_of (retain h 0) 0 = 2.
Proof. vm_compute. auto. Qed.

(* ---- C19 ------------------------------------------------------------------ *)

(* full statement: for every operator the outcome does not depend on the number
   of Python references.  It holds for every pair of a kernel and a trait
   implementation that agree; integer + - * % max min and ** do, and unsigned
   floor division does. *)
Theorem C19_refcount_invisible_partial : forall V kern trait_ mixed promote isz (h : heap V) rc1 rc2 x y,
  wf (data_of h (o_buf x)) (o_arr x) -> wf (data_of h (o_buf y)) (o_arr y) ->
  promote (o_dtype x) (o_dtype x) = o_dtype x ->
  (forall k, kern = Some k -> forall u v, k u v = trait_ u v) ->
  binary_with_elision kern trait_ mixed promote isz h rc1 x y =
  binary_with_elision kern trait_ mixed promote isz h rc2 x y.
Proof.
  intros V kern trait_ mixed promote isz h rc1 rc2 x y WA WB HP HK.
  pose proof (binary_with_elision_spec kern trait_ mixed promote isz h rc1 x y WA WB) as H1.
  pose proof (binary_with_elision_spec kern trait_ mixed promote isz h rc2 x y WA WB) as H2.
  destruct (broadcast_shapes (a_shape (o_arr x)) (a_shape (o_arr y))) as [sh|]; [|congruence].
  cbv beta zeta in H1, H2. rewrite H1, H2. clear H1 H2.
  set (dout := promote (o_dtype x) (o_dtype y)).
  assert (HD : forall c, chosen_dtype kern c (Nat.eqb (o_dtype x) (o_dtype y)) (o_dtype x) dout = dout).
  { intros c. unfold chosen_dtype, dout. destruct (Nat.eqb_spec (o_dtype x) (o_dtype y)) as [Es|Es].
    - rewrite <- Es, HP. destruct (negb c && true); [destruct kern|]; reflexivity.
    - rewrite andb_false_r. reflexivity. }
  rewrite !HD. f_equal. apply mapM_ext. intros idx _.
  destruct (of_load _) as [u| | |]; cbn [bind]; try reflexivity.
  destruct (of_load _) as [v| | |]; cbn [bind]; try reflexivity.
  assert (HC : forall c, chosen kern trait_ mixed c (Nat.eqb (o_dtype x) (o_dtype y)) (Nat.eqb (o_dtype x) dout) u v
     = (if Nat.eqb (o_dtype x) (o_dtype y) && Nat.eqb (o_dtype x) dout then trait_ else mixed) u v).
  { intros c. unfold chosen. destruct (negb c && Nat.eqb (o_dtype x) (o_dtype y)) eqn:En; [|reflexivity].
    apply andb_true_iff in En as [_ Es]. destruct kern as [k|]; [|reflexivity].
    assert (Ex : Nat.eqb (o_dtype x) dout = true).
    { unfold dout. apply Nat.eqb_eq in Es. rewrite <- Es, HP. apply Nat.eqb_refl. }
    rewrite Es, Ex. cbn [andb]. apply HK. reflexivity. }
  rewrite !HC. reflexivity.
Qed.

(* which integer operators satisfy the agreement hypothesis *)
Theorem C19_int_operators_agree : forall t op k u v,
  (op = IFloorDiv -> signed t = false) -> int_kernel t op = Some k -> k u v = int_trait t op u v.
Proof.
  intros t op k u v HO E. destruct op; cbn in E; try discriminate; injection E as <-; cbn; try reflexivity.
  - rewrite HO by reflexivity. reflexivity.
  - f_equal. destruct (Z.ltb_spec v u); lia.
  - f_equal. destruct (Z.ltb_spec u v); lia.
Qed.
(* and signed floor division agrees when the dividend is not negative *)
Theorem C19_floor_div_nonneg_partial : forall t k u v,
  int_kernel t IFloorDiv = Some k -> (0 <= u)%Z -> k u v = int_trait t IFloorDiv u v.
Proof.
  intros t k u v E Hu. cbn in E. injection E as <-. cbn.
  destruct (Z.eqb_spec v 0); [reflexivity|]. destruct (signed t); [|reflexivity].
  unfold rust_div_euclid. unfold rust_div, rust_rem. destruct (_ && _); [reflexivity|]. cbn [bind].
  destruct (Z.ltb_spec (Z.rem u v) 0) as [H|H]; [|reflexivity].
  pose proof (Z.rem_nonneg u v n Hu). lia.
Qed.

(* x // y of int64 arrays: the same operands give -4 or -3 depending on the
   number of Python references to x *)
Theorem C19_refcount_visible_refuted :
  exists (h : heap Z) x y h1 r1 h2 r2,
    let run := binary_with_elision (int_kernel (mkIty 64 true) IFloorDiv)
                 (int_trait (mkIty 64 true) IFloorDiv) (int_trait (mkIty 64 true) IFloorDiv)
                 (fun d _ => d) (fun _ => 8%Z) in
    wf (data_of h (o_buf x)) (o_arr x) /\ wf (data_of h (o_buf y)) (o_arr y) /\
    run h 1 x y = Ok (h1, r1) /\ run h 3 x y = Ok (h2, r2) /\
    get (data_of h1 (o_buf r1)) (o_arr r1) [0] = Some (-4)%Z /\
    get (data_of h2 (o_buf r2)) (o_arr r2) [0] = Some (-3)%Z.
Proof.
  assert (HN : exists n, Z.of_nat n = 32768%Z) by (exists (Z.to_nat 32768); apply Z2Nat.id; lia).
  destruct HN as [n Hn].
  set (h := [mkAlloc (repeat (-7)%Z n) 1; mkAlloc [2]%Z 1]).
  set (x := mkObj 0 0 (fresh [n] 8)). set (y := mkObj 1 0 (fresh [1] 8)).
  assert (WX : wf (data_of h (o_buf x)) (o_arr x)).
  { cbn. apply fresh_wf; [lia|rewrite repeat_length; lia|rewrite repeat_length; cbn; lia]. }
  assert (WY : wf (data_of h (o_buf y)) (o_arr y)).
  { cbn. apply fresh_wf; cbn; lia. }
  set (run := binary_with_elision (int_kernel (mkIty 64 true) IFloorDiv)
                 (int_trait (mkIty 64 true) IFloorDiv) (int_trait (mkIty 64 true) IFloorDiv)
                 (fun d _ => d) (fun _ => 8%Z)).
  assert (HB : broadcast_shapes (a_shape (o_arr x)) (a_shape (o_arr y)) = Some [n]).
  { cbn [x y o_arr fresh a_shape]. apply bshape_iff. split; [reflexivity|]. intros i Hi. cbn in Hi.
    replace i with 0 by lia. cbn. unfold bdim. destruct (Nat.eqb_spec n 1); [lia|]. reflexivity. }
  assert (HE : forall rc, exists vals, run h rc x y = Ok (h ++ [mkAlloc vals 1], mkObj 2 0 (fresh [n] 8)) /\
            get vals (fresh [n] 8) [0] = Some (if Nat.leb rc 2 then -4 else -3)%Z).
  { intros rc. pose proof (binary_with_elision_spec (int_kernel (mkIty 64 true) IFloorDiv)
                 (int_trait (mkIty 64 true) IFloorDiv) (int_trait (mkIty 64 true) IFloorDiv)
                 (fun d _ => d) (fun _ => 8%Z) h rc x y WX WY) as H.
    rewrite HB in H. cbv beta zeta in H. fold run in H.
    assert (HC : elision_candidate h rc x [n] 0 = Nat.leb rc 2).
    { unfold elision_candidate. cbn [x o_arr fresh a_shape size prod list_eqb a_c a_off o_dtype o_buf h strong_of nth_error al_strong].
      unfold size, x, elision_threshold. cbn [o_arr fresh a_shape prod].
      rewrite Nat.mul_1_r, Hn, Nat.eqb_refl. cbn. rewrite !andb_true_r. reflexivity. }
    change (o_dtype x) with 0 in H. change (o_dtype y) with 0 in H. rewrite HC in H.
    replace (chosen_dtype (int_kernel (mkIty 64 true) IFloorDiv) (Nat.leb rc 2) (0 =? 0) 0 0) with 0 in H
      by (destruct (Nat.leb rc 2); reflexivity).
    match type of H with _ = bind (mapM ?g ?l) _ => set (G := g) in * end.
    assert (HG : forall i, i < n -> G [i] = Ok (if Nat.leb rc 2 then -4 else -3)%Z).
    { intros i Hi. unfold G, x, y. cbn [o_arr o_buf fresh a_shape].
      rewrite !fresh_get by lia. unfold unbroadcast. cbn [length Nat.sub skipn].
      replace (nth_error (data_of h 0) (rank [n] (unstretch [n] [i]))) with (Some (-7)%Z).
      2:{ cbn [data_of h nth_error al_data]. cbn [unstretch].
          destruct (Nat.eqb_spec n 1); [lia|]. cbn [rank prod].
          symmetry. apply nth_error_repeat. lia. }
      replace (nth_error (data_of h 1) (rank [1] (unstretch [1] [i]))) with (Some 2%Z) by reflexivity.
      cbn [of_load bind]. unfold chosen. destruct (Nat.leb rc 2); vm_compute; reflexivity. }
    destruct (mapM_all_ok G (all_idx [n])) as [vals Ev].
    { intros idx Hi. apply in_all_idx in Hi. inversion Hi as [|i ? l ? Hl Hr]; subst. inversion Hr; subst.
      eexists. apply HG. exact Hl. }
    rewrite Ev in H. cbn [bind] in H. exists vals. split; [exact H|].
    assert (H0 : inb [0] [n]) by (constructor; [lia|constructor]).
    destruct (mapM_all_idx_get G [n] vals 8 [0] ltac:(lia) Ev H0) as (w & Hw & Ew).
    rewrite Hw. rewrite HG in Ew by lia. congruence. }
  destruct (HE 1) as (v1 & E1 & G1). destruct (HE 3) as (v2 & E2 & G2).
  exists h, x, y, (h ++ [mkAlloc v1 1]), (mkObj 2 0 (fresh [n] 8)), (h ++ [mkAlloc v2 1]), (mkObj 2 0 (fresh [n] 8)).
  split; [exact WX|]. split; [exact WY|]. split; [exact E1|]. split; [exact E2|]. split; [exact G1|exact G2].
Qed.

(* two elements suffice to see the size dependence: below the threshold the
   reference count does not matter *)
Theorem C19_small_arrays : forall V kern trait_ mixed promote isz (h : heap V) rc1 rc2 x y,
  wf (data_of h (o_buf x)) (o_arr x) -> wf (data_of h (o_buf y)) (o_arr y) ->
  (Z.of_nat (size (o_arr x)) < 32768)%Z ->
  binary_with_elision kern trait_ mixed promote isz h rc1 x y =
  binary_with_elision kern trait_ mixed promote isz h rc2 x y.
Proof.
  intros V kern trait_ mixed promote isz h rc1 rc2 x y WA WB HS.
  pose proof (binary_with_elision_spec kern trait_ mixed promote isz h rc1 x y WA WB) as H1.
  pose proof (binary_with_elision_spec kern trait_ mixed promote isz h rc2 x y WA WB) as H2.
  destruct (broadcast_shapes (a_shape (o_arr x)) (a_shape (o_arr y))) as [sh|]; [|congruence].
  cbv beta zeta in H1, H2.
  assert (HC : forall rc dt, elision_candidate h rc x sh dt = false).
  { intros rc dt. unfold elision_candidate, elision_threshold.
    destruct (Z.ltb_spec (Z.of_nat (size (o_arr x))) 32768); [|lia].
    cbn [negb]. rewrite andb_false_r. reflexivity. }
  rewrite !HC in H1, H2. congruence.
Qed.

(* ---- C22 ------------------------------------------------------------------ *)

(* full statement: where(c,x,y)[i] = x[i] if c[i] is non-zero else y[i] for every
   dtype of c.  Proved for one-byte conditions (bool, int8, uint8), every layout
   and both the typed and the fallback path *)
Theorem C22_byte_condition_partial : forall V typed cbuf (xbuf ybuf : list V) c x y sh1 sh item,
  wf cbuf c -> wf xbuf x -> wf ybuf y -> (0 < item)%Z ->
  (forall bytes, In bytes cbuf -> length bytes = 1) ->
  broadcast_shapes (a_shape c) (a_shape x) = Some sh1 -> broadcast_shapes sh1 (a_shape y) = Some sh ->
  exists vals,
    where_select cbuf xbuf ybuf typed (fun bytes => negb (le_value bytes =? 0)%Z) c x y = Ok (sh, vals) /\
    forall idx, inb idx sh ->
      exists bytes, get cbuf c (unbroadcast (a_shape c) idx) = Some bytes /\
        get vals (fresh sh item) idx =
        if (le_value bytes =? 0)%Z then get ybuf y (unbroadcast (a_shape y) idx)
        else get xbuf x (unbroadcast (a_shape x) idx).
Proof.
  intros V typed cbuf xbuf ybuf c x y sh1 sh item WC WX WY HI HB E1 E2.
  destruct (bshape_upper _ _ _ E1) as [BC1 BX1]. destruct (bshape_upper _ _ _ E2) as [B12 BY].
  pose proof (broadcastable_trans _ _ _ BC1 B12) as BC. pose proof (broadcastable_trans _ _ _ BX1 B12) as BX.
  unfold where_select. rewrite E1, E2.
  destruct (proj1 (broadcast_to_is_view cbuf c sh WC) BC) as (c' & _ & _ & _ & GC).
  destruct (proj1 (broadcast_to_is_view xbuf x sh WX) BX) as (x' & _ & _ & _ & GX).
  destruct (proj1 (broadcast_to_is_view ybuf y sh WY) BY) as (y' & _ & _ & _ & GY).
  set (G := fun idx => bind (of_load (get cbuf c (unbroadcast (a_shape c) idx))) (fun bytes =>
        if negb (le_value bytes =? 0)%Z then of_load (get xbuf x (unbroadcast (a_shape x) idx))
        else of_load (get ybuf y (unbroadcast (a_shape y) idx)))).
  assert (EQ : (if typed then where_typed cbuf xbuf ybuf c x y sh
     else where_fallback cbuf xbuf ybuf (fun bytes => negb (le_value bytes =? 0)%Z) c x y sh)
     = mapM G (all_idx sh)).
  { destruct typed; [|apply where_fallback_spec; assumption].
    destruct (where_typed_spec cbuf xbuf ybuf c x y sh WC WX WY BC BX BY) as (truth & HT & ->).
    apply mapM_ext. intros idx Hi. unfold G.
    destruct (get cbuf c (unbroadcast (a_shape c) idx)) as [bytes|] eqn:Eb; [|reflexivity]. cbn [of_load bind].
    assert (HL : length bytes = 1).
    { apply HB. unfold get, load in Eb. destruct (_ <? 0)%Z; [discriminate|].
      destruct (_ =? 0)%Z; [|discriminate]. eapply nth_error_In; exact Eb. }
    destruct bytes as [|b [|? ?]]; try discriminate.
    replace (truth [b]) with (negb (le_value [b] =? 0)%Z); [reflexivity|].
    destruct HT as [->| ->]; cbn; rewrite ?Z.add_0_r, ?orb_false_r; reflexivity. }
  rewrite EQ.
  assert (HG : forall idx, inb idx sh -> exists bytes, get cbuf c (unbroadcast (a_shape c) idx) = Some bytes /\
     exists v, G idx = Ok v /\ Some v = if (le_value bytes =? 0)%Z then get ybuf y (unbroadcast (a_shape y) idx)
        else get xbuf x (unbroadcast (a_shape x) idx)).
  { intros idx Hi. destruct (wf_get cbuf c _ WC (proj1 (GC idx Hi))) as [bytes Hb].
    destruct (wf_get xbuf x _ WX (proj1 (GX idx Hi))) as [vx Hx].
    destruct (wf_get ybuf y _ WY (proj1 (GY idx Hi))) as [vy Hy].
    exists bytes. split; [exact Hb|]. unfold G. rewrite Hb, Hx, Hy. cbn [of_load bind].
    destruct (le_value bytes =? 0)%Z; cbn [negb]; eauto. }
  destruct (mapM_all_ok G (all_idx sh)) as [vals Ev].
  { intros idx Hi. apply in_all_idx in Hi. destruct (HG idx Hi) as (_ & _ & v & Hv & _). eauto. }
  exists vals. rewrite Ev. split; [reflexivity|]. intros idx Hi.
  destruct (HG idx Hi) as (bytes & Hb & v & Hv & Ee). exists bytes. split; [exact Hb|].
  destruct (mapM_all_idx_get _ sh vals item idx HI Ev Hi) as (w & Hw & Ew). congruence.
Qed.

(* the fallback path (x and y of different dtypes) is right for every dtype of c *)
Theorem C22_fallback : forall V (truthy : list Z -> bool) cbuf (xbuf ybuf : list V) c x y sh1 sh item,
  wf cbuf c -> wf xbuf x -> wf ybuf y -> (0 < item)%Z ->
  broadcast_shapes (a_shape c) (a_shape x) = Some sh1 -> broadcast_shapes sh1 (a_shape y) = Some sh ->
  exists vals,
    where_select cbuf xbuf ybuf false truthy c x y = Ok (sh, vals) /\
    forall idx, inb idx sh ->
      exists bytes, get cbuf c (unbroadcast (a_shape c) idx) = Some bytes /\
        get vals (fresh sh item) idx =
        if truthy bytes then get xbuf x (unbroadcast (a_shape x) idx)
        else get ybuf y (unbroadcast (a_shape y) idx).
Proof.
  intros V truthy cbuf xbuf ybuf c x y sh1 sh item WC WX WY HI E1 E2.
  destruct (bshape_upper _ _ _ E1) as [BC1 BX1]. destruct (bshape_upper _ _ _ E2) as [B12 BY].
  pose proof (broadcastable_trans _ _ _ BC1 B12) as BC. pose proof (broadcastable_trans _ _ _ BX1 B12) as BX.
  unfold where_select. rewrite E1, E2.
  destruct (proj1 (broadcast_to_is_view cbuf c sh WC) BC) as (c' & _ & _ & _ & GC).
  destruct (proj1 (broadcast_to_is_view xbuf x sh WX) BX) as (x' & _ & _ & _ & GX).
  destruct (proj1 (broadcast_to_is_view ybuf y sh WY) BY) as (y' & _ & _ & _ & GY).
  rewrite where_fallback_spec by assumption.
  match goal with |- context [mapM ?g _] => set (G := g) end.
  assert (HG : forall idx, inb idx sh -> exists bytes, get cbuf c (unbroadcast (a_shape c) idx) = Some bytes /\
     exists v, G idx = Ok v /\ Some v = if truthy bytes then get xbuf x (unbroadcast (a_shape x) idx)
        else get ybuf y (unbroadcast (a_shape y) idx)).
  { intros idx Hi. destruct (wf_get cbuf c _ WC (proj1 (GC idx Hi))) as [bytes Hb].
    destruct (wf_get xbuf x _ WX (proj1 (GX idx Hi))) as [vx Hx].
    destruct (wf_get ybuf y _ WY (proj1 (GY idx Hi))) as [vy Hy].
    exists bytes. split; [exact Hb|]. unfold G. rewrite Hb, Hx, Hy. cbn [of_load bind].
    destruct (truthy bytes); eauto. }
  destruct (mapM_all_ok G (all_idx sh)) as [vals Ev].
  { intros idx Hi. apply in_all_idx in Hi. destruct (HG idx Hi) as (_ & _ & v & Hv & _). eauto. }
  exists vals. rewrite Ev. split; [reflexivity|]. intros idx Hi.
  destruct (HG idx Hi) as (bytes & Hb & v & Hv & Ee). exists bytes. split; [exact Hb|].
  destruct (mapM_all_idx_get _ sh vals item idx HI Ev Hi) as (w & Hw & Ew). congruence.
Qed.

(* an int16 condition equal to 256 selects y as soon as any operand is not
   contiguous, and x when all are *)
Theorem C22_wide_condition_refuted :
  exists cbuf (xbuf ybuf : list Z) c x y,
    wf cbuf c /\ wf xbuf x /\ wf ybuf y /\
    get cbuf c [0] = Some [0; 1]%Z /\ le_value [0; 1]%Z = 256%Z /\
    get xbuf x [0] = Some 10%Z /\ get ybuf y [0] = Some 20%Z /\
    where_select cbuf xbuf ybuf true (fun b => negb (le_value b =? 0)%Z) c x y = Ok ([2], [20; 20]%Z) /\
    where_select cbuf xbuf ybuf true (fun b => negb (le_value b =? 0)%Z) c x
       (fresh [2] 8) = Ok ([2], [10; 11]%Z).
Proof.
  exists [[0; 1]; [0; 1]]%Z, [10; 11]%Z, [20; 21]%Z, (fresh [2] 2), (fresh [2] 8), (fresh [1] 8).
  split; [apply fresh_wf; cbn; lia|]. split; [apply fresh_wf; cbn; lia|].
  split.
  { repeat split; cbn; try lia; try (intros idx Hi; inversion Hi as [|i ? l ? Hl Hr]; subst; inversion Hr; subst;
      exists 20%Z; replace i with 0 by lia; reflexivity); try discriminate. }
  repeat split; vm_compute; reflexivity.
Qed.
(* a float64 condition equal to -0.0 selects x when everything is contiguous *)
Theorem C22_negative_zero_refuted :
  exists cbuf (xbuf ybuf : list Z) c x y,
    wf cbuf c /\ wf xbuf x /\ wf ybuf y /\
    get cbuf c [0] = Some [0; 0; 0; 0; 0; 0; 0; 128]%Z /\ f64_is_zero [0; 0; 0; 0; 0; 0; 0; 128]%Z = true /\
    where_select cbuf xbuf ybuf true (fun b => negb (f64_is_zero b)) c x y = Ok ([1], [10]%Z).
Proof.
  exists [[0; 0; 0; 0; 0; 0; 0; 128]]%Z, [10]%Z, [20]%Z, (fresh [1] 8), (fresh [1] 8), (fresh [1] 8).
  split; [apply fresh_wf; cbn; lia|]. split; [apply fresh_wf; cbn; lia|]. split; [apply fresh_wf; cbn; lia|].
  repeat split; vm_compute; reflexivity.
Qed.

Example C22_nonvacuous :
  let cbuf := [[1]; [0]; [1]]%Z in
  where_select cbuf [1; 2; 3]%Z [10; 20]%Z true (fun b => negb (le_value b =? 0)%Z)
    (fresh [3] 1) (fresh [3] 8) (fresh [2; 1] 8) = Ok ([2; 3], [1; 10; 3; 1; 20; 3]%Z).
Proof. vm_compute; reflexivity. Qed.

Print Assumptions C16_binary_layout_independent.
Print Assumptions C16_binary_panics.
Print Assumptions C16_paths_agree.
Print Assumptions C16_binary_broadcast.
Print Assumptions C17_unary_layout_independent.
Print Assumptions C17_unary_paths_agree.
Print Assumptions C17_compare.
Print Assumptions C17_unary_commutes_with_views.
Print Assumptions C18_operands_unchanged.
Print Assumptions C18_history.
Print Assumptions C19_refcount_invisible_partial.
Print Assumptions C19_int_operators_agree.
Print Assumptions C19_refcount_visible_refuted.
Print Assumptions C19_small_arrays.
Print Assumptions C22_byte_condition_partial.
Print Assumptions C22_fallback.
Print Assumptions C22_wide_condition_refuted.
Print Assumptions C22_negative_zero_refuted.
