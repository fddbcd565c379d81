(* matmul on stacks of matrices. *)
From Coq Require Import Ascii.
From Verif Require Import Base Lists Arr_Spec Arr_Model Arr_Wf Arr_Proofs Bcast_Model Bcast_Proofs Idx_Model Elem_Proofs Int_Model Int_Proofs Red_Model Red_Scan Promo_Spec Promo_Model Gu_Spec Gu_Model Gu_Proofs Mat_Model Mat_Proofs.
Local Open Scope nat_scope.

(* an array of kind k and shape sh whose element idx is f idx *)
Definition array_of {V} (o : operand) (k : kind) (sh : list nat) (f : list nat -> V) : Prop :=
  o_kind o = k /\ wf (fst (snd o)) (o_arr o) /\ a_shape (o_arr o) = sh /\ a_item (o_arr o) = itemsize k /\
  forall idx, inb idx sh -> get (fst (snd o)) (o_arr o) idx = Some (f idx).

(* the loop axes of an operand line up with the broadcast loop axes: there are none,
   or as many as in the result; and they are not walked backwards *)
Definition aligned {V} (o : @operand V) (lsh loop : list nat) : Prop :=
  (lsh = [] \/ length lsh = length loop) /\
  Forall (fun s => (0 <= s)%Z) (firstn (length lsh) (a_strides (o_arr o))).

Lemma gu_sub_item a l k : a_item (gu_sub a l k) = a_item a.
Proof. unfold gu_sub. destruct (skipn _ _); reflexivity. Qed.
Lemma in_sub {V} (o : @operand V) k lsh core f loop l :
  array_of o k (lsh ++ core) f -> aligned o lsh loop -> broadcastable lsh loop -> inb l loop -> core <> [] ->
  let c := gu_sub (o_arr o) l (length lsh) in
  wf (fst (snd o)) c /\ a_shape c = core /\ a_item c = itemsize k /\
  forall x, inb x core -> get (fst (snd o)) c x = Some (f (unbroadcast lsh l ++ x)).
Proof.
  intros (EK & W & ES & EI & HG) [HA HF] [HL HS] Hl HC c.
  pose proof (inb_length _ _ Hl) as HLl.
  assert (EU : unstretch lsh (firstn (length lsh) l) = unbroadcast lsh l).
  { unfold unbroadcast. destruct HA as [->|HA]; [reflexivity|].
    replace (length l - length lsh) with 0 by lia. cbn [skipn]. rewrite HA, <- HLl, firstn_all. reflexivity. }
  assert (HI : inb (unbroadcast lsh l) lsh).
  { unfold unbroadcast. apply (unstretch_inb _ (skipn (length loop - length lsh) loop)); [exact HS|].
    rewrite HLl. apply inb_skipn, Hl. }
  assert (HCS : core_shape core = core) by (destruct core; [congruence|reflexivity]).
  assert (HCI : forall x, core_index core x = x) by (intros; destruct core; [congruence|reflexivity]).
  pose proof (gu_sub_is_view (fst (snd o)) (o_arr o) lsh core l W ES ltac:(lia)) as H.
  rewrite EU in H. specialize (H HI (dot_nonneg _ _ HF)). rewrite HCS in H. destruct H as (H1 & H2 & H3).
  split; [exact H2|]. split; [exact H1|]. split.
  - unfold c. rewrite <- EI. apply gu_sub_item.
  - intros x Hx. destruct (H3 x Hx) as [_ E]. rewrite HCI in E. unfold c. rewrite E. apply HG.
    apply inb_app; [apply inb_length, HI|]. auto.
Qed.

Lemma kind_eqb_refl k : kind_eqb k k = true.
Proof. destruct k; try reflexivity; cbn [kind_eqb]; try apply Nat.eqb_refl; destruct u; reflexivity. Qed.
Lemma promote_same k : promote k k = k.
Proof. unfold promote. rewrite kind_eqb_refl. reflexivity. Qed.

(* the sizes of the three names *)
Definition mnp (m n p : nat) (d : dimname) : nat :=
  if chars_eqb d ["m"%char] then m else if chars_eqb d ["n"%char] then n else p.
Lemma matmul_resolve lx ly loop m n p : joint [lx; ly] loop ->
  exists d, resolve matmul_sig [lx ++ [m; n]; ly ++ [n; p]] = Some d /\ d_loop d = loop /\
    d_loop_ndims d = [length lx; length ly] /\ d_out_core d = [[m; p]].
Proof.
  intros HJ. change matmul_sig with (mkSig [[["m"%char]; ["n"%char]]; [["n"%char]; ["p"%char]]] [[["m"%char]; ["p"%char]]]).
  match goal with |- context [resolve ?s _] => destruct (resolve_complete s [lx ++ [m; n]; ly ++ [n; p]] (mnp m n p) [lx; ly] loop) as (d & H1 & H2 & H3 & H4) end.
  { cbn [g_in]. split; [reflexivity|]. split; [reflexivity|exact HJ]. }
  exists d. split; [exact H1|]. split; [exact H2|]. split; [exact H3|]. exact H4.
Qed.

Section Loop.
Context {V : Type}.
Variables (zero : V) (truthy : V -> bool) (of_bool : bool -> V).
Variables (iadd imul : ity -> V -> V -> V) (fadd fmul : V -> V -> V).
Let mm := matmul zero truthy of_bool iadd imul fadd fmul.

(* the arithmetic used for a kind *)
Definition loop_ops (k : kind) : option ((V -> V -> V) * (V -> V -> V)) :=
  match k with
  | Float64 | Float32 | Complex64 | Complex128 => Some (fadd, fmul)
  | Int64 => Some (iadd i64, imul i64)
  | Int32 => Some (iadd i32, imul i32)
  | _ => None
  end.

(* a running sum of products *)
Definition sum_prod (add mul : V -> V -> V) (n : nat) (x y : nat -> V) : V :=
  fold_left (fun s k => add s (mul (x k) (y k))) (seq 0 n) zero.

Lemma generic_call add mul es (x y : list V * arr) lsh m n p l (f g : nat -> nat -> V) :
  (0 < es)%Z -> (Z.of_nat (prod (lsh ++ [m; p])) * es < 2 ^ 63)%Z -> inb l lsh ->
  wf (fst x) (snd x) -> a_shape (snd x) = [m; n] -> a_item (snd x) = es ->
  wf (fst y) (snd y) -> a_shape (snd y) = [n; p] -> a_item (snd y) = es ->
  (forall i k, i < m -> k < n -> get (fst x) (snd x) [i; k] = Some (f i k)) ->
  (forall k j, k < n -> j < p -> get (fst y) (snd y) [k; j] = Some (g k j)) ->
  call_ok lsh [m; p]
    (fun buf => matmul_generic zero add mul es x y (gu_sub (fresh (lsh ++ [m; p]) es) l (length lsh)) m n p buf) l
    (fun c => sum_prod add mul n (fun k => f (nth 0 c 0) k) (fun k => g k (nth 1 c 0))).
Proof.
  intros HE HB Hl WX SX IX WY SY IY HX HY.
  apply (call_ok_cells lsh m p _ (fun buf q =>
    bind (foldM (fun sum k => bind (peek es x (fst q) k) (fun a => bind (peek es y k (snd q)) (fun b => Ok (add sum (mul a b)))))
                (seq 0 n) zero)
         (poke es buf (gu_sub (fresh (lsh ++ [m; p]) es) l (length lsh)) (fst q) (snd q)))
    l (fun i j => sum_prod add mul n (fun k => f i k) (fun k => g k j))).
  - exact Hl.
  - intros buf HLb. unfold matmul_generic. rewrite <- foldM_nested. reflexivity.
  - intros i j Hi Hj buf HLb. cbn [fst snd].
    rewrite (foldM_ext _ (fun sum k => bind (Ok k) (fun k => Ok (add sum (mul (f i k) (g k j)))))).
    + rewrite (foldM_acc (fun k => Ok k) (fun k => k) (fun sum k => add sum (mul (f i k) (g k j)))) by reflexivity. cbn [bind].
      apply poke_spec; assumption.
    + intros s k Hk. apply in_seq in Hk. destruct x as [A a], y as [B b]. cbn [fst snd] in *.
      rewrite (peek_spec A a m n i k es), (peek_spec B b n p k j es) by (assumption || lia).
      rewrite HX, HY by (assumption || lia). reflexivity.
Qed.

(* what the kernel has to compute for operands of kind k *)
Definition kernel_computes (k : kind) (val : nat -> (nat -> V) -> (nat -> V) -> V) : Prop :=
  forall (x y : list V * arr) lsh m n p l (f g : nat -> nat -> V),
  (Z.of_nat (prod (lsh ++ [m; p])) * itemsize k < 2 ^ 63)%Z -> inb l lsh ->
  wf (fst x) (snd x) -> a_shape (snd x) = [m; n] -> a_item (snd x) = itemsize k ->
  wf (fst y) (snd y) -> a_shape (snd y) = [n; p] -> a_item (snd y) = itemsize k ->
  (forall i k, i < m -> k < n -> get (fst x) (snd x) [i; k] = Some (f i k)) ->
  (forall k j, k < n -> j < p -> get (fst y) (snd y) [k; j] = Some (g k j)) ->
  call_ok lsh [m; p]
    (fun buf => matmul_kernel zero truthy of_bool iadd imul fadd fmul k k k [x; y]
                  (gu_sub (fresh (lsh ++ [m; p]) (itemsize k)) l (length lsh)) buf) l
    (fun c => val n (fun q => f (nth 0 c 0) q) (fun q => g q (nth 1 c 0))).

Lemma loop_computes k add mul : loop_ops k = Some (add, mul) -> kernel_computes k (sum_prod add mul).
Proof.
  intros HK x y lsh m n p l f g HB Hl WX SX IX WY SY IY HX HY buf HBuf.
  assert (HE : (0 < itemsize k)%Z) by (destruct k; try discriminate; reflexivity).
  destruct (generic_call add mul (itemsize k) x y lsh m n p l f g HE HB Hl WX SX IX WY SY IY HX HY buf HBuf) as (buf' & E' & R').
  exists buf'. split; [|exact R'].
  unfold matmul_kernel. unfold nth_res. rewrite SX, SY. cbn [nth_error bind].
  rewrite kind_eqb_refl. cbn [andb]. destruct k; try discriminate HK; injection HK as <- <-; exact E'.
Qed.

(* booleans *)
Definition any_and (n : nat) (x y : nat -> V) : V := of_bool (existsb (fun q => truthy (x q) && truthy (y q)) (seq 0 n)).
Lemma any_loop_spec (x y : list V * arr) i j (f g : nat -> V) ks :
  (forall q, In q ks -> peek 1 x i q = Ok (f q) /\ peek 1 y q j = Ok (g q)) ->
  any_loop truthy x y i j ks = Ok (existsb (fun q => truthy (f q) && truthy (g q)) ks).
Proof.
  induction ks as [|q ks IH]; intros H; [reflexivity|]. cbn [any_loop existsb].
  destruct (H q (or_introl eq_refl)) as [-> ->]. cbn [bind].
  destruct (truthy (f q) && truthy (g q)); [reflexivity|]. cbn [orb]. apply IH. intros q' Hq. apply H. right; exact Hq.
Qed.
Lemma bool_computes : kernel_computes Bool any_and.
Proof.
  intros x y lsh m n p l f g HB Hl WX SX IX WY SY IY HX HY.
  change (itemsize Bool) with 1%Z in *.
  apply (call_ok_cells lsh m p _ (fun buf q =>
    bind (any_loop truthy x y (fst q) (snd q) (seq 0 n)) (fun r =>
    poke 1 buf (gu_sub (fresh (lsh ++ [m; p]) 1) l (length lsh)) (fst q) (snd q) (of_bool r)))
    l (fun i j => any_and n (fun k => f i k) (fun k => g k j))).
  - exact Hl.
  - intros buf HLb. unfold matmul_kernel, nth_res. rewrite SX, SY. cbn [nth_error bind kind_eqb andb].
    unfold matmul_bool. rewrite <- foldM_nested. reflexivity.
  - intros i j Hi Hj buf HLb. cbn [fst snd]. rewrite (any_loop_spec x y i j (f i) (fun q => g q j)).
    + cbn [bind]. apply poke_spec; try assumption. lia.
    + intros q Hq. apply in_seq in Hq. destruct x as [A a], y as [B b]. cbn [fst snd] in *.
      rewrite (peek_spec A a m n i q 1), (peek_spec B b n p q j 1) by (assumption || lia).
      rewrite HX, HY by (assumption || lia). split; reflexivity.
Qed.

Lemma split_idx2 l a b : nth 0 (skipn (length l) (l ++ [a; b])) 0 = a /\ nth 1 (skipn (length l) (l ++ [a; b])) 0 = b.
Proof. rewrite skipn_app, skipn_all, Nat.sub_diag. split; reflexivity. Qed.

(* matmul without the treatment of one-dimensional operands *)
Definition mm_core (x y : @operand V) : res (list V * arr) :=
  let kout := promote (o_kind x) (o_kind y) in
  gufunc_call matmul_sig (matmul_kernel zero truthy of_bool iadd imul fadd fmul (o_kind x) (o_kind y) kout) [snd x; snd y] zero (itemsize kout).

Theorem mm_core_spec k val x y lx ly loop m n p f g :
  kernel_computes k val -> (0 < itemsize k)%Z ->
  array_of x k (lx ++ [m; n]) f -> array_of y k (ly ++ [n; p]) g ->
  joint [lx; ly] loop -> aligned x lx loop -> aligned y ly loop ->
  (Z.of_nat (prod (loop ++ [m; p])) * itemsize k < 2 ^ 63)%Z ->
  exists buf c h, mm_core x y = Ok (buf, c) /\ array_of (k, (buf, c)) k (loop ++ [m; p]) h /\
    forall l i j, inb l loop -> i < m -> j < p ->
      h (l ++ [i; j]) = val n (fun q => f (unbroadcast lx l ++ [i; q])) (fun q => g (unbroadcast ly l ++ [q; j])).
Proof.
  intros HK HE HX HY HJ AX AY HB.
  pose proof HX as (KX & WX & SX & _ & _). pose proof HY as (KY & WY & SY & _ & _).
  pose proof (proj1 HJ) as HJ1.
  assert (BX : broadcastable lx loop) by (apply HJ1; cbn; auto).
  assert (BY : broadcastable ly loop) by (apply HJ1; cbn; auto).
  destruct (matmul_resolve lx ly loop m n p HJ) as (d & HR & HD1 & HD2 & HD3).
  set (v := fun l i j => val n (fun q => f (unbroadcast lx l ++ [i; q])) (fun q => g (unbroadcast ly l ++ [q; j]))).
  destruct (gufunc_call_spec matmul_sig (matmul_kernel zero truthy of_bool iadd imul fadd fmul k k k) [snd x; snd y] zero (itemsize k) d [m; p]
              (fun l c => v l (nth 0 c 0) (nth 1 c 0))) as (out & EC & HLo & HV).
  - exact HE.
  - cbn [map]. fold (o_arr x) (o_arr y). rewrite SX, SY. exact HR.
  - exact HD3.
  - rewrite HD1, HD2. intros l Hl. cbn [zip_with]. fold (o_arr x) (o_arr y).
    destruct (in_sub x k lx [m; n] f loop l HX AX BX Hl ltac:(discriminate)) as (W1 & S1 & I1 & G1).
    destruct (in_sub y k ly [n; p] g loop l HY AY BY Hl ltac:(discriminate)) as (W2 & S2 & I2 & G2).
    set (cx := gu_sub (o_arr x) l (length lx)) in *. set (cy := gu_sub (o_arr y) l (length ly)) in *.
    exact (HK (fst (snd x), cx) (fst (snd y), cy) loop m n p l
       (fun i q => f (unbroadcast lx l ++ [i; q])) (fun q j => g (unbroadcast ly l ++ [q; j])) HB Hl W1 S1 I1 W2 S2 I2
       (fun i q Hi Hq => G1 [i; q] ltac:(repeat constructor; assumption))
       (fun q j Hq Hj => G2 [q; j] ltac:(repeat constructor; assumption))).
  - exists out, (fresh (loop ++ [m; p]) (itemsize k)),
      (fun idx => v (firstn (length loop) idx) (nth 0 (skipn (length loop) idx) 0) (nth 1 (skipn (length loop) idx) 0)).
    rewrite HD1 in *. split; [|split].
    + unfold mm_core. rewrite KX, KY, promote_same. exact EC.
    + split; [reflexivity|]. split; [apply fresh_wf; [exact HE|cbn [fst snd]; rewrite HLo; exact HB|exact HLo]|].
      split; [reflexivity|]. split; [reflexivity|]. intros idx Hi. cbn [fst snd o_arr].
      rewrite <- (firstn_skipn (length loop) idx) at 1.
      assert (I1 : inb (firstn (length loop) idx ++ skipn (length loop) idx) (loop ++ [m; p])) by (rewrite firstn_skipn; exact Hi).
      apply inb_app in I1 as [I1 I2]; [|rewrite firstn_length, (inb_length _ _ Hi), app_length; lia].
      apply HV; assumption.
    + intros l i j Hl Hi Hj. cbv beta. pose proof (inb_length _ _ Hl) as HLl. rewrite <- HLl.
      destruct (split_idx2 l i j) as [-> ->].
      rewrite firstn_app, Nat.sub_diag, firstn_all. cbn [firstn]. rewrite app_nil_r. reflexivity.
Qed.

Lemma array_of_ext (o : @operand V) k sh f g : (forall idx, inb idx sh -> f idx = g idx) -> array_of o k sh f -> array_of o k sh g.
Proof. intros H (A & B & C & D & E). repeat (split; [assumption|]). intros idx Hi. rewrite E, H by exact Hi. reflexivity. Qed.

Lemma mm_unfold x y : mm x y = bind (expand_for_matmul x y) (fun '(xe, ye, sq) =>
  bind (mm_core xe ye) (fun '(buf, c) => Ok (promote (o_kind xe) (o_kind ye), (buf, if sq then squeeze c else c)))).
Proof. reflexivity. Qed.

(* stacks of matrices *)
Theorem matmul_stack k val x y lx ly loop m n p f g :
  kernel_computes k val -> (0 < itemsize k)%Z ->
  array_of x k (lx ++ [m; n]) f -> array_of y k (ly ++ [n; p]) g ->
  joint [lx; ly] loop -> aligned x lx loop -> aligned y ly loop ->
  (Z.of_nat (prod (loop ++ [m; p])) * itemsize k < 2 ^ 63)%Z ->
  exists out h, mm x y = Ok out /\ array_of out k (loop ++ [m; p]) h /\
    forall l i j, inb l loop -> i < m -> j < p ->
      h (l ++ [i; j]) = val n (fun q => f (unbroadcast lx l ++ [i; q])) (fun q => g (unbroadcast ly l ++ [q; j])).
Proof.
  intros HK HE HX HY HJ AX AY HB.
  pose proof HX as (KX & _ & SX & _ & _). pose proof HY as (KY & _ & SY & _ & _).
  destruct (mm_core_spec k val x y lx ly loop m n p f g HK HE HX HY HJ AX AY HB) as (buf & c & h & EC & HA & HV).
  exists (k, (buf, c)), h. split; [|split; [exact HA|exact HV]].
  rewrite mm_unfold.
  assert (EE : expand_for_matmul x y = Ok (x, y, false)).
  { unfold expand_for_matmul, ndim. rewrite SX, SY, !app_length. cbn [length]. rewrite !(Nat.add_comm _ 2). reflexivity. }
  rewrite EE. cbn [bind]. rewrite EC. cbn [bind]. rewrite KX, KY, promote_same. reflexivity.
Qed.

(* a matrix with entries x *)
Definition matrix_of (o : @operand V) (k : kind) (m n : nat) (x : nat -> nat -> V) : Prop :=
  array_of o k [m; n] (fun idx => x (nth 0 idx 0) (nth 1 idx 0)).
Definition vector_of (o : @operand V) (k : kind) (n : nat) (x : nat -> V) : Prop :=
  array_of o k [n] (fun idx => x (nth 0 idx 0)).

Lemma joint_nil : joint [[]; []] [].
Proof. apply broadcast_multi_joint. reflexivity. Qed.
Lemma aligned_nil (o : @operand V) : aligned o [] [].
Proof. split; [left; reflexivity|constructor]. Qed.

Lemma mm_core_2d k val x y m n p f g : kernel_computes k val -> (0 < itemsize k)%Z ->
  matrix_of x k m n f -> matrix_of y k n p g -> (Z.of_nat (m * p) * itemsize k < 2 ^ 63)%Z ->
  exists buf c, mm_core x y = Ok (buf, c) /\ matrix_of (k, (buf, c)) k m p (fun i j => val n (f i) (fun q => g q j)).
Proof.
  intros HK HE HX HY HB.
  destruct (mm_core_spec k val x y [] [] [] m n p _ _ HK HE HX HY joint_nil (aligned_nil x) (aligned_nil y)) as (buf & c & h & EC & HA & HV).
  { cbn [app prod]. rewrite Nat.mul_1_r. exact HB. }
  exists buf, c. split; [exact EC|]. unfold matrix_of. eapply array_of_ext; [|exact HA].
  intros idx Hi. cbn [app] in Hi. inversion Hi as [|i u c1 w Hi1 Hc1]; subst. inversion Hc1 as [|j u' c2 w' Hj Hc2]; subst. inversion Hc2; subst.
  exact (HV [] i j (Forall2_nil _) Hi1 Hj).
Qed.
Theorem matmul_2d k val x y m n p f g : kernel_computes k val -> (0 < itemsize k)%Z ->
  matrix_of x k m n f -> matrix_of y k n p g -> (Z.of_nat (m * p) * itemsize k < 2 ^ 63)%Z ->
  exists out, mm x y = Ok out /\ matrix_of out k m p (fun i j => val n (f i) (fun q => g q j)).
Proof.
  intros HK HE HX HY HB. destruct (mm_core_2d k val x y m n p f g HK HE HX HY HB) as (buf & c & EC & HM).
  pose proof HX as (KX & _ & SX & _). pose proof HY as (KY & _ & SY & _).
  exists (k, (buf, c)). split; [|exact HM]. rewrite mm_unfold.
  unfold expand_for_matmul, ndim. rewrite SX, SY. cbn [length bind]. rewrite EC. cbn [bind]. rewrite KX, KY, promote_same. reflexivity.
Qed.

(* one-dimensional operands *)
Lemma expand_array (o : @operand V) k n x axis : vector_of o k n x -> axis <= 1 ->
  exists a, expand_dims (o_arr o) axis = Ok a /\
    matrix_of (with_arr o a) k (if axis =? 0 then 1 else n) (if axis =? 0 then n else 1)
      (fun i j => x (if axis =? 0 then j else i)).
Proof.
  intros (K1 & W & S1 & I1 & G1) HA.
  destruct (expand_dims_is_view (fst (snd o)) (o_arr o) axis W) as [H _].
  destruct H as (a & E & ES & W' & HG); [unfold ndim; rewrite S1; exact HA|].
  exists a. split; [exact E|]. rewrite S1 in *.
  assert (EI : a_item a = itemsize k).
  { unfold expand_dims in E. destruct (_ <? _); [discriminate|]. injection E as <-. exact I1. }
  assert (D : axis = 0 \/ axis = 1) by lia.
  destruct D as [-> | ->]; cbn [insert_at Nat.eqb] in *;
    (split; [exact K1|]); (split; [exact W'|]); (split; [exact ES|]); (split; [exact EI|]);
    intros idx Hi; cbn [with_arr o_arr fst snd]; destruct (HG idx Hi) as [HI ->];
    inversion Hi as [|i u c1 w Hi1 Hc1]; subst; inversion Hc1 as [|j u' c2 w' Hj Hc2]; subst; inversion Hc2; subst;
    cbn [remove_at nth] in *; rewrite G1 by exact HI; reflexivity.
Qed.

Lemma squeeze_matrix buf c k m p z : matrix_of (k, (buf, c)) k m p z -> m = 1 \/ p = 1 ->
  vector_of (k, (buf, squeeze c)) k (m * p) (fun q => if m =? 1 then z 0 q else z q 0).
Proof.
  intros (K1 & W & S1 & I1 & G1) HD. cbn [fst snd o_arr] in *.
  destruct (squeeze_is_view buf c W) as (ES & W' & HG). rewrite S1 in *.
  assert (EI : a_item (squeeze c) = itemsize k).
  { rewrite <- I1. unfold squeeze. destruct (squeeze_lists _ _). destruct (_ && _); reflexivity. }
  assert (ESH : squeeze_shape [m; p] = [m * p]).
  { unfold squeeze_shape. cbn [filter]. destruct (Nat.eqb_spec m 1) as [->|], (Nat.eqb_spec p 1) as [->|]; cbn [negb]; try (f_equal; lia).  }
  rewrite ESH in *.
  split; [reflexivity|]. cbn [fst snd o_arr]. split; [exact W'|]. split; [exact ES|]. split; [exact EI|].
  intros idx Hi. destruct (HG idx Hi) as [HI E]. rewrite E.
  inversion Hi as [|q u c1 w Hq Hc1]; subst. inversion Hc1; subst. rewrite G1 by exact HI. f_equal.
  cbn [unsqueeze nth]. destruct (Nat.eqb_spec m 1) as [->|]; cbn [nth]; destruct (Nat.eqb_spec p 1) as [->|]; cbn [nth]; try reflexivity.
  - f_equal. lia.
Qed.

Theorem matmul_vec_mat k val x y n p f g : kernel_computes k val -> (0 < itemsize k)%Z ->
  vector_of x k n f -> matrix_of y k n p g -> (Z.of_nat p * itemsize k < 2 ^ 63)%Z ->
  exists out, mm x y = Ok out /\ vector_of out k p (fun j => val n f (fun q => g q j)).
Proof.
  intros HK HE HX HY HB. pose proof HX as (KX & _ & SX & _). pose proof HY as (KY & _ & SY & _).
  destruct (expand_array x k n f 0 HX ltac:(lia)) as (a & EA & HM). cbn [Nat.eqb] in HM.
  destruct (mm_core_2d k val (with_arr x a) y 1 n p _ _ HK HE HM HY) as (buf & c & EC & HC); [rewrite Nat.mul_1_l; exact HB|].
  exists (k, (buf, squeeze c)). split.
  - rewrite mm_unfold. unfold expand_for_matmul, ndim. rewrite SX, SY. cbn [length]. rewrite EA. cbn [bind].
    rewrite EC. cbn [bind]. change (o_kind (with_arr x a)) with (o_kind x). rewrite KX, KY, promote_same. reflexivity.
  - pose proof (squeeze_matrix _ _ _ _ _ _ HC (or_introl eq_refl)) as H. rewrite Nat.mul_1_l in H. exact H.
Qed.
Theorem matmul_mat_vec k val x y m n f g : kernel_computes k val -> (0 < itemsize k)%Z ->
  matrix_of x k m n f -> vector_of y k n g -> (Z.of_nat m * itemsize k < 2 ^ 63)%Z ->
  exists out, mm x y = Ok out /\ vector_of out k m (fun i => val n (f i) g).
Proof.
  intros HK HE HX HY HB. pose proof HX as (KX & _ & SX & _). pose proof HY as (KY & _ & SY & _).
  destruct (expand_array y k n g 1 HY ltac:(lia)) as (b & EA & HM). cbn [Nat.eqb] in HM.
  destruct (mm_core_2d k val x (with_arr y b) m n 1 _ _ HK HE HX HM) as (buf & c & EC & HC); [rewrite Nat.mul_1_r; exact HB|].
  exists (k, (buf, squeeze c)). split.
  - rewrite mm_unfold. unfold expand_for_matmul, ndim. rewrite SX, SY. cbn [length]. rewrite EA. cbn [bind].
    rewrite EC. cbn [bind]. change (o_kind (with_arr y b)) with (o_kind y). rewrite KX, KY, promote_same. reflexivity.
  - pose proof (squeeze_matrix _ _ _ _ _ _ HC (or_intror eq_refl)) as H. rewrite Nat.mul_1_r in H.
    eapply array_of_ext; [|exact H]. intros idx Hi. cbv beta.
    destruct (Nat.eqb_spec m 1) as [->|]; [|reflexivity].
    inversion Hi as [|q u c1 w Hq Hc1]; subst. cbn [nth]. replace q with 0 by lia. reflexivity.
Qed.
Theorem matmul_vec_vec k val x y n f g : kernel_computes k val -> (0 < itemsize k < 2 ^ 63)%Z ->
  vector_of x k n f -> vector_of y k n g ->
  exists out, mm x y = Ok out /\ vector_of out k 1 (fun _ => val n f g).
Proof.
  intros HK HE HX HY. pose proof HX as (KX & _ & SX & _). pose proof HY as (KY & _ & SY & _).
  destruct (expand_array x k n f 0 HX ltac:(lia)) as (a & EA & HM). cbn [Nat.eqb] in HM.
  destruct (expand_array y k n g 1 HY ltac:(lia)) as (b & EB & HN). cbn [Nat.eqb] in HN.
  destruct (mm_core_2d k val (with_arr x a) (with_arr y b) 1 n 1 _ _ HK ltac:(lia) HM HN) as (buf & c & EC & HC); [lia|].
  exists (k, (buf, squeeze c)). split.
  - rewrite mm_unfold. unfold expand_for_matmul, ndim. rewrite SX, SY. cbn [length]. rewrite EA, EB. cbn [bind].
    rewrite EC. cbn [bind]. change (o_kind (with_arr x a)) with (o_kind x). change (o_kind (with_arr y b)) with (o_kind y).
    rewrite KX, KY, promote_same. reflexivity.
  - pose proof (squeeze_matrix _ _ _ _ _ _ HC (or_intror eq_refl)) as H. exact H.
Qed.

(* inner lengths that differ are rejected *)
Lemma mm_core_reject x y lx ly m n n' p : a_shape (o_arr x) = lx ++ [m; n] -> a_shape (o_arr y) = ly ++ [n'; p] -> n <> n' ->
  mm_core x y = Err.
Proof.
  intros SX SY HN. unfold mm_core, gufunc_call. cbn [map]. fold (o_arr x) (o_arr y). rewrite SX, SY.
  destruct (resolve matmul_sig [lx ++ [m; n]; ly ++ [n'; p]]) as [d|] eqn:E; [|reflexivity].
  destruct (resolve_sound _ _ _ E) as (sizes & loops & (HS & HL & _)). exfalso.
  change (g_in matmul_sig) with [[["m"%char]; ["n"%char]]; [["n"%char]; ["p"%char]]] in *.
  destruct loops as [|l1 [|l2 [|]]]; try discriminate HL. cbn [zip_with map] in HS. injection HS as H1 H2.
  apply (f_equal (@rev nat)) in H1, H2. rewrite !rev_app_distr in H1, H2. cbn [rev app] in H1, H2.
  injection H1 as H1 H1'. injection H2 as H2 H2'. congruence.
Qed.
Theorem matmul_reject x y lx ly m n n' p : a_shape (o_arr x) = lx ++ [m; n] -> a_shape (o_arr y) = ly ++ [n'; p] -> n <> n' ->
  mm x y = Err.
Proof.
  intros SX SY HN. rewrite mm_unfold.
  assert (EE : expand_for_matmul x y = Ok (x, y, false)).
  { unfold expand_for_matmul, ndim. rewrite SX, SY, !app_length. cbn [length]. rewrite !(Nat.add_comm _ 2). reflexivity. }
  rewrite EE. cbn [bind]. rewrite (mm_core_reject x y lx ly m n n' p) by assumption. reflexivity.
Qed.
End Loop.
