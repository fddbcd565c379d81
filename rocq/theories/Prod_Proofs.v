(* Lemmas about dot, inner, outer, vdot, kron, cross and tensordot. *)
From Coq Require Import Ascii.
From Verif Require Import Base Lists Arr_Spec Arr_Model Arr_Wf Arr_Proofs Bcast_Model Bcast_Proofs Idx_Model Idx_Wf Idx_Assign Copy_Model Elem_Model Elem_Proofs Int_Model Red_Model Red_Scan Conv_Spec Promo_Spec Promo_Model Gu_Spec Gu_Model Gu_Proofs Mat_Spec Mat_Model Mat_Proofs Mat_Batch Mat_Laws Prod_Spec Prod_Model.
Local Open Scope nat_scope.

(* ---------- loops of writes ---------- *)
Lemma write_all_app {A} (l m : list (nat * A)) : forall out, write_all (l ++ m) out = bind (write_all l out) (write_all m).
Proof.
  induction l as [|[p v] l IH]; intros out; [reflexivity|]. cbn [app write_all].
  destruct (p <? length out); [apply IH|reflexivity].
Qed.
Lemma write_all_len {A} (l : list (nat * A)) : forall out out', write_all l out = Ok out' -> length out' = length out.
Proof.
  induction l as [|[p v] l IH]; intros out out' E; [injection E as <-; reflexivity|]. cbn [write_all] in E.
  destruct (p <? length out); [|discriminate]. apply IH in E. rewrite E. apply upd_length.
Qed.
(* a loop whose body is a series of writes is the concatenated series *)
Lemma foldM_writes {A W} (f : list W -> A -> res (list W)) (g : A -> list (nat * W)) N L :
  (forall x, In x L -> forall buf, length buf = N -> f buf x = write_all (g x) buf) ->
  forall buf, length buf = N -> foldM f L buf = write_all (flat_map g L) buf.
Proof.
  induction L as [|x L IH]; intros H buf HB; [reflexivity|]. cbn [foldM flat_map]. rewrite write_all_app.
  rewrite H by (assumption || (left; reflexivity)).
  destruct (write_all (g x) buf) as [b| | |] eqn:E; cbn [bind]; try reflexivity.
  apply IH; [intros; apply H; [right|]; assumption|]. rewrite (write_all_len _ _ _ E). exact HB.
Qed.
Lemma write_one {W} (buf : list W) p v : write_all [(p, v)] buf = if p <? length buf then Ok (upd buf p v) else Fault.
Proof. reflexivity. Qed.

(* the filled array: every cell written once with a value that depends on its position only *)
Lemma write_fill {W} (l : list (nat * W)) (val : nat -> W) buf :
  (forall p v, In (p, v) l -> p < length buf /\ v = val p) -> (forall p, p < length buf -> exists v, In (p, v) l) ->
  exists out, write_all l buf = Ok out /\ length out = length buf /\ forall p, p < length buf -> nth_error out p = Some (val p).
Proof.
  intros H1 H2. destruct (write_all_spec l buf) as (out & E & HL & HN); [intros p v Hin; apply (H1 p v Hin)|].
  exists out. split; [exact E|]. split; [exact HL|]. intros p Hp. destruct (H2 p Hp) as [v Hin].
  destruct (H1 p v Hin) as [_ ->]. apply (HN p); [exact Hin|]. intros v' Hin'. apply (H1 p v' Hin').
Qed.

Lemma acc_loop {R} (rzero : R) (radd rmul : R -> R -> R) (ra rb : nat -> res R) (f g : nat -> R) n :
  (forall i, i < n -> ra i = Ok (f i)) -> (forall i, i < n -> rb i = Ok (g i)) ->
  foldM (fun s i => bind (ra i) (fun a => bind (rb i) (fun b => Ok (radd s (rmul a b))))) (seq 0 n) rzero = Ok (dot_product rzero radd rmul n f g).
Proof.
  intros H1 H2. rewrite (foldM_ext _ (fun s i => bind (Ok i) (fun i => Ok (radd s (rmul (f i) (g i)))))).
  - rewrite (foldM_acc (fun k => Ok k) (fun k => k) (fun s i => radd s (rmul (f i) (g i)))) by reflexivity. reflexivity.
  - intros s i Hi. apply in_seq in Hi. rewrite H1, H2 by lia. reflexivity.
Qed.

Section Elem.
Context {V R : Type}.
Variable rd : kind -> V -> R.
Lemma elem_ok k (x : list V * arr) idx v : inb idx (a_shape (snd x)) -> get (fst x) (snd x) idx = Some v ->
  elem rd k x idx = Ok (rd k v).
Proof.
  intros Hi E. unfold elem, get_element. rewrite (proj2 (idx_ok_iff _ _) Hi), E. reflexivity.
Qed.

End Elem.

Section Dot.
Context {V R : Type}.
Variables (rzero : R) (radd rmul : R -> R -> R) (rd : kind -> V -> R).
Notation dotp := (dot_product rzero radd rmul).
Lemma dot_loop_ok ka kb (x y : list V * arr) n (f g : nat -> V) :
  a_shape (snd x) = [n] -> a_shape (snd y) = [n] ->
  (forall i, i < n -> get (fst x) (snd x) [i] = Some (f i)) -> (forall i, i < n -> get (fst y) (snd y) [i] = Some (g i)) ->
  dot_loop rzero radd rmul rd ka kb x y n = Ok (dotp n (fun i => rd ka (f i)) (fun i => rd kb (g i))).
Proof.
  intros SX SY HX HY. unfold dot_loop. apply acc_loop; intros i Hi.
  - apply elem_ok; [rewrite SX; repeat constructor; exact Hi|auto].
  - apply elem_ok; [rewrite SY; repeat constructor; exact Hi|auto].
Qed.

End Dot.

Lemma fresh_array {V} k sh (buf : list V) f : (0 < itemsize k)%Z -> (Z.of_nat (prod sh) * itemsize k < 2 ^ 63)%Z -> length buf = prod sh ->
  (forall idx, inb idx sh -> nth_error buf (rank sh idx) = Some (f idx)) -> array_of (array k sh buf) k sh f.
Proof.
  intros HI HB HL H. split; [reflexivity|]. cbn [array o_arr fst snd].
  split; [apply fresh_wf; [exact HI|rewrite HL; exact HB|exact HL]|]. split; [reflexivity|]. split; [reflexivity|].
  intros idx Hi. rewrite fresh_get by exact HI. apply H, Hi.
Qed.

Section Put.
Context {V R : Type}.
Variables wr raw : kind -> R -> V.
(* ---------- inner ---------- *)
(* what a double becomes in an array of dtype k that is wide enough *)
Definition stored (k : kind) (s : R) : V := match k with Float64 | Complex128 => wr k s | _ => raw k s end.
Lemma put_ok k buf i s : (8 <= itemsize k)%Z -> i < length buf ->
  put wr raw k buf (itemsize k * Z.of_nat i) s = Ok (upd buf i (stored k s)).
Proof.
  intros HI Hi. unfold put. destruct (Z.ltb_spec (itemsize k) 8); [lia|]. apply store_rank; [lia|exact Hi].
Qed.

End Put.

Section Inner.
Context {V R : Type}.
Variables (vzero : V) (rzero : R) (radd rmul : R -> R -> R).
Variables (rd : kind -> V -> R) (wr raw : kind -> R -> V).
Notation dotp := (dot_product rzero radd rmul).
Notation stored := (stored wr raw).
Definition only_n (n : nat) (d : dimname) : nat := n.
Lemma inner_resolve lx ly loop n : joint [lx; ly] loop ->
  exists d, resolve inner_sig [lx ++ [n]; ly ++ [n]] = Some d /\ d_loop d = loop /\
    d_loop_ndims d = [length lx; length ly] /\ d_out_core d = [[]].
Proof.
  intros HJ. change inner_sig with (mkSig [[["n"%char]]; [["n"%char]]] [[]]).
  match goal with |- context [resolve ?s _] => destruct (resolve_complete s [lx ++ [n]; ly ++ [n]] (only_n n) [lx; ly] loop) as (d & H1 & H2 & H3 & H4) end.
  { cbn [g_in]. split; [reflexivity|]. split; [reflexivity|exact HJ]. }
  exists d. split; [exact H1|]. split; [exact H2|]. split; [exact H3|]. exact H4.
Qed.

Theorem inner_stack k ka kb x y lx ly loop n (f g : list nat -> V) :
  promote ka kb = k -> (8 <= itemsize k)%Z ->
  array_of x ka (lx ++ [n]) f -> array_of y kb (ly ++ [n]) g ->
  joint [lx; ly] loop -> aligned x lx loop -> aligned y ly loop ->
  (Z.of_nat (prod loop) * itemsize k < 2 ^ 63)%Z ->
  exists out, inner vzero rzero radd rmul rd wr raw x y = Ok out /\
    array_of out k loop (fun l => stored k (dotp n (fun q => rd ka (f (unbroadcast lx l ++ [q]))) (fun q => rd kb (g (unbroadcast ly l ++ [q]))))).
Proof.
  intros EK HI HX HY HJ AX AY HB.
  pose proof HX as (KX & WX & SX & _ & _). pose proof HY as (KY & WY & SY & _ & _).
  pose proof (proj1 HJ) as HJ1.
  assert (BX : broadcastable lx loop) by (apply HJ1; cbn; auto).
  assert (BY : broadcastable ly loop) by (apply HJ1; cbn; auto).
  destruct (inner_resolve lx ly loop n HJ) as (d & HR & HD1 & HD2 & HD3).
  set (v := fun l => stored k (dotp n (fun q => rd ka (f (unbroadcast lx l ++ [q]))) (fun q => rd kb (g (unbroadcast ly l ++ [q]))))).
  destruct (gufunc_call_spec inner_sig (inner_kernel rzero radd rmul rd wr raw ka kb k) [snd x; snd y] vzero (itemsize k) d []
              (fun l c => v l)) as (out & EC & HLo & HV).
  - lia.
  - cbn [map]. fold (o_arr x) (o_arr y). rewrite SX, SY. exact HR.
  - exact HD3.
  - rewrite HD1, HD2. intros l Hl. cbn [zip_with]. fold (o_arr x) (o_arr y).
    destruct (in_sub x ka lx [n] f loop l HX AX BX Hl ltac:(discriminate)) as (W1 & S1 & I1 & G1).
    destruct (in_sub y kb ly [n] g loop l HY AY BY Hl ltac:(discriminate)) as (W2 & S2 & I2 & G2).
    set (cx := gu_sub (o_arr x) l (length lx)) in *. set (cy := gu_sub (o_arr y) l (length ly)) in *.
    intros buf HLb. rewrite app_nil_r in *. unfold inner_kernel, nth_res. cbn [snd fst]. rewrite S1. cbn [nth_error bind].
    rewrite (dot_loop_ok rzero radd rmul rd ka kb (fst (snd x), cx) (fst (snd y), cy) n (fun q => f (unbroadcast lx l ++ [q])) (fun q => g (unbroadcast ly l ++ [q])) S1 S2).
    2,3: (cbn [fst snd]; intros i Hi; (apply G1 || apply G2); repeat constructor; exact Hi).
    cbn [bind].
    destruct (out_sub buf loop [] (itemsize k) l ltac:(lia)) as [_ HA]; [rewrite app_nil_r; exact HB|rewrite app_nil_r; exact HLb|exact Hl|].
    specialize (HA [0] ltac:(repeat constructor)). rewrite app_nil_r in HA. cbn [core_index dot] in HA. rewrite app_nil_r in HA.
    pose proof (rank_lt loop l Hl) as HRK. rewrite <- HLb in HRK.
    replace (a_off (gu_sub (fresh loop (itemsize k)) l (length loop))) with (itemsize k * Z.of_nat (rank loop l))%Z.
    2:{ rewrite <- HA. destruct (a_strides _); cbn [dot]; lia. }
    rewrite put_ok by assumption. eexists. split; [reflexivity|]. split; [apply upd_length|]. split.
    + intros c Hc. inversion Hc. rewrite app_nil_r. apply nth_error_upd_eq. exact HRK.
    + intros q Hq. apply nth_error_upd_neq. specialize (Hq [] (Forall2_nil _)). rewrite app_nil_r in Hq. congruence.
  - rewrite HD1, app_nil_r in *. exists (k, (out, fresh loop (itemsize k))). split.
    + unfold inner. rewrite KX, KY, EK, EC. reflexivity.
    + apply (fresh_array k loop out); [lia|exact HB|exact HLo|]. intros idx Hi. rewrite <- (fresh_get out loop (itemsize k)) by lia.
      specialize (HV idx [] Hi (Forall2_nil _)). rewrite app_nil_r in HV. exact HV.
Qed.

Theorem inner_vectors k x y n f g : (8 <= itemsize k)%Z -> (itemsize k < 2 ^ 63)%Z -> vector_of x k n f -> vector_of y k n g ->
  exists out, inner vzero rzero radd rmul rd wr raw x y = Ok out /\
    array_of out k [] (fun _ => stored k (dotp n (fun i => rd k (f i)) (fun i => rd k (g i)))).
Proof.
  intros HI HB HX HY.
  destruct (inner_stack k k k x y [] [] [] n _ _ (promote_same k) HI HX HY joint_nil (aligned_nil x) (aligned_nil y)) as (out & E & HA).
  { cbn [prod]. lia. }
  exists out. split; [exact E|]. eapply array_of_ext; [|exact HA]. intros idx Hi. inversion Hi; subst. reflexivity.
Qed.

Lemma inner_reject x y lx ly n n' : a_shape (o_arr x) = lx ++ [n] -> a_shape (o_arr y) = ly ++ [n'] -> n <> n' ->
  inner vzero rzero radd rmul rd wr raw x y = Err.
Proof.
  intros SX SY HN. unfold inner, gufunc_call. cbn [map]. fold (o_arr x) (o_arr y). rewrite SX, SY.
  destruct (resolve inner_sig [lx ++ [n]; ly ++ [n']]) as [d|] eqn:E; [|reflexivity].
  exfalso. apply resolve_sound in E as (sizes & loops & ES & HLL & _).
  change (g_in inner_sig) with [[["n"%char]]; [["n"%char]]] in *.
  destruct loops as [|u [|w [|]]]; cbn in HLL; try discriminate. cbn [zip_with map] in ES.
  injection ES as E1 E2. apply app_inj_tail in E1 as [_ E1]. apply app_inj_tail in E2 as [_ E2]. congruence.
Qed.
Lemma inner_narrow x y n n' : a_shape (o_arr x) = [n] -> a_shape (o_arr y) = [n'] -> n = n' ->
  wf (fst (snd x)) (o_arr x) -> wf (fst (snd y)) (o_arr y) -> (itemsize (promote (o_kind x) (o_kind y)) < 8)%Z ->
  inner vzero rzero radd rmul rd wr raw x y = Fault.
Proof.
  intros SX SY <- WX WY HI. unfold inner, gufunc_call. cbn [map]. fold (o_arr x) (o_arr y). rewrite SX, SY.
  destruct (inner_resolve [] [] [] n joint_nil) as (d & HR & HD1 & HD2 & HD3). cbn [app] in HR. rewrite HR, HD3.
  cbn [output_shape]. rewrite HD1, HD2. cbn [prod repeat odometer foldM app length output_shape zip_with].
  unfold output_shape. rewrite HD1. cbn [app prod repeat].
  unfold inner_kernel, nth_res. cbn [snd fst].
  set (cx := gu_sub (o_arr x) [] 0). set (cy := gu_sub (o_arr y) [] 0).
  destruct (gu_sub_is_view (fst (snd x)) (o_arr x) [] [n] [] WX SX ltac:(cbn; lia) ltac:(constructor) ltac:(cbn; lia)) as (S1 & W1 & _).
  destruct (gu_sub_is_view (fst (snd y)) (o_arr y) [] [n] [] WY SY ltac:(cbn; lia) ltac:(constructor) ltac:(cbn; lia)) as (S2 & W2 & _).
  cbn [core_shape length] in *. fold cx in S1, W1. fold cy in S2, W2.
  fold (o_arr x) (o_arr y). fold cx cy. rewrite S1. cbn [nth_error bind].
  assert (HD : exists s, dot_loop rzero radd rmul rd (o_kind x) (o_kind y) (fst (snd x), cx) (fst (snd y), cy) n = Ok s).
  { set (fa := fun i => match get (fst (snd x)) cx [i] with Some v => v | None => vzero end).
    set (fb := fun i => match get (fst (snd y)) cy [i] with Some v => v | None => vzero end).
    exists (dotp n (fun i => rd (o_kind x) (fa i)) (fun i => rd (o_kind y) (fb i))).
    apply dot_loop_ok; cbn [fst snd]; [exact S1|exact S2| |].
    - intros i Hi. unfold fa. destruct W1 as (_ & _ & _ & _ & W & _). destruct (W [i]) as [v ->]; [rewrite S1; repeat constructor; exact Hi|reflexivity].
    - intros i Hi. unfold fb. destruct W2 as (_ & _ & _ & _ & W & _). destruct (W [i]) as [v ->]; [rewrite S2; repeat constructor; exact Hi|reflexivity]. }
  destruct HD as [s ->]. cbn [bind]. unfold put. destruct (Z.ltb_spec (itemsize (promote (o_kind x) (o_kind y))) 8); [reflexivity|lia].
Qed.

End Inner.

Section Outer.
Context {V R : Type}.
Variables (vzero : V) (rmul : R -> R -> R).
Variables (rd : kind -> V -> R) (wr raw : kind -> R -> V).
Notation stored := (stored wr raw).
(* ---------- outer ---------- *)
Lemma outer_resolve m n : exists d, resolve outer_sig [[m]; [n]] = Some d /\ d_loop d = [] /\
    d_loop_ndims d = [0; 0] /\ d_out_core d = [[m; n]].
Proof.
  change outer_sig with (mkSig [[["m"%char]]; [["n"%char]]] [[["m"%char]; ["n"%char]]]).
  match goal with |- context [resolve ?s _] => destruct (resolve_complete s [[m]; [n]] (mnp m n 0) [[]; []] []) as (d & H1 & H2 & H3 & H4) end.
  { cbn [g_in]. split; [reflexivity|]. split; [reflexivity|apply joint_nil]. }
  exists d. split; [exact H1|]. split; [exact H2|]. split; [exact H3|]. exact H4.
Qed.

(* after flattening *)
Lemma outer_core k ka kb (x y : @operand V) m n f g : (8 <= itemsize k)%Z -> vector_of x ka m f -> vector_of y kb n g ->
  (Z.of_nat (m * n) * itemsize k < 2 ^ 63)%Z ->
  exists buf, gufunc_call outer_sig (outer_kernel rmul rd wr raw ka kb k) [snd x; snd y] vzero (itemsize k) = Ok (buf, fresh [m; n] (itemsize k)) /\
    matrix_of (k, (buf, fresh [m; n] (itemsize k))) k m n (fun i j => stored k (rmul (rd ka (f i)) (rd kb (g j)))).
Proof.
  intros HI HX HY HB.
  pose proof HX as (KX & WX & SX & _ & _). pose proof HY as (KY & WY & SY & _ & _).
  destruct (outer_resolve m n) as (d & HR & HD1 & HD2 & HD3).
  set (v := fun i j => stored k (rmul (rd ka (f i)) (rd kb (g j)))).
  destruct (gufunc_call_spec outer_sig (outer_kernel rmul rd wr raw ka kb k) [snd x; snd y] vzero (itemsize k) d [m; n]
              (fun l c => v (nth 0 c 0) (nth 1 c 0))) as (out & EC & HLo & HV).
  - lia.
  - cbn [map]. fold (o_arr x) (o_arr y). rewrite SX, SY. exact HR.
  - exact HD3.
  - rewrite HD1, HD2. intros l Hl. inversion Hl; subst l. cbn [zip_with]. fold (o_arr x) (o_arr y).
    destruct (in_sub x ka [] [m] _ [] [] HX (aligned_nil x) (proj1 joint_nil [] (or_introl eq_refl)) Hl ltac:(discriminate)) as (W1 & S1 & I1 & G1).
    destruct (in_sub y kb [] [n] _ [] [] HY (aligned_nil y) (proj1 joint_nil [] (or_introl eq_refl)) Hl ltac:(discriminate)) as (W2 & S2 & I2 & G2).
    cbn [length] in *. set (cx := gu_sub (o_arr x) [] 0) in *. set (cy := gu_sub (o_arr y) [] 0) in *.
    set (c := gu_sub (fresh ([] ++ [m; n]) (itemsize k)) [] 0).
    assert (HBB : (Z.of_nat (prod ([] ++ [m; n])) * itemsize k < 2 ^ 63)%Z) by (cbn [app prod]; rewrite Nat.mul_1_r; exact HB).
    assert (EST : exists s0 s1, a_strides c = [s0; s1]).
    { destruct (out_sub (repeat vzero (prod ([] ++ [m; n]))) [] [m; n] (itemsize k) [] ltac:(lia) HBB (repeat_length _ _) Hl) as [(ES & W & _) _].
      apply (two_strides _ _ m n W ES). }
    destruct EST as (s0 & s1 & EST).
    apply (call_ok_cells [] m n _ (fun buf q => bind (elem rd kb (fst (snd y), cy) [snd q]) (fun bj => put wr raw k buf (a_off c + (Z.of_nat (fst q) * s0 + Z.of_nat (snd q) * s1)) (rmul (rd ka (f (fst q))) bj))) [] v); [exact Hl| |].
    + intros buf HLb. unfold outer_kernel, nth_res. cbn [snd fst]. rewrite S1, S2, EST. cbn [nth_error bind].
      rewrite <- (foldM_nested (fun buf q => bind (elem rd kb (fst (snd y), cy) [snd q]) (fun bj => put wr raw k buf (a_off c + (Z.of_nat (fst q) * s0 + Z.of_nat (snd q) * s1)) (rmul (rd ka (f (fst q))) bj))) (fun _ => seq 0 n)).
      apply foldM_ext. intros b i Hi. apply in_seq in Hi.
      assert (Hi' : inb [i] [m]) by (repeat constructor; lia).
      rewrite (elem_ok rd ka (fst (snd x), cx) [i] (f i)); [reflexivity|cbn [snd]; rewrite S1; exact Hi'|].
      exact (G1 [i] Hi').
    + intros i j Hi Hj buf HLb. cbn [fst snd].
      assert (Hj' : inb [j] [n]) by (repeat constructor; exact Hj).
      rewrite (elem_ok rd kb (fst (snd y), cy) [j] (g j)); [cbn [bind]|cbn [snd]; rewrite S2; exact Hj'|exact (G2 [j] Hj')].
      destruct (out_sub buf [] [m; n] (itemsize k) [] ltac:(lia) HBB HLb Hl) as [_ HA].
      assert (Hij : inb [i; j] [m; n]) by (repeat constructor; assumption).
      specialize (HA [i; j] Hij). change (length (@nil nat)) with 0 in HA. fold c in HA. rewrite EST in HA. cbn [dot core_index app] in HA. rewrite Z.add_0_r in HA. rewrite HA.
      apply put_ok; [exact HI|]. rewrite HLb. apply rank_lt. exact Hij.
  - rewrite HD1 in *. cbn [app] in *. exists out. split; [exact EC|].
    apply (fresh_array k [m; n] out); [lia|cbn [prod]; rewrite Nat.mul_1_r; exact HB|exact HLo|].
    intros idx Hi. rewrite <- (fresh_get out [m; n] (itemsize k)) by lia. exact (HV [] idx (Forall2_nil _) Hi).
Qed.
(* a C-contiguous array of any shape, flattened *)
Lemma flatten_array (o : @operand V) k sh f : array_of o k sh f -> a_c (o_arr o) = true ->
  exists a, reshape (o_arr o) [size (o_arr o)] = Ok a /\ vector_of (with_arr o a) k (prod sh) (fun i => f (rm_unrank sh i)).
Proof.
  intros (K1 & W & S1 & I1 & G1) HC. unfold size. rewrite S1.
  destruct (reshape_c_is_view (fst (snd o)) (o_arr o) [prod sh] W HC) as (a & E & ES & W' & HG).
  { rewrite S1. cbn [prod]. lia. }
  exists a. split; [exact E|]. split; [exact K1|]. split; [exact W'|]. split; [exact ES|].
  split. { unfold reshape in E. destruct (negb _); [discriminate|]. destruct (_ && _); [discriminate|]. injection E as <-. exact I1. }
  intros idx Hi. cbn [with_arr o_arr fst snd]. destruct (HG idx Hi) as [HI ->]. rewrite S1 in *. rewrite G1 by exact HI. f_equal. f_equal. f_equal.
  inversion Hi as [|i u c1 w Hi1 Hc1]; subst. inversion Hc1; subst. cbn. lia.
Qed.
Theorem outer_spec k ka kb x y sx sy f g : promote ka kb = k -> (8 <= itemsize k)%Z ->
  array_of x ka sx f -> array_of y kb sy g -> a_c (o_arr x) = true -> a_c (o_arr y) = true ->
  (Z.of_nat (prod sx * prod sy) * itemsize k < 2 ^ 63)%Z ->
  exists out, outer vzero rmul rd wr raw x y = Ok out /\
    matrix_of out k (prod sx) (prod sy) (fun i j => stored k (rmul (rd ka (f (rm_unrank sx i))) (rd kb (g (rm_unrank sy j))))).
Proof.
  intros EK HI HX HY CX CY HB. pose proof HX as (KX & _). pose proof HY as (KY & _).
  destruct (flatten_array x ka sx f HX CX) as (a & EA & HA). destruct (flatten_array y kb sy g HY CY) as (b & EB & HB').
  destruct (outer_core k ka kb (with_arr x a) (with_arr y b) _ _ _ _ HI HA HB' HB) as (buf & EC & HM).
  eexists. split; [|exact HM]. unfold outer. rewrite EA, EB. cbn [bind]. rewrite KX, KY, EK.
  cbn [with_arr snd] in EC. rewrite EC. reflexivity.
Qed.
Theorem outer_needs_contiguous x y : a_c (o_arr x) = false -> a_f (o_arr x) = false -> outer vzero rmul rd wr raw x y = Err.
Proof. intros H1 H2. unfold outer, reshape. rewrite H1, H2. cbn [negb andb]. destruct (negb _); reflexivity. Qed.

End Outer.

Section Vdot.
Context {V R : Type}.
Variables (rzero : R) (radd rmul : R -> R -> R) (rd : kind -> V -> R).
Notation dotp := (dot_product rzero radd rmul).
(* ---------- vdot ---------- *)
Lemma zip_sum_ok ka kb (x y : list V * arr) n (oa ob : nat -> Z) (f g : nat -> V) :
  (forall i, i < n -> read (fst x) (snd x) (oa i) = Ok (f i)) -> (forall i, i < n -> read (fst y) (snd y) (ob i) = Ok (g i)) ->
  zip_sum rzero radd rmul rd ka kb x y (map (fun i => (oa i, ob i)) (seq 0 n)) = Ok (dotp n (fun i => rd ka (f i)) (fun i => rd kb (g i))).
Proof.
  intros H1 H2. rewrite <- (acc_loop rzero radd rmul (fun i => Ok (rd ka (f i))) (fun i => Ok (rd kb (g i))) _ _ n) by reflexivity.
  unfold zip_sum.
  assert (G : forall l s, (forall i, In i l -> i < n) ->
    foldM (fun s '(oa, ob) => bind (read (fst x) (snd x) oa) (fun a => bind (read (fst y) (snd y) ob) (fun b => Ok (radd s (rmul (rd ka a) (rd kb b)))))) (map (fun i => (oa i, ob i)) l) s =
    foldM (fun s i => bind (Ok (rd ka (f i))) (fun a => bind (Ok (rd kb (g i))) (fun b => Ok (radd s (rmul a b))))) l s).
  { induction l as [|i l IH]; intros s HI; [reflexivity|]. cbn [map foldM].
    rewrite H1, H2 by (apply HI; left; reflexivity). cbn [bind]. apply IH. intros; apply HI; right; assumption. }
  apply G. intros i Hi. apply in_seq in Hi. lia.
Qed.
Lemma offsets_rank a : length (a_strides a) = length (a_shape a) ->
  iter_offsets a = map (fun i => dot (unrank (a_shape a) i) (a_strides a)) (seq 0 (size a)).
Proof.
  intros HL. unfold iter_offsets. rewrite strided_offsets_spec by exact HL. rewrite all_idx_unrank, map_map. reflexivity.
Qed.
Lemma combine_map2 {A B C} (f : A -> B) (g : A -> C) l : combine (map f l) (map g l) = map (fun x => (f x, g x)) l.
Proof. induction l as [|x l IH]; [reflexivity|]. cbn. rewrite IH. reflexivity. Qed.
Theorem vdot_spec ka kb x y sx sy f g : array_of x ka sx f -> array_of y kb sy g -> prod sx = prod sy ->
  vdot rzero radd rmul rd x y =
  Ok (dotp (prod sx) (fun i => rd ka (f (rm_unrank sx i))) (fun i => rd kb (g (rm_unrank sy i)))).
Proof.
  intros (KX & WX & SX & IX & GX) (KY & WY & SY & IY & GY) HP. unfold vdot, size. rewrite SX, SY, <- HP, Nat.eqb_refl. cbn [negb].
  destruct (Nat.eqb_spec (prod sx) 0) as [->|HZ]; [reflexivity|].
  assert (RX : forall i, i < prod sx -> read (fst (snd x)) (o_arr x) (dot (unrank sx i) (a_strides (o_arr x))) = Ok (f (unrank sx i))).
  { intros i Hi. pose proof (GX (unrank sx i) (unrank_inb sx i Hi)) as E. unfold get, byte_offset_for in E. unfold read. rewrite E. reflexivity. }
  assert (RY : forall i, i < prod sx -> read (fst (snd y)) (o_arr y) (dot (unrank sy i) (a_strides (o_arr y))) = Ok (g (unrank sy i))).
  { intros i Hi. rewrite HP in Hi. pose proof (GY (unrank sy i) (unrank_inb sy i Hi)) as E. unfold get, byte_offset_for in E. unfold read. rewrite E. reflexivity. }
  destruct (a_c (o_arr x) && a_c (o_arr y) && kind_eqb (o_kind x) Float64 && kind_eqb (o_kind y) Float64) eqn:ED.
  - repeat apply andb_prop in ED as [ED ?]. rewrite KX in *. rewrite KY in *.
    assert (ka = Float64) as -> by (destruct ka; try discriminate; reflexivity).
    assert (kb = Float64) as -> by (destruct kb; try discriminate; reflexivity).
    apply zip_sum_ok; intros i Hi; fold (o_arr x) (o_arr y).
    + rewrite <- RX by exact Hi. f_equal. pose proof WX as (_ & _ & _ & WL & _ & WC & _).
      rewrite (c_contig_dot sx _ (a_item (o_arr x))); [|rewrite <- SX; exact WL|apply unrank_inb, Hi|rewrite <- SX; apply WC, ED].
      rewrite rank_unrank by exact Hi. rewrite IX. cbn [itemsize]. lia.
    + rewrite <- RY by exact Hi. f_equal. pose proof WY as (_ & _ & _ & WL & _ & WC & _). rewrite HP in Hi.
      rewrite (c_contig_dot sy _ (a_item (o_arr y))); [|rewrite <- SY; exact WL|apply unrank_inb, Hi|rewrite <- SY; apply WC; assumption].
      rewrite rank_unrank by exact Hi. rewrite IY. cbn [itemsize]. lia.
  - rewrite !offsets_rank by (apply WX || apply WY). unfold size. rewrite SX, SY, <- HP, combine_map2, KX, KY.
    apply zip_sum_ok; assumption.
Qed.
Lemma vdot_reject x y : size (o_arr x) <> size (o_arr y) -> vdot rzero radd rmul rd x y = Err.
Proof. intros H. unfold vdot. destruct (Nat.eqb_spec (size (o_arr x)) (size (o_arr y))); [contradiction|reflexivity]. Qed.
End Vdot.
