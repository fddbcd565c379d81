(* C63: interp. *)
From Coq Require Import QArith Lqa SpecFloat.
From Verif Require Import Base Lists Arr_Spec Arr_Model Arr_Wf Wf_Check Arr_Proofs Copy_Model Copy_Proofs Elem_Model Man_Props Num_Model Num_Interp.
Local Open Scope Q_scope.

(* [increasing xp]: xp[i] < xp[j] for i < j.  [qinterp xp fp x]: interp_single with exact
   arithmetic and the default left and right values. *)

(* between knots i and i+1, ends included, the result lies on the line through them *)
Theorem C63_segment : forall xp fp x i, increasing xp -> length fp = length xp -> (S i < length xp)%nat ->
  nth i xp 0 <= x <= nth (S i) xp 0 ->
  exists v, qinterp xp fp x = Ok v /\
    v == nth i fp 0 + (x - nth i xp 0) * ((nth (S i) fp 0 - nth i fp 0) / (nth (S i) xp 0 - nth i xp 0)).
Proof.
  intros xp fp x i HI HL Hi H. destruct (qinterp_segment xp fp x i HI HL Hi H) as (v & E & EV). exists v. split; [exact E|].
  rewrite EV. unfold segment. pose proof (HI i (S i) ltac:(lia)). field. lra.
Qed.

(* at a knot the result is the given value *)
Theorem C63_knots : forall xp fp x i, increasing xp -> length fp = length xp -> (i < length xp)%nat -> x == nth i xp 0 ->
  exists v, qinterp xp fp x = Ok v /\ v == nth i fp 0.
Proof.
  intros xp fp x i HI HL Hi E. destruct (Nat.eq_dec i 0) as [->|N].
  - exists (nth 0 fp 0). split; [|reflexivity]. apply qinterp_below; [exact Hi|exact HL|lra].
  - destruct (qinterp_segment xp fp x (i - 1) HI HL ltac:(lia)) as (v & EV & H).
    { replace (S (i - 1)) with i by lia. pose proof (HI (i - 1)%nat i ltac:(lia)). lra. }
    exists v. split; [exact EV|]. rewrite H. replace i with (S (i - 1)) in E at 1 by lia.
    rewrite (segment_right xp fp (i - 1) x HI ltac:(lia) E). replace (S (i - 1)) with i by lia. reflexivity.
Qed.

(* outside the knots: the first or last value *)
Theorem C63_outside : forall xp fp x, increasing xp -> (0 < length xp)%nat -> length fp = length xp ->
  (x <= nth 0 xp 0 -> qinterp xp fp x = Ok (nth 0 fp 0)) /\
  (nth (length xp - 1) xp 0 <= x -> qinterp xp fp x = Ok (nth (length xp - 1) fp 0)).
Proof.
  intros xp fp x HI HN HL. split; intros H; [apply qinterp_below; assumption|]. rewrite <- HL. apply qinterp_above; assumption.
Qed.

(* between neighbouring knots the result is between their values *)
Theorem C63_between : forall xp fp x i, increasing xp -> length fp = length xp -> (S i < length xp)%nat ->
  nth i xp 0 <= x <= nth (S i) xp 0 ->
  exists v, qinterp xp fp x = Ok v /\ (nth i fp 0 <= v <= nth (S i) fp 0 \/ nth (S i) fp 0 <= v <= nth i fp 0).
Proof.
  intros xp fp x i HI HL Hi H. destruct (qinterp_segment xp fp x i HI HL Hi H) as (v & E & EV). exists v. split; [exact E|].
  rewrite EV. apply segment_between; assumption.
Qed.

(* samples of a straight line are interpolated by that line *)
Theorem C63_affine : forall xp a b x, increasing xp -> (0 < length xp)%nat -> nth 0 xp 0 <= x <= nth (length xp - 1) xp 0 ->
  exists v, qinterp xp (map (fun t => a * t + b) xp) x = Ok v /\ v == a * x + b.
Proof.
  intros xp a b x HI HN [H0 H1]. set (fp := map (fun t => a * t + b) xp).
  assert (HL : length fp = length xp) by apply map_length.
  assert (HF : forall i, (i < length xp)%nat -> nth i fp 0 = a * nth i xp 0 + b).
  { intros i Hi. unfold fp. rewrite (nth_indep _ 0 (a * 0 + b)) by (rewrite map_length; exact Hi).
    apply (map_nth (fun t => a * t + b)). }
  destruct (locate xp x HN H0 H1) as [L1|(i & Hi & HX)].
  - exists (nth 0 fp 0). split; [apply qinterp_below; [exact HN|exact HL|]|].
    + rewrite L1 in H1. exact H1.
    + rewrite HF by exact HN. rewrite L1 in H1. cbn [Nat.sub] in H1. assert (x == nth 0 xp 0) as -> by lra. reflexivity.
  - destruct (qinterp_segment xp fp x i HI HL Hi HX) as (v & E & EV). exists v. split; [exact E|]. rewrite EV. unfold segment.
    rewrite !HF by lia. pose proof (HI i (S i) ltac:(lia)). field. lra.
Qed.

(* non-decreasing values give a non-decreasing function of x *)
Theorem C63_monotone : forall xp fp x y u v, increasing xp -> (0 < length xp)%nat -> length fp = length xp ->
  (forall i j, (i <= j < length fp)%nat -> nth i fp 0 <= nth j fp 0) -> x <= y ->
  qinterp xp fp x = Ok u -> qinterp xp fp y = Ok v -> u <= v.
Proof.
  intros xp fp x y u v HI HN HL HF Hxy Hu Hv.
  assert (SEG : forall z w i, (S i < length xp)%nat -> nth i xp 0 <= z <= nth (S i) xp 0 -> qinterp xp fp z = Ok w ->
     w == segment xp fp i z /\ nth i fp 0 <= w <= nth (S i) fp 0).
  { intros z w i Hi Hz Hw. destruct (qinterp_segment xp fp z i HI HL Hi Hz) as (w' & E & EV). rewrite Hw in E. injection E as <-.
    split; [exact EV|]. rewrite EV. pose proof (HF i (S i) ltac:(lia)).
    destruct (segment_between xp fp i z HI Hi Hz); lra. }
  assert (BND : forall z w, qinterp xp fp z = Ok w -> nth 0 fp 0 <= w <= nth (length fp - 1) fp 0).
  { intros z w Hw. pose proof (HF 0%nat (length fp - 1)%nat ltac:(lia)) as HE.
    destruct (Qlt_le_dec z (nth 0 xp 0)) as [C|C].
    - rewrite (qinterp_below xp fp z HN HL) in Hw by lra. injection Hw as <-. lra.
    - destruct (Qlt_le_dec (nth (length xp - 1) xp 0) z) as [C'|C'].
      + rewrite (qinterp_above xp fp z HI HN HL) in Hw by lra. injection Hw as <-. lra.
      + destruct (locate xp z HN C C') as [L1|(i & Hi & Hz)].
        * rewrite (qinterp_below xp fp z HN HL) in Hw by (rewrite L1 in C'; exact C'). injection Hw as <-. lra.
        * destruct (SEG z w i Hi Hz Hw) as [_ B]. pose proof (HF 0%nat i ltac:(lia)). pose proof (HF (S i) (length fp - 1)%nat ltac:(lia)). lra. }
  destruct (Qlt_le_dec (nth 0 xp 0) x) as [C1|C1].
  2:{ rewrite (qinterp_below xp fp x HN HL C1) in Hu. injection Hu as <-. apply (BND y v Hv). }
  destruct (Qlt_le_dec y (nth (length xp - 1) xp 0)) as [C2|C2].
  2:{ rewrite (qinterp_above xp fp y HI HN HL C2) in Hv. injection Hv as <-. apply (BND x u Hu). }
  destruct (locate xp x HN ltac:(lra) ltac:(lra)) as [L1|(i & Hi & HX)]; [rewrite L1 in C2; cbn [Nat.sub] in C2; lra|].
  destruct (locate xp y HN ltac:(lra) ltac:(lra)) as [L1|(j & Hj & HY)]; [rewrite L1 in C2; cbn [Nat.sub] in C2; lra|].
  destruct (SEG x u i Hi HX Hu) as [EU BU]. destruct (SEG y v j Hj HY Hv) as [EV BV].
  destruct (Nat.lt_trichotomy i j) as [L|[->|L]].
  - pose proof (HF (S i) j ltac:(lia)). lra.
  - rewrite EU, EV. apply segment_mono; [exact HI|exact Hi|apply HF; lia|exact Hxy].
  - pose proof (increasing_le xp (S j) i HI ltac:(lia)).
    destruct (Nat.eq_dec (S j) i) as [<-|N]; [|pose proof (HI (S j) i ltac:(lia)); lra].
    rewrite EU, (segment_left xp fp (S j) x HI Hi) by lra.
    rewrite EV, (segment_right xp fp j y HI Hj) by lra. lra.
Qed.

(* the array function: shape of x, and element by element in row-major order; x may have
   any shape and layout, xp and fp any one-dimensional layout *)
Theorem C63_array : forall V (rd : V -> Q) (bx bp bf : list V) ax ap af xs ps fs left right,
  wf bx ax -> elems bx ax = map Some xs -> vector (bp, ap) ps -> vector (bf, af) fs -> length fs = length ps -> (0 < length ps)%nat ->
  let xp := map rd ps in let fp := map rd fs in
  interp Qplus Qminus Qmult Qdiv Qle_bool rd rd rd 0 (bx, ax) (bp, ap) (bf, af) left right =
  bind (mapM (fun x => interp_single Qplus Qminus Qmult Qdiv Qle_bool (rd x) xp fp
                (match left with Some l => l | None => nth 0 fp 0 end)
                (match right with Some r => r | None => nth (length fp - 1) fp 0 end)) xs)
       (fun out => Ok (a_shape ax, out)).
Proof.
  intros V rd bx bp bf ax ap af xs ps fs left right WX EX HP HF HL HN xp fp.
  pose proof (vector_size _ _ HP) as SP. pose proof (vector_size _ _ HF) as SF. cbn [snd] in SP, SF.
  destruct HP as (WP & SHP & EP). destruct HF as (WF & SHF & EF). cbn [fst snd] in *.
  unfold interp, ndim. cbn [fst snd]. rewrite SHP, SHF, SP, SF, HL, !Nat.eqb_refl. cbn [length Nat.eqb negb orb].
  destruct (Nat.eqb_spec (length ps) 0) as [C|_]; [lia|].
  rewrite (read_offsets bp ap ps WP EP), (read_offsets bf af fs WF EF). cbn [bind]. fold xp fp.
  assert (LF : length fp = length ps) by (unfold fp; rewrite map_length; exact HL).
  rewrite (at_nth fp 0 0) by lia. cbn [bind]. rewrite (at_nth fp (length ps - 1) 0) by lia. cbn [bind]. rewrite LF.
  assert (MM : forall (k : V -> res Q), mapM (fun o => bind (read bx ax o) k) (iter_offsets ax) = mapM k xs).
  { intros k. pose proof (read_offsets bx ax xs WX EX) as RO. clear - RO. revert xs RO.
    induction (iter_offsets ax) as [|o l IH]; intros xs RO; cbn [mapM] in *.
    - injection RO as <-. reflexivity.
    - destruct (read bx ax o) as [v| | |]; try discriminate. cbn [bind] in *.
      destruct (mapM (read bx ax) l) as [vs| | |]; try discriminate. cbn [bind] in RO. injection RO as <-.
      cbn [mapM]. rewrite (IH vs eq_refl). reflexivity. }
  rewrite MM. destruct (Nat.eqb_spec (size ax) 0) as [S0|_]; [|reflexivity].
  assert (xs = []) as ->.
  { apply (f_equal (@length _)) in EX. unfold elems in EX. rewrite !map_length, all_idx_length in EX.
    apply length_zero_iff_nil. unfold size in S0. lia. }
  cbn [mapM bind]. unfold size in S0. rewrite S0. reflexivity.
Qed.
(* and it is refused for xp and fp of different sizes or of another rank *)
Theorem C63_rejects : forall V (rd : V -> Q) x xp fp left right,
  length (a_shape (snd xp)) <> 1%nat \/ length (a_shape (snd fp)) <> 1%nat \/ size (snd xp) <> size (snd fp) ->
  interp Qplus Qminus Qmult Qdiv Qle_bool rd rd rd 0 x xp fp left right = Err.
Proof.
  intros V rd x xp fp left right H. unfold interp, ndim.
  destruct (Nat.eqb_spec (length (a_shape (snd xp))) 1), (Nat.eqb_spec (length (a_shape (snd fp))) 1), (Nat.eqb_spec (size (snd xp)) (size (snd fp)));
    try reflexivity. exfalso. tauto.
Qed.

(* an explicit left value is meant for x < xp[0]; it is also used at x = xp[0] *)
Theorem C63_left_refuted : exists xp fp left, increasing xp /\ length fp = length xp /\
  interp_single Qplus Qminus Qmult Qdiv Qle_bool (nth 0 xp 0) xp fp left (nth (length fp - 1) fp 0) = Ok left /\ ~ left == nth 0 fp 0.
Proof.
  exists [1; 2], [10; 20], (-1). split.
  - intros i j [H1 H2]. cbn [length] in H2. destruct i as [|[|]], j as [|[|]]; try lia; try reflexivity.
  - split; [reflexivity|]. split; [reflexivity|]. intros H. discriminate H.
Qed.

(* ---- double precision --------------------------------------------------------------- *)
Definition dadd := SFadd 53 1024. Definition dsub := SFsub 53 1024. Definition dmul := SFmul 53 1024. Definition ddiv := SFdiv 53 1024.
Definition dinterp (xp fp : list spec_float) (x : spec_float) : res spec_float :=
  interp_single dadd dsub dmul ddiv SFleb x xp fp (nth 0 fp S754_nan) (nth (length fp - 1) fp S754_nan).
Definition finite (f : spec_float) : Prop := match f with S754_finite _ _ _ | S754_zero _ => True | _ => False end.
Definition nonzero (f : spec_float) : Prop := match f with S754_finite _ _ _ | S754_infinity _ => True | _ => False end.

Lemma SFsub_self x : finite x -> exists s, dsub x x = S754_zero s.
Proof.
  destruct x as [s| | |s m e]; try contradiction; intros _.
  - exists (if Bool.eqb s (negb s) then s else false). destruct s; reflexivity.
  - exists false. unfold dsub, SFsub. rewrite Z.sub_diag. reflexivity.
Qed.
(* rounded arithmetic still returns the given value at an inner knot (-0 and +0 compare
   equal), provided the step to the next value does not overflow *)
Theorem C63_double_knots_partial : forall xp fp i, length fp = length xp -> (S i < length xp)%nat ->
  (forall j, (j < length xp)%nat -> finite (nth j xp S754_nan) /\ finite (nth j fp S754_nan)) ->
  (forall j k, (j < length xp)%nat -> (k < length xp)%nat -> SFleb (nth j xp S754_nan) (nth k xp S754_nan) = (j <=? k)%nat) ->
  nonzero (dsub (nth (S i) xp S754_nan) (nth i xp S754_nan)) ->
  finite (dsub (nth (S i) fp S754_nan) (nth i fp S754_nan)) ->
  exists v, dinterp xp fp (nth i xp S754_nan) = Ok v /\ SFeqb v (nth i fp S754_nan) = true.
Proof.
  intros xp fp i HL Hi HF HO HD HS. set (x := nth i xp S754_nan) in *.
  assert (SE : forall f, finite f -> SFeqb f f = true).
  { intros f Hf. destruct f as [s| | |s m e]; try contradiction; [reflexivity|]. unfold SFeqb, SFcompare.
    destruct s; rewrite Z.compare_refl, Pos.compare_cont_refl; reflexivity. }
  unfold dinterp.
  destruct (interp_single_cases dadd dsub dmul ddiv SFleb S754_nan x xp fp (nth 0 fp S754_nan) (nth (length fp - 1) fp S754_nan))
    as [[E0 E]|[(E0 & E1 & E)|(j & Hj & A & B & E)]]; [lia|exact HL| | | |].
  - intros _. unfold x. rewrite HO by lia. reflexivity.
  - unfold x in E0. rewrite HO in E0 by lia. apply Nat.leb_le in E0. exists (nth 0 fp S754_nan). split; [exact E|].
    replace i with 0%nat by lia. apply SE, HF. lia.
  - unfold x in E1. rewrite HO in E1 by lia. apply Nat.leb_le in E1. lia.
  - unfold x in A, B. rewrite HO in A, B by lia. apply Nat.leb_le in A. apply Nat.leb_gt in B.
    assert (j = i) by lia. subst j. eexists. split; [exact E|]. fold x in HD |- *.
    destruct (SFsub_self x) as [s ->]; [apply HF; lia|].
    destruct (HF i ltac:(lia)) as [_ HFi].
    set (w := dsub (nth (S i) xp S754_nan) x) in *. set (h := dsub (nth (S i) fp S754_nan) (nth i fp S754_nan)) in *.
    assert (DW : exists s', ddiv (S754_zero s) w = S754_zero s') by (destruct w; try contradiction; eexists; reflexivity).
    destruct DW as [s' ->].
    assert (MH : exists s'', dmul (S754_zero s') h = S754_zero s'') by (destruct h; try contradiction; eexists; reflexivity).
    destruct MH as [s'' ->].
    destruct (nth i fp S754_nan) as [q| | |q m e] eqn:EQ; try contradiction.
    + destruct q, s''; reflexivity.
    + change (dadd (S754_finite q m e) (S754_zero s'')) with (S754_finite q m e). apply SE. exact I.
Qed.
(* 1.7e308 and -1.7e308 at neighbouring knots: their difference overflows and the result
   at the first of them is NaN *)
Theorem C63_double_knots_refuted : exists xp fp, length fp = length xp /\ Forall finite xp /\ Forall finite fp /\
  (forall j k, (j < length xp)%nat -> (k < length xp)%nat -> SFleb (nth j xp S754_nan) (nth k xp S754_nan) = (j <=? k)%nat) /\
  dinterp xp fp (nth 1 xp S754_nan) = Ok S754_nan.
Proof.
  set (z := S754_zero false). set (one := S754_finite false 4503599627370496 (-52)). set (two := S754_finite false 4503599627370496 (-51)).
  set (big := S754_finite false 8517653350974460 971).
  exists [z; one; two], [z; big; SFopp big]. split; [reflexivity|]. split; [repeat constructor|]. split; [repeat constructor|]. split.
  - intros j k Hj Hk. cbn [length] in *. destruct j as [|[|[|]]], k as [|[|[|]]]; try lia; reflexivity.
  - vm_compute. reflexivity.
Qed.

(* ---- concrete instances --------------------------------------------------------------- *)
Lemma increasing_check xs : forallb (fun i => forallb (fun j => (j <=? i)%nat || negb (Qle_bool (nth j xs 0) (nth i xs 0))) (seq 0 (length xs))) (seq 0 (length xs)) = true -> increasing xs.
Proof.
  intros H i j [H1 H2]. rewrite forallb_forall in H. specialize (H i ltac:(apply in_seq; lia)). rewrite forallb_forall in H.
  specialize (H j ltac:(apply in_seq; lia)). apply Bool.orb_true_iff in H as [H|H]; [apply Nat.leb_le in H; lia|].
  apply Bool.negb_true_iff, Qle_bool_false in H. exact H.
Qed.
Example C63_nonvacuous : increasing [0; 1; 5 # 2; 4] /\
  (exists v, qinterp [0; 1; 5 # 2; 4] [10; 20; 5; 8] 2 = Ok v /\ v == 10) /\
  (exists v, qinterp [0; 1; 5 # 2; 4] [10; 20; 5; 8] (5 # 2) = Ok v /\ v == 5) /\
  qinterp [0; 1; 5 # 2; 4] [10; 20; 5; 8] (-3) = Ok 10 /\ qinterp [0; 1; 5 # 2; 4] [10; 20; 5; 8] 9 = Ok 8.
Proof.
  split; [apply increasing_check; reflexivity|]. split; [eexists; split; reflexivity|]. split; [eexists; split; reflexivity|]. split; reflexivity.
Qed.
Example C63_monotone_nonvacuous : (forall i j, (i <= j < length [1; 1; 3])%nat -> nth i [1; 1; 3] 0 <= nth j [1; 1; 3] 0) /\
  exists u v, qinterp [0; 1; 2] [1; 1; 3] (1 # 2) = Ok u /\ qinterp [0; 1; 2] [1; 1; 3] (3 # 2) = Ok v /\ u == 1 /\ v == 2.
Proof.
  split.
  - intros i j [H1 H2]. cbn [length] in H2. destruct i as [|[|[|]]], j as [|[|[|]]]; try lia; cbn [nth]; lra.
  - eexists _, _. split; [reflexivity|]. split; [reflexivity|]. split; reflexivity.
Qed.
Example C63_array_nonvacuous : exists out, interp Qplus Qminus Qmult Qdiv Qle_bool inject_Z inject_Z inject_Z 0
    ([1; 3; 2; 0]%Z, mkArr 0 [2; 2]%nat [8; 16]%Z 8 false true) ([4; 2; 0]%Z, mkArr 16 [3]%nat [-8]%Z 8 false false) ([0; 10; 40]%Z, fresh [3]%nat 8) None None = Ok ([2; 2]%nat, out) /\
  Forall2 Qeq out [5; 10; 25; 0].
Proof. eexists. split; [vm_compute; reflexivity|]. repeat constructor. Qed.
Example C63_double_nonvacuous : let one := S754_finite false 4503599627370496 (-52) in let two := S754_finite false 4503599627370496 (-51) in let z := S754_zero false in
  dinterp [z; one; two] [z; two; one] one = Ok two /\ nonzero (dsub two one) /\ finite (dsub one two).
Proof. split; [vm_compute; reflexivity|]. split; exact I. Qed.

Print Assumptions C63_segment.
Print Assumptions C63_knots.
Print Assumptions C63_outside.
Print Assumptions C63_between.
Print Assumptions C63_affine.
Print Assumptions C63_monotone.
Print Assumptions C63_array.
Print Assumptions C63_rejects.
Print Assumptions C63_left_refuted.
Print Assumptions C63_double_knots_partial.
Print Assumptions C63_double_knots_refuted.
