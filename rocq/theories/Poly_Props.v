(* C59: polyval, polyder, polyint.  C77: roots of polynomials of degree one and two. *)
From Coq Require Import Ring_theory Ring Field_theory Field QArith Qcanon.
From Verif Require Import Base Lists Arr_Spec Arr_Model Arr_Wf Arr_Proofs Wf_Check Copy_Model Copy_Proofs Elem_Proofs Idx_Model
  Man_Model Man_Proofs Man_Ops Man_Ops2 Man_Edit Man_Props Conv_Spec Conv_Model Conv_Proofs Conv_Props Poly_Spec Poly_Model Poly_Proofs.
Local Open Scope nat_scope.

Section RingProps.
Context {V R : Type}.
Variables (zero one : R) (add mul sub : R -> R -> R) (opp : R -> R).
Hypothesis RT : ring_theory zero one add mul sub opp eq.
Add Ring Rr : RT.
Variables (rd : V -> R) (nat_f : nat -> R).
Hypothesis nat_f_ok : forall n, nat_f n = times_one zero one add n.
Local Notation value := (value zero one add mul).

Lemma array_to_vec_ok (p : list V * arr) ps : wf (fst p) (snd p) -> elems (fst p) (snd p) = map Some ps ->
  array_to_vec rd p = Ok (map rd ps).
Proof.
  intros W E. unfold array_to_vec, read_all. rewrite (read_offsets _ _ ps W E). cbn [bind].
  destruct (Nat.eqb_spec (size (snd p)) 0) as [Z|Z]; [|reflexivity].
  destruct (wf_elems _ _ W) as (vs & E' & L). rewrite E in E'. apply map_Some_inj in E'. subst vs.
  destruct ps; [reflexivity|]. cbn in L. lia.
Qed.

Lemma vector_vec (p : list V * arr) ps : vector p ps -> array_to_vec rd p = Ok (map rd ps).
Proof. intros (W & _ & E). apply array_to_vec_ok; assumption. Qed.

(* polyval(p, x) evaluates sum p[i] x^(n-1-i) at every element of x, whatever the
   layout of p and x; no coefficients means the zero polynomial *)
Theorem C59_polyval : forall (p x : list V * arr) ps item,
  wf (fst p) (snd p) -> elems (fst p) (snd p) = map Some ps -> wf (fst x) (snd x) -> (0 < item)%Z ->
  exists out, polyval zero add mul rd p x = Ok (a_shape (snd x), out) /\ length out = size (snd x) /\
    forall idx, inb idx (a_shape (snd x)) ->
      exists v, get (fst x) (snd x) idx = Some v /\
        get out (fresh (a_shape (snd x)) item) idx = Some (value (map rd ps) (rd v)).
Proof.
  intros p x ps item WP EP WX HI. unfold polyval. rewrite (array_to_vec_ok p ps WP EP). cbn [bind].
  destruct (wf_elems _ _ WX) as (vs & EX & LX).
  set (f := fun v => value (map rd ps) (rd v)).
  exists (map f vs). split; [|split].
  - destruct (Nat.eqb_spec (length (map rd ps)) 0) as [Z|Z].
    + f_equal. f_equal. rewrite <- LX. clear EX LX. subst f. destruct ps; [|discriminate]. induction vs as [|v vs IH]; [reflexivity|].
      cbn [length repeat map]. rewrite IH. reflexivity.
    + rewrite (read_offsets _ _ vs WX EX). cbn [bind]. f_equal. f_equal. apply map_ext. intros v.
      apply (horner_value zero one add mul sub opp RT).
  - rewrite map_length. exact LX.
  - intros idx H. rewrite (elems_get _ _ _ _ _ _ HI EX H). destruct (wf_get _ _ _ WX H) as (v & G). rewrite G. exists v. split; reflexivity.
Qed.

(* polyder(p): n - 1 coefficients, the i-th being p[i] * (n-1-i); as a function it is
   the derivative: p(x + h) = p(x) + h * p'(x) whenever h^2 = 0 *)
Theorem C59_derivative : forall (p : list V * arr) ps, vector p ps ->
  exists d, polyder mul nat_f rd p 1 = Ok d /\ length d = length ps - 1 /\
    (forall i, i < length ps - 1 -> nth_error d i = Some (mul (nth i (map rd ps) zero) (times_one zero one add (length ps - 1 - i)))) /\
    (forall x h, mul h h = zero -> value (map rd ps) (add x h) = add (value (map rd ps) x) (mul h (value d x))).
Proof.
  intros p ps HP. unfold polyder. rewrite (vector_vec p ps HP). cbn [bind der_loop]. rewrite map_length. exists (der1 mul nat_f (map rd ps)).
  split; [|split; [|split]].
  - destruct (Nat.leb_spec (length ps) 1) as [L|L]; [|reflexivity]. f_equal. symmetry. apply length_zero_iff_nil.
    rewrite der1_length, map_length. lia.
  - rewrite der1_length, map_length. reflexivity.
  - intros i Hi. rewrite (der1_nth mul nat_f zero) by (rewrite map_length; exact Hi). rewrite nat_f_ok, map_length. reflexivity.
  - intros x h Hh. apply (value_shift zero one add mul sub opp RT nat_f nat_f_ok). exact Hh.
Qed.

Lemma polyder_1 (p : list V * arr) ps d : vector p ps -> polyder mul nat_f rd p 1 = Ok d -> d = der1 mul nat_f (map rd ps).
Proof.
  intros HP. unfold polyder. rewrite (vector_vec p ps HP). cbn [bind der_loop].
  destruct (Nat.leb_spec (length (map rd ps)) 1) as [L|L]; intros E; injection E as E; subst d; [|reflexivity].
  symmetry. apply length_zero_iff_nil. rewrite der1_length. lia.
Qed.

(* (c p + q)' = c p' + q', coefficient by coefficient *)
Theorem C59_linear : forall (p q r : list V * arr) ps qs rs dp dq dr c,
  vector p ps -> vector q qs -> vector r rs -> length ps = length qs -> length rs = length ps ->
  (forall i, i < length ps -> nth i (map rd rs) zero = add (mul c (nth i (map rd ps) zero)) (nth i (map rd qs) zero)) ->
  polyder mul nat_f rd p 1 = Ok dp -> polyder mul nat_f rd q 1 = Ok dq -> polyder mul nat_f rd r 1 = Ok dr ->
  length dr = length dp /\ length dq = length dp /\
  forall i, i < length dp -> nth i dr zero = add (mul c (nth i dp zero)) (nth i dq zero).
Proof.
  intros p q r ps qs rs dp dq dr c HP HQ HR L1 L2 HN EP EQ ER.
  apply (polyder_1 p ps) in EP; [|exact HP]. apply (polyder_1 q qs) in EQ; [|exact HQ]. apply (polyder_1 r rs) in ER; [|exact HR].
  subst. rewrite !der1_length, !map_length, L2, L1. split; [reflexivity|]. split; [reflexivity|]. intros i Hi.
  rewrite (nth_error_nth _ _ zero (der1_nth mul nat_f zero (map rd ps) i ltac:(rewrite map_length; lia))).
  rewrite (nth_error_nth _ _ zero (der1_nth mul nat_f zero (map rd qs) i ltac:(rewrite map_length; lia))).
  rewrite (nth_error_nth _ _ zero (der1_nth mul nat_f zero (map rd rs) i ltac:(rewrite map_length; lia))).
  rewrite !map_length, L2, L1, HN by lia. ring.
Qed.

(* (p q)' = p' q + p q', the product of polynomials being convolve *)
Theorem C59_product_rule : forall (p q r : list V * arr) ps qs rs fft dp dq dr x,
  vector p ps -> vector q qs -> vector r rs -> ps <> [] -> qs <> [] ->
  method_ok zero add mul fft (map rd ps) (map rd qs) ->
  convolve zero add mul rd fft p q Full = Ok (map rd rs) ->
  polyder mul nat_f rd p 1 = Ok dp -> polyder mul nat_f rd q 1 = Ok dq -> polyder mul nat_f rd r 1 = Ok dr ->
  value (map rd rs) x = mul (value (map rd ps) x) (value (map rd qs) x) /\
  value dr x = add (mul (value dp x) (value (map rd qs) x)) (mul (value (map rd ps) x) (value dq x)).
Proof.
  intros p q r ps qs rs fft dp dq dr x HP HQ HR NP NQ HM HC EP EQ ER.
  apply (polyder_1 p ps) in EP; [|exact HP]. apply (polyder_1 q qs) in EQ; [|exact HQ]. apply (polyder_1 r rs) in ER; [|exact HR]. subst.
  rewrite (convolve_full zero one add mul sub opp RT rd fft p q ps qs HP HQ NP NQ HM) in HC. injection HC as HC.
  assert (NP' : map rd ps <> []) by (destruct ps; [congruence|discriminate]).
  assert (NQ' : map rd qs <> []) by (destruct qs; [congruence|discriminate]).
  rewrite <- HC. split; [apply (value_conv zero one add mul sub opp RT); assumption|].
  apply (product_rule zero one add mul sub opp RT nat_f nat_f_ok); assumption.
Qed.
End RingProps.

Section FieldProps.
Context {V R : Type}.
Variables (zero one : R) (add mul sub div : R -> R -> R) (opp inv : R -> R).
Hypothesis FT : field_theory zero one add mul sub opp div inv eq.
Let RT := F_R FT.
Add Field Ff : FT.
Variables (rd : V -> R) (nat_f : nat -> R).
Hypothesis nat_f_ok : forall n, nat_f n = times_one zero one add n.
Hypothesis char0 : forall n, times_one zero one add (S n) <> zero.
Local Notation value := (value zero one add mul).

Lemma cancel_div c n : mul (div c (nat_f (S n))) (nat_f (S n)) = c.
Proof. rewrite nat_f_ok. pose proof (char0 n). field. assumption. Qed.

Definition consts (k : option (list V * arr)) (ks : list V) : Prop :=
  match k with None => ks = [] | Some k => vector k ks end.

Lemma polyint_ints (p : list V * arr) ps m k ks : vector p ps -> consts k ks ->
  polyint zero div nat_f rd p m k = Ok (ints div nat_f (map (fun r => nth r (map rd ks) zero) (rev (seq 0 m))) (map rd ps)).
Proof.
  intros HP HK. unfold polyint. rewrite (vector_vec rd p ps HP). cbn [bind].
  destruct k as [k|]; cbn [consts] in HK.
  - rewrite (vector_vec rd k ks HK). cbn [bind]. rewrite int_loop_ints. reflexivity.
  - subst ks. cbn [bind]. rewrite int_loop_ints. reflexivity.
Qed.

(* over a field of characteristic 0: polyint(p, m) has m more coefficients and
   polyder(polyint(p, m, k), m) = p, for any constants k *)
Theorem C59_integral : forall (p q : list V * arr) ps qs m k ks, vector p ps -> consts k ks ->
  exists out, polyint zero div nat_f rd p m k = Ok out /\ length out = m + length ps /\
    (vector q qs -> map rd qs = out -> polyder mul nat_f rd q m = Ok (map rd ps)).
Proof.
  intros p q ps qs m k ks HP HK. eexists. split; [exact (polyint_ints p ps m k ks HP HK)|]. split.
  - rewrite ints_length, !map_length, rev_length, seq_length. reflexivity.
  - intros HQ E. unfold polyder. rewrite (vector_vec rd q qs HQ), E. cbn [bind]. f_equal.
    set (l := map (fun r => nth r (map rd ks) zero) (rev (seq 0 m))).
    replace m with (length l) by (subst l; rewrite map_length, rev_length, seq_length; reflexivity).
    exact (der_loop_ints div nat_f zero mul cancel_div [] l (map rd ps)).
Qed.

Lemma value_at_0 l c : value (l ++ [c]) zero = c.
Proof. rewrite (value_snoc zero one add mul sub opp RT). ring. Qed.

(* the constants: the j-th derivative of polyint(p, m, k) at 0 is k[j], 0 if k has no
   j-th entry *)
Theorem C59_constants : forall (p q : list V * arr) ps qs m k ks j d, vector p ps -> consts k ks -> j < m ->
  vector q qs -> polyint zero div nat_f rd p m k = Ok (map rd qs) -> polyder mul nat_f rd q j = Ok d ->
  value d zero = nth j (map rd ks) zero.
Proof.
  intros p q ps qs m k ks j d HP HK Hj HQ EI ED.
  rewrite (polyint_ints p ps m k ks HP HK) in EI. injection EI as EI. unfold polyder in ED. rewrite (vector_vec rd q qs HQ), <- EI in ED.
  cbn [bind] in ED. injection ED as ED. subst d.
  set (g := fun r => nth r (map rd ks) zero).
  assert (S1 : map g (rev (seq 0 m)) = map g (rev (seq j (m - j))) ++ map g (rev (seq 0 j))).
  { rewrite <- map_app, <- rev_app_distr. f_equal. f_equal. replace m with (j + (m - j)) at 1 by lia. rewrite seq_app. reflexivity. }
  rewrite S1. replace j with (length (map g (rev (seq 0 j)))) at 1 by (rewrite map_length, rev_length, seq_length; reflexivity).
  rewrite (der_loop_ints div nat_f zero mul cancel_div).
  replace (m - j) with (S (m - j - 1)) by lia. cbn [seq rev]. rewrite map_app. cbn [map]. rewrite ints_snoc. unfold int1. rewrite value_at_0. reflexivity.
Qed.
End FieldProps.

(* NumPy takes the constants in order of integration: k[0] is the constant of the
   first integration, so it ends at degree m-1.  Here it is the constant of the last
   one; and a single constant is not repeated for all m integrations *)
Theorem C59_constant_order_refuted :
  let six := ([6]%Z, fresh [1] 8) in
  polyint 0%Z Z.div Z.of_nat id six 2 (Some ([1; 2]%Z, fresh [2] 8)) = Ok [3; 2; 1]%Z /\
  int1 Z.div Z.of_nat 2%Z (int1 Z.div Z.of_nat 1%Z [6%Z]) = [3; 1; 2]%Z /\
  polyint 0%Z Z.div Z.of_nat id six 2 (Some ([5]%Z, fresh [1] 8)) = Ok [3; 0; 5]%Z.
Proof. vm_compute. repeat split. Qed.

(* the hypotheses: the canonical rationals have characteristic 0; p = 2x^2 + 3x + 1
   stored with stride 2, its values, derivative and integral *)
Lemma Qc_char0 : forall n, times_one (Q2Qc 0) (Q2Qc 1) Qcplus (S n) <> Q2Qc 0.
Proof.
  assert (P : forall n, times_one (Q2Qc 0) (Q2Qc 1) Qcplus n = Q2Qc (inject_Z (Z.of_nat n))).
  { induction n as [|n IH]; [reflexivity|]. cbn [times_one]. rewrite IH. apply Qc_is_canon. unfold Qcplus, Q2Qc. cbn [this].
    rewrite !Qred_correct. unfold Qeq, inject_Z. cbn [Qnum Qden Qplus Pos.mul]. lia. }
  intros n E. rewrite P in E. apply (f_equal this) in E. unfold Q2Qc in E. cbn [this] in E.
  assert (Q : (inject_Z (Z.of_nat (S n)) == 0)%Q) by (rewrite <- (Qred_correct (inject_Z _)), E; reflexivity).
  unfold Qeq, inject_Z in Q. cbn [Qnum Qden] in Q. lia.
Qed.

Example C59_nonvacuous :
  field_theory (Q2Qc 0) (Q2Qc 1) Qcplus Qcmult Qcminus Qcopp Qcdiv Qcinv eq /\
  (forall n, times_one (Q2Qc 0) (Q2Qc 1) Qcplus (S n) <> Q2Qc 0) /\
  let rd z := Q2Qc (inject_Z z) in
  let p := ([2; 9; 3; 9; 1]%Z, mkArr 0 [3] [16]%Z 8 false false) in
  vector p [2; 3; 1]%Z /\ consts None ([] : list Z) /\
  polyval 0%Z Z.add Z.mul id p ([10; -1; 4; 0]%Z, fresh [2; 2] 8) = Ok ([2; 2], [231; 0; 45; 1]%Z) /\
  polyder Z.mul Z.of_nat id p 1 = Ok [4; 3]%Z /\
  polyint (Q2Qc 0) Qcdiv (times_one (Q2Qc 0) (Q2Qc 1) Qcplus) rd p 1 None = Ok [Q2Qc (2#3); Q2Qc (3#2); Q2Qc 1; Q2Qc 0]%Q.
Proof.
  split; [exact Qcft|]. split; [exact Qc_char0|]. cbv zeta. split; [split; [wfc|split; vm_compute; reflexivity]|].
  split; [reflexivity|]. split; [vm_compute; reflexivity|]. split; [vm_compute; reflexivity|].
  vm_compute. repeat (f_equal; try (apply Qc_is_canon; reflexivity)).
Qed.

Section Roots.
Context {V R : Type}.
Variables (zero one : R) (add mul sub div : R -> R -> R) (opp inv : R -> R).
Hypothesis FT : field_theory zero one add mul sub opp div inv eq.
Let RT := F_R FT.
Add Field Ff : FT.
Variables (rd : V -> R) (nat_f : nat -> R).
Hypothesis nat_f_ok : forall n, nat_f n = times_one zero one add n.
Hypothesis two : times_one zero one add 2 <> zero.
Variables (sqrt : R -> R) (tiny nonneg : R -> bool) (smaller : R -> R -> bool) (higher : list R -> option (list R)).
Hypothesis tiny_ok : forall c, tiny c = true <-> c = zero.
Hypothesis sqrt_ok : forall d, nonneg d = true -> mul (sqrt d) (sqrt d) = d.
Hypothesis square_ok : forall s, nonneg (mul s s) = true.
Hypothesis smaller_asym : forall a b, smaller a b = true -> smaller b a = false.
Local Notation value := (value zero one add mul).
Local Notation roots := (roots add mul div opp nat_f rd sqrt tiny nonneg smaller higher).

Lemma strip_lead z a l : a <> zero -> strip tiny (repeat zero z ++ a :: l) = a :: l.
Proof.
  intros Ha. induction z as [|z IH]; cbn [repeat app strip].
  - destruct (tiny a) eqn:E; [apply tiny_ok in E; congruence|reflexivity].
  - rewrite (proj2 (tiny_ok zero) eq_refl). exact IH.
Qed.

Lemma value_lead z l x : value (repeat zero z ++ l) x = value l x.
Proof.
  induction z as [|z IH]; [reflexivity|]. cbn [repeat app]. rewrite <- IH. clear IH. generalize (repeat zero z ++ l). intros m.
  rewrite <- !(horner_value zero one add mul sub opp RT). destruct m as [|c m]; cbn [horner fold_left]; [reflexivity|].
  f_equal. ring.
Qed.

Lemma two_nz : nat_f 2 <> zero.
Proof. rewrite nat_f_ok. exact two. Qed.

Lemma no_zero_div a b : mul a b = zero -> a = zero \/ b = zero.
Proof.
  intros H. destruct (tiny a) eqn:E; [left; apply tiny_ok; exact E|]. right.
  assert (Na : a <> zero) by (intros ->; rewrite (proj2 (tiny_ok zero) eq_refl) in E; discriminate).
  transitivity (mul (inv a) (mul a b)); [field; exact Na|]. rewrite H. ring.
Qed.

(* a x + b: the one root, and the polynomial factors through it *)
Theorem C77_linear : forall (p : list V * arr) ps z a b, vector p ps -> map rd ps = repeat zero z ++ [a; b] -> a <> zero ->
  exists r, roots p = Ok (Some [r]) /\ forall x, value (map rd ps) x = mul a (sub x r).
Proof.
  intros p ps z a b HP E Ha. unfold Poly_Model.roots. rewrite (vector_vec rd p ps HP). cbn [bind]. rewrite E, (strip_lead z a [b] Ha).
  cbn [map]. eexists. split; [reflexivity|]. intros x. rewrite value_lead. cbn. field. exact Ha.
Qed.

(* a x^2 + b x + c over an ordered field with square roots: a nonnegative discriminant
   gives both roots, larger magnitude first, and the factorisation; a negative one
   gives no root, and there is none *)
Theorem C77_quadratic_partial : forall (p : list V * arr) ps z a b c, vector p ps -> map rd ps = repeat zero z ++ [a; b; c] -> a <> zero ->
  exists rs, roots p = Ok (Some rs) /\
    (forall x, value (map rd ps) x = zero <-> In x rs) /\
    ((exists r1 r2, rs = [r1; r2] /\ smaller r1 r2 = false /\
        forall x, value (map rd ps) x = mul a (mul (sub x r1) (sub x r2))) \/
     (rs = [] /\ forall x, value (map rd ps) x <> zero)).
Proof.
  intros p ps z a b c HP E Ha. unfold Poly_Model.roots. rewrite (vector_vec rd p ps HP). cbn [bind]. rewrite E, (strip_lead z a [b; c] Ha).
  cbn [map]. set (B := div b a). set (C := div c a). set (disc := add (mul B B) (opp (mul (nat_f 4) C))).
  assert (N2 : nat_f 2 <> zero) by exact two_nz.
  assert (N4 : nat_f 4 = mul (nat_f 2) (nat_f 2)) by (rewrite !nat_f_ok; cbn [times_one]; ring).
  assert (VAL : forall x, value (repeat zero z ++ [a; b; c]) x = mul a (add (mul x x) (add (mul B x) C))).
  { intros x. rewrite value_lead. subst B C. cbn. field. exact Ha. }
  assert (T2 : nat_f 2 = add one one) by (rewrite nat_f_ok; cbn [times_one]; ring).
  destruct (nonneg disc) eqn:ND.
  - pose proof (sqrt_ok disc ND) as SQ. set (s := sqrt disc) in *.
    set (r1 := div (add (opp B) s) (nat_f 2)). set (r2 := div (add (opp B) (opp s)) (nat_f 2)).
    assert (FAC : forall x, value (repeat zero z ++ [a; b; c]) x = mul a (mul (sub x r1) (sub x r2))).
    { intros x. rewrite VAL. f_equal.
      transitivity (add (mul x x) (add (mul B x) (div (sub (mul B B) disc) (mul (nat_f 2) (nat_f 2))))).
      - f_equal. f_equal. unfold disc. rewrite N4. field. exact N2.
      - rewrite <- SQ. subst r1 r2. rewrite T2 in N2 |- *. field. split; [exact N2|]. intros H. apply no_zero_div in H. destruct H as [H|H]; exact (N2 H). }
    assert (ZER : forall x, value (repeat zero z ++ [a; b; c]) x = zero <-> x = r1 \/ x = r2).
    { intros x. rewrite FAC. split.
      - intros H. apply no_zero_div in H. destruct H as [H|H]; [congruence|]. apply no_zero_div in H. destruct H as [H|H]; [left|right].
        + transitivity (add (sub x r1) r1); [ring|rewrite H; ring].
        + transitivity (add (sub x r2) r2); [ring|rewrite H; ring].
      - intros [-> | ->]; ring. }
    destruct (smaller r1 r2) eqn:SM.
    + exists [r2; r1]. split; [reflexivity|]. split.
      * intros x. rewrite ZER. cbn [In]. intuition.
      * left. exists r2, r1. split; [reflexivity|]. split; [apply smaller_asym; exact SM|]. intros x. rewrite FAC. ring.
    + exists [r1; r2]. split; [reflexivity|]. split.
      * intros x. rewrite ZER. cbn [In]. intuition.
      * left. exists r1, r2. split; [reflexivity|]. split; [exact SM|]. intros x. apply FAC.
  - assert (NO : forall x, value (repeat zero z ++ [a; b; c]) x <> zero).
    { intros x H. rewrite VAL in H. apply no_zero_div in H. destruct H as [H|H]; [congruence|].
      assert (SQ : disc = mul (add (mul (nat_f 2) x) B) (add (mul (nat_f 2) x) B)).
      { transitivity (sub (mul (add (mul (nat_f 2) x) B) (add (mul (nat_f 2) x) B)) (mul (mul (nat_f 2) (nat_f 2)) (add (mul x x) (add (mul B x) C)))).
        - unfold disc. rewrite N4, T2. ring.
        - rewrite H. ring. }
      rewrite SQ, square_ok in ND. discriminate. }
    exists []. split; [reflexivity|]. split.
    + intros x. split; [intros H; destruct (NO x H)|intros []].
    + right. split; [reflexivity|exact NO].
Qed.

(* constants have no roots *)
Theorem C77_constant : forall (p : list V * arr) ps z, vector p ps ->
  (map rd ps = repeat zero z \/ exists a, a <> zero /\ map rd ps = repeat zero z ++ [a]) -> roots p = Ok (Some []).
Proof.
  intros p ps z HP H. unfold Poly_Model.roots. rewrite (vector_vec rd p ps HP). cbn [bind]. destruct H as [-> | (a & Ha & ->)].
  - replace (strip tiny (repeat zero z)) with (@nil R); [reflexivity|]. induction z as [|z IH]; [reflexivity|].
    cbn [repeat strip]. rewrite (proj2 (tiny_ok zero) eq_refl). exact IH.
  - rewrite (strip_lead z a [] Ha). reflexivity.
Qed.
End Roots.

(* the hypotheses hold in the reals, and in the field of three elements, whose squares
   are 0 and 1: there x^2 - 1 has the roots 1 and -1, and x^2 + 1 has none *)
Inductive f3 := O3 | I3 | J3.
Definition add3 a b := match a, b with O3, x => x | x, O3 => x | I3, I3 => J3 | I3, J3 => O3 | J3, I3 => O3 | J3, J3 => I3 end.
Definition opp3 a := match a with O3 => O3 | I3 => J3 | J3 => I3 end.
Definition mul3 a b := match a, b with O3, _ => O3 | _, O3 => O3 | I3, x => x | x, I3 => x | J3, J3 => I3 end.
Example C77_nonvacuous :
  let nonneg d := match d with J3 => false | _ => true end in
  let tiny c := match c with O3 => true | _ => false end in
  let roots l := roots add3 mul3 mul3 opp3 (times_one O3 I3 add3) id (fun d => d) tiny nonneg (fun _ _ => false) (fun _ => None) (l, fresh [length l] 8) in
  field_theory O3 I3 add3 mul3 (fun a b => add3 a (opp3 b)) opp3 mul3 (fun a => a) eq /\
  times_one O3 I3 add3 2 <> O3 /\ (forall c, tiny c = true <-> c = O3) /\ (forall d, nonneg d = true -> mul3 d d = d) /\
  (forall s, nonneg (mul3 s s) = true) /\
  roots [O3; I3; O3; J3] = Ok (Some [J3; I3]) /\ roots [I3; O3; I3] = Ok (Some []) /\ roots [J3; I3] = Ok (Some [I3]) /\
  vector ([O3; I3; O3; J3], fresh [4] 8) [O3; I3; O3; J3].
Proof.
  cbv zeta. split.
  - constructor; [constructor; intros; repeat match goal with x : f3 |- _ => destruct x end; reflexivity|discriminate|reflexivity|].
    intros [| |] H; [congruence|reflexivity|reflexivity].
  - split; [discriminate|]. split; [intros [| |]; split; congruence|]. split; [intros [| |]; cbn; congruence|]. split; [intros [| |]; reflexivity|].
    split; [vm_compute; reflexivity|]. split; [vm_compute; reflexivity|]. split; [vm_compute; reflexivity|].
    split; [wfc|split; vm_compute; reflexivity].
Qed.

(* missing, because false of the code: x^2 + 1 has two complex roots, none is
   returned; and a leading coefficient below 1e-15 is discarded as if it were zero,
   so 10^-20 x + 1 has no root instead of -10^20 *)
Theorem C77_complex_refuted : forall (higher : list Q -> option (list Q)),
  let q z := inject_Z z in
  let tiny c := match Qcompare (Qmult c c) (1 # 1000000000000000000000000000000) with Lt => true | _ => false end in
  let roots c := roots Qplus Qmult Qdiv Qopp (fun n => inject_Z (Z.of_nat n)) id (fun d => d) tiny (fun d => Qle_bool 0 d)
                   (fun a b => match Qcompare (Qmult a a) (Qmult b b) with Lt => true | _ => false end) higher (c, fresh [length c] 8) in
  roots [q 1; q 0; q 1]%Z = Ok (Some []) /\ roots [1 # 100000000000000000000; q 1%Z]%Q = Ok (Some []) /\
  roots [1 # 100; q 1%Z]%Q <> Ok (Some []).
Proof. intros higher. vm_compute. repeat split; discriminate. Qed.

Print Assumptions C59_polyval.
Print Assumptions C59_derivative.
Print Assumptions C59_linear.
Print Assumptions C59_product_rule.
Print Assumptions C59_integral.
Print Assumptions C59_constants.
Print Assumptions C59_constant_order_refuted.
Print Assumptions C77_linear.
Print Assumptions C77_quadratic_partial.
Print Assumptions C77_constant.
Print Assumptions C77_complex_refuted.
