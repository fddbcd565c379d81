(* C44: convolve and correlate. *)
From Coq Require Import Ring_theory Ring.
From Verif Require Import Base Lists Arr_Spec Arr_Model Arr_Wf Arr_Proofs Wf_Check Copy_Model Copy_Proofs Elem_Proofs Idx_Model
  Man_Model Man_Proofs Man_Ops Man_Ops2 Man_Edit Man_Props Conv_Spec Conv_Model Conv_Proofs.
Local Open Scope nat_scope.

Section Props.
Context {V R : Type}.
Variables (zero one : R) (add mul sub : R -> R -> R) (opp : R -> R).
Hypothesis RT : ring_theory zero one add mul sub opp eq.
Variables (rd : V -> R) (fft : list R -> list R -> list R).
Add Ring Rr : RT.

(* the direct method is used, or the FFT path computes the same thing *)
Definition method_ok (a v : list R) : Prop :=
  (Z.of_nat (length a) * Z.of_nat (length v) <= 500000)%Z \/ fft a v = conv_full zero add mul a v.

Lemma read_all_spec (x : list V * arr) xs : vector x xs -> read_all rd x = Ok (map rd xs).
Proof. intros (W & _ & E). unfold read_all. rewrite (read_offsets _ _ xs W E). reflexivity. Qed.

Lemma conv_core_spec a v mode s l : a <> [] -> v <> [] -> method_ok a v ->
  match mode with
  | Full => s = 0 /\ l = length a + length v - 1
  | Same => s = (length v - 1) / 2 /\ l = length a
  | Valid => s = length v - 1 /\ l = Nat.max (length a - (length v - 1)) 1
  | OtherMode => False
  end -> conv_core zero add mul fft a v mode = Ok (firstn l (skipn s (conv_full zero add mul a v))) /\
         s + l <= length (conv_full zero add mul a v).
Proof.
  intros Ha Hv HM HC. unfold conv_core. cbv zeta.
  replace (if (500000 <? Z.of_nat (length a) * Z.of_nat (length v))%Z then Ok (fft a v) else convolve_direct zero add mul a v)
    with (Ok (conv_full zero add mul a v)).
  - cbn [bind]. apply (cut_spec zero); try exact HC.
    + unfold conv_full. rewrite map_length, seq_length. reflexivity.
    + destruct a; [congruence|cbn; lia].
    + destruct v; [congruence|cbn; lia].
  - destruct (Z.ltb_spec 500000 (Z.of_nat (length a) * Z.of_nat (length v))) as [H|H].
    + destruct HM as [HM|HM]; [lia|]. rewrite HM. reflexivity.
    + symmetry. exact (convolve_direct_spec zero one add mul sub opp RT a v Ha Hv).
Qed.

Lemma convolve_core (x y : list V * arr) xs ys mode : vector x xs -> vector y ys -> xs <> [] -> ys <> [] ->
  convolve zero add mul rd fft x y mode = conv_core zero add mul fft (map rd xs) (map rd ys) mode /\
  correlate zero add mul rd fft x y mode = conv_core zero add mul fft (map rd xs) (rev (map rd ys)) mode.
Proof.
  intros HX HY Hx Hy. unfold convolve, correlate. rewrite (vector_size x xs HX), (vector_size y ys HY).
  pose proof HX as (_ & SX & _). pose proof HY as (_ & SY & _). unfold ndim. rewrite SX, SY. cbn [length Nat.eqb andb negb].
  destruct (Nat.eqb_spec (length xs) 0); [destruct xs; [congruence|discriminate]|].
  destruct (Nat.eqb_spec (length ys) 0); [destruct ys; [congruence|discriminate]|]. cbn [orb].
  rewrite (read_all_spec x xs HX), (read_all_spec y ys HY). cbn [bind]. split; reflexivity.
Qed.

Lemma map_ne {A B} (f : A -> B) l : l <> [] -> map f l <> [].
Proof. destruct l; [congruence|discriminate]. Qed.

(* convolve(a, v): element k is the sum of a[i] * v[j] over i + j = k, for k < n + m - 1 *)
Theorem C44_convolve_partial : forall (x y : list V * arr) xs ys, vector x xs -> vector y ys -> xs <> [] -> ys <> [] ->
  method_ok (map rd xs) (map rd ys) ->
  exists out, convolve zero add mul rd fft x y Full = Ok out /\ length out = length xs + length ys - 1 /\
    forall k, k < length xs + length ys - 1 ->
      nth_error out k = Some (big zero add (length xs) (fun i => big zero add (length ys) (fun j =>
        if i + j =? k then mul (nth i (map rd xs) zero) (nth j (map rd ys) zero) else zero))).
Proof.
  intros x y xs ys HX HY Hx Hy HM. destruct (convolve_core x y xs ys Full HX HY Hx Hy) as [-> _].
  destruct (conv_core_spec (map rd xs) (map rd ys) Full 0 (length (map rd xs) + length (map rd ys) - 1) (map_ne rd xs Hx) (map_ne rd ys Hy) HM (conj eq_refl eq_refl)) as [E _].
  rewrite E. eexists. split; [reflexivity|]. rewrite skipn_O.
  assert (LF : length (conv_full zero add mul (map rd xs) (map rd ys)) = length xs + length ys - 1) by (unfold conv_full; rewrite map_length, seq_length, !map_length; reflexivity).
  rewrite firstn_all2 by (rewrite LF, !map_length; lia). split; [exact LF|]. intros k Hk. unfold conv_full.
  rewrite nth_error_map', nth_error_seq, !map_length. destruct (Nat.ltb_spec k (length xs + length ys - 1)); [|lia]. cbn [option_map Nat.add].
  unfold conv_at. rewrite !map_length. reflexivity.
Qed.

Lemma convolve_full (x y : list V * arr) xs ys : vector x xs -> vector y ys -> xs <> [] -> ys <> [] ->
  method_ok (map rd xs) (map rd ys) -> convolve zero add mul rd fft x y Full = Ok (conv_full zero add mul (map rd xs) (map rd ys)).
Proof.
  intros HX HY Hx Hy HM. destruct (convolve_core x y xs ys Full HX HY Hx Hy) as [-> _].
  destruct (conv_core_spec (map rd xs) (map rd ys) Full 0 (length (map rd xs) + length (map rd ys) - 1) (map_ne rd xs Hx) (map_ne rd ys Hy) HM (conj eq_refl eq_refl)) as [E _].
  rewrite E, skipn_O, firstn_all2; [reflexivity|]. unfold conv_full. rewrite map_length, seq_length. lia.
Qed.

Theorem C44_commutative_partial : forall (x y : list V * arr) xs ys, vector x xs -> vector y ys -> xs <> [] -> ys <> [] ->
  method_ok (map rd xs) (map rd ys) -> method_ok (map rd ys) (map rd xs) ->
  convolve zero add mul rd fft x y Full = convolve zero add mul rd fft y x Full.
Proof.
  intros x y xs ys HX HY Hx Hy HM HM'. rewrite (convolve_full x y xs ys), (convolve_full y x ys xs) by assumption.
  f_equal. apply (conv_full_comm zero one add mul sub opp RT).
Qed.

(* linear in the first operand, hence (commutativity) in both *)
Theorem C44_linear_partial : forall (x x' z y : list V * arr) xs xs' zs ys c,
  vector x xs -> vector x' xs' -> vector z zs -> vector y ys -> xs <> [] -> ys <> [] -> length xs = length xs' -> length zs = length xs ->
  (forall i, i < length xs -> nth i (map rd zs) zero = add (mul c (nth i (map rd xs) zero)) (nth i (map rd xs') zero)) ->
  method_ok (map rd xs) (map rd ys) -> method_ok (map rd xs') (map rd ys) -> method_ok (map rd zs) (map rd ys) ->
  exists a b r, convolve zero add mul rd fft x y Full = Ok a /\ convolve zero add mul rd fft x' y Full = Ok b /\
    convolve zero add mul rd fft z y Full = Ok r /\ length r = length a /\ length b = length a /\
    forall k, k < length a -> nth k r zero = add (mul c (nth k a zero)) (nth k b zero).
Proof.
  intros x x' z y xs xs' zs ys c HX HX' HZ HY Hx Hy HL HLz HN M1 M2 M3.
  assert (Hx' : xs' <> []) by (destruct xs, xs'; cbn in HL; congruence || discriminate).
  assert (Hz : zs <> []) by (destruct xs, zs; cbn in HLz; congruence || discriminate).
  do 3 eexists. split; [apply (convolve_full x y xs ys); assumption|]. split; [apply (convolve_full x' y xs' ys); assumption|].
  split; [apply (convolve_full z y zs ys); assumption|]. unfold conv_full. rewrite !map_length, !seq_length, <- HL, HLz.
  split; [reflexivity|]. split; [reflexivity|]. intros k Hk.
  assert (EZ : map rd zs = lin add mul c (map rd xs) (map rd xs')).
  { apply (nth_ext _ _ zero zero); [rewrite lin_length by (rewrite !map_length; exact HL); rewrite !map_length; exact HLz|].
    intros i Hi. rewrite map_length, HLz in Hi. rewrite (HN i Hi). symmetry. apply (nth_lin zero one add mul sub opp RT). rewrite !map_length. exact HL. }
  assert (NTH : forall f n, k < n -> nth k (map f (seq 0 n)) zero = f k).
  { intros f n Hn. apply nth_error_nth. rewrite nth_error_map', nth_error_seq. destruct (Nat.ltb_spec k n); [reflexivity|lia]. }
  rewrite !NTH by exact Hk. rewrite EZ. apply (conv_lin zero one add mul sub opp RT). rewrite !map_length. exact HL.
Qed.

(* correlate(a, v, mode) is convolve of a with the reversed kernel, in every mode *)
Theorem C44_correlate : forall (x y y' : list V * arr) xs ys mode, vector x xs -> vector y ys -> vector y' (rev ys) -> xs <> [] -> ys <> [] ->
  correlate zero add mul rd fft x y mode = convolve zero add mul rd fft x y' mode.
Proof.
  intros x y y' xs ys mode HX HY HY' Hx Hy. destruct (convolve_core x y xs ys mode HX HY Hx Hy) as [_ ->].
  assert (Hr : rev ys <> []) by (intros E; apply Hy; rewrite <- (rev_involutive ys), E; reflexivity).
  destruct (convolve_core x y' xs (rev ys) mode HX HY' Hx Hr) as [-> _]. rewrite map_rev. reflexivity.
Qed.

(* "same" and "valid" cut the middle out of the full result when the kernel is not
   the longer operand *)
Theorem C44_modes_partial : forall (x y : list V * arr) xs ys, vector x xs -> vector y ys -> xs <> [] -> ys <> [] ->
  method_ok (map rd xs) (map rd ys) -> length ys <= length xs ->
  exists out, convolve zero add mul rd fft x y Full = Ok out /\
    convolve zero add mul rd fft x y Same = Ok (firstn (length xs) (skipn ((length ys - 1) / 2) out)) /\
    convolve zero add mul rd fft x y Valid = Ok (firstn (length xs - length ys + 1) (skipn (length ys - 1) out)).
Proof.
  intros x y xs ys HX HY Hx Hy HM HL. exists (conv_full zero add mul (map rd xs) (map rd ys)).
  split; [apply convolve_full; assumption|].
  destruct (convolve_core x y xs ys Same HX HY Hx Hy) as [-> _]. destruct (convolve_core x y xs ys Valid HX HY Hx Hy) as [-> _].
  destruct (conv_core_spec (map rd xs) (map rd ys) Same _ _ (map_ne rd xs Hx) (map_ne rd ys Hy) HM (conj eq_refl eq_refl)) as [-> _].
  destruct (conv_core_spec (map rd xs) (map rd ys) Valid _ _ (map_ne rd xs Hx) (map_ne rd ys Hy) HM (conj eq_refl eq_refl)) as [-> _].
  rewrite !map_length. split; [reflexivity|]. assert (0 < length ys) by (destruct ys; [congruence|cbn; lia]). f_equal. replace (Nat.max (length xs - (length ys - 1)) 1) with (length xs - length ys + 1) by lia. reflexivity.
Qed.
End Props.

Example C44_nonvacuous :
  let x := ([1; 9; 2; 9; 3]%Z, mkArr 0 [3] [16]%Z 8 false false) in let y := ([4; 5]%Z, fresh [2] 8) in
  vector x [1; 2; 3]%Z /\ vector y [4; 5]%Z /\ method_ok 0%Z Z.add Z.mul (fun _ _ => []) [1; 2; 3]%Z [4; 5]%Z /\
  convolve 0%Z Z.add Z.mul id (fun _ _ => []) x y Full = Ok [4; 13; 22; 15]%Z /\
  convolve 0%Z Z.add Z.mul id (fun _ _ => []) x y Valid = Ok [13; 22]%Z /\
  correlate 0%Z Z.add Z.mul id (fun _ _ => []) x y Full = Ok [5; 14; 23; 12]%Z.
Proof.
  split; [split; [wfc|split; vm_compute; reflexivity]|]. split; [split; [wfc|split; vm_compute; reflexivity]|].
  split; [left; vm_compute; discriminate|]. repeat split; vm_compute; reflexivity.
Qed.

(* missing, because false of the code: a kernel longer than the data.  numpy's
   "same" result has max(n, m) elements and "valid" has max - min + 1 *)
Theorem C44_long_kernel_refuted :
  let x := ([1; 2]%Z, fresh [2] 8) in let y := ([1; 10; 100; 1000]%Z, fresh [4] 8) in
  convolve 0%Z Z.add Z.mul id (fun _ _ => []) x y Full = Ok [1; 12; 120; 1200; 2000]%Z /\
  convolve 0%Z Z.add Z.mul id (fun _ _ => []) x y Same = Ok [12; 120]%Z /\
  convolve 0%Z Z.add Z.mul id (fun _ _ => []) x y Valid = Ok [1200]%Z /\
  convolve 0%Z Z.add Z.mul id (fun _ _ => []) y x Valid = Ok [12; 120; 1200]%Z.
Proof. repeat split; vm_compute; reflexivity. Qed.
(* two empty operands panic *)
Theorem C44_empty_refuted : forall mode, convolve 0%Z Z.add Z.mul id (fun _ _ => []) ([], fresh [0] 8) ([], fresh [0] 8) mode =
  match mode with Full => Panic | OtherMode => Err | _ => Ok [] end.
Proof. intros [| | |]; vm_compute; reflexivity. Qed.

Print Assumptions C44_convolve_partial.
Print Assumptions C44_commutative_partial.
Print Assumptions C44_linear_partial.
Print Assumptions C44_correlate.
Print Assumptions C44_modes_partial.
Print Assumptions C44_long_kernel_refuted.
Print Assumptions C44_empty_refuted.
