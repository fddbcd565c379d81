(* The decimal texts of integers and floats. *)
From Coq Require Import Ascii String SpecFloat.
From Verif Require Import Base Lists Int_Model F64_Model Rng_Model Date_Model Date_Str Gu_Model Io_Spec Io_Model Txt_Model Txt_Float Txt_Save Promo_Spec Cast_Spec SF_Proofs Fmt_Spec Fmt_Model FmtE_Spec FmtE_Model.
Local Open Scope list_scope.
Local Open Scope Z_scope.

Lemma dig_ok c : is_dig c -> 0 <= digit_value c <= 9 /\ is_digit c = Some (digit_value c).
Proof.
  intros (d & H & ->). assert (d = 0 \/ d = 1 \/ d = 2 \/ d = 3 \/ d = 4 \/ d = 5 \/ d = 6 \/ d = 7 \/ d = 8 \/ d = 9 \/ False) as K by lia.
  repeat (destruct K as [->|K]; [vm_compute; repeat split; discriminate|]). destruct K.
Qed.
Lemma decimal_number ds z : Forall is_dig ds -> digits_only ds /\ number ds z = Some (fold_left (fun n c => 10 * n + digit_value c) ds z).
Proof.
  intros F. revert z. induction F as [|c ds H F IH]; intros z; [split; [constructor|reflexivity]|]. destruct (dig_ok c H) as [A B].
  split; [constructor; [exact A|apply (IH 0)]|]. cbn [number fold_left]. rewrite B. apply IH.
Qed.
Lemma decimal_app a b : decimal (a ++ b) = decimal a * 10 ^ Z.of_nat (length b) + decimal b.
Proof.
  unfold decimal. rewrite fold_left_app. generalize (fold_left (fun n c => 10 * n + digit_value c) a 0). induction b as [|c b IH] using rev_ind; intros z; [cbn; lia|].
  rewrite !fold_left_app, IH, app_length, Nat2Z.inj_add, Z.pow_add_r by lia. cbn [fold_left length]. change (10 ^ Z.of_nat 1) with 10. lia.
Qed.
Lemma digits_decimal n : 0 <= n -> digits_only (digits n) /\ decimal (digits n) = n /\ digits n <> [].
Proof.
  intros H. destruct (digits_number n H) as (F & E & N). destruct (decimal_number (digits n) 0 F) as [A B]. split; [exact A|]. split; [|exact N].
  rewrite E in B. injection B as B. symmetry. exact B.
Qed.
Lemma pad_decimal w n : (0 < w)%nat -> 0 <= n < 10 ^ Z.of_nat w -> digits_only (pad w n) /\ decimal (pad w n) = n /\ length (pad w n) = w.
Proof.
  intros W H. destruct (pad_spec w n ltac:(lia)) as (F & E & _ & L). destruct (decimal_number (pad w n) 0 F) as [A B]. split; [exact A|].
  rewrite E in B. injection B as B. split; [symmetry; exact B|]. apply L; [exact W|apply H].
Qed.
Lemma show_int_reads z : integer_text (show_int z) z.
Proof.
  unfold show_int. destruct (Z.ltb_spec z 0) as [L|L].
  - destruct (digits_decimal (- z) ltac:(lia)) as (A & B & N). exists true, (digits (- z)). split; [reflexivity|]. split; [exact A|]. split; [exact N|]. rewrite B. lia.
  - destruct (digits_decimal z L) as (A & B & N). exists false, (digits z). split; [reflexivity|]. split; [exact A|]. split; [exact N|]. symmetry. exact B.
Qed.

(* trailing zeros *)
Lemma trim_split t : exists k, t = trim_zeros t ++ repeat "0"%char k.
Proof.
  induction t as [|c t [k IH]]; [exists 0%nat; reflexivity|]. cbn [trim_zeros]. destruct (trim_zeros t) as [|x r] eqn:E.
  - cbn [app] in IH. destruct (Ascii.eqb_spec c "0") as [->|N]; [exists (S k); cbn; f_equal; exact IH|exists k; cbn; f_equal; exact IH].
  - exists k. cbn [app]. f_equal. exact IH.
Qed.
Lemma trim_last t : @last ascii (trim_zeros t) "1"%char <> "0"%char.
Proof.
  induction t as [|c t IH]; [discriminate|]. cbn [trim_zeros]. destruct (trim_zeros t) as [|x r] eqn:E.
  - destruct (Ascii.eqb_spec c "0") as [->|N]; [discriminate|exact N].
  - exact IH.
Qed.
Lemma trim_point a b : trim_zeros (app a ("."%char :: b)) = app a ("."%char :: trim_zeros b).
Proof.
  induction a as [|c a IH]; cbn [app trim_zeros].
  - destruct (trim_zeros b); reflexivity.
  - rewrite IH. destruct a; reflexivity.
Qed.
Lemma decimal_zeros k : decimal (repeat "0"%char k) = 0.
Proof. induction k as [|k IH]; [reflexivity|]. change (repeat "0"%char (S k)) with (["0"%char] ++ repeat "0"%char k). rewrite decimal_app, IH. reflexivity. Qed.
Lemma only_app a b : digits_only (a ++ b) <-> digits_only a /\ digits_only b.
Proof. apply Forall_app. Qed.

Lemma trimmed p (s : bool) n z : (0 < p)%nat -> 0 <= n -> 2 * Z.abs ((if s then - n else n) * one - z * 10 ^ Z.of_nat p) <= one ->
  decimal_text (trim_zeros (sign_text s ++ digits (n / 10 ^ Z.of_nat p) ++ "."%char :: pad p (n mod 10 ^ Z.of_nat p))) p s z.
Proof.
  intros HP HN HC. rewrite app_assoc, trim_point, <- app_assoc. assert (0 < 10 ^ Z.of_nat p) as PP by (apply Z.pow_pos_nonneg; lia).
  destruct (digits_decimal (n / 10 ^ Z.of_nat p)) as (A & B & N); [apply Z.div_pos; lia|].
  destruct (pad_decimal p (n mod 10 ^ Z.of_nat p) HP) as (C & D & L); [apply Z.mod_pos_bound; lia|].
  destruct (trim_split (pad p (n mod 10 ^ Z.of_nat p))) as [k E]. set (fp := trim_zeros (pad p (n mod 10 ^ Z.of_nat p))) in *.
  set (ip := digits (n / 10 ^ Z.of_nat p)) in *. rewrite E in C, D, L. rewrite app_length, repeat_length in L. apply only_app in C.
  exists ip, fp. split; [unfold sign_text; destruct s; reflexivity|]. split; [apply only_app; tauto|]. split; [exact N|]. split; [lia|]. split; [apply trim_last|].
  assert (decimal (ip ++ fp) * 10 ^ Z.of_nat (p - length fp) = n) as EN.
  { rewrite decimal_app, B. rewrite decimal_app, decimal_zeros, repeat_length in D. replace (p - length fp)%nat with k by lia.
    rewrite Z.mul_add_distr_r, <- Z.mul_assoc, <- Z.pow_add_r by lia. replace (Z.of_nat (length fp) + Z.of_nat k) with (Z.of_nat p) by lia.
    pose proof (Z.div_mod n (10 ^ Z.of_nat p) ltac:(lia)). lia. }
  rewrite EN. exact HC.
Qed.
Lemma fixed_near p m e : -1074 <= e -> (0 < p)%nat -> let n := rne_q (Txt_Model.scaled 10 (- Z.of_nat p) (fraction m e)) in
  0 <= n /\ 2 * Z.abs (n * one - Zpos m * 2 ^ (e + 1074) * 10 ^ Z.of_nat p) <= one.
Proof.
  intros HE HP. unfold rne_q, fraction, Txt_Model.scaled. destruct (Z.leb_spec 0 (- Z.of_nat p)); [lia|]. cbn [fst snd]. rewrite !Z.opp_involutive.
  assert (0 < 10 ^ Z.of_nat p) as PP by (apply Z.pow_pos_nonneg; lia). set (T := 10 ^ Z.of_nat p) in *.
  assert (forall a d, 0 < d -> 0 <= a -> 0 <= rne a d) as NN.
  { intros a d Hd Ha. unfold rne. pose proof (Z.div_pos a d Ha Hd). destruct (2 * (a mod d) <? d); [lia|]. destruct (d <? 2 * (a mod d)); [lia|]. destruct (Z.even (a / d)); lia. }
  destruct (Z.leb_spec 0 (- e)) as [L|L]; cbn [fst snd].
  - rewrite Z.mul_1_l. set (D := 2 ^ (- e)). assert (0 < D) as HD by (apply Z.pow_pos_nonneg; lia).
    assert (one = D * 2 ^ (e + 1074)) as EO by (unfold one, D; rewrite <- Z.pow_add_r by lia; f_equal; lia).
    pose proof (rne_half (Zpos m * T) D HD) as R. split; [apply NN; lia|]. set (n := rne (Zpos m * T) D) in *.
    rewrite EO. set (K := 2 ^ (e + 1074)) in *. assert (0 < K) as HK by (apply Z.pow_pos_nonneg; lia).
    replace (n * (D * K) - Zpos m * K * T) with ((n * D - Zpos m * T) * K) by ring. assert (Z.abs ((n * D - Zpos m * T) * K) = Z.abs (n * D - Zpos m * T) * K) as -> by (rewrite Z.abs_mul, (Z.abs_eq K) by lia; reflexivity).
    assert (2 * Z.abs (n * D - Zpos m * T) <= D) as HA by lia. clearbody n D K T. nia.
  - set (K := 2 ^ e). assert (0 < K) as HK by (apply Z.pow_pos_nonneg; lia). pose proof (rne_half (Zpos m * K * T) 1 ltac:(lia)) as R.
    split; [apply NN; lia|]. set (n := rne _ _) in *. rewrite Z.pow_add_r by lia. fold K. change (2 ^ 1074) with one.
    replace (n * one - Zpos m * (K * one) * T) with ((n - Zpos m * K * T) * one) by ring. assert (n - Zpos m * K * T = 0) as -> by lia. assert (0 < one) by reflexivity. lia.
Qed.
Lemma float_text_near p x z : (0 < p)%nat -> (forall s m e, x = S754_finite s m e -> -1074 <= e) -> float_value x = Fin z ->
  decimal_text (float_text p x) p (match x with S754_zero s | S754_finite s _ _ => s | _ => false end) z.
Proof.
  intros HP HE HV. unfold float_text, show_fixed. destruct (Nat.eqb_spec p 0) as [|_]; [lia|]. destruct x as [s|s| |s m e]; cbn [float_value] in HV; try discriminate HV.
  - injection HV as <-. pose proof (trimmed p s 0 0 HP ltac:(lia)) as T. rewrite Z.div_0_l, Z.mod_0_l in T by (assert (0 < 10 ^ Z.of_nat p) by (apply Z.pow_pos_nonneg; lia); lia).
    replace (pad p 0) with (repeat "0"%char p) in T.
    2:{ unfold pad. change (0 <? 0) with false. cbv iota. change (digits 0) with ["0"%char]. cbn [length]. destruct p as [|p]; [lia|]. cbn [Nat.sub]. rewrite Nat.sub_0_r. replace (S p) with (p + 1)%nat by lia. apply (repeat_app "0"%char p 1). }
    apply T. destruct s; cbn; discriminate.
  - assert (z = cond_Zopp s (Zpos m) * 2 ^ (e + 1074)) as -> by (injection HV as HV; symmetry; exact HV).
    destruct (fixed_near p m e (HE s m e eq_refl) HP) as [A B]. apply trimmed; [exact HP|exact A|]. destruct s; cbn [cond_Zopp]; [|exact B].
    set (n := rne_q _) in *. set (K := 2 ^ (e + 1074)) in *. set (T := 10 ^ Z.of_nat p) in *. rewrite <- (Z.abs_opp (_ - _)).
    replace (- (- n * one - - Zpos m * K * T)) with (n * one - Zpos m * K * T) by ring. exact B.
Qed.
