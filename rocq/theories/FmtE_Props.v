(* C164: the text of each element in repr and str. *)
From Coq Require Import Ascii String SpecFloat.
From Verif Require Import Base Lists Int_Model F64_Model Rng_Model Date_Model Date_Str Gu_Model Io_Spec Io_Model Txt_Model Txt_Float Txt_Save Promo_Spec Promo_Model Arr_Spec Arr_Model Arr_Wf Wf_Check Cast_Spec Cast_Model SF_Proofs SF_Arith SF_Cmp Cast_SF Cast_Proofs Fmt_Spec Fmt_Model Fmt_Proofs FmtE_Spec FmtE_Model FmtE_Proofs Fmt_Props Bitw_Spec Bitw_Model Bitw_Proofs.
Local Open Scope list_scope.
Local Open Scope Z_scope.

(* an integer is shown by its decimal numeral *)
Theorem C164_integer k z : element k (SInt z) -> k <> Bool -> integer_text (element_text k (SInt z)) z.
Proof. intros E N. replace (element_text k (SInt z)) with (show_int z) by (destruct k; try contradiction; try reflexivity; congruence). apply show_int_reads. Qed.
Theorem C164_bool z : element Bool (SInt z) -> (z = 0 /\ element_text Bool (SInt z) = str "False") \/ (z = 1 /\ element_text Bool (SInt z) = str "True").
Proof.
  intros E. cbn [element holds] in E. destruct E as [E _]. apply int_elem_range in E. assert (z = 0 \/ z = 1) as [-> | ->] by lia; [left|right]; split; reflexivity.
Qed.
(* different integers have different texts *)
Lemma integer_text_unique t z z' : integer_text t z -> integer_text t z' -> z = z'.
Proof.
  assert (forall c ds, digits_only (c :: ds) -> c <> "-"%char) as ND.
  { intros c ds H ->. inversion H as [|? ? A _]; subst. destruct A as [A _]. apply A. reflexivity. }
  intros (m & ds & E & D & N & ->) (m' & ds' & E' & D' & N' & ->). subst t. destruct m, m'; cbn [app] in E'.
  - injection E' as ->. reflexivity.
  - exfalso. destruct ds' as [|c ds']; [congruence|]. injection E' as <- _. apply (ND _ _ D'). reflexivity.
  - exfalso. destruct ds as [|c ds]; [congruence|]. injection E' as -> _. apply (ND _ _ D). reflexivity.
  - subst. reflexivity.
Qed.
Theorem C164_distinct k z z' : element k (SInt z) -> element k (SInt z') -> element_text k (SInt z) = element_text k (SInt z') -> z = z'.
Proof.
  intros E E' T. assert (k = Bool \/ k <> Bool) as [-> |N] by (destruct k; (left; reflexivity) || (right; discriminate)).
  - destruct (C164_bool z E) as [[-> A]|[-> A]], (C164_bool z' E') as [[-> B]|[-> B]]; try reflexivity; rewrite A, B in T; discriminate T.
  - apply (integer_text_unique (element_text k (SInt z))); [apply C164_integer; assumption|]. rewrite T. apply C164_integer; assumption.
Qed.
(* a float is shown as a decimal fraction of at most eight places, four for float16, off by
   at most half a unit in the last place, with its sign *)
Theorem C164_float k x z : element k (SFlt x) -> float_value x = Fin z ->
  decimal_text (element_text k (SFlt x)) (match k with Float16 => 4 | _ => 8 end) (match x with S754_zero s | S754_finite s _ _ => s | _ => false end) z.
Proof.
  intros E V. assert (forall s m e, x = S754_finite s m e -> -1074 <= e) as HE.
  { intros s m e ->. destruct k; try contradiction; cbn [element valid_in] in E; unfold valid_in in E; cbn [Cast_Spec.format fst snd] in E.
    all: apply valid_inv in E; [|lia]; destruct E as (_ & R & _); unfold SpecFloat.emin in R; lia. }
  destruct k; try contradiction; apply float_text_near; try assumption; lia.
Qed.
Theorem C164_special k x : element k (SFlt x) -> 
  (float_value x = NaN -> element_text k (SFlt x) = str "NaN") /\ (forall s, float_value x = Inf s -> element_text k (SFlt x) = str (if s then "-inf" else "inf")).
Proof. intros E. split; [|intros s]; intros V; destruct x as [u|u| |u m e]; try discriminate V; destruct k; try contradiction; try reflexivity; injection V as <-; destruct u; reflexivity. Qed.

(* the texts of real elements are single words, so C163 applies to arrays of real dtypes *)
Lemma digit_ordinary c : 0 <= digit_value c <= 9 -> (separator c = false /\ bracket c = None) /\ c <> "."%char.
Proof. destruct c as [[] [] [] [] [] [] [] []]; vm_compute; intros [A B]; try (exfalso; apply A; reflexivity); try (exfalso; apply B; reflexivity); repeat split; discriminate. Qed.
Lemma digits_ordinary t : digits_only t -> Forall (fun c => separator c = false /\ bracket c = None) t.
Proof. apply Forall_impl. intros c H. apply (digit_ordinary c H). Qed.
Lemma real_plain k v : real k = true -> element k v -> plain (element_text k v).
Proof.
  intros R E. destruct v as [z|x|x y].
  - assert (k = Bool \/ k <> Bool) as [-> |N] by (destruct k; (left; reflexivity) || (right; discriminate)).
    + destruct (C164_bool z E) as [[-> ->]|[-> ->]]; (split; [discriminate|]; split; [discriminate|]; repeat constructor).
    + destruct (C164_integer k z E N) as (m & ds & -> & D & ND & _). pose proof (digits_ordinary ds D) as F. split; [destruct m, ds; try discriminate; congruence|]. split.
      * destruct m; [discriminate|]. cbn [app]. intros ->. inversion D as [|? ? A _]; subst. apply (digit_ordinary _ A). reflexivity.
      * apply Forall_app. split; [destruct m; repeat constructor|exact F].
  - destruct (float_value x) as [|s|z] eqn:V.
    + rewrite (proj1 (C164_special k x E) V). split; [discriminate|]. split; [discriminate|]. repeat constructor.
    + rewrite (proj2 (C164_special k x E) s V). destruct s; (split; [discriminate|]; split; [discriminate|]; repeat constructor).
    + destruct (C164_float k x z E V) as (ip & fp & -> & D & NI & _). apply only_app in D. destruct D as [DI DF].
      pose proof (digits_ordinary ip DI) as FI. pose proof (digits_ordinary fp DF) as FF. set (m := match x with S754_zero s | S754_finite s _ _ => s | _ => false end).
      split; [destruct m, ip; discriminate|]. split.
      * destruct m; [discriminate|]. cbn [app]. destruct ip as [|c ip]; [congruence|]. intros EQ. injection EQ as -> _. inversion DI as [|? ? A _]; subst. apply (digit_ordinary _ A). reflexivity.
      * rewrite !Forall_app. repeat split; try assumption; [destruct m; repeat constructor|repeat constructor].
  - destruct k; try contradiction; discriminate R.
Qed.
Theorem C164_printable k buf a : real k = true -> wf buf a -> Forall (element k) buf -> printable (element_text k) buf a.
Proof.
  intros R W F idx I. destruct W as (_ & _ & _ & _ & G & _). destruct (G idx I) as [v E]. unfold shown_at. rewrite E. apply real_plain; [exact R|].
  rewrite Forall_forall in F. apply F. unfold get, load in E. destruct (_ <? 0) in E; [discriminate|]. destruct (_ =? 0) in E; [|discriminate]. apply (nth_error_In _ _ E).
Qed.

(* what a real array shows: str reads back as the nested list of these texts *)
Theorem C164_str k buf a : real k = true -> wf buf a -> Forall (element k) buf -> size a <> 0%nat ->
  exists t, format_str (element_text k) buf a = Ok t /\ tokens t = nested (1000 <? size a)%nat (a_shape a) (shown_at (element_text k) buf a).
Proof. intros R W F N. apply C163_str; [exact W|apply C164_printable; assumption|exact N]. Qed.
(* two integer arrays of one dtype with at most 1000 elements print alike only when they
   are equal, whatever their layouts *)
Theorem C164_integers_equal k buf a buf' a' t : is_integer k = true \/ k = Bool ->
  wf buf a -> wf buf' a' -> Forall (element k) buf -> Forall (element k) buf' -> (0 < size a <= 1000)%nat -> (0 < size a' <= 1000)%nat ->
  format_str (element_text k) buf a = Ok t -> format_str (element_text k) buf' a' = Ok t ->
  a_shape a = a_shape a' /\ forall idx, inb idx (a_shape a) -> get buf a idx = get buf' a' idx.
Proof.
  intros K W W' F F' S S' E E'. assert (real k = true) as R by (destruct K as [K| ->]; [destruct k; try discriminate K|]; reflexivity).
  destruct (C163_faithful (element_text k) (element_text k) buf a buf' a' t) as [ES ET]; try assumption; try (apply C164_printable; assumption).
  split; [exact ES|]. intros idx I. specialize (ET idx I). unfold shown_at in ET.
  pose proof W as (_ & _ & _ & _ & G & _). pose proof W' as (_ & _ & _ & _ & G' & _). destruct (G idx I) as [v EV]. rewrite ES in I. destruct (G' idx I) as [v' EV']. rewrite EV, EV' in *.
  assert (forall b x i w, Forall (element k) b -> get b x i = Some w -> exists z, w = SInt z /\ element k (SInt z)) as HI.
  { intros b x i w HF EW. unfold get, load in EW. destruct (_ <? 0) in EW; [discriminate|]. destruct (_ =? 0) in EW; [|discriminate]. apply nth_error_In in EW.
    rewrite Forall_forall in HF. specialize (HF w EW). destruct (element_int k w K HF) as (z & -> & _). exists z. split; [reflexivity|exact HF]. }
  destruct (HI _ _ _ _ F EV) as (z & -> & EZ). destruct (HI _ _ _ _ F' EV') as (z' & -> & EZ'). rewrite (C164_distinct k z z' EZ EZ' ET). reflexivity.
Qed.

(* floats: the text does not determine the number, however small or far apart in ratio *)
Theorem C164_float_refuted : exists x y, valid_in Float64 x /\ valid_in Float64 y /\ ext_compare (float_value x) (float_value y) = Some Lt /\
  element_text Float64 (SFlt x) = element_text Float64 (SFlt y) /\ element_text Float64 (SFlt x) = str "0.".
Proof. exists (S754_zero false), (S754_finite false 4835703278458517 (-82)). split; [vm_compute; reflexivity|]. split; [vm_compute; reflexivity|]. split; [vm_compute; reflexivity|]. split; vm_compute; reflexivity. Qed.
(* complex numbers: a negative zero imaginary part is shown with two signs, a NaN one with none *)
Theorem C164_complex_refuted :
  element_text Complex128 (SCpx (S754_finite false 4503599627370496 (-52)) (S754_zero true)) = str "(1.+-0.j)" /\
  element_text Complex128 (SCpx (S754_finite false 4503599627370496 (-52)) S754_nan) = str "(1.NaNj)".
Proof. split; vm_compute; reflexivity. Qed.

Example C164_nonvacuous :
  element_text Int64 (SInt (-120)) = str "-120" /\ element_text Uint8 (SInt 0) = str "0" /\
  element_text Float64 (SFlt (S754_finite true 5066549580791808 (-51))) = str "-2.25" /\
  element_text Float64 (SFlt (S754_finite false 6004799503160661 (-54))) = str "0.33333333" /\
  element_text Float16 (SFlt (S754_finite false 1365 (-12))) = str "0.3333" /\
  element_text Complex128 (SCpx (S754_finite false 4503599627370496 (-52)) (S754_finite true 5066549580791808 (-51))) = str "(1.-2.2500000j)" /\
  element Int64 (SInt (-120)) /\ element Float64 (SFlt (S754_finite true 5066549580791808 (-51))).
Proof.
  do 6 (split; [vm_compute; reflexivity|]). split; [|vm_compute; reflexivity]. apply int_element; [left; reflexivity|]. cbn [int_range fst snd]. lia.
Qed.
Example C164_array_nonvacuous :
  wf [SInt 5; SInt (-7)] (fresh [2; 1]%nat 8) /\ Forall (element Int64) [SInt 5; SInt (-7)] /\
  format_str (element_text Int64) [SInt 5; SInt (-7)] (fresh [2; 1]%nat 8) = Ok (str "[[ 5]" ++ [newline] ++ str " [-7]]").
Proof.
  split; [apply wf_check_sound; vm_compute; reflexivity|]. split; [|vm_compute; reflexivity].
  constructor; [|constructor; [|constructor]]; (apply int_element; [left; reflexivity|cbn [int_range fst snd]; lia]).
Qed.

Print Assumptions C164_integer.
Print Assumptions C164_bool.
Print Assumptions C164_distinct.
Print Assumptions C164_float.
Print Assumptions C164_special.
Print Assumptions C164_printable.
Print Assumptions C164_str.
Print Assumptions C164_integers_equal.
Print Assumptions C164_float_refuted.
Print Assumptions C164_complex_refuted.
