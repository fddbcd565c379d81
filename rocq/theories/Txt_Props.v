(* Claims C132 - C135: text files. *)
From Coq Require Import Ascii String SpecFloat Lia.
From Verif Require Import Base Lists Int_Model F64_Model Arr_Spec Arr_Model Arr_Wf Arr_Proofs Wf_Check Copy_Model Copy_Proofs Rng_Model Date_Model Date_Str Gu_Model Gu_Proofs.
From Verif Require Import Io_Spec Io_Model Io_Proofs New_Spec New_Model Span_Proofs Grid_Model SF_Proofs SF_Arith Msk_Proofs Txt_Spec Txt_Model Txt_Float Txt_Proofs Txt_Save Txt_Load.
Local Open Scope nat_scope.
Local Open Scope list_scope.

Lemma sound_write d c : sound d c -> write_f64 d (read_f64 d c) = c.
Proof.
  destruct d as [t| |], c as [z|x]; cbn [sound read_f64 write_f64]; try contradiction.
  - intros [R H]. f_equal. apply as_int_small; assumption.
  - intros [-> | ->]; reflexivity.
  - reflexivity.
Qed.
Lemma sound_valid d c : sound d c -> valid_binary 53 1024 (read_f64 d c) = true.
Proof.
  destruct d as [t| |], c as [z|x]; cbn [sound read_f64]; try contradiction; [|intros [-> | ->]; reflexivity|auto].
  intros [_ H]. apply f64_int_valid. exact H.
Qed.
Lemma elems_sound d buf a vals : array_of d buf a -> elems buf a = map Some vals -> Forall (sound d) vals.
Proof.
  intros H E. apply Forall_forall. intros v Hv. assert (In (Some v) (elems buf a)) as HI by (rewrite E; apply in_map; exact Hv).
  apply in_map_iff in HI as (idx & G & Hi). apply in_all_idx in Hi. apply (H idx); assumption.
Qed.
Lemma elems_table buf a vals : elems buf a = map Some vals -> table_of (a_shape a, vals) buf a.
Proof.
  intros E. split; [reflexivity|]. split; [apply (elems_len _ _ _ E)|]. cbn [fst snd]. intros idx Hi. change rm_rank with rank.
  assert (N : nth_error (elems buf a) (rank (a_shape a) idx) = Some (get buf a idx)) by (unfold elems; rewrite nth_error_map', nth_error_all_idx_rank by exact Hi; reflexivity).
  rewrite E, nth_error_map' in N. destruct (nth_error vals _); cbn [option_map] in N; [|discriminate]. injection N as <-. reflexivity.
Qed.
Definition saves (d : ldt) (c : cell) : option spec_float := Some (read_f64 d c).

(* the common part of C132 and C133: a format that every element survives *)
Lemma text_roundtrip display powi10 f1em4 d buf a n m fmt sep ld header footer sc lc more :
  wf buf a -> array_of d buf a -> 0 < n -> (a_shape a = [n] \/ a_shape a = [n; m] /\ 1 < m) ->
  read_as (or_else sep (txt " ")) ld -> mark (or_else lc (txt "#")) -> or_else sc (txt "# ") = or_else lc (txt "#") ++ more -> ~ In newline (or_else sc (txt "# ")) ->
  (forall c, sound d c -> let t := format_value display powi10 f1em4 (read_f64 d c) (or_else fmt (txt "%.18e")) in token t /\ exists x, parse_f64 t = Some x /\ write_f64 d x = c) ->
  exists file r, py_savetxt display powi10 f1em4 (saves d) buf a fmt sep None header footer sc = Ok file /\
    py_loadtxt file (Some d) lc ld None None None = Ok r /\ table_of r buf a.
Proof.
  intros W HA NP HS RA HM HC HN HF. destruct (wf_elems buf a W) as (vals & E & _). pose proof (elems_sound d buf a vals HA E) as SV. rewrite Forall_forall in SV.
  destruct (save_load_text display powi10 f1em4 (saves d) buf a vals n (match a_shape a with [_] => 1 | _ => m end) d (or_else sep (txt " ")) ld (or_else fmt (txt "%.18e")) (or_else lc (txt "#")) more (or_else header []) (or_else footer []))
    as (file & E1 & E2); try assumption.
  - destruct HS as [-> |[-> H]]; [left|right]; split; auto.
  - rewrite <- HC. exact HN.
  - intros v Hv. destruct (HF v (SV v Hv)) as (HT & x & Ex & Ew). split; [exact HT|]. exists x. split; [exact Ex|].
    unfold number_of, saves. rewrite Ew. symmetry. apply sound_write, SV, Hv.
  - exists file, (a_shape a, vals). split; [unfold py_savetxt; rewrite HC; exact E1|]. split; [|apply elems_table; exact E].
    unfold py_loadtxt. cbn [or_else]. rewrite E2. do 2 f_equal. rewrite <- (map_id vals) at 2. apply map_ext_in. intros v Hv. apply sound_write, SV, Hv.
Qed.

(* ---- C132: savetxt then loadtxt gives the array back ---- *)
(* _partial: 1-D arrays, and 2-D arrays of at least two columns, that are not empty;
   lines ended by \n; a comment mark without white space; 17 digits at least (all
   refuted otherwise, below).  Any layout, any header and footer, any separator that
   does not begin like a number. *)
Theorem C132_roundtrip_partial : forall display powi10 f1em4 d buf a n m (fmt : option bytes) sep ld header footer sc lc more,
  wf buf a -> array_of d buf a -> 0 < n -> (a_shape a = [n] \/ a_shape a = [n; m] /\ 1 < m) ->
  (fmt = None \/ exists p, 16 <= p /\ (Z.of_nat p < 2 ^ 16)%Z /\ fmt = Some (txt "%." ++ digits (Z.of_nat p) ++ txt "e")) ->
  read_as (or_else sep (txt " ")) ld ->
  mark (or_else lc (txt "#")) -> or_else sc (txt "# ") = or_else lc (txt "#") ++ more -> ~ In newline (or_else sc (txt "# ")) ->
  exists file r, py_savetxt display powi10 f1em4 (saves d) buf a fmt sep None header footer sc = Ok file /\
    py_loadtxt file (Some d) lc ld None None None = Ok r /\ table_of r buf a.
Proof.
  intros display powi10 f1em4 d buf a n m fmt sep ld header footer sc lc more W HA NP HS HF RA HM HC HN.
  apply (text_roundtrip display powi10 f1em4 d buf a n m fmt sep ld header footer sc lc more); try assumption.
  intros c Hc. cbv zeta. assert (exists p, 16 <= p /\ format_value display powi10 f1em4 (read_f64 d c) (or_else fmt (txt "%.18e")) = show_sci p (read_f64 d c)) as (p & Hp & ->).
  { destruct HF as [-> |(p & H1 & H2 & ->)]; [exists 18; split; [lia|reflexivity]|]. exists p. split; [exact H1|]. cbn [or_else]. apply format_sci. lia. }
  split; [apply show_sci_token|]. exists (read_f64 d c). split; [|apply sound_write; exact Hc]. apply show_sci_parse; [exact Hp|]. apply sound_valid. exact Hc.
Qed.
Definition f_tenth := S754_finite false 7205759403792794 (-56).
Definition f_third := S754_finite true 6004799503160661 (-54).
Definition f_tiny := S754_finite false 1 (-1074).
(* the transpose of a 3x2 matrix: 0.1, -1/3, the least double, -0.0, inf, NaN; commas; a header *)
Example C132_roundtrip_nonvacuous :
  let buf := map CFlt [f_tenth; S754_zero true; f_third; S754_infinity false; f_tiny; S754_nan] in
  let a := mkArr 0 [2; 3] [8%Z; 16%Z] 8 false true in
  wf buf a /\ array_of LF64 buf a /\ read_as (txt ",") (Some (txt ",")) /\ read_as (txt " ") None /\ mark (txt "#") /\
  match py_savetxt (fun _ => []) (fun _ => S754_zero false) (S754_zero false) (saves LF64) buf a None (Some (txt ",")) None (Some (txt "x,y,z")) None None with
  | Ok file => file = file_of (map txt ["# x,y,z"; "1.000000000000000056e-1,-3.333333333333333148e-1,4.940656458412465442e-324"; "-0.000000000000000000e0,inf,NaN"]%string) /\
      py_loadtxt file None None (Some (txt ",")) None None None = Ok ([2; 3], map CFlt [f_tenth; f_third; f_tiny; S754_zero true; S754_infinity false; S754_nan])
  | _ => False
  end.
Proof.
  cbv zeta. split; [apply wf_check_sound; vm_compute; reflexivity|]. split.
  { intros idx c Hi G. assert (In c (map CFlt [f_tenth; S754_zero true; f_third; S754_infinity false; f_tiny; S754_nan])) as HI by (unfold get, load in G; destruct (_ <? 0)%Z; [discriminate|]; destruct (_ =? _)%Z; [|discriminate]; eapply nth_error_In; exact G).
    repeat (destruct HI as [<-|HI]; [reflexivity|]). destruct HI. }
  split; [split; [intros [X|[]]; discriminate|left; split; reflexivity]|]. split; [split; [intros [X|[]]; discriminate|right; split; [reflexivity|split; [repeat constructor|discriminate]]]|].
  split; [split; [repeat constructor|reflexivity]|]. vm_compute. split; reflexivity.
Qed.
(* a number with a plus sign, in front or in the exponent, is the number without it *)
Theorem C132_plus_sign : forall s e, Forall (fun c => c <> "+"%char /\ c <> "-"%char) s -> Forall (fun c => c <> "+"%char /\ c <> "-"%char) e ->
  parse_f64 ("+"%char :: s) = parse_f64 s /\ parse_exponent ("e"%char :: "+"%char :: e) = parse_exponent ("e"%char :: e).
Proof.
  intros s e FS FE. assert (forall t, Forall (fun c => c <> "+"%char /\ c <> "-"%char) t -> take_sign t = (false, t)) as H.
  { intros [|c t] FT; [reflexivity|]. inversion FT as [|? ? [H1 H2] _]; subst. cbn [take_sign]. destruct (Ascii.eqb_spec c "-"); [contradiction|]. destruct (Ascii.eqb_spec c "+"); [contradiction|reflexivity]. }
  split; [unfold parse_f64; rewrite (H s FS)|unfold parse_exponent; rewrite (H e FE)]; reflexivity.
Qed.
Example C132_plus_sign_nonvacuous :
  py_loadtxt (file_of [txt "+1.0e+0 1e0"; txt "-1.0e+0 +2"]) None None None None None None =
  Ok ([2; 2], map CFlt [S754_finite false 4503599627370496 (-52); S754_finite false 4503599627370496 (-52); S754_finite true 4503599627370496 (-52); S754_finite false 4503599627370496 (-51)]).
Proof. vm_compute. reflexivity. Qed.
Definition no_text : spec_float -> bytes := fun _ => [].
Definition zero_of : Z -> spec_float := fun _ => S754_zero false.
Definition f_one := S754_finite false 4503599627370496 (-52).
Definition f_two := S754_finite false 4503599627370496 (-51).
(* a saved array and what loadtxt gives for its file *)
Definition comes_back (display : spec_float -> bytes) powi10 f1em4 d buf a fmt newline_ (r : list nat * list cell) : Prop :=
  exists file, py_savetxt display powi10 f1em4 (saves d) buf a fmt None newline_ None None None = Ok file /\ py_loadtxt file (Some d) None None None None None = Ok r.
(* one column: the second axis is lost *)
Theorem C132_column_refuted : forall display powi10 f1em4, exists buf a r,
  wf buf a /\ array_of LBool buf a /\ a_shape a = [2; 1] /\ comes_back display powi10 f1em4 LBool buf a None None r /\ fst r = [2].
Proof.
  intros. exists [CInt 0; CInt 1], (fresh [2; 1] 1), ([2], [CInt 0; CInt 1]). split; [apply wf_check_sound; vm_compute; reflexivity|]. split.
  { intros idx c _ G. unfold get, load in G. destruct (_ <? 0)%Z; [discriminate|]. destruct (_ =? _)%Z; [|discriminate]. apply nth_error_In in G. destruct G as [<-|[<-|[]]]; cbn; auto. }
  split; [reflexivity|]. split; [eexists; split; [vm_compute; reflexivity|vm_compute; reflexivity]|reflexivity].
Qed.
(* a single element without axes comes back with one, an empty array with two empty axes,
   a 3-D array with two axes *)
Theorem C132_rank_refuted : forall display powi10 f1em4,
  comes_back display powi10 f1em4 LBool [CInt 1] (fresh [] 1) None None ([1], [CInt 1]) /\
  comes_back display powi10 f1em4 LBool [] (fresh [0; 3] 1) None None ([0; 0], []) /\
  comes_back display powi10 f1em4 LBool [] (fresh [0] 1) None None ([0; 0], []) /\
  comes_back display powi10 f1em4 LBool [CInt 1; CInt 0; CInt 0; CInt 1] (fresh [1; 2; 2] 1) None None ([1; 4], [CInt 1; CInt 0; CInt 0; CInt 1]).
Proof. intros. repeat split; (eexists; split; [vm_compute; reflexivity|vm_compute; reflexivity]). Qed.
(* 16 digits are not enough: 0.1 + 0.2 comes back as 0.3 *)
Theorem C132_digits_refuted : forall display powi10 f1em4, exists x y, x <> y /\ valid_binary 53 1024 x = true /\
  comes_back display powi10 f1em4 LF64 [CFlt x] (fresh [1] 8) (Some (txt "%.15e")) None ([1], [CFlt y]).
Proof.
  intros. exists (S754_finite false 5404319552844596 (-54)), (S754_finite false 5404319552844595 (-54)). split; [discriminate|]. split; [reflexivity|].
  eexists; split; [vm_compute; reflexivity|vm_compute; reflexivity].
Qed.
(* \r as the line end: the column comes back as a row *)
Theorem C132_newline_refuted : forall display powi10 f1em4,
  comes_back display powi10 f1em4 LBool [CInt 1; CInt 0] (fresh [2] 1) None (Some [cr]) ([1; 2], [CInt 1; CInt 0]).
Proof. intros. eexists; split; [vm_compute; reflexivity|vm_compute; reflexivity]. Qed.
(* a comment mark with white space: the empty line of the header is not taken for a comment *)
Theorem C132_mark_refuted : forall display powi10 f1em4, exists file,
  py_savetxt display powi10 f1em4 (saves LBool) [CInt 1; CInt 0] (fresh [2] 1) None None None (Some (txt "a" ++ [newline; newline] ++ txt "b")) None (Some (txt "# ")) = Ok file /\
  py_loadtxt file (Some LBool) (Some (txt "# ")) None None None None = Err.
Proof. intros. eexists. split; [vm_compute; reflexivity|vm_compute; reflexivity]. Qed.
(* complex arrays, whose elements have no f64 value, are written as zeros *)
Theorem C132_complex_refuted : forall display powi10 f1em4, exists (buf : list (spec_float * spec_float)) file,
  buf = [(f_one, f_two); (f_two, f_one)] /\
  py_savetxt display powi10 f1em4 (fun _ => None) buf (fresh [2] 16) None None None None None None = Ok file /\
  file = file_of [txt "0.000000000000000000e0"; txt "0.000000000000000000e0"].
Proof. intros. eexists _, _. split; [reflexivity|]. split; [vm_compute; reflexivity|vm_compute; reflexivity]. Qed.

(* ---- C133: integers written with %d ---- *)
(* the decimal numeral of z *)
Definition numeral (t : bytes) (z : Z) : Prop :=
  if (z <? 0)%Z then exists t', t = "-"%char :: t' /\ denotes t' (Z.to_nat (- z)) else denotes t (Z.to_nat z).
Lemma show_int_numeral z : numeral (show_int z) z.
Proof.
  unfold numeral, show_int. destruct (Z.ltb_spec z 0).
  - eexists. split; [reflexivity|]. pose proof (dec_denotes (Z.to_nat (- z))) as D. unfold dec in D. rewrite Z2Nat.id in D by lia. exact D.
  - pose proof (dec_denotes (Z.to_nat z)) as D. unfold dec in D. rewrite Z2Nat.id in D by lia. exact D.
Qed.
Definition int_of (c : cell) : Z := match c with CInt z => z | CFlt _ => 0%Z end.
Definition int_like (d : ldt) : Prop := match d with LF64 => False | _ => True end.
Lemma sound_int d c : int_like d -> sound d c -> (Z.abs (int_of c) < 2 ^ 53)%Z /\ read_f64 d c = f64_int (int_of c).
Proof.
  destruct d as [t| |], c as [z|x]; cbn; try contradiction; [intros _ [_ H]; split; [exact H|reflexivity]|]. intros _ [-> | ->]; split; reflexivity.
Qed.
Lemma show_i64_small z : (Z.abs z < 2 ^ 53)%Z -> show_i64 (f64_int z) = show_int z.
Proof.
  intros H. unfold show_i64. cbn [write_f64]. rewrite as_int_small; [reflexivity|exact H|]. unfold representable, i64_ty, i_min, i_max. cbn [signed bits].
  assert (2 ^ 53 < 2 ^ 63)%Z by reflexivity. change (2 ^ (64 - 1))%Z with (2 ^ 63)%Z. lia.
Qed.
(* _partial: as C132; integers below 2^53 in size (refuted beyond) *)
Theorem C133_roundtrip_partial : forall display powi10 f1em4 d buf a n m sep ld header footer sc lc more,
  int_like d -> wf buf a -> array_of d buf a -> 0 < n -> (a_shape a = [n] \/ a_shape a = [n; m] /\ 1 < m) ->
  read_as (or_else sep (txt " ")) ld ->
  mark (or_else lc (txt "#")) -> or_else sc (txt "# ") = or_else lc (txt "#") ++ more -> ~ In newline (or_else sc (txt "# ")) ->
  exists file r, py_savetxt display powi10 f1em4 (saves d) buf a (Some (txt "%d")) sep None header footer sc = Ok file /\
    py_loadtxt file (Some d) lc ld None None None = Ok r /\ table_of r buf a.
Proof.
  intros display powi10 f1em4 d buf a n m sep ld header footer sc lc more HI W HA NP HS RA HM HC HN.
  apply (text_roundtrip display powi10 f1em4 d buf a n m (Some (txt "%d")) sep ld header footer sc lc more); try assumption.
  intros c Hc. cbv zeta. destruct (sound_int d c HI Hc) as [H E].
  change (format_value display powi10 f1em4 (read_f64 d c) (or_else (Some (txt "%d")) (txt "%.18e"))) with (show_i64 (read_f64 d c)).
  rewrite E, show_i64_small by exact H. split; [apply show_int_token|]. exists (f64_int (int_of c)). split; [apply parse_int_text; exact H|]. rewrite <- E. apply sound_write. exact Hc.
Qed.
(* the file of a 1-D array holds the elements' numerals, one to a line *)
Theorem C133_text_partial : forall display powi10 f1em4 d buf a n sep,
  int_like d -> wf buf a -> array_of d buf a -> a_shape a = [n] ->
  exists texts, py_savetxt display powi10 f1em4 (saves d) buf a (Some (txt "%d")) sep None None None None = Ok (file_of texts) /\ List.length texts = n /\
    forall i c, get buf a [i] = Some c -> i < n -> exists t, nth_error texts i = Some t /\ numeral t (int_of c).
Proof.
  intros display powi10 f1em4 d buf a n sep HI W HA HS. destruct (wf_elems buf a W) as (vals & E & HL). pose proof (elems_sound d buf a vals HA E) as SV. rewrite Forall_forall in SV.
  exists (map (fun c => show_int (int_of c)) vals). split; [|split].
  - unfold py_savetxt, savetxt. cbn [or_else]. rewrite (save_rows_spec display powi10 f1em4 (saves d) buf a vals _ _ W E). cbn [bind]. rewrite HS. cbn [row_list].
    change (comment_lines (txt "# ") [nl] []) with (@nil ascii). cbn [app]. rewrite app_nil_r. f_equal. change file_of with terminated. f_equal. rewrite map_map. apply map_ext_in. intros c Hc.
    cbn [map join concat]. rewrite app_nil_r. change (show_i64 (read_f64 d c) = show_int (int_of c)). destruct (sound_int d c HI (SV c Hc)) as [H ->]. apply show_i64_small. exact H.
  - rewrite map_length, HL. unfold size. rewrite HS. cbn. lia.
  - intros i c G Hi. pose proof (elems_table buf a vals E) as (_ & _ & HT). cbn [fst snd] in HT. assert (inb [i] (a_shape a)) as HB by (rewrite HS; constructor; [exact Hi|constructor]).
    specialize (HT [i] HB). rewrite HS in HT. assert (rm_rank [n] [i] = i) as ER by (cbn; lia). rewrite ER, G in HT. exists (show_int (int_of c)). split; [|apply show_int_numeral].
    rewrite nth_error_map, HT. reflexivity.
Qed.
Example C133_nonvacuous :
  let buf := map CInt [0; -1; 9007199254740991; -128; 7; 42]%Z in let a := mkArr 40 [2; 3] [(-24)%Z; (-8)%Z] 8 false false in
  wf buf a /\ array_of (LInt i64_ty) buf a /\
  match py_savetxt no_text zero_of f_one (saves (LInt i64_ty)) buf a (Some (txt "%d")) (Some (txt ";")) None None (Some (txt "end")) None with
  | Ok file => file = file_of (map txt ["42;7;-128"; "9007199254740991;-1;0"; "# end"]%string) /\
      py_loadtxt file (Some (LInt i64_ty)) None (Some (txt ";")) None None None = Ok ([2; 3], map CInt [42; 7; -128; 9007199254740991; -1; 0]%Z)
  | _ => False
  end.
Proof.
  cbv zeta. split; [apply wf_check_sound; vm_compute; reflexivity|]. split; [|vm_compute; split; reflexivity].
  intros idx c _ G. unfold get, load in G. destruct (_ <? 0)%Z; [discriminate|]. destruct (_ =? _)%Z; [|discriminate]. apply nth_error_In in G.
  repeat (destruct G as [<-|G]; [split; [split; vm_compute; discriminate|vm_compute; reflexivity]|]). destruct G.
Qed.
(* 2^53 + 1 comes back as 2^53; the largest uint64 is written as the largest int64 *)
Theorem C133_large_refuted : forall display powi10 f1em4,
  comes_back display powi10 f1em4 (LInt i64_ty) [CInt 9007199254740993] (fresh [1] 8) (Some (txt "%d")) None ([1], [CInt 9007199254740992]) /\
  py_savetxt display powi10 f1em4 (saves (LInt (mkIty 64 false))) [CInt 18446744073709551615] (fresh [1] 8) (Some (txt "%d")) None None None None None =
    Ok (file_of [txt "9223372036854775807"]).
Proof. intros. split; [eexists; split; [vm_compute; reflexivity|vm_compute; reflexivity]|vm_compute; reflexivity]. Qed.

(* ---- C134: which lines and columns loadtxt takes ---- *)
(* blank lines and comment lines, anywhere after the skipped ones, change nothing *)
Theorem C134_no_data_partial : forall l1 x l2 d c dl k u m,
  Forall one_line (l1 ++ x ++ l2) -> solid (or_else c (txt "#")) -> or_else c (txt "#") <> [] -> Forall (no_data (or_else c (txt "#"))) x -> or_else k 0 <= List.length l1 ->
  py_loadtxt (file_of (l1 ++ x ++ l2)) d c dl k u m = py_loadtxt (file_of (l1 ++ l2)) d c dl k u m.
Proof.
  intros l1 x l2 d c dl k u m HO HC NC HX HK. unfold py_loadtxt. rewrite !loadtxt_go.
  assert (Forall one_line (l1 ++ l2)) as HO'. { rewrite !Forall_app in HO. rewrite Forall_app. tauto. }
  rewrite !lines_file by assumption. rewrite !skipn_map', !data_rows_strip. rewrite !skipn_app_le by exact HK. rewrite !data_rows_app.
  rewrite (no_data_rows _ _ _ x HC NC HX). reflexivity.
Qed.
(* \r\n line ends, and a last line without its end, are read the same *)
Theorem C134_line_ends : forall ls d c dl k u m, Forall one_line ls ->
  py_loadtxt (file_of (map (fun l => l ++ [ascii_of_nat 13]) ls)) d c dl k u m = py_loadtxt (file_of ls) d c dl k u m.
Proof.
  intros ls d c dl k u m H. unfold py_loadtxt. apply load_lines.
  rewrite !lines_file; [|exact H|rewrite Forall_map; eapply Forall_impl; [|exact H]; cbv beta; intros l Hl X; apply in_app_or in X as [X|[X|[]]]; [exact (Hl X)|discriminate]].
  rewrite !skipn_map', !map_trim_strip, map_map. apply map_ext. intros l. apply trim_end_space. reflexivity.
Qed.
Theorem C134_last_line : forall ls l d c dl k u m, Forall one_line (ls ++ [l]) ->
  py_loadtxt (file_of ls ++ l) d c dl k u m = py_loadtxt (file_of (ls ++ [l])) d c dl k u m.
Proof.
  intros ls l d c dl k u m H. pose proof H as H'. rewrite Forall_app in H'. destruct H' as [H1 H2]. inversion H2 as [|? ? H3 _]; subst. unfold py_loadtxt.
  destruct l as [|x l].
  - rewrite app_nil_r. rewrite !loadtxt_go. rewrite !lines_file by assumption. rewrite !skipn_map', !data_rows_strip. rewrite skipn_app, data_rows_app.
    match goal with |- context [_ ++ data_rows ?C ?D ?U (skipn ?n ?L)] => assert (data_rows C D U (skipn n L) = []) as ->; [destruct n as [|j]; [reflexivity|]; cbn [skipn]; rewrite skipn_nil; reflexivity|] end.
    rewrite app_nil_r. reflexivity.
  - apply load_lines. rewrite lines_open by (assumption || discriminate). rewrite lines_file by exact H. rewrite map_app, !skipn_app, !map_app, map_length. f_equal.
    destruct (or_else k 0 - List.length ls) as [|j]; [|cbn [skipn map]; rewrite !skipn_nil; reflexivity]. cbn [skipn map]. rewrite trim_strip_cr. reflexivity.
Qed.
(* skiprows drops lines, whatever they hold *)
Theorem C134_skiprows : forall l1 l2 d c dl j u m, Forall one_line (l1 ++ l2) ->
  py_loadtxt (file_of (l1 ++ l2)) d c dl (Some (List.length l1 + j)) u m = py_loadtxt (file_of l2) d c dl (Some j) u m.
Proof.
  intros l1 l2 d c dl j u m H. pose proof H as H'. rewrite Forall_app in H'. destruct H' as [H1 H2]. unfold py_loadtxt. apply load_lines. cbn [or_else].
  rewrite !lines_file by assumption. rewrite !skipn_map'. do 2 f_equal. rewrite skipn_app. rewrite skipn_all2 by lia. cbn [app]. f_equal. lia.
Qed.
(* the shape of nr rows of nc numbers *)
Definition table_shape (nr nc : nat) : list nat := if nc =? 1 then [nr] else [nr; nc].
(* max_rows: the first rows of the table *)
Theorem C134_max_rows : forall file d c dl k u nr nc cells m,
  py_loadtxt file d c dl k u None = Ok (table_shape nr nc, cells) -> 0 < nr -> 0 < nc -> 0 < m ->
  py_loadtxt file d c dl k u (Some m) = Ok (table_shape (Nat.min m nr) nc, firstn (m * nc) cells).
Proof.
  intros file d c dl k u nr nc cells m H Hr Hc Hm. unfold py_loadtxt in *. rewrite loadtxt_go in *. cbn [at_most] in *.
  set (rows := data_rows _ _ _ _) in *. destruct (load_inv _ _ _ _ _ H) as [(_ & ES & _)|(n & vals & NE & F & HL & ES & EC)].
  - unfold table_shape in ES. destruct (nc =? 1); [discriminate|]. injection ES as -> ->. lia.
  - assert (n = nc /\ List.length rows = nr) as [-> ER].
    { unfold table_shape in ES. destruct (Nat.eqb_spec nc 1), (Nat.eqb_spec n 1); try discriminate; injection ES; intros; split; congruence || lia. }
    rewrite (load_of _ _ (firstn m rows) (firstn m vals) nc).
    + rewrite firstn_length, ER. unfold table_shape. do 2 f_equal. rewrite EC, firstn_map. f_equal.
      assert (Forall (fun vs => List.length vs = nc) vals) as HV.
      { clear - F HL. induction F as [|r vs rows vals Hv F IH]; [constructor|]. inversion HL; subst. constructor; [apply (mapM_len _ _ _ Hv)|auto]. }
      clear - HV. revert m. induction HV as [|vs vals Hv HV IH]; intros m; [rewrite !firstn_nil; reflexivity|]. destruct m as [|m]; [reflexivity|].
      cbn [firstn concat]. rewrite IH. rewrite firstn_app. cbn [Nat.mul]. assert (firstn (nc + m * nc) vs = vs) as -> by (apply firstn_all2; lia). f_equal. f_equal. lia.
    + destruct rows; [congruence|]. destruct m; [lia|discriminate].
    + clear - F. revert m. induction F; intros m; destruct m; cbn [firstn]; constructor; auto.
    + clear - HL. revert m. induction HL; intros m; destruct m; cbn [firstn]; constructor; auto.
Qed.
(* usecols: the chosen columns of the table, in the chosen order *)
(* _partial: the columns exist (refuted otherwise) *)
Theorem C134_usecols_partial : forall file d c dl k m nr nc cells u,
  py_loadtxt file d c dl k None m = Ok (table_shape nr nc, cells) -> 0 < nr -> 0 < nc -> u <> [] -> Forall (fun j => j < nc) u ->
  exists cells', py_loadtxt file d c dl k (Some u) m = Ok (table_shape nr (List.length u), cells') /\ List.length cells' = nr * List.length u /\
    forall i j col, i < nr -> nth_error u j = Some col -> nth_error cells' (i * List.length u + j) = nth_error cells (i * nc + col).
Proof.
  intros file d c dl k m nr nc cells u H Hr Hc NU HU. unfold py_loadtxt in *. rewrite loadtxt_go in *.
  set (ls := skipn (or_else k 0) (lines file)) in *. set (rows := at_most m (data_rows _ _ None ls)) in *.
  assert (at_most m (data_rows (or_else c (txt "#")) (opt_text dl) (Some u) ls) = map (choose_cols (Some u)) rows) as ->.
  { unfold rows, data_rows. cbn [choose_cols]. rewrite <- (map_map (fields (opt_text dl)) (filter_map _)) || idtac. destruct m as [k0|]; cbn [at_most]; rewrite ?firstn_map, map_map; reflexivity. }
  destruct (load_inv _ _ _ _ _ H) as [(_ & ES & _)|(n & vals & NE & F & HL & ES & EC)].
  - unfold table_shape in ES. destruct (nc =? 1); [discriminate|]. injection ES as -> ->. lia.
  - assert (n = nc /\ List.length rows = nr) as [-> ER].
    { unfold table_shape in ES. destruct (Nat.eqb_spec nc 1), (Nat.eqb_spec n 1); try discriminate; injection ES; intros; split; congruence || lia. }
    set (pick := fun vs : list spec_float => map (fun j => nth j vs S754_nan) u).
    assert (HV : Forall (fun vs => List.length vs = nc) vals).
    { clear - F HL. induction F as [|r vs rows vals Hv F IH]; [constructor|]. inversion HL; subst. constructor; [apply (mapM_len _ _ _ Hv)|auto]. }
    assert (F' : Forall2 (fun row vs => mapM number_field row = Ok vs) (map (choose_cols (Some u)) rows) (map pick vals)).
    { clear - F HL HU. induction F as [|r vs rows vals Hv F IH]; [constructor|]. inversion HL; subst. cbn [map]. constructor; [|auto].
      cbn [choose_cols]. unfold pick. clear - Hv HU. induction HU as [|j u Hj _ IH]; [reflexivity|]. cbn [filter_map map].
      destruct (nth_error r j) as [x|] eqn:EX; [|apply nth_error_None in EX; lia]. destruct (mapM_nth _ _ _ _ _ Hv EX) as (v & EV & EF). cbn [mapM]. rewrite EF. cbn [bind].
      rewrite IH. cbn [bind]. rewrite (nth_error_nth _ _ _ EV). reflexivity. }
    assert (HL' : Forall (fun row => List.length row = List.length u) (map (choose_cols (Some u)) rows)).
    { rewrite Forall_map. eapply Forall_impl; [|exact HL]. cbv beta. intros row HR. destruct (choose_all u row nc HU HR) as (r & -> & E & _). exact E. }
    eexists. split; [rewrite (load_of _ _ _ (map pick vals) (List.length u)); [rewrite map_length, ER; reflexivity| |exact F'|exact HL']; destruct rows; [congruence|discriminate]|].
    assert (LV : List.length vals = nr) by (rewrite <- (Forall2_len _ _ _ F); exact ER).
    assert (HP : Forall (fun vs => List.length vs = List.length u) (map pick vals)) by (rewrite Forall_map; apply Forall_forall; intros vs _; unfold pick; apply map_length).
    split.
    + rewrite map_length. clear - HP LV. rewrite <- LV, <- (map_length pick vals). induction HP as [|x l Hx _ IH]; [reflexivity|]. cbn [concat List.length]. rewrite app_length, Hx, IH. reflexivity.
    + intros i j col Hi Hj. assert (col < nc) as HC. { rewrite Forall_forall in HU. apply HU. eapply nth_error_In; exact Hj. }
      assert (j < List.length u) as HJ by (apply nth_error_Some; congruence).
      rewrite EC, !nth_error_map. rewrite (concat_nth vals nc i col HV HC) by lia. rewrite (concat_nth (map pick vals) (List.length u) i j HP HJ) by (rewrite map_length; lia).
      rewrite nth_error_map. destruct (nth_error vals i) as [vs|] eqn:EV; [|apply nth_error_None in EV; lia]. cbn [option_map]. unfold pick. rewrite nth_error_map, Hj. cbn [option_map].
      rewrite (nth_error_nth' vs S754_nan); [reflexivity|]. rewrite Forall_forall in HV. rewrite (HV vs); [exact HC|]. eapply nth_error_In; exact EV.
Qed.
Lemma starts_with_ex p : forall s, starts_with p s = true -> exists t, s = p ++ t.
Proof.
  induction p as [|c p IH]; intros s H; [exists s; reflexivity|]. destruct s as [|x s]; [discriminate|]. cbn in H. destruct (Ascii.eqb_spec c x) as [->|_]; [|discriminate].
  destruct (IH s H) as (t & ->). exists t. reflexivity.
Qed.
Lemma not_ignored C t : t <> [] -> (forall s, t <> C ++ s) -> ignored C t = false.
Proof.
  intros N H. unfold ignored. destruct t as [|x t]; [congruence|]. destruct C as [|y C]; [reflexivity|]. destruct (starts_with (y :: C) (x :: t)) eqn:E; [|reflexivity].
  apply starts_with_ex in E as (s & E). exfalso. exact (H s E).
Qed.
(* a comment is not a row *)
Definition not_comment (C line : bytes) : Prop := forall s, line <> C ++ s.
Lemma kept_all C ls : Forall (fun l => trim l = l /\ l <> [] /\ not_comment C l) ls -> kept C ls = ls.
Proof.
  intros H. unfold kept. induction H as [|l ls (H1 & H2 & H3) _ IH]; [reflexivity|]. cbn [map filter]. rewrite H1, (not_ignored C l H2 H3). cbn [negb]. rewrite IH. reflexivity.
Qed.
Lemma solid_join_ends sep r : r <> [] -> Forall (fun t => solid_ t /\ t <> []) r ->
  is_space (hd "0"%char (join sep r)) = false /\ is_space (last (join sep r) "0"%char) = false /\ join sep r <> [].
Proof.
  intros N H. split; [|split].
  - destruct H as [|t r [HS NT] _]; [congruence|]. destruct HS as [|c t Hc _]; [congruence|]. destruct r; exact Hc.
  - induction H as [|t r [HS NT] HR IH]; [congruence|]. destruct r as [|t2 r].
    + cbn [join map concat]. rewrite app_nil_r. apply (last_forall (fun c => is_space c = false)); assumption.
    + rewrite join_cons, app_assoc, last_app; [apply IH; discriminate|]. inversion HR as [|? ? [_ NT2] _]; subst. destruct t2; [congruence|]. destruct r; discriminate.
  - destruct H as [|t r [_ NT] _]; [congruence|]. destruct t; [congruence|]. destruct r; discriminate.
Qed.
(* lines of fields without white space: loaded exactly when they are a rectangle of numbers *)
Theorem C134_rectangle : forall rows sep d c,
  spaces sep -> sep <> [] -> ~ In newline sep -> rows <> [] ->
  Forall (fun r => r <> [] /\ Forall (fun t => solid t /\ t <> []) r /\ not_comment (or_else c (txt "#")) (join sep r)) rows ->
  (exists r, py_loadtxt (file_of (map (join sep) rows)) d c None None None None = Ok r) <->
  (exists n, Forall (fun r => List.length r = n) rows) /\ Forall (Forall (fun t => parse_f64 t <> None)) rows.
Proof.
  intros rows sep d c HS NS HN NR HR. unfold py_loadtxt. rewrite loadtxt_go. cbn [or_else skipn at_most opt_text].
  assert (Forall one_line (map (join sep) rows)) as HO.
  { rewrite Forall_map. eapply Forall_impl; [|exact HR]. cbv beta. intros r (_ & HT & _) X. apply in_join in X as [X|(t & Ht & X)]; [contradiction|].
    rewrite Forall_forall in HT. destruct (HT t Ht) as [ST _]. unfold solid in ST. rewrite Forall_forall in ST. specialize (ST newline X). discriminate. }
  rewrite lines_file by exact HO. rewrite data_rows_strip.
  assert (data_rows (or_else c (txt "#")) [] None (map (join sep) rows) = rows) as ED.
  { unfold data_rows. rewrite kept_all.
    - rewrite map_map. rewrite <- (map_id rows) at 2. apply map_ext_in. intros r Hr. rewrite Forall_forall in HR. destruct (HR r Hr) as (_ & HT & _).
      cbn [choose_cols fields]. apply words_join; assumption.
    - rewrite Forall_map. eapply Forall_impl; [|exact HR]. cbv beta. intros r (NE & HT & HC). destruct (solid_join_ends sep r NE HT) as (E1 & E2 & E3).
      split; [apply trim_ends; assumption|]. split; assumption. }
  split.
  - intros [[sh cells] H]. rewrite ED in H. destruct (load_inv _ _ _ _ _ H) as [(E & _)|(n & vals & _ & F & HL & _ & _)]; [congruence|]. split; [exists n; exact HL|].
    clear - F. induction F as [|r vs rows vals Hv F IH]; constructor; [|exact IH]. apply Forall_forall. intros t Ht X. apply In_nth_error in Ht as (j & Hj).
    destruct (mapM_nth _ _ _ _ _ Hv Hj) as (v & _ & E). unfold number_field in E. rewrite X in E. discriminate.
  - intros [[n HL] HP]. eexists. rewrite ED.
    apply (load_of _ _ rows (map (map (fun t => match parse_f64 t with Some x => x | None => S754_nan end)) rows) n NR); [|exact HL].
    clear - HP. induction HP as [|r rows Hr _ IH]; cbn [map]; constructor; [|exact IH]. induction Hr as [|t r Ht _ IHr]; [reflexivity|]. cbn [map mapM]. rewrite IHr.
    unfold number_field at 1. destruct (parse_f64 t); [reflexivity|congruence].
Qed.
Definition doc : list bytes := map txt ["x y z"; "# a comment"; ""; "1 2 3"; "  4 5  6"; "  # more"; "7 8 9"]%string.
Example C134_nonvacuous :
  py_loadtxt (file_of doc) (Some (LInt i64_ty)) None None (Some 1) None None = Ok ([3; 3], map CInt [1; 2; 3; 4; 5; 6; 7; 8; 9]%Z) /\
  py_loadtxt (file_of doc) (Some (LInt i64_ty)) None None (Some 1) None (Some 2) = Ok ([2; 3], map CInt [1; 2; 3; 4; 5; 6]%Z) /\
  py_loadtxt (file_of doc) (Some (LInt i64_ty)) None None (Some 1) (Some [2; 0]) None = Ok ([3; 2], map CInt [3; 1; 6; 4; 9; 7]%Z) /\
  py_loadtxt (file_of (skipn 3 doc)) (Some (LInt i64_ty)) None None (Some 1) (Some [1]) None = Ok ([2], map CInt [5; 8]%Z) /\
  py_loadtxt (file_of doc) None None None None None None = Err /\
  Forall (no_data (txt "#")) [txt "# a comment"; []; txt "  # more"] /\
  py_loadtxt (file_of (map txt ["1 2"; "3"]%string)) None None None None None None = Err.
Proof.
  repeat (split; [vm_compute; reflexivity|]). split; [|vm_compute; reflexivity]. constructor; [|constructor; [left; constructor|constructor; [|constructor]]].
  - right. exists [], (txt " a comment"). split; [reflexivity|constructor].
  - right. exists (txt "  "), (txt " more"). split; [reflexivity|repeat constructor].
Qed.
(* columns that do not exist are left out silently *)
Theorem C134_usecols_refuted : exists file u, In 7 u /\ py_loadtxt file (Some (LInt i64_ty)) None None None None None = Ok ([2; 2], map CInt [1; 2; 3; 4]%Z) /\
  py_loadtxt file (Some (LInt i64_ty)) None None None (Some u) None = Ok ([2], map CInt [1; 3]%Z).
Proof. exists (file_of (map txt ["1 2"; "3 4"]%string)), [0; 7]. split; [right; left; reflexivity|]. split; vm_compute; reflexivity. Qed.
(* max_rows = 0 gives two empty axes; a comment after the numbers of a line is an error *)
Theorem C134_edges_refuted :
  py_loadtxt (file_of [txt "1 2"]) None None None None None (Some 0) = Ok ([0; 0], []) /\
  py_loadtxt (file_of [txt "1 2 # comment"]) None None None None None None = Err.
Proof. split; vm_compute; reflexivity. Qed.

(* ---- C135: genfromtxt ---- *)
(* what loadtxt can read, genfromtxt reads the same *)
Theorem C135_same : forall file d c dl k u m r filling,
  py_loadtxt file d c dl k u m = Ok r -> py_genfromtxt file d c dl k None u None filling m = Ok r.
Proof.
  intros file d c dl k u m [sh cells] filling H. unfold py_loadtxt, py_genfromtxt in *. rewrite loadtxt_go in H. rewrite genfromtxt_go. cbn [or_else].
  rewrite Nat.sub_0_r, firstn_all. set (rows := at_most m _) in *. pose proof H as H0.
  destruct (load_inv _ _ _ _ _ H) as [(E & -> & ->)|(n & vals & NE & F & HL & -> & ->)]; [rewrite E; reflexivity|].
  apply load_of; [exact NE| |exact HL]. clear - F. induction F as [|r vs rows vals Hv F IH]; constructor; [|exact IH].
  revert vs Hv. induction r as [|t r IHr]; intros vs Hv; cbn [mapM] in Hv |- *; [exact Hv|]. unfold number_field at 1 in Hv. destruct (parse_f64 t) as [x|] eqn:EP; [|discriminate].
  cbn [bind] in Hv. destruct (mapM number_field r) as [ws| | |]; [|discriminate..]. cbn [bind] in Hv. rewrite (IHr ws eq_refl). 
  assert (filled_field [] (or_else filling S754_nan) t = Ok x) as ->; [|exact Hv]. unfold filled_field. destruct t as [|y t]; [discriminate|].
  assert (chars_eqb (y :: t) [] = false) as -> by reflexivity. rewrite EP. reflexivity.
Qed.
(* skip_footer drops lines from the end, skip_header from the beginning *)
Theorem C135_skip : forall l0 l1 l2 d c dl i j u ms fl m, Forall one_line (l0 ++ l1 ++ l2) ->
  py_genfromtxt (file_of (l0 ++ l1 ++ l2)) d c dl (Some (List.length l0 + i)) (Some (List.length l2 + j)) u ms fl m =
  py_genfromtxt (file_of l1) d c dl (Some i) (Some j) u ms fl m \/ List.length l1 < j.
Proof.
  intros l0 l1 l2 d c dl i j u ms fl m H. destruct (le_lt_dec j (List.length l1)) as [L|L]; [left|right; exact L]. pose proof H as H'. rewrite !Forall_app in H'. destruct H' as (H0 & H1 & H2).
  unfold py_genfromtxt. rewrite !genfromtxt_go. cbn [or_else]. rewrite !lines_file by assumption. rewrite !map_length, !firstn_map, !skipn_map', !data_rows_strip. do 4 f_equal.
  rewrite !app_length. rewrite app_assoc, firstn_app, app_length. replace (List.length l0 + (List.length l1 + List.length l2) - (List.length l2 + j) - (List.length l0 + List.length l1)) with 0 by lia.
  cbn [firstn]. rewrite app_nil_r, firstn_app. rewrite firstn_all2 by lia. rewrite skipn_app, skipn_all2 by lia. cbn [app]. f_equal; [lia|]. f_equal. lia.
Qed.
(* the value of a field: missing fields and text that is no number get the filling value *)
Definition field_value (missing : bytes) (filling : spec_float) (t : bytes) (x : spec_float) : Prop :=
  (t = [] \/ t = missing \/ parse_f64 t = None) /\ x = filling \/ t <> [] /\ t <> missing /\ parse_f64 t = Some x.
Lemma filled_value ms fl t : exists x, filled_field ms fl t = Ok x /\ field_value ms fl t x.
Proof.
  unfold filled_field, field_value. destruct t as [|c t]; [exists fl; auto|]. destruct (chars_eqb (c :: t) ms) eqn:E; [apply chars_eqb_eq in E; exists fl; auto 6|].
  assert (c :: t <> ms) as N by (intros X; rewrite (proj2 (chars_eqb_eq _ _) X) in E; discriminate).
  destruct (parse_f64 (c :: t)) as [x|] eqn:EP; [exists x|exists fl; auto 6]. split; [reflexivity|]. right. split; [discriminate|auto].
Qed.
(* text between delimiters: no white space at its ends, no delimiter, no line end *)
Definition raw_field (sep t : bytes) : Prop :=
  white (hd "0"%char t) = false /\ white (last t "0"%char) = false /\ one_line t /\ ~ In (hd "0"%char sep) t.
Lemma split_at_free sep t cur s : sep <> [] -> ~ In (hd "0"%char sep) t -> split_at sep 0 cur (t ++ s) = split_at sep 0 (rev t ++ cur) s.
Proof.
  intros N. revert cur. induction t as [|c t IH]; intros cur H; [reflexivity|]. cbn [app split_at]. destruct sep as [|x sep]; [congruence|]. cbn [hd] in *.
  assert (starts_with (x :: sep) (c :: t ++ s) = false) as -> by (cbn; destruct (Ascii.eqb_spec x c) as [->|_]; [exfalso; apply H; left; reflexivity|reflexivity]).
  rewrite IH by (intros X; apply H; right; exact X). cbn [rev]. rewrite <- app_assoc. reflexivity.
Qed.
Lemma split_at_sep' sep cur s : sep <> [] -> split_at sep 0 cur (sep ++ s) = rev cur :: split_at sep 0 [] s.
Proof.
  intros S. destruct sep as [|x sep]; [congruence|]. cbn [app]. cbn [split_at]. change (x :: sep ++ s) with ((x :: sep) ++ s). rewrite starts_with_app.
  cbn [List.length]. rewrite Nat.sub_succ, Nat.sub_0_r, split_at_skip. reflexivity.
Qed.
Lemma split_raw sep row : sep <> [] -> row <> [] -> Forall (raw_field sep) row -> split_at sep 0 [] (join sep row) = row.
Proof.
  intros S NR H. induction H as [|t row (_ & _ & _ & ST) HR IH]; [congruence|]. destruct row as [|u row].
  - cbn [join map concat]. rewrite app_nil_r. rewrite <- (app_nil_r t) at 1. rewrite split_at_free by assumption. cbn [split_at]. rewrite app_nil_r, rev_involutive. reflexivity.
  - rewrite join_cons, split_at_free by assumption. rewrite split_at_sep' by exact S. rewrite app_nil_r, rev_involutive. f_equal. apply IH. discriminate.
Qed.
Lemma raw_trim sep t : raw_field sep t -> trim t = t.
Proof. intros (H1 & H2 & _). apply trim_ends; assumption. Qed.
Lemma raw_join_ends sep r : solid sep -> sep <> [] -> 1 < List.length r -> Forall (raw_field sep) r ->
  is_space (hd "0"%char (join sep r)) = false /\ is_space (last (join sep r) "0"%char) = false /\ join sep r <> [].
Proof.
  intros SS NS HL H. destruct r as [|t [|t2 r]]; [cbn in HL; lia..|]. rewrite join_cons. inversion H as [|? ? (H1 & _) HR]; subst. split; [|split].
  - destruct t as [|c t]; [|exact H1]. destruct sep as [|x sep]; [congruence|]. inversion SS; subst. assumption.
  - clear H1 H HL. assert (G : forall r t2, Forall (raw_field sep) (t2 :: r) -> is_space (last (sep ++ join sep (t2 :: r)) "0"%char) = false).
    { clear HR. induction r0 as [|t3 r0 IH]; intros t0 HR.
      - cbn [join map concat]. rewrite app_nil_r. destruct t0 as [|c t0]; [rewrite app_nil_r; apply (last_forall (fun c => is_space c = false)); assumption|].
        rewrite last_app by discriminate. inversion HR as [|? ? (_ & H2 & _) _]; subst. exact H2.
      - rewrite join_cons, app_assoc. inversion HR; subst. rewrite last_app; [apply IH; assumption|]. destruct sep; [congruence|discriminate]. }
    rewrite last_app by (destruct sep; [congruence|discriminate]). apply G. exact HR.
  - destruct t; [|discriminate]. destruct sep; [congruence|discriminate].
Qed.
(* a table with missing fields.  _partial: delimiters without white space, at least two
   columns (refuted otherwise) *)
Theorem C135_missing_partial : forall rows sep d c missing filling m,
  solid sep -> sep <> [] -> rows <> [] -> 1 < m ->
  Forall (fun r => List.length r = m /\ Forall (raw_field sep) r /\ not_comment (or_else c (txt "#")) (join sep r)) rows ->
  exists cells, py_genfromtxt (file_of (map (join sep) rows)) d c (Some sep) None None None missing filling None = Ok ([List.length rows; m], cells) /\
    forall i j r t, nth_error rows i = Some r -> nth_error r j = Some t ->
      exists x, nth_error cells (i * m + j) = Some (write_f64 (or_else d LF64) x) /\ field_value (or_else missing []) (or_else filling S754_nan) t x.
Proof.
  intros rows sep d c missing filling m SS NS NR HM HR. unfold py_genfromtxt. rewrite genfromtxt_go. cbn [or_else skipn at_most opt_text]. rewrite Nat.sub_0_r, firstn_all.
  assert (Forall one_line (map (join sep) rows)) as HO.
  { rewrite Forall_map. eapply Forall_impl; [|exact HR]. cbv beta. intros r (_ & HT & _) X. apply in_join in X as [X|(t & Ht & X)].
    - unfold solid in SS. rewrite Forall_forall in SS. specialize (SS newline X). discriminate.
    - rewrite Forall_forall in HT. destruct (HT t Ht) as (_ & _ & O & _). exact (O X). }
  rewrite lines_file by exact HO. rewrite data_rows_strip.
  match goal with |- context [data_rows ?C ?D ?U ?L] => assert (data_rows C D U L = rows) as -> end.
  { unfold data_rows. rewrite kept_all.
    - rewrite map_map. rewrite <- (map_id rows) at 2. apply map_ext_in. intros r Hr. rewrite Forall_forall in HR. destruct (HR r Hr) as (HL & HT & _).
      cbn [choose_cols]. transitivity (map trim (split_at sep 0 [] (join sep r))); [destruct sep; [congruence|reflexivity]|]. rewrite split_raw; [|exact NS|destruct r; [cbn in HL; lia|discriminate]|exact HT].
      rewrite <- (map_id r) at 2. apply map_ext_in. intros t Ht. rewrite Forall_forall in HT. apply (raw_trim sep), HT, Ht.
    - rewrite Forall_map. eapply Forall_impl; [|exact HR]. cbv beta. intros r (HL & HT & HC). destruct (raw_join_ends sep r SS NS ltac:(lia) HT) as (E1 & E2 & E3).
      split; [apply trim_ends; assumption|]. split; assumption. }
  set (ms := or_else missing []). set (fl := or_else filling S754_nan).
  set (val t := match filled_field ms fl t with Ok x => x | _ => fl end).
  assert (FV : forall t, filled_field ms fl t = Ok (val t)) by (intros t; unfold val; destruct (filled_value ms fl t) as (x & -> & _); reflexivity).
  eexists. split.
  - rewrite (load_of _ _ rows (map (map val) rows) m NR).
    + destruct (Nat.eqb_spec m 1); [lia|]. reflexivity.
    + clear - FV. induction rows as [|r rows IH]; cbn [map]; constructor; [|exact IH]. clear IH. induction r as [|t r IHr]; [reflexivity|]. cbn [mapM map]. rewrite FV, IHr. reflexivity.
    + eapply Forall_impl; [|exact HR]. cbv beta. tauto.
  - intros i j r t Hi Hj. exists (val t). split.
    + assert (Forall (fun l => List.length l = m) (map (map val) rows)) as HL. { rewrite Forall_map. eapply Forall_impl; [|exact HR]. cbv beta. intros l (E & _). rewrite map_length. exact E. }
      assert (j < m) as HJ. { rewrite Forall_forall in HR. destruct (HR r (nth_error_In _ _ Hi)) as (<- & _). apply nth_error_Some. congruence. }
      assert (i < List.length rows) as HI by (apply nth_error_Some; congruence).
      rewrite nth_error_map, (concat_nth _ m i j HL HJ) by (rewrite map_length; exact HI). rewrite nth_error_map, Hi. cbn [option_map]. rewrite nth_error_map, Hj. reflexivity.
    + destruct (filled_value ms fl t) as (x & E & HV). unfold val. rewrite E. exact HV.
Qed.
Example C135_nonvacuous :
  let rows := [map txt ["1"; ""; "3"]; map txt [""; "n/a"; "x"]; map txt ["7"; "8"; ""]]%string in
  Forall (fun r => List.length r = 3 /\ Forall (raw_field (txt ",")) r /\ not_comment (txt "#") (join (txt ",") r)) rows /\
  file_of (map (join (txt ",")) rows) = file_of (map txt ["1,,3"; ",n/a,x"; "7,8,"]%string) /\
  py_genfromtxt (file_of (map (join (txt ",")) rows)) (Some (LInt i64_ty)) None (Some (txt ",")) None None None (Some (txt "n/a")) (Some (f64_int (-1))) None =
    Ok ([3; 3], map CInt [1; -1; 3; -1; -1; -1; 7; 8; -1]%Z).
Proof.
  cbv zeta. split; [|split; vm_compute; reflexivity]. repeat constructor; try (intros [X|[]]; discriminate); try (intros s X; discriminate);
  try (intros X; repeat (destruct X as [X|X]; [discriminate|]); exact X).
Qed.
(* a white delimiter: missing fields at the ends of a line vanish, and the column with them *)
Theorem C135_tab_refuted : exists file, file = file_of [[ascii_of_nat 9] ++ txt "1"; [ascii_of_nat 9] ++ txt "2"] /\
  py_genfromtxt file (Some (LInt i64_ty)) None (Some [ascii_of_nat 9]) None None None None None None = Ok ([2], map CInt [1; 2]%Z) /\
  py_genfromtxt (file_of [txt "1" ++ [ascii_of_nat 9] ++ txt "2"; [ascii_of_nat 9] ++ txt "3"]) (Some (LInt i64_ty)) None (Some [ascii_of_nat 9]) None None None None None None = Err.
Proof. eexists. split; [reflexivity|]. split; vm_compute; reflexivity. Qed.
(* one column: a missing field is an empty line, and is left out *)
Theorem C135_column_refuted :
  py_genfromtxt (file_of (map (join (txt ",")) [[txt "1"]; [[]]; [txt "3"]])) (Some (LInt i64_ty)) None (Some (txt ",")) None None None None (Some f_one) None = Ok ([2], map CInt [1; 3]%Z).
Proof. vm_compute. reflexivity. Qed.

Print Assumptions C132_roundtrip_partial.
Print Assumptions C132_plus_sign.
Print Assumptions C132_column_refuted.
Print Assumptions C132_rank_refuted.
Print Assumptions C132_digits_refuted.
Print Assumptions C132_newline_refuted.
Print Assumptions C132_mark_refuted.
Print Assumptions C132_complex_refuted.
Print Assumptions C133_roundtrip_partial.
Print Assumptions C133_text_partial.
Print Assumptions C133_large_refuted.
Print Assumptions C134_no_data_partial.
Print Assumptions C134_line_ends.
Print Assumptions C134_last_line.
Print Assumptions C134_skiprows.
Print Assumptions C134_max_rows.
Print Assumptions C134_usecols_partial.
Print Assumptions C134_rectangle.
Print Assumptions C134_usecols_refuted.
Print Assumptions C134_edges_refuted.
Print Assumptions C135_same.
Print Assumptions C135_skip.
Print Assumptions C135_missing_partial.
Print Assumptions C135_tab_refuted.
Print Assumptions C135_column_refuted.
