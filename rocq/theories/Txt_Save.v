(* What savetxt writes, and what loadtxt makes of it. *)
From Coq Require Import Ascii String SpecFloat Lia QArith Lqa.
From Verif Require Import Base Lists Int_Model F64_Model Arr_Spec Arr_Model Arr_Wf Copy_Model Copy_Proofs Rng_Model Date_Model Date_Str Gu_Model Gu_Proofs Io_Spec Io_Model Io_Proofs New_Spec New_Model SF_Proofs SF_Arith Msk_Proofs Txt_Spec Txt_Model Txt_Float Txt_Proofs.
Local Open Scope nat_scope.
Local Open Scope list_scope.

(* ---- numbers are tokens ---- *)
Lemma dig_plain c : is_dig c -> plain c = true.
Proof.
  intros H. pose proof (ascii_cases (fun c => implb (numeric c) (plain c)) ltac:(vm_compute; reflexivity) c) as K. cbv beta in K.
  rewrite (dig_numeric c H) in K. exact K.
Qed.
Lemma digits_dig n : Forall is_dig (digits n).
Proof.
  unfold digits. set (fuel := S _). clearbody fuel. assert (Forall is_dig []) as H by constructor. revert H. generalize (@nil ascii). revert n.
  induction fuel as [|f IH]; intros n acc H; [exact H|]. cbn [digits_fuel].
  assert (Forall is_dig (digit (n mod 10) :: acc)) as H' by (constructor; [exists (n mod 10)%Z; split; [pose proof (Z.mod_pos_bound n 10 ltac:(lia)); lia|reflexivity]|exact H]).
  destruct (n <? 10)%Z; [exact H'|apply IH; exact H'].
Qed.
Lemma digs_plain l : Forall is_dig l -> Forall (fun c => plain c = true) l.
Proof. intros H. eapply Forall_impl; [|exact H]. apply dig_plain. Qed.
Lemma sign_plain s : Forall (fun c => plain c = true) (sign_text s).
Proof. destruct s; repeat constructor. Qed.
Lemma point_plain t : Forall (fun c => plain c = true) t -> Forall (fun c => plain c = true) (with_point t).
Proof.
  intros H. destruct t as [|c [|x t]]; [exact H|exact H|]. inversion H as [|? ? Hc HT]; subst. cbn [with_point]. constructor; [exact Hc|]. constructor; [reflexivity|exact HT].
Qed.
Lemma show_int_plain z : Forall (fun c => plain c = true) (show_int z) /\ show_int z <> [].
Proof.
  unfold show_int. destruct (Z.ltb_spec z 0).
  - destruct (digits_number (- z) ltac:(lia)) as (FD & _ & _). split; [|discriminate]. constructor; [reflexivity|apply digs_plain, FD].
  - destruct (digits_number z ltac:(lia)) as (FD & _ & NE). split; [apply digs_plain, FD|exact NE].
Qed.
Lemma show_int_token z : token (show_int z).
Proof. destruct (show_int_plain z). split; assumption. Qed.
Lemma show_sci_token p x : token (show_sci p x).
Proof.
  destruct x as [s|s| |s m e]; cbn [show_sci].
  - split; [destruct s; [discriminate|]; rewrite Nat.add_1_r; cbn [sign_text app repeat with_point]; destruct (repeat _ p); discriminate|].
    apply Forall_app. split; [apply sign_plain|]. apply Forall_app. split; [|repeat constructor]. apply point_plain, Forall_forall.
    intros y Hy. apply repeat_spec in Hy as ->. reflexivity.
  - destruct s; (split; [discriminate|repeat constructor]).
  - split; [discriminate|repeat constructor].
  - destruct (sci p (fraction m e)) as [d k]. split.
    + intros E. apply app_eq_nil in E as [_ E]. apply app_eq_nil in E as [_ E]. discriminate.
    + apply Forall_app. split; [apply sign_plain|]. apply Forall_app. split.
      * apply point_plain, digs_plain. apply digits_dig.
      * constructor; [reflexivity|]. apply show_int_plain.
Qed.

(* ---- integers as doubles ---- *)
Lemma f64_int_shape z : (Z.abs z < 2 ^ 53)%Z -> z <> 0%Z ->
  exists m e, f64_int z = S754_finite (z <? 0)%Z m e /\ (2 ^ 52 <= Zpos m < 2 ^ 53)%Z /\ (-52 <= e <= 0)%Z /\ (Zpos m = Z.abs z * 2 ^ (- e))%Z.
Proof.
  intros H N. assert (exists k, z = zsgn (z <? 0)%Z k) as (k & E).
  { destruct z as [|k|k]; [congruence| |]; exists k; reflexivity. }
  assert (Z.abs z = Zpos k) as EA by (rewrite E; destruct (z <? 0)%Z; reflexivity).
  pose proof (f64_int_sgn (z <? 0)%Z k ltac:(lia)) as F. rewrite <- E in F. unfold canon in F.
  pose proof (canon_m k ltac:(lia)) as [EM DM]. pose proof (dlen_le k 53 ltac:(lia)). pose proof (dlen_pos k).
  eexists _, _. split; [exact F|]. pose proof (dlen_bounds (Z.to_pos (Zpos k * 2 ^ (53 - dlen k)))) as B. rewrite DM in B.
  split; [change (53 - 1)%Z with 52%Z in B; exact B|]. split; [lia|]. rewrite EM, EA. do 2 f_equal. lia.
Qed.
Lemma f64_int_valid z : (Z.abs z < 2 ^ 53)%Z -> valid_binary 53 1024 (f64_int z) = true.
Proof.
  intros H. destruct (Z.eq_dec z 0) as [->|N]; [reflexivity|]. destruct (f64_int_shape z H N) as (m & e & -> & HM & HE & _).
  cbn [valid_binary]. unfold SpecFloat.bounded, canonical_mantissa, fexp, emin.
  assert (Zpos (digits2_pos m) = 53)%Z as D. { change (dlen m = 53%Z). pose proof (dlen_bounds m) as B.
    pose proof (dlen_le m 53 ltac:(lia)). destruct (Z.eq_dec (dlen m) 53) as [|X]; [assumption|].
    assert (2 ^ dlen m <= 2 ^ 52)%Z by (apply Z.pow_le_mono_r; lia). lia. }
  rewrite D. apply andb_true_intro. split; [apply Zeq_is_eq_bool; lia|]. apply Z.leb_le. lia.
Qed.
Lemma parse_int_text z : (Z.abs z < 2 ^ 53)%Z -> parse_f64 (show_int z) = Some (f64_int z).
Proof.
  intros H. assert (show_int z = sign_text (z <? 0)%Z ++ digits (Z.abs z)) as ->.
  { unfold show_int. destruct (Z.ltb_spec z 0); cbn [sign_text app]; [change (txt "-") with ["-"%char]; cbn [app]; do 2 f_equal|f_equal]; lia. }
  destruct (digits_number (Z.abs z) ltac:(lia)) as (FD & HN & NE).
  assert (parse_decimal (digits (Z.abs z)) = Some (Z.abs z, 0%Z)) as HP.
  { unfold parse_decimal. rewrite <- (app_nil_r (digits (Z.abs z))) at 1. rewrite span_digits_app by (try exact FD; exact I).
    rewrite app_nil_r. destruct (digits (Z.abs z)) as [|c r]; [congruence|]. rewrite HN. reflexivity. }
  rewrite (parse_f64_signed _ _ (Z.abs z) 0%Z); [|destruct FD; [congruence|assumption]|exact HP]. f_equal.
  unfold of_decimal. destruct (Z.eqb_spec (Z.abs z) 0) as [E|N]; [assert (z = 0%Z) as -> by lia; reflexivity|].
  destruct (f64_int_shape z H ltac:(lia)) as (m & e & -> & HM & HE & EM). change (scaled 10 (- 0) (Z.abs z, 1%Z)) with (Z.abs z, (1 * 10 ^ 0)%Z).
  change (1 * 10 ^ 0)%Z with 1%Z. assert (frac (Z.abs z, 1%Z) (qz (Z.abs z))) as HF by (unfold frac; cbn [fst snd]; split; [lia|]; change (qz 1) with 1%Q; ring).
  assert (qz (Zpos m) * pw 2 e == qz (Z.abs z))%Q as EQ.
  { rewrite EM. rewrite inject_Z_mult. rewrite <- (pw_z 2 (- e)) by lia.
    rewrite <- Qmult_assoc, <- pw_add by lia. replace (- e + e)%Z with 0%Z by lia. change (pw 2 0) with 1%Q. ring. }
  pose proof (pw_pos 2 (e - 1) ltac:(lia)). pose proof (pw_pos 2 (e - 2) ltac:(lia)).
  apply (nearest_is _ m e _ _ HF); [lia|lia|left; lia| | |]; intros; rewrite EQ; lra.
Qed.

(* ---- formats ---- *)
Lemma format_sci display powi10 f1em4 p x : (Z.of_nat p < 2 ^ 64)%Z ->
  format_value display powi10 f1em4 x (txt "%." ++ digits (Z.of_nat p) ++ txt "e") = show_sci p x.
Proof.
  intros HP. set (fmt := txt "%." ++ digits (Z.of_nat p) ++ txt "e").
  assert (precision fmt = Some p) as EP.
  { unfold precision, fmt. change (skipn 2 (txt "%." ++ digits (Z.of_nat p) ++ txt "e")) with (digits (Z.of_nat p) ++ txt "e").
    rewrite removelast_app by discriminate. change (removelast (txt "e")) with (@nil ascii). rewrite app_nil_r.
    rewrite (parse_numeral _ p); [cbn [option_map]; rewrite Nat2Z.id; reflexivity|apply (dec_denotes p)|exact HP]. }
  unfold format_value. destruct (chars_eqb fmt [] || chars_eqb fmt (txt "%.18e"))%bool eqn:E.
  - apply orb_true_iff in E as [E|E]; apply chars_eqb_eq in E; [discriminate|]. rewrite E in EP.
    change (precision (txt "%.18e")) with (Some 18) in EP. injection EP as <-. reflexivity.
  - assert (starts_with (txt "%.") fmt = true) as -> by (apply starts_with_app).
    assert (ends_with (txt "e") fmt = true) as ->.
    { unfold ends_with, fmt. rewrite app_assoc, rev_app_distr. apply starts_with_app. }
    cbn [andb]. rewrite EP. reflexivity.
Qed.

(* ---- what savetxt writes ---- *)
Lemma firstn_skipn_seq {A} (l : list A) k m : k + m <= List.length l ->
  exists r, firstn m (skipn k l) = r /\ List.length r = m /\ forall j, j < m -> nth_error r j = nth_error l (k + j).
Proof.
  intros H. eexists. split; [reflexivity|]. split; [rewrite firstn_length, skipn_length; lia|]. intros j Hj.
  rewrite <- (firstn_skipn k l) at 2. rewrite nth_error_app2 by (rewrite firstn_length; lia). rewrite firstn_length, Nat.min_l by lia.
  replace (k + j - k) with j by lia. rewrite <- (firstn_skipn m (skipn k l)) at 2. rewrite nth_error_app1; [reflexivity|]. rewrite firstn_length, skipn_length. lia.
Qed.
Lemma mapM_seq_list' {A B} (f : nat -> res B) (g : A -> B) (l : list A) m : List.length l = m ->
  (forall j x, nth_error l j = Some x -> f j = Ok (g x)) -> mapM f (seq 0 m) = Ok (map g l).
Proof.
  intros HL H. subst m. assert (forall s, (forall j x, nth_error l j = Some x -> f (s + j) = Ok (g x)) -> mapM f (seq s (List.length l)) = Ok (map g l)) as K.
  { clear H. induction l as [|x l IH]; intros s H; [reflexivity|]. cbn [List.length seq mapM map].
    pose proof (H 0 x eq_refl) as H0. rewrite Nat.add_0_r in H0. rewrite H0. cbn [bind]. rewrite IH; [reflexivity|].
    intros j y Hj. replace (S s + j) with (s + S j) by lia. apply H. exact Hj. }
  apply K. exact H.
Qed.
Lemma concat_rows {A} (l : list A) n m : List.length l = n * m -> concat (map (fun i => firstn m (skipn (i * m) l)) (seq 0 n)) = l.
Proof.
  revert l. induction n as [|n IH]; intros l H.
  - destruct l; [reflexivity|discriminate].
  - cbn [seq map concat]. rewrite Nat.mul_0_l. cbn [skipn]. rewrite <- (firstn_skipn m l) at 2. f_equal.
    rewrite <- (IH (skipn m l)) at 1 by (rewrite skipn_length; lia). rewrite <- seq_shift, map_map. f_equal. apply map_ext. intros i. f_equal.
    cbn [Nat.mul]. clear. revert l. induction m as [|m IHm]; intros l; [reflexivity|].
    destruct l; cbn [Nat.add skipn]; [rewrite skipn_nil; reflexivity|].
    revert l. generalize (i * S m). intros k l. revert k. clear. induction m as [|m IH] in l |- *; intros k; [reflexivity|]. destruct l; cbn [Nat.add skipn]; [destruct k; reflexivity|]. apply IH.
Qed.
Lemma skipn_add {A} (l : list A) i j : skipn i (skipn j l) = skipn (j + i) l.
Proof. revert l. induction j as [|j IH]; intros l; [reflexivity|]. destruct l; [rewrite !skipn_nil; reflexivity|]. cbn [Nat.add skipn]. apply IH. Qed.
Lemma mapM_map_ok {A B} (f : A -> res B) (g : A -> B) l : (forall x, In x l -> f x = Ok (g x)) -> mapM f l = Ok (map g l).
Proof.
  induction l as [|x l IH]; intros H; [reflexivity|]. cbn [mapM map]. rewrite (H x) by (left; reflexivity). cbn [bind]. rewrite IH by (intros y Hy; apply H; right; exact Hy). reflexivity.
Qed.

(* the rows of the text: one element each for a 1-D array *)
Definition row_list {V} (sh : list nat) (vals : list V) : list (list V) :=
  match sh with
  | [_] => map (fun v => [v]) vals
  | n :: rest => map (fun i => firstn (prod rest) (skipn (i * prod rest) vals)) (seq 0 n)
  | [] => [vals]
  end.
Lemma row_list_concat {V} sh (vals : list V) : List.length vals = prod sh -> concat (row_list sh vals) = vals.
Proof.
  intros H. destruct sh as [|n [|m rest]]; cbn [row_list].
  - cbn. apply app_nil_r.
  - clear. induction vals as [|v vals IH]; [reflexivity|]. cbn [map concat app]. rewrite IH. reflexivity.
  - apply concat_rows. exact H.
Qed.
Section Save_rows.
Context {V : Type}.
Variables (display : spec_float -> bytes) (powi10 : Z -> spec_float) (f1em4 : spec_float) (rd : V -> option spec_float).
Notation fm fmt := (fun v => format_value display powi10 f1em4 (number_of rd v) fmt).

Lemma save_rows_spec buf a vals sep fmt : wf buf a -> elems buf a = map Some vals ->
  save_rows display powi10 f1em4 rd buf a sep [nl] fmt = Ok (terminated (map (fun r => join sep (map (fm fmt) r)) (row_list (a_shape a) vals))).
Proof.
  intros W E. pose proof (elems_len _ _ _ E) as HL. unfold size in HL. pose proof (read_offsets buf a vals W E) as R.
  unfold save_rows. destruct (a_shape a) as [|n [|m rest]] eqn:ES; cbn [row_list].
  - assert (exists o v, iter_offsets a = [o] /\ vals = [v] /\ read buf a o = Ok v /\ o = 0%Z) as (o & v & EO & EV & RO & ->).
    { assert (iter_offsets a = [0%Z]) as EO by (unfold iter_offsets; rewrite ES; destruct W as (_ & _ & _ & HN & _); rewrite ES in HN; destruct (a_strides a); [reflexivity|discriminate]).
      rewrite EO in R. cbn [mapM] in R. destruct (read buf a 0) as [v| | |] eqn:EV; cbn [bind] in R; try discriminate. injection R as <-. exists 0%Z, v. auto. }
    rewrite RO. cbn [bind]. subst vals. unfold terminated. cbn [map flat_map join concat]. rewrite !app_nil_r. reflexivity.
  - rewrite R. cbn [bind]. f_equal. unfold terminated. rewrite map_map. rewrite flat_map_concat_map, (flat_map_concat_map _ (map _ vals)), map_map. f_equal. apply map_ext.
    intros v. cbn [map join concat]. rewrite app_nil_r. reflexivity.
  - set (nc := prod (m :: rest)). cbn [prod fold_right] in HL. assert (List.length vals = n * nc) as HL' by (rewrite HL; reflexivity).
    rewrite (mapM_map_ok _ (fun i => join sep (map (fm fmt) (firstn nc (skipn (i * nc) vals))) ++ [nl])).
    + cbn [bind]. f_equal. unfold terminated. rewrite !map_map, flat_map_concat_map, map_map. reflexivity.
    + intros i Hi. apply in_seq in Hi. destruct (firstn_skipn_seq vals (i * nc) nc) as (r & -> & LR & HR); [nia|].
      rewrite (mapM_seq_list' _ (fm fmt) r nc LR); [reflexivity|]. intros j x Hx.
      assert (j < nc) as Hj by (rewrite <- LR; apply nth_error_Some; congruence). rewrite HR in Hx by exact Hj.
      assert (exists o, nth_error (iter_offsets a) (i * nc + j) = Some o /\ read buf a o = Ok x) as (o & -> & RO).
      { clear - R Hx. revert vals R Hx. generalize (i * nc + j). intros k. induction (iter_offsets a) as [|o l IH] in k |- *; intros vals R Hx; cbn [mapM] in R.
        - injection R as <-. destruct k; discriminate.
        - destruct (read buf a o) as [v| | |] eqn:EV; cbn [bind] in R; try discriminate. destruct (mapM (read buf a) l) as [vs| | |]; cbn [bind] in R; try discriminate.
          injection R as <-. destruct k as [|k]; [injection Hx as <-; exists o; auto|]. apply (IH k vs); auto. }
      cbn [bind]. rewrite RO. reflexivity.
Qed.
Lemma comment_lines_terminated sc text : comment_lines sc [nl] text = terminated (map (app sc) (lines text)).
Proof.
  unfold comment_lines, terminated. rewrite !flat_map_concat_map, map_map. f_equal. apply map_ext. intros l. apply app_assoc.
Qed.
Lemma terminated_app l m : terminated (l ++ m) = terminated l ++ terminated m.
Proof. apply flat_map_app. Qed.

(* what is written, read again: mark lc comments, the separator as the delimiter or as white space *)
Lemma save_load_text buf a vals n m d sep ld fmt lc more header footer :
  wf buf a -> elems buf a = map Some vals -> 0 < n -> (a_shape a = [n] /\ m = 1 \/ a_shape a = [n; m] /\ 1 < m) ->
  read_as sep ld -> mark lc -> ~ In nl (lc ++ more) ->
  (forall v, In v vals -> token (fm fmt v) /\ exists x, parse_f64 (fm fmt v) = Some x /\ write_f64 d x = write_f64 d (number_of rd v)) ->
  exists file, savetxt display powi10 f1em4 rd buf a sep [nl] header footer fmt (lc ++ more) = Ok file /\
    loadtxt file d lc ld 0 None None = Ok (a_shape a, map (fun v => write_f64 d (number_of rd v)) vals).
Proof.
  intros W E NP HS RA [ML MS] HN HT. pose proof (elems_len _ _ _ E) as HL. unfold size in HL.
  unfold savetxt. rewrite (save_rows_spec buf a vals sep fmt W E). cbn [bind]. eexists. split; [reflexivity|].
  rewrite !comment_lines_terminated, <- !terminated_app. set (rows := row_list (a_shape a) vals).
  set (file := map (app (lc ++ more)) (lines header) ++ map (fun r => join sep (map (fm fmt) r)) rows ++ map (app (lc ++ more)) (lines footer)).
  assert (NE : lc <> []) by (intros ->; exact MS).
  assert (HR : Forall (fun r => r <> [] /\ List.length r = m /\ Forall (fun v => In v vals) r) rows /\ List.length rows = n /\ concat rows = vals /\ 0 < m).
  { split; [|split; [|split; [apply row_list_concat; exact HL|destruct HS as [[_ ->]|[_ H]]; lia]]].
    - unfold rows. destruct HS as [[ES EM]|[ES HM]]; rewrite ES in *; cbn [row_list].
      + rewrite Forall_map. apply Forall_forall. intros v Hv. split; [discriminate|]. split; [rewrite EM; reflexivity|]. constructor; [exact Hv|constructor].
      + rewrite Forall_map. apply Forall_forall. intros i Hi. apply in_seq in Hi. change (prod [m]) with (m * 1). rewrite Nat.mul_1_r.
        assert (List.length (firstn m (skipn (i * m) vals)) = m) as HLr.
        { rewrite firstn_length, skipn_length, HL. cbn [prod fold_right]. nia. }
        split; [destruct (firstn m (skipn (i * m) vals)); [cbn in HLr; lia|discriminate]|]. split; [exact HLr|]. apply Forall_forall. intros v Hv.
        rewrite <- (firstn_skipn (i * m) vals). apply in_or_app. right. rewrite <- (firstn_skipn m (skipn (i * m) vals)). apply in_or_app. left. exact Hv.
    - unfold rows. destruct HS as [[ES EM]|[ES HM]]; rewrite ES in *; cbn [row_list]; [|rewrite map_length, seq_length; reflexivity].
      rewrite map_length, HL. cbn [prod fold_right]. lia. }
  destruct HR as (HR & LR & CR & MP).
  assert (Forall (fun l => ~ In nl l) file) as HF.
  { unfold file. apply Forall_app. split; [|apply Forall_app; split].
    1,3: rewrite Forall_map; eapply Forall_impl; [|apply lines_no_nl]; intros l Hl X; apply in_app_or in X as [X|X]; contradiction.
    rewrite Forall_map. eapply Forall_impl; [|exact HR]. cbv beta. intros r (_ & _ & Hr). apply join_nl; [apply RA|].
    rewrite Forall_map. eapply Forall_impl; [|exact Hr]. cbv beta. intros v Hv. apply HT. exact Hv. }
  assert (TK : Forall (fun r => Forall token (map (fm fmt) r) /\ List.length (map (fm fmt) r) = m) rows).
  { eapply Forall_impl; [|exact HR]. cbv beta. intros r (_ & HLr & Hr). rewrite map_length. split; [|exact HLr]. rewrite Forall_map.
    eapply Forall_impl; [|exact Hr]. cbv beta. intros v Hv. apply HT. exact Hv. }
  unfold loadtxt. rewrite lines_terminated by exact HF. cbn [skipn]. unfold file. rewrite !map_app.
  assert (IG : forall t, Forall (fun l => ignored lc (trim l) = true) (map strip_cr (map (app (lc ++ more)) (lines t)))).
  { intros t. rewrite map_map, Forall_map. apply Forall_forall. intros l _. rewrite <- app_assoc. destruct (strip_cr_solid lc (more ++ l) ML) as (t' & ->).
    apply comment_ignored; assumption. }
  rewrite scan_ignored by apply IG.
  assert (map strip_cr (map (fun r => join sep (map (fm fmt) r)) rows) = map (join sep) (map (map (fm fmt)) rows)) as ->.
  { rewrite !map_map. apply map_ext_in. intros r Hr. apply strip_cr_id, plain_solid. rewrite Forall_forall in HR, TK. destruct (HR r Hr) as (NR & _ & _).
    apply join_last; [destruct r; [congruence|discriminate]|apply (TK r Hr)]. }
  set (num v := match parse_f64 (fm fmt v) with Some x => x | None => S754_nan end).
  rewrite (scan_rows number_field lc sep ld m (map (map (fm fmt)) rows) (map (map num) rows)); [|exact RA|exact MS|exact MP|rewrite Forall_map; exact TK| |left; reflexivity].
  2:{ clear - HR HT. induction HR as [|r rows (_ & _ & Hr) _ IH]; cbn [map]; constructor; [|exact IH].
      clear - Hr HT. induction Hr as [|v r Hv _ IH]; [reflexivity|]. cbn [map mapM]. rewrite IH. destruct (HT v Hv) as (_ & x & Ex & _).
      assert (num v = x) as -> by (unfold num; rewrite Ex; reflexivity). unfold number_field at 1. rewrite Ex. reflexivity. }
  rewrite <- (app_nil_r (map strip_cr (map (app (lc ++ more)) (lines footer)))). rewrite scan_ignored by apply IG. cbn [scan bind]. f_equal.
  rewrite map_length, LR, <- concat_map, CR. cbn [app Nat.add].
  assert (map (map (fm fmt)) rows <> []) as NR by (destruct rows; [cbn in LR; lia|discriminate]). destruct (map (map (fm fmt)) rows) eqn:EQ; [congruence|].
  unfold table. destruct (Nat.eqb_spec n 0); [lia|]. f_equal.
  - destruct HS as [[-> ->]|[-> HM]]; [reflexivity|]. destruct (Nat.eqb_spec m 1); [lia|reflexivity].
  - rewrite map_map. apply map_ext_in. intros v Hv. destruct (HT v Hv) as (_ & x & Ex & Ew). unfold num. rewrite Ex. exact Ew.
Qed.
End Save_rows.
