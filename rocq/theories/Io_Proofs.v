(* Facts about byte strings, the header text and reading it back. *)
From Coq Require Import Ascii String.
From Verif Require Import Base Lists Arr_Spec Arr_Model Arr_Wf Arr_Proofs Copy_Model Copy_Proofs.
From Verif Require Import Date_Spec Date_Model Date_Str Promo_Spec Promo_Model Gu_Model.
From Verif Require Ein_Parse.
From Verif Require Import Io_Spec Io_Model.
Local Open Scope nat_scope.
Local Open Scope list_scope.

(* ---- cutting byte strings into elements ---- *)
Definition sized (item : nat) (l : list bytes) : Prop := Forall (fun e => List.length e = item) l.

Lemma concat_len item l : sized item l -> List.length (concat l) = item * List.length l.
Proof. induction 1 as [|e l H _ IH]; cbn [concat List.length]; [lia|]. rewrite app_length, H, IH. lia. Qed.
Lemma skipn_concat item l : sized item l -> forall n, skipn (item * n) (concat l) = concat (skipn n l).
Proof.
  induction 1 as [|e l H HF IH]; intros n.
  - cbn [concat]. rewrite !skipn_nil. reflexivity.
  - destruct n as [|n]; [rewrite Nat.mul_0_r; reflexivity|]. cbn [concat skipn].
    replace (item * S n) with (List.length e + item * n) by lia.
    rewrite skipn_app. rewrite skipn_all2 by lia. cbn [app].
    replace (List.length e + item * n - List.length e) with (item * n) by lia. apply IH.
Qed.
Lemma firstn_concat item l : sized item l -> forall n, firstn (item * n) (concat l) = concat (firstn n l).
Proof.
  induction 1 as [|e l H HF IH]; intros n.
  - cbn [concat]. rewrite !firstn_nil. reflexivity.
  - destruct n as [|n]; [rewrite Nat.mul_0_r; reflexivity|]. cbn [concat firstn].
    replace (item * S n) with (List.length e + item * n) by lia.
    rewrite firstn_app_2. rewrite IH. reflexivity.
Qed.
Lemma sized_skipn item n l : sized item l -> sized item (skipn n l).
Proof. intros H. revert n. induction H as [|e l He Hl IH]; intros [|n]; cbn [skipn]; try constructor; auto; apply IH. Qed.
Lemma sized_firstn item n l : sized item l -> sized item (firstn n l).
Proof. intros H. revert n. induction H as [|e l He Hl IH]; intros [|n]; cbn [firstn]; try constructor; auto; apply IH. Qed.

Lemma cut_app {A} n (e x : list A) : List.length e = n -> firstn n (e ++ x) = e /\ skipn n (e ++ x) = x.
Proof.
  intros <-. rewrite firstn_app, firstn_all, skipn_app, skipn_all, Nat.sub_diag, app_nil_r. split; reflexivity.
Qed.
Lemma skipn_skipn' {A} (l : list A) : forall n m, skipn n (skipn m l) = skipn (m + n) l.
Proof. induction l as [|x l IH]; intros n [|m]; cbn [skipn Nat.add]; try reflexivity; [apply skipn_nil|apply IH]. Qed.
Lemma chunks_length n item : forall b, List.length (chunks n item b) = n.
Proof. induction n as [|n IH]; intros b; cbn; [reflexivity|]. rewrite IH. reflexivity. Qed.
Lemma chunks_concat item l r : sized item l -> chunks (List.length l) item (concat l ++ r) = l.
Proof.
  induction 1 as [|e l H HF IH]; [reflexivity|]. cbn [List.length chunks concat]. rewrite <- app_assoc.
  destruct (cut_app item e (concat l ++ r) H) as [-> ->]. rewrite IH. reflexivity.
Qed.
Lemma chunks_nth n item : forall b i, i < n -> nth_error (chunks n item b) i = Some (firstn item (skipn (item * i) b)).
Proof.
  induction n as [|n IH]; intros b i Hi; [lia|]. destruct i as [|i]; cbn [chunks nth_error].
  - rewrite Nat.mul_0_r. reflexivity.
  - rewrite IH by lia. rewrite skipn_skipn'. do 3 f_equal. lia.
Qed.
Lemma chunks_sized n item : forall b, item * n <= List.length b -> sized item (chunks n item b).
Proof.
  induction n as [|n IH]; intros b H; constructor.
  - rewrite firstn_length. lia.
  - apply IH. rewrite skipn_length. lia.
Qed.
Lemma firstn_split {A} (l : list A) : forall n m, firstn n l ++ firstn m (skipn n l) = firstn (n + m) l.
Proof. induction l as [|x l IH]; intros [|n] m; cbn [firstn skipn app Nat.add]; try reflexivity; [rewrite firstn_nil; reflexivity|]. rewrite IH. reflexivity. Qed.
Lemma concat_chunks n item : forall b, concat (chunks n item b) = firstn (item * n) b.
Proof.
  induction n as [|n IH]; intros b; cbn [chunks concat].
  - rewrite Nat.mul_0_r. reflexivity.
  - rewrite IH. replace (item * S n) with (item + item * n) by lia. apply firstn_split.
Qed.

(* the bytes of an array, in row-major order of its elements *)
Lemma elems_sized item buf a vals : sized item buf -> elems buf a = map Some vals -> sized item vals.
Proof.
  intros HS E. apply Forall_forall. intros v Hv. assert (Hv' : In (Some v) (elems buf a)) by (rewrite E; apply in_map; exact Hv). clear Hv. rename Hv' into Hv.
  unfold elems in Hv. apply in_map_iff in Hv as (idx & G & _). unfold get, load in G.
  destruct (_ <? 0)%Z; [discriminate|]. destruct (_ =? 0)%Z; [|discriminate].
  apply nth_error_In in G. unfold sized in HS. rewrite Forall_forall in HS. apply HS; exact G.
Qed.
Lemma load_some {V} (buf : list V) item addr v : (0 < item)%Z -> load buf item addr = Some v ->
  exists k, addr = (item * Z.of_nat k)%Z /\ nth_error buf k = Some v.
Proof.
  intros HI. unfold load. destruct (Z.ltb_spec addr 0); [discriminate|].
  destruct (Z.eqb_spec (addr mod item) 0) as [HM|]; [|discriminate]. intros G.
  exists (Z.to_nat (addr / item)). split; [|exact G].
  rewrite Z2Nat.id by (apply Z.div_pos; lia). pose proof (Z.div_mod addr item ltac:(lia)). lia.
Qed.
Lemma nth_error_firstn {A} (l : list A) : forall n i, i < n -> nth_error (firstn n l) i = nth_error l i.
Proof. induction l as [|x l IH]; intros [|n] [|i] H; cbn; try reflexivity; try lia. apply IH. lia. Qed.
Lemma nth_error_skipn' {A} (l : list A) : forall n i, nth_error (skipn n l) i = nth_error l (n + i).
Proof. induction l as [|x l IH]; intros [|n] i; cbn; try reflexivity; [destruct i; reflexivity|apply IH]. Qed.

Lemma tobytes_spec k buf a : wf buf a -> sized (Z.to_nat (a_item a)) buf ->
  exists vals : list bytes, tobytes k buf a = Ok (concat vals) /\ elems buf a = map Some vals /\
    List.length vals = size a /\ sized (Z.to_nat (a_item a)) vals.
Proof.
  intros W HS. pose proof W as (HI & _ & HO & HLs & HG & HCC & _).
  destruct (copy_buf_spec buf a (typed_kind k) W) as (vals & E1 & E2 & HL).
  pose proof (elems_sized _ _ _ _ HS E2) as HV. exists vals. split; [|split; [exact E2|split; [exact HL|exact HV]]].
  set (item := Z.to_nat (a_item a)) in *.
  assert (EI : a_item a = Z.of_nat item) by (unfold item; lia).
  unfold tobytes. destruct (a_c a) eqn:HC.
  - unfold raw. destruct (Z.eqb_spec (Z.of_nat (size a) * a_item a) 0) as [H0|H0].
    { assert (size a = 0) by nia. rewrite H in HL. destruct vals; [reflexivity|discriminate]. }
    specialize (HCC eq_refl).
    assert (HR : forall j, j < size a -> load buf (a_item a) (a_off a + a_item a * Z.of_nat j) = nth_error vals j /\
                  exists v, nth_error vals j = Some v).
    { intros j Hj. assert (N : nth_error (map (get buf a) (all_idx (a_shape a))) j = nth_error (map Some vals) j) by (unfold elems in E2; rewrite E2; reflexivity).
      unfold size in Hj. rewrite !nth_error_map', nth_error_all_idx in N by exact Hj.
      cbn [option_map] in N. destruct (nth_error vals j) as [v|] eqn:NV; [|discriminate]. cbn [option_map] in N. injection N as N.
      split; [|eexists; reflexivity]. rewrite <- N. unfold get, byte_offset_for. f_equal. f_equal.
      rewrite (c_contig_dot (a_shape a) (a_strides a) (a_item a)); auto; [|apply unrank_inb; lia].
      rewrite rank_unrank by lia. reflexivity. }
    assert (HP : 0 < size a) by nia.
    destruct (HR 0 HP) as [R0 [v0 V0]]. rewrite V0 in R0. apply load_some in R0; [|exact HI].
    destruct R0 as (o & EO & _). cbn in EO. rewrite Z.mul_0_r, Z.add_0_r in EO.
    assert (EV : vals = firstn (size a) (skipn o buf)).
    { apply nth_error_ext. intros j. destruct (le_lt_dec (size a) j) as [L|L].
      - rewrite (proj2 (nth_error_None vals j)) by lia. symmetry. apply nth_error_None. rewrite firstn_length. lia.
      - destruct (HR j L) as [R _]. rewrite <- R, nth_error_firstn by lia. rewrite nth_error_skipn'.
        rewrite EO, <- Z.mul_add_distr_l, <- Nat2Z.inj_add. apply load_at. exact HI. }
    assert (HB : o + size a <= List.length buf).
    { pose proof HL as HL'. rewrite EV in HL'. rewrite firstn_length, skipn_length in HL'. lia. }
    rewrite (concat_len item) by exact HS.
    destruct (Z.leb_spec 0 (a_off a)); [|lia]. cbn [andb].
    destruct (Z.leb_spec (a_off a + Z.of_nat (size a) * a_item a) (Z.of_nat (item * List.length buf))) as [_|L]; [|nia].
    f_equal. replace (Z.to_nat (a_off a)) with (item * o) by nia.
    replace (Z.to_nat (Z.of_nat (size a) * a_item a)) with (item * size a) by nia.
    rewrite skipn_concat by exact HS. rewrite firstn_concat by (apply sized_skipn; exact HS). rewrite <- EV. reflexivity.
  - rewrite E1. cbn [bind]. unfold raw. destruct (Z.eqb_spec (Z.of_nat (size a) * a_item a) 0) as [H0|H0].
    { assert (size a = 0) by nia. rewrite H in HL. destruct vals; [reflexivity|discriminate]. }
    rewrite (concat_len item) by exact HV. rewrite HL. cbn [Z.leb andb Z.compare].
    destruct (Z.leb_spec (0 + Z.of_nat (size a) * a_item a) (Z.of_nat (item * size a))) as [_|L]; [|nia].
    cbn [Z.to_nat skipn]. rewrite firstn_all2; [reflexivity|]. rewrite (concat_len item) by exact HV. rewrite HL. nia.
Qed.

(* ---- numbers ---- *)
Lemma value_byte z : value (byte z) = (z mod 256)%Z.
Proof.
  unfold value, byte. pose proof (Z.mod_pos_bound z 256 ltac:(lia)).
  rewrite N_ascii_embedding by lia. rewrite Z2N.id by lia. reflexivity.
Qed.
Lemma value_range c : (0 <= value c < 256)%Z.
Proof. unfold value. pose proof (N_ascii_bounded c). lia. Qed.
Lemma le_value_bytes n : forall z, (0 <= z < 256 ^ Z.of_nat n)%Z -> le_value (le_bytes n z) = z.
Proof.
  induction n as [|n IH]; intros z H.
  - cbn in H. cbn. lia.
  - cbn [le_bytes le_value]. rewrite value_byte. rewrite Nat2Z.inj_succ, Z.pow_succ_r in H by lia.
    rewrite IH.
    + pose proof (Z.div_mod z 256 ltac:(lia)). lia.
    + split; [apply Z.div_pos; lia|]. apply Z.div_lt_upper_bound; lia.
Qed.
Lemma le_bytes_length n : forall z, List.length (le_bytes n z) = n.
Proof. induction n as [|n IH]; intros z; cbn; [reflexivity|]. rewrite IH; reflexivity. Qed.

(* ---- text ---- *)
Lemma dig_value c : is_dig c -> (48 <= value c <= 57)%Z.
Proof.
  intros (d & H & ->). assert (d = 0 \/ d = 1 \/ d = 2 \/ d = 3 \/ d = 4 \/ d = 5 \/ d = 6 \/ d = 7 \/ d = 8 \/ d = 9)%Z as K by lia.
  repeat (destruct K as [->|K]; [vm_compute; split; discriminate|]). subst; vm_compute; split; discriminate.
Qed.
Lemma dig_ne c x : is_dig c -> ~ (48 <= value x <= 57)%Z -> c <> x.
Proof. intros H HN ->. apply HN, dig_value, H. Qed.
Lemma dig_eqb c x : is_dig c -> ~ (48 <= value x <= 57)%Z -> Ascii.eqb c x = false.
Proof. intros H HN. apply Ascii.eqb_neq. apply dig_ne; assumption. Qed.
Lemma dig_space c : is_dig c -> is_space c = false.
Proof.
  intros (d & H & ->). assert (d = 0 \/ d = 1 \/ d = 2 \/ d = 3 \/ d = 4 \/ d = 5 \/ d = 6 \/ d = 7 \/ d = 8 \/ d = 9)%Z as K by lia.
  repeat (destruct K as [->|K]; [vm_compute; reflexivity|]). subst; vm_compute; reflexivity.
Qed.

Definition dec (d : nat) : bytes := digits (Z.of_nat d).
Lemma dec_spec d : Forall is_dig (dec d) /\ number (dec d) 0 = Some (Z.of_nat d) /\ dec d <> [] /\
  (forall k, 0 < k -> (Z.of_nat d < 10 ^ Z.of_nat k)%Z -> List.length (dec d) <= k).
Proof.
  unfold dec. destruct (digits_spec (Z.of_nat d) ltac:(lia)) as (ds & -> & FD & HN & HP & HK).
  split; [exact FD|]. split; [rewrite HN; f_equal; lia|]. split; [destruct ds; [cbn in HP; lia|discriminate]|exact HK].
Qed.
Lemma number_fold s : forall z n, number s z = Some n ->
  fold_left (fun z c => (10 * z + (value c - 48))%Z) s z = n.
Proof.
  induction s as [|c s IH]; intros z n; cbn [number fold_left]; [congruence|]. unfold is_digit.
  change (Z.of_N (N_of_ascii c)) with (value c). destruct (_ && _); [|discriminate]. apply IH.
Qed.
Lemma dec_denotes d : denotes (dec d) d.
Proof.
  destruct (dec_spec d) as (FD & HN & HE & _). split; [exact HE|]. split.
  - eapply Forall_impl; [|exact FD]. intros c. apply dig_value.
  - apply number_fold. exact HN.
Qed.

Lemma trim_start_id s : Forall (fun c => is_space c = false) s -> trim_start s = s.
Proof. intros H. destruct H as [|c s Hc]; [reflexivity|]. cbn. rewrite Hc. reflexivity. Qed.
Lemma trim_id s : Forall (fun c => is_space c = false) s -> trim s = s.
Proof.
  intros H. unfold trim. rewrite (trim_start_id s) by exact H.
  rewrite trim_start_id by (apply Forall_rev; exact H). apply rev_involutive.
Qed.
Lemma dec_nospace d : Forall (fun c => is_space c = false) (dec d).
Proof. destruct (dec_spec d) as (FD & _). eapply Forall_impl; [|exact FD]. intros c. apply dig_space. Qed.
(* numerals: what the specification calls one is what the parser takes for one *)
Lemma fold_number s : Forall (fun c => (48 <= value c <= 57)%Z) s -> forall z,
  number s z = Some (fold_left (fun z c => (10 * z + (value c - 48))%Z) s z).
Proof.
  induction 1 as [|c s H _ IH]; intros z; cbn [number fold_left]; [reflexivity|]. unfold is_digit.
  change (Z.of_N (N_of_ascii c)) with (value c). destruct (Z.leb_spec 48 (value c)); [|lia]. destruct (Z.leb_spec (value c) 57); [|lia].
  cbn [andb]. apply IH.
Qed.
Lemma value_inj a b : value a = value b -> a = b.
Proof.
  unfold value. intros H. rewrite <- (ascii_N_embedding a), <- (ascii_N_embedding b). f_equal. lia.
Qed.
Lemma numeral_dig c : (48 <= value c <= 57)%Z -> is_dig c.
Proof.
  intros H. exists (value c - 48)%Z. split; [lia|]. apply value_inj. unfold digit. unfold value at 2.
  rewrite N_ascii_embedding by lia. lia.
Qed.
Lemma numeral_nospace s : Forall (fun c => (48 <= value c <= 57)%Z) s -> Forall (fun c => is_space c = false) s.
Proof. apply Forall_impl. intros c H. apply dig_space, numeral_dig, H. Qed.
Definition entry (t : bytes) : option nat := option_map Z.to_nat (parse_usize (trim t)).
Lemma parse_numeral s d : denotes s d -> (Z.of_nat d < 2 ^ 64)%Z -> parse_usize s = Some (Z.of_nat d).
Proof.
  intros (HE & HF & HV) H. unfold parse_usize. pose proof (fold_number s HF 0%Z) as HN. destruct s as [|c s]; [congruence|].
  inversion HF as [|? ? Hc _]; subst. rewrite (dig_eqb c "+"%char) by (try (apply numeral_dig; exact Hc); vm_compute; intros [? ?]; auto).
  rewrite HN, HV. unfold two64. destruct (Z.ltb_spec (Z.of_nat d) (2 ^ 64)); [reflexivity|lia].
Qed.
Lemma entry_numeral s d : denotes s d -> (Z.of_nat d < 2 ^ 64)%Z -> entry s = Some d /\ entry (" "%char :: s) = Some d.
Proof.
  intros HD H. pose proof (parse_numeral s d HD H) as HP. destruct HD as (HE & HF & HV). pose proof (numeral_nospace s HF) as HS.
  unfold entry. assert (ET : trim (" "%char :: s) = trim s) by reflexivity. rewrite ET, trim_id by exact HS.
  rewrite HP. cbn [option_map]. rewrite Nat2Z.id. split; reflexivity.
Qed.
Lemma numeral_no c s d : ~ (48 <= value c <= 57)%Z -> denotes s d -> ~ In c s.
Proof. intros HC (_ & HF & _) HI. rewrite Forall_forall in HF. apply HC, HF, HI. Qed.

Definition fits (sh : list nat) : Prop := Forall (fun d => (Z.of_nat d < 2 ^ 64)%Z) sh.

(* the entries between the parentheses *)
Lemma comma_no s d : denotes s d -> ~ In ","%char s.
Proof. apply numeral_no. vm_compute. intros [H _]. apply H; reflexivity. Qed.
Lemma entries_join nums sh : Forall2 denotes nums sh -> fits sh -> forall x d, entry x = Some d -> ~ In ","%char x ->
  filter_map entry (split_comma (x ++ concat (map (fun y => txt ", " ++ y) nums)) []) = d :: sh.
Proof.
  induction 1 as [|s e nums sh HD HF IH]; intros HT x d HE HN; cbn [map concat].
  - rewrite app_nil_r, (Ein_Parse.split_comma_plain x HN). cbn [rev app filter_map]. rewrite HE. reflexivity.
  - change (txt ", " ++ s) with (","%char :: " "%char :: s). cbn [app].
    rewrite (Ein_Parse.split_comma_app x _ HN). cbn [rev app filter_map]. rewrite HE. f_equal.
    change (" "%char :: s ++ concat (map (fun y => txt ", " ++ y) nums))
      with ((" "%char :: s) ++ concat (map (fun y => txt ", " ++ y) nums)).
    inversion HT; subst. apply IH; [assumption| |].
    + apply (entry_numeral s e HD). assumption.
    + intros [H|H]; [discriminate|]. apply (comma_no s e HD H).
Qed.
Definition inner (nums : list bytes) : bytes := join (txt ", ") nums ++ (if Nat.eqb (List.length nums) 1 then txt "," else []).
Lemma entries_ok nums sh : Forall2 denotes nums sh -> fits sh -> filter_map entry (split_comma (inner nums) []) = sh.
Proof.
  intros HD HF. unfold inner. destruct HD as [|s d nums sh Hs HD].
  - reflexivity.
  - inversion HF; subst. destruct (entry_numeral s d Hs ltac:(assumption)) as [E1 E2]. destruct HD as [|t e nums sh Ht HD].
    + cbn [map join concat List.length Nat.eqb app]. rewrite app_nil_r. change (txt ",") with [","%char].
      rewrite (Ein_Parse.split_comma_app _ [] (comma_no s d Hs)).
      cbn [rev app filter_map split_comma]. rewrite E1. reflexivity.
    + cbn [List.length Nat.eqb]. rewrite app_nil_r. cbn [join].
      apply (entries_join (t :: nums) (e :: sh)); [constructor; assumption|assumption|exact E1|apply (comma_no s d Hs)].
Qed.
Lemma decs_denote sh : Forall2 denotes (map dec sh) sh.
Proof. induction sh as [|d sh IH]; cbn [map]; constructor; [apply dec_denotes|exact IH]. Qed.
Lemma shape_inner sh : shape_str sh = txt "(" ++ inner (map dec sh) ++ txt ")".
Proof.
  unfold shape_str, inner. change (map (fun d => digits (Z.of_nat d)) sh) with (map dec sh). rewrite map_length, <- app_assoc. reflexivity.
Qed.

Lemma until_app f a c b : Forall (fun x => f x = false) a -> f c = true -> until f (a ++ c :: b) = Some a.
Proof. induction 1 as [|x a H _ IH]; intros HC; cbn [app until]; [rewrite HC; reflexivity|]. rewrite H, IH by exact HC. reflexivity. Qed.

Lemma in_join c sep l : In c (join sep l) -> In c sep \/ exists x, In x l /\ In c x.
Proof.
  destruct l as [|x l]; cbn [join]; [intros []|]. rewrite in_app_iff. intros [H|H]; [right; exists x; split; [left; reflexivity|exact H]|].
  apply in_concat in H as (y & Hy & Hc). apply in_map_iff in Hy as (z & <- & Hz). apply in_app_iff in Hc as [Hc|Hc]; [left; exact Hc|].
  right. exists z. split; [right; exact Hz|exact Hc].
Qed.
Lemma inner_chars c nums sh : Forall2 denotes nums sh -> In c (inner nums) -> (48 <= value c <= 57)%Z \/ In c (txt ", ").
Proof.
  intros HD. unfold inner. rewrite in_app_iff. intros [H|H].
  - apply in_join in H as [H|(x & Hx & Hc)]; [right; exact H|]. left.
    induction HD as [|s d nums sh (_ & HF & _) _ IH]; [destruct Hx|]. destruct Hx as [->|Hx]; [|apply IH; exact Hx].
    rewrite Forall_forall in HF. apply HF; exact Hc.
  - destruct (Nat.eqb _ 1); [right; cbn in *; tauto|destruct H].
Qed.

Definition not_string (k : kind) : bool := match k with Str _ | Bytes _ => false | _ => true end.
(* the dtype that the code of a dtype is read as *)
Definition read_back (k : kind) : kind := match k with Str _ => Str 0 | Bytes _ => Bytes 0 | _ => k end.
Lemma parse_typestr k : parse_dtype (typestr k) = Some (read_back k).
Proof. destruct k; try (destruct u); vm_compute; reflexivity. Qed.

Lemma after_here p s : after p (p ++ s) = Some s.
Proof.
  assert (HS : forall s, starts_with p (p ++ s) = true).
  { induction p as [|c p IH]; intros t; [reflexivity|]. cbn. rewrite Ascii.eqb_refl. apply IH. }
  destruct (p ++ s) as [|c t] eqn:E; unfold after; fold after; rewrite <- E, HS.
  - apply app_eq_nil in E as [-> ->]. reflexivity.
  - f_equal. apply (proj2 (cut_app (List.length p) p s eq_refl)).
Qed.

(* the header text with given numerals and any ending *)
Definition htext (k : kind) (nums : list bytes) (f : bool) (e : bytes) : bytes :=
  txt "{'descr': '" ++ typestr k ++ txt "', 'fortran_order': " ++ (if f then txt "True" else txt "False")
  ++ txt ", 'shape': (" ++ inner nums ++ ")"%char :: e.
Lemma htext_descr k nums f e : extract_string (htext k nums f e) (txt "descr") = Some (typestr k).
Proof.
  unfold extract_string, first_some.
  replace (after (txt "'" ++ txt "descr" ++ txt "': '") (htext k nums f e))
    with (Some (typestr k ++ "'"%char :: txt ", 'fortran_order': " ++ (if f then txt "True" else txt "False") ++ txt ", 'shape': (" ++ inner nums ++ ")"%char :: e)).
  - rewrite until_app; [reflexivity| |reflexivity]. destruct k; try (destruct u); repeat constructor.
  - symmetry. unfold htext. generalize (typestr k); intros t. generalize (inner nums); intros s. destruct f; reflexivity.
Qed.
Lemma htext_order k nums f e : extract_bool (htext k nums f e) (txt "fortran_order") = Some f.
Proof.
  unfold htext. generalize (inner nums); intros s. destruct k; try (destruct u); destruct f; reflexivity.
Qed.
Lemma htext_shape k nums sh f e : Forall2 denotes nums sh -> fits sh -> extract_shape (htext k nums f e) = Some sh.
Proof.
  intros HD HF. unfold extract_shape, first_some.
  replace (after (txt "'shape': (") (htext k nums f e)) with (Some (inner nums ++ ")"%char :: e)).
  - rewrite until_app; [| |reflexivity].
    + f_equal. change (fun t : chars => option_map Z.to_nat (parse_usize (trim t))) with entry. apply entries_ok; assumption.
    + apply Forall_forall. intros c Hc. apply (inner_chars c nums sh HD) in Hc as [Hc|Hc].
      * apply dig_eqb; [apply numeral_dig, Hc|]. vm_compute. intros [H _]. apply H. reflexivity.
      * destruct Hc as [<-|[<-|[]]]; reflexivity.
  - symmetry. unfold htext. generalize (inner nums ++ ")"%char :: e); intros r.
    destruct k; try (destruct u); destruct f; reflexivity.
Qed.
Lemma header_text k sh f : header k sh f = htext k (map dec sh) f (txt "}").
Proof.
  unfold header, htext. rewrite shape_inner. rewrite <- !app_assoc. reflexivity.
Qed.
