(* C106-C116: the char submodule and arrays of strings. *)
From Coq Require Import Ascii String.
From Verif Require Import Base Lists Arr_Spec Arr_Model Arr_Wf Arr_Proofs Copy_Model Copy_Proofs Wf_Check
  Char_Spec Char_Model Char_Proofs Char_Text Char_More Char_Arr Char_Laws.
Local Open Scope nat_scope.
Local Open Scope list_scope.

(* ASCII literals, and the ASCII part of the tables, for the examples *)
Definition str (s : string) : list Z := map (fun c => Z.of_nat (nat_of_ascii c)) (list_ascii_of_string s).
Definition ascii_uni : unicode := mkUni
  (fun c => [if low_letter c then (c - 32)%Z else c]) (fun c => [if up_letter c then (c + 32)%Z else c])
  (fun c => up_letter c || low_letter c) up_letter low_letter (between 48 57) (between 48 57).
Lemma ascii_uni_ok : ascii_tables ascii_uni.
Proof. intros c Hc. repeat split. Qed.
(* four strings of width 3; every second one; all of them *)
Definition ex_ts : list (list Z) := [str "aB "; str "x"; str "Cd1"; str ""].
Definition every_second : arr := mkArr 0 [2] [24%Z] 12 false false.
Definition all_four : arr := fresh [4] 12.
Definition backwards : arr := mkArr 36 [4] [(-12)%Z] 12 false false.
Ltac sac := constructor; [lia|repeat constructor; vm_compute; congruence|apply wf_check_sound; vm_compute; reflexivity|reflexivity].
Lemma second_array : string_array 3 ex_ts every_second.
Proof. sac. Qed.
Lemma four_array : string_array 3 ex_ts all_four.
Proof. sac. Qed.
Lemma back_array : string_array 3 ex_ts backwards.
Proof. sac. Qed.

Definition every (P : list Z -> Prop) (ts : list (list Z)) (a : arr) : Prop :=
  forall idx t, inb idx (a_shape a) -> get ts a idx = Some t -> P t.

Lemma elem_fits w ts a idx t : string_array w ts a -> inb idx (a_shape a) -> get ts a idx = Some t -> fits w t.
Proof. intros A Hi Hg. apply (addr_points w ts a idx t A Hi Hg). Qed.

(* ---- C106: case ----------------------------------------------------------------------- *)

(* For every view, every element of the result is the case mapping of the corresponding element.
   Missing: characters whose mapping is not a single character (refuted below). *)
Theorem C106_case_partial : forall U w ts a, ascii_tables U -> string_array w ts a ->
  every (fun t => one_to_one (u_upper U) t /\ one_to_one (u_lower U) t) ts a ->
  (exists out, upper U (Some w) (strs w ts) a = Ok (w, strs w out) /\ elementwise (flat_map (u_upper U)) ts a out) /\
  (exists out, lower U (Some w) (strs w ts) a = Ok (w, strs w out) /\ elementwise (flat_map (u_lower U)) ts a out) /\
  (exists out, swapcase U (Some w) (strs w ts) a = Ok (w, strs w out) /\ elementwise (flat_map (swap_cp U)) ts a out) /\
  (exists out, capitalize U (Some w) (strs w ts) a = Ok (w, strs w out) /\ elementwise (capitalized U) ts a out) /\
  (exists out, title U (Some w) (strs w ts) a = Ok (w, strs w out) /\ elementwise (titled U) ts a out).
Proof.
  intros U w ts a T A H.
  assert (F : forall idx t, inb idx (a_shape a) -> get ts a idx = Some t ->
    text t /\ length t <= w /\ one_to_one (u_upper U) t /\ one_to_one (u_lower U) t).
  { intros idx t Hi Hg. destruct (elem_fits w ts a idx t A Hi Hg) as [F1 F2]. destruct (H idx t Hi Hg).
    split; [exact F1|]. split; [exact F2|]. split; assumption. }
  split; [|split; [|split; [|split]]].
  - destruct (transform_ok (up1 U) w ts a A) as (out & E & G). exists out. split; [exact E|].
    revert G. apply elementwise_ext. intros idx t Hi Hg. destruct (F idx t Hi Hg) as (F1 & F2 & F3 & F4).
    apply upper_text; assumption.
  - destruct (transform_ok (low1 U) w ts a A) as (out & E & G). exists out. split; [exact E|].
    revert G. apply elementwise_ext. intros idx t Hi Hg. destruct (F idx t Hi Hg) as (F1 & F2 & F3 & F4).
    apply lower_text; assumption.
  - destruct (transform_ok (swap1 U) w ts a A) as (out & E & G). exists out. split; [exact E|].
    revert G. apply elementwise_ext. intros idx t Hi Hg. destruct (F idx t Hi Hg) as (F1 & F2 & F3 & F4).
    apply swap_text; assumption.
  - destruct (write_ok w w (capitalize_text U) ts a A) as (out & E & G).
    + intros idx t Hi Hg. destruct (F idx t Hi Hg) as (_ & F2 & _). destruct t; [cbn; lia|].
      cbn [capitalize_text length] in *. rewrite map_length. exact F2.
    + exists out. split; [exact E|]. revert G. apply elementwise_ext. intros idx t Hi Hg.
      destruct (F idx t Hi Hg) as (F1 & F2 & F3 & F4). apply capitalize_ok; assumption.
  - destruct (write_ok w w (title_loop U false) ts a A) as (out & E & G).
    + intros idx t Hi Hg. destruct (F idx t Hi Hg) as (_ & F2 & _).
      assert (HL : forall t p, length (title_loop U p t) = length t).
      { clear. induction t as [|c t IH]; intros p; [reflexivity|]. cbn [title_loop length]. rewrite IH. reflexivity. }
      rewrite HL. exact F2.
    + exists out. split; [exact E|]. revert G. apply elementwise_ext. intros idx t Hi Hg.
      destruct (F idx t Hi Hg) as (F1 & F2 & F3 & F4). apply title_ok; assumption.
Qed.
Example C106_case_nonvacuous : ascii_tables ascii_uni /\ string_array 3 ex_ts every_second /\
  every (fun t => one_to_one (u_upper ascii_uni) t /\ one_to_one (u_lower ascii_uni) t) ex_ts every_second /\
  upper ascii_uni (Some 3) (strs 3 ex_ts) every_second = Ok (3, strs 3 [str "AB "; str "CD1"]) /\
  title ascii_uni (Some 3) (strs 3 ex_ts) every_second = Ok (3, strs 3 [str "Ab "; str "Cd1"]).
Proof.
  split; [exact ascii_uni_ok|]. split; [exact second_array|]. split; [|split; vm_compute; reflexivity].
  intros idx t _ _. split; apply Forall_forall; reflexivity.
Qed.

(* On ASCII strings: upper and lower are idempotent and absorb each other, swapcase is its own inverse. *)
Theorem C106_laws : forall U w ts a, string_array w ts a -> every ascii ts a ->
  (Z.of_nat (size a) * (4 * Z.of_nat w) < 2 ^ 63)%Z ->
  let b := fresh (a_shape a) (4 * Z.of_nat w) in
  exists up lo sw same,
    upper U (Some w) (strs w ts) a = Ok (w, strs w up) /\ lower U (Some w) (strs w ts) a = Ok (w, strs w lo) /\
    swapcase U (Some w) (strs w ts) a = Ok (w, strs w sw) /\ elementwise (fun t => t) ts a same /\
    upper U (Some w) (strs w up) b = Ok (w, strs w up) /\ lower U (Some w) (strs w lo) b = Ok (w, strs w lo) /\
    lower U (Some w) (strs w up) b = Ok (w, strs w lo) /\ upper U (Some w) (strs w lo) b = Ok (w, strs w up) /\
    swapcase U (Some w) (strs w sw) b = Ok (w, strs w same).
Proof.
  intros U w ts a A HA HB b. pose proof (sa_wf _ _ _ A) as W.
  destruct (transform_ok (up1 U) w ts a A) as (up & E1 & G1).
  destruct (transform_ok (low1 U) w ts a A) as (lo & E2 & G2).
  destruct (transform_ok (swap1 U) w ts a A) as (sw & E3 & G3).
  destruct (wf_elems ts a W) as (vals & EV & LV).
  pose proof (elementwise_map (fun t => t) ts a vals EV LV) as G4. rewrite map_id in G4.
  assert (P : forall idx t c, inb idx (a_shape a) -> get ts a idx = Some t -> In c t -> (0 < c <= 127)%Z).
  { intros idx t c Hi Hg Hc. eapply ascii_pos; [eapply elem_fits; eassumption|apply (HA idx t Hi Hg)|exact Hc]. }
  assert (R : forall f, (forall c, (0 < c <= 127)%Z -> (0 < f c <= 127)%Z) ->
    forall idx t, inb idx (a_shape a) -> get ts a idx = Some t -> fits w (map f t)).
  { intros f Hf idx t Hi Hg. apply ascii_map; [eapply elem_fits; eassumption|apply (HA idx t Hi Hg)|exact Hf]. }
  destruct (result_array w ts a up (map (up1 U)) A HB G1 (R _ (up1_ascii U))) as [Aup Gup].
  destruct (result_array w ts a lo (map (low1 U)) A HB G2 (R _ (low1_ascii U))) as [Alo Glo].
  destruct (result_array w ts a sw (map (swap1 U)) A HB G3 (R _ (swap1_ascii U))) as [Asw Gsw].
  assert (K : forall f g h out res, elementwise (map h) ts a res ->
    string_array w out b ->
    (forall idx t, inb idx (a_shape a) -> get ts a idx = Some t -> get out b idx = Some (map f t)) ->
    (forall c, (0 < c <= 127)%Z -> g (f c) = h c) ->
    transform g (Some w) (strs w out) b = Ok (w, strs w res)).
  { intros f g h out res0 Gh Ao Go Hc. destruct (transform_ok g w out b Ao) as (res1 & E & G). rewrite E.
    f_equal. f_equal. f_equal. apply (elementwise_det (map h) ts a); [exact W| |exact Gh].
    pose proof (elementwise_comp (map f) (map g) w ts a out res1 W Go G) as GC.
    revert GC. apply elementwise_ext. intros idx t Hi Hg. rewrite map_map. apply map_ext_in. intros c Hin.
    apply Hc. apply (P idx t c Hi Hg Hin). }
  exists up, lo, sw, vals. split; [exact E1|]. split; [exact E2|]. split; [exact E3|]. split; [exact G4|].
  split; [apply (K (up1 U) (up1 U) (up1 U) up up G1 Aup Gup); apply up_up|].
  split; [apply (K (low1 U) (low1 U) (low1 U) lo lo G2 Alo Glo); intros c Hc; unfold low1, between; cases|].
  split; [apply (K (up1 U) (low1 U) (low1 U) up lo G2 Aup Gup); apply low_up|].
  split; [apply (K (low1 U) (up1 U) (up1 U) lo up G1 Alo Glo); apply up_low|].
  apply (K (swap1 U) (swap1 U) (fun c => c) sw vals); [|exact Asw|exact Gsw|apply swap_swap].
  revert G4. apply elementwise_ext. intros idx t _ _. symmetry. apply map_id.
Qed.
Example C106_laws_nonvacuous : string_array 3 ex_ts every_second /\ every ascii ex_ts every_second /\
  swapcase ascii_uni (Some 3) (strs 3 ex_ts) every_second = Ok (3, strs 3 [str "Ab "; str "cD1"]).
Proof.
  split; [exact second_array|]. split; [|vm_compute; reflexivity]. intros idx t _ Hg.
  assert (H : Forall ascii ex_ts) by (repeat constructor; vm_compute; congruence).
  rewrite Forall_forall in H. apply H. unfold get, load in Hg.
  destruct (_ <? _)%Z; [discriminate|]. destruct (_ =? _)%Z; [|discriminate]. apply nth_error_In in Hg. exact Hg.
Qed.

(* upper of the German sharp s (U+00DF), whose upper case is "SS", is unchanged *)
Theorem C106_upper_refuted : exists w ts a, string_array w ts a /\
  forall U, ascii_tables U -> u_upper U 0xDF = str "SS" ->
    exists out, upper U (Some w) (strs w ts) a = Ok (w, strs w out) /\
      get ts a [0] = Some [0xDF%Z] /\ get out (fresh (a_shape a) (4 * Z.of_nat w)) [0] = Some [0xDF%Z].
Proof.
  exists 2, [[0xDF%Z]], (fresh [1] 8). split; [sac|]. intros U T HU. exists [[0xDF%Z]].
  split; [|split; reflexivity].
  destruct U as [u l al iu il d n]. cbn in HU. vm_compute. rewrite HU. reflexivity.
Qed.

(* ---- C107: strip ---------------------------------------------------------------------- *)

Definition strips (mode : nat) : bool * bool := match mode with 0 => (true, true) | 1 => (true, false) | _ => (false, true) end.
(* strip (mode 0), lstrip (1), rstrip (2) without a chars argument.  Missing: the chars argument,
   and the control characters U+001C to U+001F, which are white space in Python (refuted below) *)
Theorem C107_strip_partial : forall mode w ts a, mode <= 2 -> string_array w ts a ->
  every (fun t => Forall (fun c => between 28 31 c = false) t) ts a ->
  exists out, strip mode None (Some w) (strs w ts) a = Ok (w, strs w out) /\
    related (stripped py_space (fst (strips mode)) (snd (strips mode))) ts a out.
Proof.
  intros mode w ts a Hm A H.
  assert (S1 : forall t, stripped cp_is_space (fst (strips mode)) (snd (strips mode)) t (strip_text mode t)).
  { intros t. pose proof (strip_ok mode t Hm) as S0. destruct mode as [|[|[|m]]]; [exact S0|exact S0|exact S0|lia]. }
  destruct (write_ok w w (strip_text mode) ts a A) as (out & E & G).
  - intros idx t Hi Hg. destruct (elem_fits w ts a idx t A Hi Hg) as [_ F].
    pose proof (stripped_length _ _ _ _ _ (S1 t)). lia.
  - exists out. split; [exact E|]. revert G. apply elementwise_related. intros idx t Hi Hg.
    destruct (elem_fits w ts a idx t A Hi Hg) as [T _]. specialize (H idx t Hi Hg). cbv beta in H.
    eapply stripped_ext; [|apply S1]. intros c Hc. unfold text in T. rewrite Forall_forall in T, H.
    apply is_space_cp; [apply (T c Hc)|apply (H c Hc)].
Qed.
Example C107_strip_nonvacuous : string_array 3 ex_ts backwards /\
  every (fun t => Forall (fun c => between 28 31 c = false) t) ex_ts backwards /\
  strip 0 None (Some 3) (strs 3 ex_ts) backwards = Ok (3, strs 3 [str ""; str "Cd1"; str "x"; str "aB"]).
Proof.
  split; [exact back_array|]. split; [|vm_compute; reflexivity]. intros idx t _ Hg.
  assert (H : Forall (fun t => Forall (fun c => between 28 31 c = false) t) ex_ts) by (repeat constructor).
  rewrite Forall_forall in H. apply H. unfold get, load in Hg.
  destruct (_ <? _)%Z; [discriminate|]. destruct (_ =? _)%Z; [|discriminate]. apply nth_error_In in Hg. exact Hg.
Qed.
(* strip(a, 'x') leaves the x's where they are *)
Theorem C107_chars_refuted : exists w ts a chars out, string_array w ts a /\
  strip 0 (Some chars) (Some w) (strs w ts) a = Ok (w, strs w out) /\
  ~ related (stripped (fun c => existsb (Z.eqb c) chars) true true) ts a out.
Proof.
  exists 3, [str "xax"], (fresh [1] 12), (str "x"), [str "xax"]. split; [sac|]. split; [vm_compute; reflexivity|].
  intros [_ H]. destruct (H [0] (str "xax")) as (r & Hr & pre & post & E & H1 & H2 & H3 & H4).
  - repeat constructor.
  - reflexivity.
  - cbn in Hr. injection Hr as <-. cbn in H3. discriminate.
Qed.
(* a leading U+001F is white space for Python, not here *)
Theorem C107_space_refuted : exists w ts a out, string_array w ts a /\
  strip 0 None (Some w) (strs w ts) a = Ok (w, strs w out) /\ ~ related (stripped py_space true true) ts a out.
Proof.
  exists 2, [[31; 97]%Z], (fresh [1] 8), [[31; 97]%Z]. split; [sac|]. split; [vm_compute; reflexivity|].
  intros [_ H]. destruct (H [0] [31; 97]%Z) as (r & Hr & pre & post & E & H1 & H2 & H3 & H4).
  - repeat constructor.
  - reflexivity.
  - cbn in Hr. injection Hr as <-. cbn in H3. discriminate.
Qed.

(* ---- C108: find ----------------------------------------------------------------------- *)

(* Missing: the start and end arguments (refuted below) *)
Theorem C108_find_partial : forall sub w ts a, string_array w ts a ->
  (exists out, find_str sub None None (Some w) (strs w ts) a = Ok out /\ related (found first_occ sub) ts a out) /\
  (exists out, rfind_str sub None None (Some w) (strs w ts) a = Ok out /\ related (found last_occ sub) ts a out).
Proof.
  intros sub w ts a A. split.
  - destruct (per_text_ok (find_text sub) w ts a A) as (out & E & G). exists out. split; [exact E|].
    revert G. apply elementwise_related. intros; apply find_ok.
  - destruct (per_text_ok (rfind_text sub) w ts a A) as (out & E & G). exists out. split; [exact E|].
    revert G. apply elementwise_related. intros; apply rfind_ok.
Qed.
Example C108_find_nonvacuous : string_array 3 ex_ts every_second /\
  find_str (str "B ") None None (Some 3) (strs 3 ex_ts) every_second = Ok [1; -1]%Z.
Proof. split; [exact second_array|vm_compute; reflexivity]. Qed.

Lemma existsb_minus l : existsb (fun z => (z =? -1)%Z) l = false <-> forall z, In z l -> z <> (-1)%Z.
Proof.
  induction l as [|x l IH]; cbn [existsb].
  - split; [intros _ z []|reflexivity].
  - rewrite orb_false_iff, IH, Z.eqb_neq. split.
    + intros [H1 H2] z [<-|Hz]; [exact H1|apply H2, Hz].
    + intros H. split; [apply H; left; reflexivity|intros z Hz; apply H; right; exact Hz].
Qed.
(* index, rindex: the same answers when every element contains the substring, an error otherwise *)
Theorem C108_index_partial : forall sub w ts a, string_array w ts a ->
  ((forall idx t, inb idx (a_shape a) -> get ts a idx = Some t -> exists i, occurs_at sub t i) ->
   (exists out, index_str sub None None (Some w) (strs w ts) a = Ok out /\ related (fun t r => exists i, first_occ sub t i /\ r = Z.of_nat i) ts a out) /\
   (exists out, rindex_str sub None None (Some w) (strs w ts) a = Ok out /\ related (fun t r => exists i, last_occ sub t i /\ r = Z.of_nat i) ts a out)) /\
  ((exists idx t, inb idx (a_shape a) /\ get ts a idx = Some t /\ forall i, ~ occurs_at sub t i) ->
   index_str sub None None (Some w) (strs w ts) a = Err /\ rindex_str sub None None (Some w) (strs w ts) a = Err).
Proof.
  intros sub w ts a A.
  destruct (per_text_ok (find_text sub) w ts a A) as (o1 & E1 & G1).
  destruct (per_text_ok (rfind_text sub) w ts a A) as (o2 & E2 & G2).
  unfold index_str, rindex_str, find_str, rfind_str. rewrite E1, E2. cbn [bind]. unfold no_minus_one.
  assert (NG : forall g out, elementwise g ts a out ->
    (forall idx t, inb idx (a_shape a) -> get ts a idx = Some t -> g t <> (-1)%Z) ->
    existsb (fun z => (z =? -1)%Z) out = false).
  { intros g out [HL HE] Hg. apply existsb_minus. intros z Hz. apply In_nth_error in Hz. destruct Hz as [k Hk].
    assert (Hlt : k < size a) by (rewrite <- HL; apply nth_error_Some; rewrite Hk; discriminate).
    pose proof (unrank_inb (a_shape a) k Hlt) as Hi. pose proof (sa_wf _ _ _ A) as (_ & _ & _ & _ & HG & _).
    destruct (HG _ Hi) as [t Ht]. pose proof (HE _ t Hi Ht) as He.
    change (rm_rank (a_shape a)) with (rank (a_shape a)) in He. rewrite rank_unrank in He by exact Hlt.
    rewrite Hk in He. injection He as ->. apply (Hg _ t Hi Ht). }
  split.
  - intros H.
    assert (F1 : forall idx t, inb idx (a_shape a) -> get ts a idx = Some t -> exists i, first_occ sub t i /\ find_text sub t = Z.of_nat i).
    { intros idx t Hi Hg. destruct (find_ok sub t) as [F|[F _]]; [exact F|]. destruct (H idx t Hi Hg) as [i Ho]. destruct (F i Ho). }
    assert (F2 : forall idx t, inb idx (a_shape a) -> get ts a idx = Some t -> exists i, last_occ sub t i /\ rfind_text sub t = Z.of_nat i).
    { intros idx t Hi Hg. destruct (rfind_ok sub t) as [F|[F _]]; [exact F|]. destruct (H idx t Hi Hg) as [i Ho]. destruct (F i Ho). }
    split.
    + exists o1. rewrite (NG _ _ G1) by (intros idx t Hi Hg; destruct (F1 idx t Hi Hg) as (i & _ & ->); lia).
      split; [reflexivity|]. revert G1. apply elementwise_related. exact F1.
    + exists o2. rewrite (NG _ _ G2) by (intros idx t Hi Hg; destruct (F2 idx t Hi Hg) as (i & _ & ->); lia).
      split; [reflexivity|]. revert G2. apply elementwise_related. exact F2.
  - intros (idx & t & Hi & Hg & Hno).
    assert (B1 : existsb (fun z => (z =? -1)%Z) o1 = true).
    { apply existsb_exists. exists (-1)%Z. split; [|reflexivity]. destruct G1 as [_ HE]. specialize (HE idx t Hi Hg).
      destruct (find_ok sub t) as [(i & [Ho _] & _)|[_ F]]; [destruct (Hno i Ho)|]. rewrite F in HE. eapply nth_error_In; exact HE. }
    assert (B2 : existsb (fun z => (z =? -1)%Z) o2 = true).
    { apply existsb_exists. exists (-1)%Z. split; [|reflexivity]. destruct G2 as [_ HE]. specialize (HE idx t Hi Hg).
      destruct (rfind_ok sub t) as [(i & [Ho _] & _)|[_ F]]; [destruct (Hno i Ho)|]. rewrite F in HE. eapply nth_error_In; exact HE. }
    rewrite B1, B2. split; reflexivity.
Qed.
Example C108_index_nonvacuous : string_array 3 [str "aab"; str "ca"] (fresh [2] 12) /\
  rindex_str (str "a") None None (Some 3) (strs 3 [str "aab"; str "ca"]) (fresh [2] 12) = Ok [1; 1]%Z /\
  index_str (str "b") None None (Some 3) (strs 3 [str "aab"; str "ca"]) (fresh [2] 12) = Err.
Proof. split; [sac|]. split; vm_compute; reflexivity. Qed.
(* find(a, 'a', 1) reports the occurrence at 0 *)
Theorem C108_start_refuted : exists sub w ts a start out, string_array w ts a /\
  find_str sub (Some start) None (Some w) (strs w ts) a = Ok out /\
  ~ related (fun t r => forall i, r = Z.of_nat i -> start <= i) ts a out.
Proof.
  exists (str "a"), 3, [str "aba"], (fresh [1] 12), 1, [0%Z]. split; [sac|]. split; [vm_compute; reflexivity|].
  intros [_ H]. destruct (H [0] (str "aba")) as (r & Hr & HB); [repeat constructor|reflexivity|].
  cbn in Hr. injection Hr as <-. specialize (HB 0 eq_refl). lia.
Qed.

(* ---- C109: startswith, endswith ------------------------------------------------------- *)

Theorem C109_endswith : forall suf w ts a, string_array w ts a ->
  exists out, endswith suf (Some w) (strs w ts) a = Ok out /\
    related (fun t r => r = true <-> exists u, t = u ++ suf) ts a out.
Proof.
  intros suf w ts a A. destruct (per_text_ok (endswith_text suf) w ts a A) as (out & E & G). exists out.
  split; [exact E|]. revert G. apply elementwise_related. intros; apply endswith_ok.
Qed.
Example C109_endswith_nonvacuous : string_array 3 ex_ts every_second /\
  endswith (str "d1") (Some 3) (strs 3 ex_ts) every_second = Ok [false; true].
Proof. split; [exact second_array|vm_compute; reflexivity]. Qed.
(* Missing: prefixes longer than the width of the array (refuted below) *)
Theorem C109_startswith_partial : forall pre w ts a, string_array w ts a -> text pre -> length pre <= w ->
  exists out, startswith pre (Some w) (strs w ts) a = Ok out /\
    related (fun t r => r = true <-> exists v, t = pre ++ v) ts a out.
Proof.
  intros pre w ts a A Hp HL. destruct (startswith_ok pre w ts a A) as (out & E & G); [|exact HL|].
  - unfold text in Hp. eapply Forall_impl; [|exact Hp]. intros c [_ H]. exact H.
  - exists out. split; [exact E|]. revert G. apply elementwise_related. intros; apply match_at_ok.
Qed.
Example C109_startswith_nonvacuous : string_array 3 ex_ts all_four /\ text (str "Cd") /\
  startswith (str "Cd") (Some 3) (strs 3 ex_ts) all_four = Ok [false; false; true; false].
Proof. split; [exact four_array|]. split; [repeat constructor; vm_compute; congruence|vm_compute; reflexivity]. Qed.
(* 'ab' starts with 'abc' because the next element of the array starts with 'c' *)
Theorem C109_startswith_refuted : exists pre w ts a out, string_array w ts a /\ text pre /\
  startswith pre (Some w) (strs w ts) a = Ok out /\ nth_error ts 0 = Some (str "ab") /\ pre = str "abc" /\ nth_error out 0 = Some true.
Proof.
  exists (str "abc"), 2, [str "ab"; str "cd"], (fresh [2] 8), [true; false]. split; [sac|].
  split; [repeat constructor; vm_compute; congruence|]. split; [vm_compute; reflexivity|]. repeat split.
Qed.
(* and the last element is read past the end of the buffer *)
Theorem C109_overrun_refuted : exists pre w ts a, string_array w ts a /\ text pre /\
  startswith pre (Some w) (strs w ts) a = Fault.
Proof.
  exists (str "abc"), 2, [str "ab"], (fresh [1] 8). split; [sac|].
  split; [repeat constructor; vm_compute; congruence|]. vm_compute. reflexivity.
Qed.

(* ---- C110: count, replace ------------------------------------------------------------- *)

(* count(s, sub) = number of cuts of s at sub, left to right without overlap; len + 1 for an empty sub.
   Missing: start and end *)
Theorem C110_count_partial : forall sub w ts a, string_array w ts a ->
  exists out, count_str sub None None (Some w) (strs w ts) a = Ok out /\
    related (fun t r => (sub = [] -> r = (Z.of_nat (length t) + 1)%Z) /\
                        (sub <> [] -> forall ps, pieces sub None t ps -> r = (Z.of_nat (length ps) - 1)%Z)) ts a out.
Proof.
  intros sub w ts a A. destruct (per_text_ok (count_text sub) w ts a A) as (out & E & G). exists out.
  split; [exact E|]. revert G. apply elementwise_related. intros idx t _ _. split.
  - intros ->. reflexivity.
  - intros Hs ps HP. destruct (count_ok sub t Hs) as (qs & HQ & ->). rewrite (pieces_unique _ _ _ _ HP _ HQ). reflexivity.
Qed.
Example C110_count_nonvacuous : string_array 5 [str "aaaaa"; str "ba"] (fresh [2] 20) /\
  count_str (str "aa") None None (Some 5) (strs 5 [str "aaaaa"; str "ba"]) (fresh [2] 20) = Ok [2; 0]%Z /\
  pieces (str "aa") None (str "aaaaa") [[]; []; str "a"].
Proof.
  split; [sac|]. split; [vm_compute; reflexivity|].
  destruct (replace_ok (str "aa") (str "-") None (str "aaaaa")) as (ps & P & E & _); [discriminate|].
  vm_compute in E. change [[]; []; str "a"] with ([[]; []; str "a"] : list (list Z)).
  apply (pieces_cut (str "aa") None (str "aaaaa") 0); [discriminate| |].
  - split; [exists [], (str "aaa"); split; reflexivity|intros; lia].
  - apply (pieces_cut (str "aa") None (str "aaa") 0); [discriminate| |].
    + split; [exists [], (str "a"); split; reflexivity|intros; lia].
    + apply pieces_last. intros i Hi. apply occurs_bound in Hi. cbn in Hi. lia.
Qed.
(* replace(s, old, new, n): the pieces of s at (the first n occurrences of) old, joined by new; every
   result fits, nothing is written outside.  Missing: an empty old *)
Theorem C110_replace_partial : forall old new n w ts a, string_array w ts a -> old <> [] ->
  exists w' out, replace old new n (Some w) (strs w ts) a = Ok (w', strs w' out) /\ w <= w' /\
    related (fun t r => exists ps, pieces old n t ps /\ intercalate old ps = t /\ r = intercalate new ps) ts a out.
Proof.
  intros old new n w ts a A Ho. destruct (replace_arr old new n w ts a A Ho) as (w' & out & E & Hw & G).
  exists w', out. split; [exact E|]. split; [exact Hw|]. revert G. apply elementwise_related. intros idx t _ _.
  destruct (replace_ok old new n t Ho) as (ps & P & E1 & _). exists ps. split; [exact P|]. split; [|exact E1].
  apply (intercalate_pieces _ _ _ _ P).
Qed.
Example C110_replace_nonvacuous : string_array 3 ex_ts every_second /\
  replace (str "B") (str "--") (Some 1) (Some 3) (strs 3 ex_ts) every_second = Ok (4, strs 4 [str "a-- "; str "Cd1"]).
Proof. split; [exact second_array|vm_compute; reflexivity]. Qed.
(* Python inserts new around every character when old is empty ("ab".replace("", "-") = "-a-b-"); here nothing changes *)
Theorem C110_empty_refuted : exists w ts a, string_array w ts a /\
  replace [] (str "-") None (Some w) (strs w ts) a = Ok (w, strs w ts) /\
  ts = [str "ab"] /\ str "-a-b-" <> str "ab".
Proof.
  exists 5, [str "ab"], (fresh [1] 20). split; [sac|]. split; [vm_compute; reflexivity|]. split; [reflexivity|discriminate].
Qed.

(* ---- C111: partition, join ------------------------------------------------------------ *)

Theorem C111_partition : forall sep w ts a, string_array w ts a -> sep <> [] ->
  (exists out, partition sep (Some w) (strs w ts) a = Ok (a_shape a ++ [3], (w, strs w out)) /\ length out = size a * 3 /\
    forall idx t, inb idx (a_shape a) -> get ts a idx = Some t -> exists x y z, partitioned sep t (x, y, z) /\ x ++ y ++ z = t /\
      forall j, j < 3 -> nth_error out (rm_rank (a_shape a ++ [3]) (idx ++ [j])) = nth_error [x; y; z] j) /\
  (exists out, rpartition sep (Some w) (strs w ts) a = Ok (a_shape a ++ [3], (w, strs w out)) /\ length out = size a * 3 /\
    forall idx t, inb idx (a_shape a) -> get ts a idx = Some t -> exists x y z, rpartitioned sep t (x, y, z) /\ x ++ y ++ z = t /\
      forall j, j < 3 -> nth_error out (rm_rank (a_shape a ++ [3]) (idx ++ [j])) = nth_error [x; y; z] j).
Proof.
  intros sep w ts a A Hs. split.
  - destruct (partition_arr (partition_text sep) sep w ts a A Hs) as (out & E & HL & G).
    { intros t Ft. unfold partition_text. apply cut3_fits; [exact Ft| |].
      - intros i Hi. pose proof (first_match_ok sep t) as F. rewrite Hi in F. apply F.
      - destruct Ft as [_ HL]. cbn [triple]. repeat constructor; cbn; lia. }
    exists out. split; [exact E|]. split; [exact HL|]. intros idx t Hi Hg.
    pose proof (partition_ok sep t) as P. specialize (G idx t). destruct (partition_text sep t) as [[x y] z].
    exists x, y, z. split; [exact P|]. split; [|intros j Hj; apply (G j Hi Hg Hj)].
    destruct P as [(i & [Ho _] & -> & -> & ->)|(_ & -> & -> & ->)]; [symmetry; apply occurs_cut, Ho|].
    cbn [app]. apply app_nil_r.
  - destruct (partition_arr (rpartition_text sep) sep w ts a A Hs) as (out & E & HL & G).
    { intros t Ft. unfold rpartition_text. apply cut3_fits; [exact Ft| |].
      - intros i Hi. pose proof (last_match_ok sep t) as F. rewrite Hi in F. apply F.
      - destruct Ft as [_ HL]. cbn [triple]. repeat constructor; cbn; lia. }
    exists out. split; [exact E|]. split; [exact HL|]. intros idx t Hi Hg.
    pose proof (rpartition_ok sep t) as P. specialize (G idx t). destruct (rpartition_text sep t) as [[x y] z].
    exists x, y, z. split; [exact P|]. split; [|intros j Hj; apply (G j Hi Hg Hj)].
    destruct P as [(i & [Ho _] & -> & -> & ->)|(_ & -> & -> & ->)]; [symmetry; apply occurs_cut, Ho|]. reflexivity.
Qed.
Example C111_partition_nonvacuous : string_array 3 [str "a-b"; str "--"] (fresh [2] 12) /\
  rpartition (str "-") (Some 3) (strs 3 [str "a-b"; str "--"]) (fresh [2] 12)
  = Ok ([2; 3], (3, strs 3 [str "a"; str "-"; str "b"; str "-"; str "-"; str ""])).
Proof. split; [sac|vm_compute; reflexivity]. Qed.
(* an empty separator, and arrays that are not strings, are rejected *)
Theorem C111_rejects : forall sep m a, partition sep None m a = Err /\ rpartition sep None m a = Err /\ join sep None m a = Err /\
  forall k, partition [] k m a = Err /\ rpartition [] k m a = Err.
Proof. intros sep m a. repeat split; destruct k; reflexivity. Qed.
Theorem C111_join : forall sep w ts a, string_array w ts a ->
  exists w' out, join sep (Some w) (strs w ts) a = Ok (w', strs w' out) /\ w <= w' /\
    elementwise (fun t => intercalate sep (map (fun c => [c]) t)) ts a out.
Proof.
  intros sep w ts a A. unfold join, with_width. destruct (Nat.eqb_spec (size a) 0) as [H|H].
  - exists w, []. split; [reflexivity|]. split; [lia|]. apply size0_elementwise, H.
  - destruct (write_ok w (w + (w - 1) * length sep) (join_text sep) ts a A) as (out & E & G).
    + intros idx t Hi Hg. destruct (elem_fits w ts a idx t A Hi Hg) as [_ F]. rewrite join_length.
      pose proof (Nat.mul_le_mono_r (length t - 1) (w - 1) (length sep) ltac:(lia)). lia.
    + eexists _, out. split; [exact E|]. split; [lia|]. revert G. apply elementwise_ext. intros; apply join_ok.
Qed.
Example C111_join_nonvacuous : string_array 3 ex_ts every_second /\
  join (str "-") (Some 3) (strs 3 ex_ts) every_second = Ok (5, strs 5 [str "a-B- "; str "C-d-1"]).
Proof. split; [exact second_array|vm_compute; reflexivity]. Qed.

(* ---- C112: center, ljust, rjust, zfill ------------------------------------------------ *)

(* On C-contiguous arrays.  Missing: other views, and center with an odd width and odd padding (refuted below) *)
Theorem C112_justify_partial : forall n fill w ts a, string_array w ts a -> contiguous a ->
  (exists w' out, ljust n fill (Some w) (strs w ts) a = Ok (w', strs w' out) /\ w <= w' /\ elementwise (ljust_spec n (fill_of fill)) ts a out) /\
  (exists w' out, rjust n fill (Some w) (strs w ts) a = Ok (w', strs w' out) /\ w <= w' /\ elementwise (rjust_spec n (fill_of fill)) ts a out) /\
  (exists w' out, zfill n (Some w) (strs w ts) a = Ok (w', strs w' out) /\ w <= w' /\ elementwise (zfill_spec n) ts a out) /\
  (every (fun t => Nat.odd n && Nat.odd (n - length t) = false) ts a ->
   exists w' out, center n fill (Some w) (strs w ts) a = Ok (w', strs w' out) /\ w <= w' /\ elementwise (center_spec n (fill_of fill)) ts a out).
Proof.
  intros n fill w ts a A C. split; [|split; [|split]].
  - destruct (unary_ok (ljust_text n (fill_of fill)) w ts a A C) as (w' & out & E & Hw & G).
    exists w', out. split; [exact E|]. split; [exact Hw|]. revert G. apply elementwise_ext. intros; apply ljust_ok.
  - destruct (unary_ok (rjust_text n (fill_of fill)) w ts a A C) as (w' & out & E & Hw & G).
    exists w', out. split; [exact E|]. split; [exact Hw|]. revert G. apply elementwise_ext. intros; apply rjust_ok.
  - destruct (unary_ok (zfill_text n) w ts a A C) as (w' & out & E & Hw & G).
    exists w', out. split; [exact E|]. split; [exact Hw|]. revert G. apply elementwise_ext. intros; apply zfill_ok.
  - intros H. destruct (unary_ok (center_text n (fill_of fill)) w ts a A C) as (w' & out & E & Hw & G).
    exists w', out. split; [exact E|]. split; [exact Hw|]. revert G. apply elementwise_ext. intros idx t Hi Hg.
    apply center_ok, (H idx t Hi Hg).
Qed.
Example C112_justify_nonvacuous : string_array 3 ex_ts all_four /\ contiguous all_four /\
  rjust 4 (Some (str ".")) (Some 3) (strs 3 ex_ts) all_four = Ok (4, strs 4 [str ".aB "; str "...x"; str ".Cd1"; str "...."]) /\
  zfill 3 (Some 3) (strs 3 [str "-4"; str "7"]) (fresh [2] 12) = Ok (3, strs 3 [str "-04"; str "007"]).
Proof. split; [exact four_array|]. split; [reflexivity|]. split; vm_compute; reflexivity. Qed.
(* Python: 'ab'.center(5) = '  ab '; here ' ab  ' *)
Theorem C112_center_refuted : exists n w ts a w' out, string_array w ts a /\ contiguous a /\
  center n None (Some w) (strs w ts) a = Ok (w', strs w' out) /\ ~ elementwise (center_spec n 32) ts a out.
Proof.
  exists 5, 2, [str "ab"], (fresh [1] 8), 5, [str " ab  "]. split; [sac|]. split; [reflexivity|]. split; [vm_compute; reflexivity|].
  intros [_ H]. specialize (H [0] (str "ab") ltac:(repeat constructor) eq_refl). vm_compute in H. discriminate.
Qed.
(* on a view the elements are taken from consecutive memory *)
Theorem C112_view_refuted : exists n w ts a w' out, string_array w ts a /\
  ljust n None (Some w) (strs w ts) a = Ok (w', strs w' out) /\ ~ elementwise (ljust_spec n 32) ts a out.
Proof.
  exists 3, 3, ex_ts, every_second, 3, [str "aB "; str "x  "]. split; [exact second_array|]. split; [vm_compute; reflexivity|].
  intros [_ H]. specialize (H [1] (str "Cd1") ltac:(repeat constructor) eq_refl). vm_compute in H. discriminate.
Qed.
(* and on a reversed view, outside the buffer *)
Theorem C112_overrun_refuted : exists n w ts a, string_array w ts a /\ ljust n None (Some w) (strs w ts) a = Fault.
Proof. exists 3, 3, ex_ts, backwards. split; [exact back_array|vm_compute; reflexivity]. Qed.

(* ---- C113: add, multiply, expandtabs -------------------------------------------------- *)

(* On C-contiguous arrays of equal shapes.  Missing: broadcasting and other views (refuted below) *)
Theorem C113_add_partial : forall w ts a v us b, string_array w ts a -> contiguous a -> string_array v us b -> contiguous b ->
  a_shape a = a_shape b ->
  exists w' out, add_str (Some w) (strs w ts) a (Some v) (strs v us) b = Ok (w', strs w' out) /\ w <= w' /\ v <= w' /\
    elementwise2 (fun t u => t ++ u) ts a us b out.
Proof. intros. apply binary_ok; assumption. Qed.
Example C113_add_nonvacuous : string_array 3 ex_ts all_four /\ contiguous all_four /\
  add_str (Some 3) (strs 3 ex_ts) all_four (Some 3) (strs 3 ex_ts) all_four = Ok (6, strs 6 [str "aB aB "; str "xx"; str "Cd1Cd1"; str ""]).
Proof. split; [exact four_array|]. split; [reflexivity|vm_compute; reflexivity]. Qed.
Theorem C113_unary_partial : forall w ts a, string_array w ts a -> contiguous a ->
  (forall n, exists w' out, multiply_str n (Some w) (strs w ts) a = Ok (w', strs w' out) /\ w <= w' /\ elementwise (fun t => concat (repeat t n)) ts a out) /\
  (forall n, exists w' out, expandtabs (Some n) (Some w) (strs w ts) a = Ok (w', strs w' out) /\ w <= w' /\ related (tabs_expanded n) ts a out) /\
  expandtabs None (Some w) (strs w ts) a = expandtabs (Some 8) (Some w) (strs w ts) a.
Proof.
  intros w ts a A C. split; [|split; [|reflexivity]].
  - intros n. apply (unary_ok (fun t => concat (repeat t n)) w ts a A C).
  - intros n. destruct (unary_ok (tabs_loop n 0) w ts a A C) as (w' & out & E & Hw & G).
    exists w', out. split; [exact E|]. split; [exact Hw|]. revert G. apply elementwise_related. intros; apply tabs_ok.
Qed.
Example C113_unary_nonvacuous : string_array 3 ex_ts all_four /\ contiguous all_four /\
  multiply_str 2 (Some 3) (strs 3 ex_ts) all_four = Ok (6, strs 6 [str "aB aB "; str "xx"; str "Cd1Cd1"; str ""]) /\
  expandtabs (Some 4) (Some 4) (strs 4 [[97; 9; 98]%Z; [9; 10; 9]%Z]) (fresh [2] 16) = Ok (9, strs 9 [str "a   b"; str "    " ++ [10%Z] ++ str "    "]).
Proof. split; [exact four_array|]. split; [reflexivity|]. split; vm_compute; reflexivity. Qed.
(* two arrays of broadcastable, but different, shapes are rejected *)
Theorem C113_broadcast_refuted : exists w ts a v us b, string_array w ts a /\ string_array v us b /\ broadcastable (a_shape b) (a_shape a) /\
  add_str (Some w) (strs w ts) a (Some v) (strs v us) b = Err.
Proof.
  exists 3, ex_ts, all_four, 1, [str "!"], (fresh [1] 4). split; [exact four_array|]. split; [sac|]. split; [|vm_compute; reflexivity].
  split; [cbn; lia|]. repeat constructor; right; reflexivity.
Qed.
Theorem C113_view_refuted : exists n w ts a w' out, string_array w ts a /\
  multiply_str n (Some w) (strs w ts) a = Ok (w', strs w' out) /\ ~ elementwise (fun t => concat (repeat t n)) ts a out.
Proof.
  exists 1, 3, ex_ts, every_second, 3, [str "aB "; str "x"]. split; [exact second_array|]. split; [vm_compute; reflexivity|].
  intros [_ H]. specialize (H [1] (str "Cd1") ltac:(repeat constructor) eq_refl). vm_compute in H. discriminate.
Qed.

(* ---- C114: comparisons ---------------------------------------------------------------- *)

Definition cmp_spec (op : str_cmp) (t u : list Z) : Prop :=
  match op with
  | CEq => t = u | CNe => t <> u | CLt => lex t u | CLe => lex t u \/ t = u | CGt => lex u t | CGe => lex u t \/ t = u
  end.
Lemma cmp_ok op t u : cmp_holds op (cmp_text t u) = true <-> cmp_spec op t u.
Proof.
  pose proof (cmp_text_eq t u) as HE. pose proof (cmp_text_lt t u) as HL. pose proof (cmp_text_gt t u) as HG.
  destruct op; cbn [cmp_spec]; destruct (cmp_text t u) eqn:E; cbn [cmp_holds].
  all: split; intros H; try discriminate; try reflexivity.
  all: try (apply HE; reflexivity); try (apply HL; reflexivity); try (apply HG; reflexivity).
  all: try (rewrite <- HE in H); try (rewrite <- HL in H); try (rewrite <- HG in H); try discriminate; try congruence.
  all: try (left; apply HL; reflexivity); try (left; apply HG; reflexivity); try (right; apply HE; reflexivity).
  all: try (intros F; rewrite <- HE in F; discriminate).
  all: try (exfalso; destruct H as [H|H]; discriminate).
Qed.
(* Missing: views (refuted below), shapes that differ *)
Theorem C114_compare_partial : forall op w ts a v us b, string_array w ts a -> contiguous a -> string_array v us b -> contiguous b ->
  a_shape a = a_shape b ->
  exists out, compare_str op (Some w) (strs w ts) a (Some v) (strs v us) b = Ok out /\ length out = size a /\
    forall idx t u, inb idx (a_shape a) -> get ts a idx = Some t -> get us b idx = Some u ->
      exists r, nth_error out (rm_rank (a_shape a) idx) = Some r /\ (r = true <-> cmp_spec op t u).
Proof.
  intros op w ts a v us b A CA B CB Hs. destruct (compare_ok op w ts a v us b A CA B CB Hs) as (out & E & HL & G).
  exists out. split; [exact E|]. split; [exact HL|]. intros idx t u Hi Ht Hu. eexists. split; [apply (G idx t u Hi Ht Hu)|].
  apply cmp_ok.
Qed.
Example C114_compare_nonvacuous : string_array 3 ex_ts all_four /\ contiguous all_four /\
  compare_str CLt (Some 3) (strs 3 ex_ts) all_four (Some 3) (strs 3 [str "b"; str "x"; str "Cd"; str "q"]) all_four = Ok [true; false; false; true].
Proof. split; [exact four_array|]. split; [reflexivity|vm_compute; reflexivity]. Qed.
(* less is a strict total order compatible with equal *)
Theorem C114_order : (forall t u, lex t u \/ t = u \/ lex u t) /\ (forall t, ~ lex t t) /\ (forall t u v, lex t u -> lex u v -> lex t v).
Proof.
  split; [|split; [|exact lex_trans]].
  - intros t u. destruct (cmp_text t u) eqn:E; [right; left; apply cmp_text_eq, E|left; apply cmp_text_lt, E|right; right; apply cmp_text_gt, E].
  - intros t H. apply cmp_text_lt in H. rewrite (proj2 (cmp_text_eq t t) eq_refl) in H. discriminate.
Qed.
(* a view compared with itself read from elsewhere: a[::2] == ['aB ', 'Cd1'] is false at 1 *)
Theorem C114_view_refuted : exists w ts a v us b out, string_array w ts a /\ string_array v us b /\ a_shape a = a_shape b /\
  compare_str CEq (Some w) (strs w ts) a (Some v) (strs v us) b = Ok out /\
  get ts a [1] = get us b [1] /\ nth_error out 1 = Some false.
Proof.
  exists 3, ex_ts, every_second, 3, [str "aB "; str "Cd1"], (fresh [2] 12), [true; false].
  split; [exact second_array|]. split; [sac|]. split; [reflexivity|]. split; [vm_compute; reflexivity|]. split; reflexivity.
Qed.
(* arrays that are not strings are not rejected: all their elements are equal *)
Theorem C114_dtype_refuted : forall ma a mb b, a_shape a = a_shape b ->
  exists out, compare_str CEq None ma a None mb b = Ok out /\ out = repeat true (size a).
Proof.
  intros ma a mb b Hs. exists (repeat true (size a)). split; [|reflexivity]. unfold compare_str. rewrite Hs, shape_eqb_refl.
  unfold flat_starts. assert (E : size a = size b) by (unfold size; rewrite Hs; reflexivity). rewrite E. generalize (size b) as n.
  intros n. cbn [width_of]. generalize 0 at 2 4. induction n as [|n IH]; intros s; [reflexivity|].
  cbn [seq map combine mapM repeat]. cbn [read_string bind cmp_text cmp_holds]. rewrite IH. reflexivity.
Qed.
Example C114_dtype_nonvacuous : compare_str CEq None [1; 2]%Z (fresh [2] 8) None [3; 4]%Z (fresh [2] 8) = Ok [true; true].
Proof. reflexivity. Qed.

(* ---- C115: predicates ----------------------------------------------------------------- *)

Definition is_upper_text (U : unicode) (t : list Z) : bool := some_cased U t && forallb (fun c => negb (u_islow U c)) t.
Definition is_lower_text (U : unicode) (t : list Z) : bool := some_cased U t && forallb (fun c => negb (u_isup U c)) t.
Theorem C115_letters : forall U w ts a, ascii_tables U -> string_array w ts a ->
  (exists out, isalpha U (Some w) (strs w ts) a = Ok out /\ elementwise (all_of (u_alpha U)) ts a out) /\
  (exists out, isnumeric U (Some w) (strs w ts) a = Ok out /\ elementwise (all_of (u_num U)) ts a out) /\
  (exists out, isupper U (Some w) (strs w ts) a = Ok out /\ elementwise (is_upper_text U) ts a out) /\
  (exists out, islower U (Some w) (strs w ts) a = Ok out /\ elementwise (is_lower_text U) ts a out) /\
  (exists out, istitle U (Some w) (strs w ts) a = Ok out /\ related (fun t r => r = true <-> is_titled U t) ts a out).
Proof.
  intros U w ts a T A.
  assert (F : forall idx t, inb idx (a_shape a) -> get ts a idx = Some t -> text t).
  { intros idx t Hi Hg. apply (elem_fits w ts a idx t A Hi Hg). }
  assert (F' : forall idx t c, inb idx (a_shape a) -> get ts a idx = Some t -> In c t -> is_char c = true).
  { intros idx t c Hi Hg Hc. specialize (F idx t Hi Hg). unfold text in F. rewrite Forall_forall in F. apply (F c Hc). }
  split; [|split; [|split; [|split]]].
  - destruct (per_text_ok (nonempty_all (cp_is_alpha U)) w ts a A) as (out & E & G). exists out. split; [exact E|].
    revert G. apply elementwise_ext. intros idx t Hi Hg. apply all_of_ext. intros c Hc. apply is_alpha_cp; [exact T|eapply F'; eassumption].
  - destruct (per_text_ok (nonempty_all (fun c => is_char c && u_num U c)) w ts a A) as (out & E & G). exists out. split; [exact E|].
    revert G. apply elementwise_ext. intros idx t Hi Hg. apply all_of_ext. intros c Hc. rewrite (F' idx t c Hi Hg Hc). reflexivity.
  - destruct (per_text_ok (fun t => existsb (cp_is_cased U) t && forallb (fun c => negb (cp_is_lower U c)) t) w ts a A) as (out & E & G).
    exists out. split; [exact E|]. revert G. apply elementwise_ext. intros idx t Hi Hg. unfold is_upper_text, some_cased. f_equal.
    + apply existsb_ext_in. intros c Hc. apply is_cased_cp; [exact T|eapply F'; eassumption].
    + apply forallb_ext_in. intros c Hc. rewrite is_lower_cp; [reflexivity|exact T|eapply F'; eassumption].
  - destruct (per_text_ok (fun t => existsb (cp_is_cased U) t && forallb (fun c => negb (cp_is_upper U c)) t) w ts a A) as (out & E & G).
    exists out. split; [exact E|]. revert G. apply elementwise_ext. intros idx t Hi Hg. unfold is_lower_text, some_cased. f_equal.
    + apply existsb_ext_in. intros c Hc. apply is_cased_cp; [exact T|eapply F'; eassumption].
    + apply forallb_ext_in. intros c Hc. rewrite is_upper_cp; [reflexivity|exact T|eapply F'; eassumption].
  - destruct (per_text_ok (istitle_loop U false false) w ts a A) as (out & E & G). exists out. split; [exact E|].
    revert G. apply elementwise_related. intros idx t Hi Hg. apply istitle_ok; [exact T|]. apply (F idx t Hi Hg).
Qed.
Example C115_letters_nonvacuous : ascii_tables ascii_uni /\ string_array 3 ex_ts backwards /\
  istitle ascii_uni (Some 3) (strs 3 ex_ts) backwards = Ok [false; true; false; false] /\
  isalpha ascii_uni (Some 3) (strs 3 ex_ts) backwards = Ok [false; false; true; false].
Proof. split; [exact ascii_uni_ok|]. split; [exact back_array|]. split; vm_compute; reflexivity. Qed.
(* digits and white space.  Missing: digits outside ASCII, U+001C to U+001F (refuted below) *)
Theorem C115_digits_partial : forall U w ts a, ascii_tables U -> string_array w ts a -> every ascii ts a ->
  (exists out, isdigit (Some w) (strs w ts) a = Ok out /\ elementwise (all_of (u_digit U)) ts a out) /\
  (exists out, isdecimal (Some w) (strs w ts) a = Ok out /\ elementwise (all_of (u_digit U)) ts a out) /\
  (exists out, isalnum U (Some w) (strs w ts) a = Ok out /\ elementwise (all_of (fun c => u_alpha U c || u_digit U c)) ts a out) /\
  (every (fun t => Forall (fun c => between 28 31 c = false) t) ts a ->
   exists out, isspace (Some w) (strs w ts) a = Ok out /\ elementwise (all_of py_space) ts a out).
Proof.
  intros U w ts a T A HA.
  assert (D : forall idx t c, inb idx (a_shape a) -> get ts a idx = Some t -> In c t -> cp_is_digit c = u_digit U c).
  { intros idx t c Hi Hg Hc. specialize (HA idx t Hi Hg). unfold ascii in HA. rewrite Forall_forall in HA.
    destruct (T c (HA c Hc)) as (_ & _ & _ & _ & _ & -> & _). apply is_digit_cp. }
  assert (F' : forall idx t c, inb idx (a_shape a) -> get ts a idx = Some t -> In c t -> is_char c = true).
  { intros idx t c Hi Hg Hc. destruct (elem_fits w ts a idx t A Hi Hg) as [F _]. unfold text in F. rewrite Forall_forall in F. apply (F c Hc). }
  split; [|split; [|split]].
  - destruct (per_text_ok (nonempty_all cp_is_digit) w ts a A) as (out & E & G). exists out. split; [exact E|].
    revert G. apply elementwise_ext. intros idx t Hi Hg. apply all_of_ext. intros c Hc. eapply D; eassumption.
  - destruct (per_text_ok (nonempty_all cp_is_digit) w ts a A) as (out & E & G). exists out. split; [exact E|].
    revert G. apply elementwise_ext. intros idx t Hi Hg. apply all_of_ext. intros c Hc. eapply D; eassumption.
  - destruct (per_text_ok (nonempty_all (cp_is_alnum U)) w ts a A) as (out & E & G). exists out. split; [exact E|].
    revert G. apply elementwise_ext. intros idx t Hi Hg. apply all_of_ext. intros c Hc. unfold cp_is_alnum.
    rewrite (D idx t c Hi Hg Hc), is_alpha_cp; [reflexivity|exact T|eapply F'; eassumption].
  - intros H. destruct (per_text_ok (nonempty_all cp_is_space) w ts a A) as (out & E & G). exists out. split; [exact E|].
    revert G. apply elementwise_ext. intros idx t Hi Hg. apply all_of_ext. intros c Hc.
    specialize (H idx t Hi Hg). cbv beta in H. rewrite Forall_forall in H.
    apply is_space_cp; [eapply F'; eassumption|apply (H c Hc)].
Qed.
Example C115_digits_nonvacuous : string_array 3 [str "12"; str "a1"; str ""] (fresh [3] 12) /\ Forall ascii [str "12"; str "a1"; str ""] /\
  isdigit (Some 3) (strs 3 [str "12"; str "a1"; str ""]) (fresh [3] 12) = Ok [true; false; false].
Proof. split; [sac|]. split; [repeat constructor; vm_compute; congruence|vm_compute; reflexivity]. Qed.
(* the Arabic digit three (U+0663) is a digit for Python, not here *)
Theorem C115_digits_refuted : exists w ts a, string_array w ts a /\ isdigit (Some w) (strs w ts) a = Ok [false] /\
  isdecimal (Some w) (strs w ts) a = Ok [false] /\
  forall U, u_digit U 0x663 = true -> ~ elementwise (all_of (u_digit U)) ts a [false].
Proof.
  exists 1, [[0x663%Z]], (fresh [1] 4). split; [sac|]. split; [vm_compute; reflexivity|]. split; [vm_compute; reflexivity|].
  intros U HU [_ H]. specialize (H [0] [0x663%Z] ltac:(repeat constructor) eq_refl). cbn in H.
  unfold all_of in H. cbn [forallb length] in H. change (u_digit U 1635) with (u_digit U 0x663) in H. rewrite HU in H. discriminate.
Qed.
Theorem C115_space_refuted : exists w ts a, string_array w ts a /\ isspace (Some w) (strs w ts) a = Ok [false] /\
  ~ elementwise (all_of py_space) ts a [false].
Proof.
  exists 1, [[0x1C%Z]], (fresh [1] 4). split; [sac|]. split; [vm_compute; reflexivity|].
  intros [_ H]. specialize (H [0] [0x1C%Z] ltac:(repeat constructor) eq_refl). vm_compute in H. discriminate.
Qed.
(* upper gives upper case, title gives title case: on ASCII strings with at least one letter *)
Theorem C115_after_case : forall U w ts a, ascii_tables U -> string_array w ts a -> every ascii ts a ->
  (Z.of_nat (size a) * (4 * Z.of_nat w) < 2 ^ 63)%Z ->
  let b := fresh (a_shape a) (4 * Z.of_nat w) in
  exists up lo r1 r2, upper U (Some w) (strs w ts) a = Ok (w, strs w up) /\ lower U (Some w) (strs w ts) a = Ok (w, strs w lo) /\
    isupper U (Some w) (strs w up) b = Ok r1 /\ islower U (Some w) (strs w lo) b = Ok r2 /\
    elementwise (some_cased U) ts a r1 /\ elementwise (some_cased U) ts a r2.
Proof.
  intros U w ts a T A HA HB b. pose proof (sa_wf _ _ _ A) as W.
  destruct (transform_ok (up1 U) w ts a A) as (up & E1 & G1).
  destruct (transform_ok (low1 U) w ts a A) as (lo & E2 & G2).
  assert (P : forall idx t c, inb idx (a_shape a) -> get ts a idx = Some t -> In c t -> (0 < c <= 127)%Z).
  { intros idx t c Hi Hg Hc. eapply ascii_pos; [eapply elem_fits; eassumption|apply (HA idx t Hi Hg)|exact Hc]. }
  assert (R : forall f, (forall c, (0 < c <= 127)%Z -> (0 < f c <= 127)%Z) ->
    forall idx t, inb idx (a_shape a) -> get ts a idx = Some t -> fits w (map f t)).
  { intros f Hf idx t Hi Hg. apply ascii_map; [eapply elem_fits; eassumption|apply (HA idx t Hi Hg)|exact Hf]. }
  destruct (result_array w ts a up (map (up1 U)) A HB G1 (R _ (up1_ascii U))) as [Aup Gup].
  destruct (result_array w ts a lo (map (low1 U)) A HB G2 (R _ (low1_ascii U))) as [Alo Glo].
  destruct (C115_letters U w up b T Aup) as (_ & _ & (r1 & E3 & G3) & _).
  destruct (C115_letters U w lo b T Alo) as (_ & _ & _ & (r2 & E4 & G4) & _).
  exists up, lo, r1, r2. split; [exact E1|]. split; [exact E2|]. split; [exact E3|]. split; [exact E4|].
  assert (CA : forall c, (0 < c <= 127)%Z -> cased U c = up_letter c || low_letter c).
  { intros c Hc. destruct (T c) as (_ & _ & _ & Hu & Hl & _); [lia|]. unfold cased. rewrite Hu, Hl. reflexivity. }
  split.
  - pose proof (elementwise_comp (map (up1 U)) (is_upper_text U) w ts a up r1 W Gup G3) as GC. revert GC. apply elementwise_ext.
    intros idx t Hi Hg. unfold is_upper_text, some_cased.
    assert (HF : forallb (fun c => negb (u_islow U c)) (map (up1 U) t) = true).
    { apply forallb_forall. intros x Hx. apply in_map_iff in Hx. destruct Hx as (c & <- & Hc). specialize (P idx t c Hi Hg Hc).
      pose proof (up1_ascii U c P). destruct (T (up1 U c)) as (_ & _ & _ & _ & -> & _); [lia|].
      unfold low_letter, up1, between. cases. }
    rewrite HF, andb_true_r. clear HF. 
    assert (P' : forall c, In c t -> (0 < c <= 127)%Z) by (intros c Hc; apply (P idx t c Hi Hg Hc)).
    clear - P' CA. induction t as [|c t IH]; [reflexivity|]. cbn [map existsb]. rewrite IH by (intros d Hd; apply P'; right; exact Hd).
    f_equal. pose proof (P' c (or_introl eq_refl)) as Hc. rewrite CA by (apply up1_ascii; exact Hc). rewrite CA by exact Hc.
    unfold up_letter, low_letter, up1, between. cases.
  - pose proof (elementwise_comp (map (low1 U)) (is_lower_text U) w ts a lo r2 W Glo G4) as GC. revert GC. apply elementwise_ext.
    intros idx t Hi Hg. unfold is_lower_text, some_cased.
    assert (HF : forallb (fun c => negb (u_isup U c)) (map (low1 U) t) = true).
    { apply forallb_forall. intros x Hx. apply in_map_iff in Hx. destruct Hx as (c & <- & Hc). specialize (P idx t c Hi Hg Hc).
      pose proof (low1_ascii U c P). destruct (T (low1 U c)) as (_ & _ & _ & -> & _); [lia|].
      unfold up_letter, low1, between. cases. }
    rewrite HF, andb_true_r. clear HF.
    assert (P' : forall c, In c t -> (0 < c <= 127)%Z) by (intros c Hc; apply (P idx t c Hi Hg Hc)).
    clear - P' CA. induction t as [|c t IH]; [reflexivity|]. cbn [map existsb]. rewrite IH by (intros d Hd; apply P'; right; exact Hd).
    f_equal. pose proof (P' c (or_introl eq_refl)) as Hc. rewrite CA by (apply low1_ascii; exact Hc). rewrite CA by exact Hc.
    unfold up_letter, low_letter, low1, between. cases.
Qed.
Example C115_after_case_nonvacuous :
  isupper ascii_uni (Some 3) (strs 3 [str "AB "; str ""; str "CD1"]) (fresh [3] 12) = Ok [true; false; true].
Proof. vm_compute. reflexivity. Qed.

(* ---- C116: arrays of strings ---------------------------------------------------------- *)

(* array([...]) of texts (without NUL), or with dtype 'U<n>' and no string longer than n: every string is kept *)
Theorem C116_array_partial : forall dt data, Forall text data ->
  match dt with DtNone => True | DtStr => False | DtU n => Forall (fun t => length t <= n) data end ->
  exists w, array_of_strings dt data = (w, strs w data) /\ Forall (fits w) data.
Proof.
  intros dt data HT Hd.
  assert (K : forall w, Forall (fun t => length t <= w) data -> from_vec_str w data = (w, strs w data) /\ Forall (fits w) data).
  { intros w Hw. rewrite Forall_forall in Hw, HT. split.
    - unfold from_vec_str, strs. f_equal. f_equal. apply map_ext_in. intros t Ht. apply write_string_fit, Hw, Ht.
    - apply Forall_forall. intros t Ht. split; [apply HT, Ht|apply Hw, Ht]. }
  destruct dt as [| |n]; [|destruct Hd|].
  - eexists. apply K. apply Forall_forall. intros t Ht. apply list_max_ge, in_map, Ht.
  - exists n. apply K, Hd.
Qed.
Example C116_array_nonvacuous : Forall text ex_ts /\ array_of_strings DtNone ex_ts = (3, strs 3 ex_ts).
Proof. split; [repeat constructor; vm_compute; congruence|vm_compute; reflexivity]. Qed.
(* str_len gives the length of every string, whatever the view *)
Theorem C116_str_len : forall w ts a, string_array w ts a ->
  exists out, str_len (Some w) (strs w ts) a = Ok out /\ elementwise (fun t => Z.of_nat (length t)) ts a out.
Proof. intros w ts a A. apply (per_text_ok (fun t => Z.of_nat (length t)) w ts a A). Qed.
Example C116_str_len_nonvacuous : string_array 3 ex_ts backwards /\ str_len (Some 3) (strs 3 ex_ts) backwards = Ok [0; 3; 1; 3]%Z.
Proof. split; [exact back_array|vm_compute; reflexivity]. Qed.
(* dtype='str' stores nothing: every string becomes empty *)
Theorem C116_dtype_refuted : forall data, array_of_strings DtStr data = (0, []).
Proof.
  intros data. unfold array_of_strings, from_vec_str. f_equal. induction data as [|t data IH]; [reflexivity|].
  cbn [map concat]. rewrite IH, app_nil_r. unfold write_string. cbn [firstn]. reflexivity.
Qed.
(* everything after an embedded NUL is lost: the array of 'a\0b' has a string of length 1 *)
Theorem C116_nul_refuted : exists data w m, array_of_strings DtNone data = (w, m) /\ data = [[97; 0; 98]%Z] /\
  str_len (Some w) m (fresh [1] (4 * Z.of_nat w)) = Ok [1%Z].
Proof. exists [[97; 0; 98]%Z]. eexists _, _. split; [reflexivity|]. split; [reflexivity|vm_compute; reflexivity]. Qed.

Print Assumptions C106_case_partial.
Print Assumptions C106_laws.
Print Assumptions C106_upper_refuted.
Print Assumptions C107_strip_partial.
Print Assumptions C107_chars_refuted.
Print Assumptions C107_space_refuted.
Print Assumptions C108_find_partial.
Print Assumptions C108_index_partial.
Print Assumptions C108_start_refuted.
Print Assumptions C109_endswith.
Print Assumptions C109_startswith_partial.
Print Assumptions C109_startswith_refuted.
Print Assumptions C109_overrun_refuted.
Print Assumptions C110_count_partial.
Print Assumptions C110_replace_partial.
Print Assumptions C110_empty_refuted.
Print Assumptions C111_partition.
Print Assumptions C111_rejects.
Print Assumptions C111_join.
Print Assumptions C112_justify_partial.
Print Assumptions C112_center_refuted.
Print Assumptions C112_view_refuted.
Print Assumptions C112_overrun_refuted.
Print Assumptions C113_add_partial.
Print Assumptions C113_unary_partial.
Print Assumptions C113_broadcast_refuted.
Print Assumptions C113_view_refuted.
Print Assumptions C114_compare_partial.
Print Assumptions C114_order.
Print Assumptions C114_view_refuted.
Print Assumptions C114_dtype_refuted.
Print Assumptions C115_letters.
Print Assumptions C115_digits_partial.
Print Assumptions C115_digits_refuted.
Print Assumptions C115_space_refuted.
Print Assumptions C115_after_case.
Print Assumptions C116_array_partial.
Print Assumptions C116_dtype_refuted.
Print Assumptions C116_nul_refuted.
Print Assumptions C116_str_len.
