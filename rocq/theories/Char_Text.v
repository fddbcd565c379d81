(* The functions on single texts meet their specifications. *)
From Verif Require Import Base Lists Char_Spec Char_Model.
Local Open Scope nat_scope.

(* ---- character tables ---- *)
Lemma is_char_pos c : is_char c = true -> (0 <= c)%Z.
Proof. unfold is_char. lia. Qed.

Lemma upper_cp U c : ascii_tables U -> is_char c = true -> length (u_upper U c) = 1 ->
  [cp_to_upper U c] = u_upper U c.
Proof.
  intros T Hc HL. unfold cp_to_upper. pose proof (is_char_pos c Hc).
  destruct (between 97 122 c) eqn:E.
  - destruct (T c) as (-> & _); [unfold between in E; lia|]. unfold low_letter. rewrite E. reflexivity.
  - rewrite Hc. destruct (u_upper U c) as [|x [|y l]]; try discriminate. reflexivity.
Qed.
Lemma lower_cp U c : ascii_tables U -> is_char c = true -> length (u_lower U c) = 1 ->
  [cp_to_lower U c] = u_lower U c.
Proof.
  intros T Hc HL. unfold cp_to_lower. pose proof (is_char_pos c Hc).
  destruct (between 65 90 c) eqn:E.
  - destruct (T c) as (_ & -> & _); [unfold between in E; lia|]. unfold up_letter. rewrite E. reflexivity.
  - rewrite Hc. destruct (u_lower U c) as [|x [|y l]]; try discriminate. reflexivity.
Qed.
Lemma is_upper_cp U c : ascii_tables U -> is_char c = true -> cp_is_upper U c = u_isup U c.
Proof.
  intros T Hc. unfold cp_is_upper. pose proof (is_char_pos c Hc). rewrite Hc.
  destruct (Z.leb_spec c 127); [|reflexivity]. destruct (T c) as (_ & _ & _ & -> & _); [lia|reflexivity].
Qed.
Lemma is_lower_cp U c : ascii_tables U -> is_char c = true -> cp_is_lower U c = u_islow U c.
Proof.
  intros T Hc. unfold cp_is_lower. pose proof (is_char_pos c Hc). rewrite Hc.
  destruct (Z.leb_spec c 127); [|reflexivity]. destruct (T c) as (_ & _ & _ & _ & -> & _); [lia|reflexivity].
Qed.
Lemma is_cased_cp U c : ascii_tables U -> is_char c = true -> cp_is_cased U c = cased U c.
Proof. intros T Hc. unfold cp_is_cased, cased. rewrite is_upper_cp, is_lower_cp by assumption. reflexivity. Qed.
Lemma is_alpha_cp U c : ascii_tables U -> is_char c = true -> cp_is_alpha U c = u_alpha U c.
Proof.
  intros T Hc. unfold cp_is_alpha. pose proof (is_char_pos c Hc). rewrite Hc.
  destruct (Z.leb_spec c 127); [|reflexivity]. destruct (T c) as (_ & _ & -> & _); [lia|reflexivity].
Qed.
Lemma is_space_cp c : is_char c = true -> between 28 31 c = false -> cp_is_space c = py_space c.
Proof.
  intros Hc H. unfold cp_is_space, white_space, py_space, between in *. rewrite Hc.
  destruct (Z.leb_spec c 127); lia.
Qed.
Lemma is_digit_cp c : cp_is_digit c = between 48 57 c.
Proof. unfold cp_is_digit, between. destruct (Z.leb_spec c 127); lia. Qed.

Lemma map_flat (f : Z -> Z) (g : Z -> list Z) t : (forall c, In c t -> [f c] = g c) ->
  map f t = flat_map g t.
Proof.
  induction t as [|c t IH]; intros H; [reflexivity|]. cbn [map flat_map].
  rewrite <- (H c (or_introl eq_refl)). cbn [app]. f_equal. apply IH. intros d Hd. apply H; right; exact Hd.
Qed.

Lemma upper_text U t : ascii_tables U -> text t -> one_to_one (u_upper U) t ->
  map (fun c => if between 97 122 c then (c - 32)%Z else if (c <=? 127)%Z then c else cp_to_upper U c) t
  = flat_map (u_upper U) t.
Proof.
  intros T Ht H1. apply map_flat. intros c Hc.
  unfold text in Ht. rewrite Forall_forall in Ht. destruct (Ht c Hc) as [C _].
  unfold one_to_one in H1. rewrite Forall_forall in H1.
  destruct (Z.leb_spec c 127).
  - pose proof (is_char_pos c C). destruct (T c) as (-> & _); [lia|]. unfold low_letter.
    destruct (between 97 122 c); reflexivity.
  - destruct (between 97 122 c) eqn:E; [unfold between in E; lia|]. apply upper_cp; auto.
Qed.
Lemma lower_text U t : ascii_tables U -> text t -> one_to_one (u_lower U) t ->
  map (fun c => if between 65 90 c then (c + 32)%Z else if (c <=? 127)%Z then c else cp_to_lower U c) t
  = flat_map (u_lower U) t.
Proof.
  intros T Ht H1. apply map_flat. intros c Hc.
  unfold text in Ht. rewrite Forall_forall in Ht. destruct (Ht c Hc) as [C _].
  unfold one_to_one in H1. rewrite Forall_forall in H1.
  destruct (Z.leb_spec c 127).
  - pose proof (is_char_pos c C). destruct (T c) as (_ & -> & _); [lia|]. unfold up_letter.
    destruct (between 65 90 c); reflexivity.
  - destruct (between 65 90 c) eqn:E; [unfold between in E; lia|]. apply lower_cp; auto.
Qed.
Lemma swap_text U t : ascii_tables U -> text t -> one_to_one (u_upper U) t -> one_to_one (u_lower U) t ->
  map (fun c => if cp_is_upper U c then cp_to_lower U c
                else if cp_is_lower U c then cp_to_upper U c else c) t
  = flat_map (swap_cp U) t.
Proof.
  intros T Ht H1 H2. apply map_flat. intros c Hc.
  unfold text in Ht. rewrite Forall_forall in Ht. destruct (Ht c Hc) as [C _].
  unfold one_to_one in H1, H2. rewrite Forall_forall in H1, H2.
  unfold swap_cp. rewrite is_upper_cp, is_lower_cp by assumption.
  destruct (u_isup U c); [apply lower_cp; auto|]. destruct (u_islow U c); [apply upper_cp; auto|reflexivity].
Qed.
Lemma capitalize_ok U t : ascii_tables U -> text t -> one_to_one (u_upper U) t -> one_to_one (u_lower U) t ->
  capitalize_text U t = capitalized U t.
Proof.
  intros T Ht H1 H2. destruct t as [|c t]; [reflexivity|]. cbn [capitalize_text capitalized].
  inversion Ht as [|x l [C _] Ht' E]; subst. inversion H1; subst. inversion H2; subst.
  rewrite <- (upper_cp U c) by assumption. cbn [app]. f_equal.
  apply map_flat. intros d Hd. rewrite Forall_forall in Ht'. destruct (Ht' d Hd) as [D _].
  match goal with H : Forall (fun c => length (u_lower U c) = 1) t |- _ => rewrite Forall_forall in H end.
  apply lower_cp; auto.
Qed.

Lemma title_ok U t : ascii_tables U -> text t -> one_to_one (u_upper U) t -> one_to_one (u_lower U) t ->
  title_loop U false t = titled U t.
Proof.
  intros T Ht H1 H2. unfold titled.
  (* generalise over the part already done *)
  assert (G : forall t done prev, text t -> one_to_one (u_upper U) t -> one_to_one (u_lower U) t ->
    prev = match rev done with [] => false | d :: _ => cased U d end ->
    title_loop U prev t = flat_map (titled_at U (done ++ t)) (seq (length done) (length t))).
  { clear t Ht H1 H2. induction t as [|c t IH]; intros done prev Ht H1 H2 Hp; [reflexivity|].
    inversion Ht as [|x l [C _] Ht' E]; subst x l. inversion H1; subst. inversion H2; subst.
    cbn [title_loop length seq flat_map].
    rewrite (IH (done ++ [c])); try assumption.
    2:{ rewrite rev_app_distr. cbn [rev app]. apply is_cased_cp; assumption. }
    rewrite app_length. cbn [length]. rewrite Nat.add_1_r. rewrite <- app_assoc. cbn [app].
    match goal with |- ?x :: ?l = ?y ++ ?l => change (x :: l) with ([x] ++ l); f_equal end.
    unfold titled_at. rewrite app_nth2, Nat.sub_diag by lia. cbn [nth].
    rewrite is_cased_cp by assumption. destruct (cased U c) eqn:Ec; cbn [negb]; [|reflexivity].
    destruct (length done) as [|j] eqn:El.
    - destruct done; [|discriminate]. cbn [rev]. apply upper_cp; assumption.
    - assert (Hd : exists d' x, done = d' ++ [x]).
      { destruct done as [|a d] using rev_ind; [discriminate|]. exists d, a. reflexivity. }
      destruct Hd as (d' & x & ->). rewrite rev_app_distr. cbn [rev app].
      rewrite app_length in El. cbn [length] in El. assert (j = length d') by lia. subst j.
      rewrite <- app_assoc. rewrite app_nth2, Nat.sub_diag by lia. cbn [app nth].
      destruct (cased U x); [apply lower_cp|apply upper_cp]; assumption. }
  apply (G t [] false); try assumption. reflexivity.
Qed.

(* ---- strip ---- *)
Lemma skip_spaces_ok t : exists pre, t = pre ++ skip_spaces t /\ forallb cp_is_space pre = true /\
  match skip_spaces t with [] => True | c :: _ => cp_is_space c = false end.
Proof.
  induction t as [|c t IH]; cbn [skip_spaces].
  - exists []. repeat split.
  - destruct (cp_is_space c) eqn:E.
    + destruct IH as (pre & E1 & E2 & E3). exists (c :: pre). cbn [app forallb]. rewrite <- E1, E, E2.
      repeat split. exact E3.
    + exists []. cbn [app forallb]. repeat split. exact E.
Qed.

Lemma forallb_rev (p : Z -> bool) l : forallb p (rev l) = forallb p l.
Proof.
  induction l as [|x l IH]; [reflexivity|]. cbn [rev forallb]. rewrite forallb_app, IH. cbn [forallb].
  destruct (p x), (forallb p l); reflexivity.
Qed.

Lemma skip_spaces_rev t : exists post, t = rev (skip_spaces (rev t)) ++ post /\
  forallb cp_is_space post = true /\
  match rev (rev (skip_spaces (rev t))) with [] => True | c :: _ => cp_is_space c = false end.
Proof.
  destruct (skip_spaces_ok (rev t)) as (pre & E1 & E2 & E3).
  exists (rev pre). rewrite forallb_rev, rev_involutive, <- rev_app_distr, <- E1, rev_involutive.
  repeat split; assumption.
Qed.

Lemma strip_ok mode t : mode <= 2 ->
  stripped cp_is_space (negb (Nat.eqb mode 2)) (negb (Nat.eqb mode 1)) t (strip_text mode t).
Proof.
  intros Hm. unfold stripped, strip_text.
  destruct mode as [|[|[|m]]]; [| | |lia]; cbn [Nat.eqb negb].
  - destruct (skip_spaces_ok t) as (pre & E1 & E2 & E3).
    destruct (skip_spaces_rev (skip_spaces t)) as (post & F1 & F2 & F3).
    exists pre, post. rewrite <- F1. split; [exact E1|]. split; [exact E2|]. split; [exact F2|].
    split; [|exact F3].
    destruct (rev (skip_spaces (rev (skip_spaces t)))) as [|c r] eqn:E; [exact I|].
    rewrite F1 in E3. cbn [app] in E3. exact E3.
  - destruct (skip_spaces_ok t) as (pre & E1 & E2 & E3).
    exists pre, []. rewrite app_nil_r. repeat split; assumption.
  - destruct (skip_spaces_rev t) as (post & F1 & F2 & F3).
    exists [], post. cbn [app]. repeat split; assumption.
Qed.

Lemma forallb_ext_in (p q : Z -> bool) l : (forall x, In x l -> p x = q x) -> forallb p l = forallb q l.
Proof.
  induction l as [|x l IH]; intros H; [reflexivity|]. cbn [forallb].
  rewrite (H x (or_introl eq_refl)), IH; [reflexivity|]. intros y Hy; apply H; right; exact Hy.
Qed.

Lemma stripped_ext p q l r t x : (forall c, In c t -> p c = q c) -> stripped p l r t x -> stripped q l r t x.
Proof.
  intros H (pre & post & E & E1 & E2 & E3 & E4). exists pre, post. subst t.
  split; [reflexivity|]. split; [|split; [|split]].
  - rewrite <- E1. apply forallb_ext_in. intros c Hc. symmetry. apply H, in_or_app. left; exact Hc.
  - rewrite <- E2. apply forallb_ext_in. intros c Hc. symmetry. apply H, in_or_app. right.
    apply in_or_app; right; exact Hc.
  - destruct l; [|exact E3]. destruct x as [|c x]; [exact I|]. rewrite <- H; [exact E3|].
    apply in_or_app; right; apply in_or_app; left; left; reflexivity.
  - destruct r; [|exact E4]. destruct (rev x) as [|c y] eqn:Er; [exact I|]. rewrite <- H; [exact E4|].
    apply in_or_app; right; apply in_or_app; left. apply in_rev. rewrite Er. left; reflexivity.
Qed.
Lemma stripped_length p l r t x : stripped p l r t x -> length x <= length t.
Proof. intros (pre & post & -> & _). rewrite !app_length. lia. Qed.

(* ---- occurrences ---- *)
Lemma match_at_ok sub s : match_at sub s = true <-> exists v, s = sub ++ v.
Proof.
  revert s; induction sub as [|c sub IH]; intros s; cbn [match_at app].
  - split; [intros _; exists s; reflexivity|reflexivity].
  - destruct s as [|x s].
    + split; [discriminate|]. intros [v H]. discriminate.
    + rewrite andb_true_iff, IH, Z.eqb_eq. split.
      * intros [-> [v ->]]. exists v. reflexivity.
      * intros [v H]. injection H as -> ->. split; [reflexivity|]. exists v; reflexivity.
Qed.
Lemma match_occ sub t i : i <= length t -> (match_at sub (skipn i t) = true <-> occurs_at sub t i).
Proof.
  intros Hi. rewrite match_at_ok. unfold occurs_at. split.
  - intros [v E]. exists (firstn i t), v. rewrite <- E, firstn_skipn. split; [reflexivity|].
    apply firstn_length_le; exact Hi.
  - intros (u & v & -> & <-). exists v. rewrite skipn_app, Nat.sub_diag, skipn_all. reflexivity.
Qed.
Lemma occurs_bound sub t i : occurs_at sub t i -> i + length sub <= length t.
Proof. intros (u & v & -> & <-). rewrite !app_length. lia. Qed.

Lemma find_least (f : nat -> bool) s n i : find f (seq s n) = Some i ->
  f i = true /\ s <= i < s + n /\ forall j, s <= j -> f j = true -> i <= j.
Proof.
  revert s; induction n as [|n IH]; intros s H; cbn [seq find] in H; [discriminate|].
  destruct (f s) eqn:E.
  - injection H as <-. split; [exact E|]. split; [lia|]. intros; lia.
  - destruct (IH _ H) as (H1 & H2 & H3). split; [exact H1|]. split; [lia|].
    intros j Hj Ej. destruct (Nat.eq_dec j s) as [->|]; [congruence|]. apply H3; [lia|exact Ej].
Qed.
Lemma find_greatest (f : nat -> bool) s n i : find f (rev (seq s n)) = Some i ->
  f i = true /\ s <= i < s + n /\ forall j, j < s + n -> s <= j -> f j = true -> j <= i.
Proof.
  revert s; induction n as [|n IH]; intros s H; [discriminate|].
  rewrite seq_S, rev_app_distr in H. cbn [rev app find] in H.
  destruct (f (s + n)) eqn:E.
  - injection H as <-. split; [exact E|]. split; [lia|]. intros; lia.
  - destruct (IH _ H) as (H1 & H2 & H3). split; [exact H1|]. split; [lia|].
    intros j Hj Hs Ej. destruct (Nat.eq_dec j (s + n)) as [->|]; [congruence|]. apply H3; [lia|lia|exact Ej].
Qed.

Lemma first_match_ok sub t :
  match first_match sub t with
  | Some i => first_occ sub t i
  | None => forall i, ~ occurs_at sub t i
  end.
Proof.
  unfold first_match, candidates. destruct (Nat.ltb_spec (length t) (length sub)) as [H|H].
  { intros i Ho. apply occurs_bound in Ho. lia. }
  destruct (find _ _) as [i|] eqn:E.
  - apply find_least in E. destruct E as (E1 & E2 & E3). split; [apply match_occ; [lia|exact E1]|].
    intros j Hj. pose proof (occurs_bound _ _ _ Hj). apply E3; [lia|]. apply match_occ; [lia|exact Hj].
  - intros i Ho. pose proof (occurs_bound _ _ _ Ho). eapply find_none in E.
    2:{ apply in_seq with (n := i). lia. }
    cbv beta in E. apply match_occ in Ho; [|lia]. congruence.
Qed.
Lemma last_match_ok sub t :
  match last_match sub t with
  | Some i => last_occ sub t i
  | None => forall i, ~ occurs_at sub t i
  end.
Proof.
  unfold last_match, candidates. destruct (Nat.ltb_spec (length t) (length sub)) as [H|H].
  { intros i Ho. apply occurs_bound in Ho. lia. }
  destruct (find _ _) as [i|] eqn:E.
  - apply find_greatest in E. destruct E as (E1 & E2 & E3). split; [apply match_occ; [lia|exact E1]|].
    intros j Hj. pose proof (occurs_bound _ _ _ Hj). apply E3; [lia|lia|]. apply match_occ; [lia|exact Hj].
  - intros i Ho. pose proof (occurs_bound _ _ _ Ho). eapply find_none in E.
    2:{ apply -> in_rev. apply in_seq with (n := i). lia. }
    cbv beta in E. apply match_occ in Ho; [|lia]. congruence.
Qed.
Lemma occurs_nil t i : occurs_at [] t i <-> i <= length t.
Proof.
  split; [intros H; apply occurs_bound in H; cbn [length] in H; lia|].
  intros H. exists (firstn i t), (skipn i t). cbn [app]. rewrite firstn_skipn. split; [reflexivity|].
  apply firstn_length_le; exact H.
Qed.
Lemma find_ok sub t : found first_occ sub t (find_text sub t).
Proof.
  unfold find_text. destruct (Nat.eqb_spec (length sub) 0) as [H|H].
  - destruct sub; [|discriminate]. left. exists 0. split; [|reflexivity].
    split; [apply occurs_nil; lia|intros; lia].
  - pose proof (first_match_ok sub t). destruct (first_match sub t) as [i|]; cbn [as_i64].
    + left. exists i. split; [assumption|reflexivity].
    + right. split; [assumption|reflexivity].
Qed.
Lemma rfind_ok sub t : found last_occ sub t (rfind_text sub t).
Proof.
  unfold rfind_text. destruct (Nat.eqb_spec (length sub) 0) as [H|H].
  - destruct sub; [|discriminate]. left. exists (length t). split; [|reflexivity].
    split; [apply occurs_nil; lia|]. intros j Hj. apply occurs_nil in Hj. exact Hj.
  - pose proof (last_match_ok sub t). destruct (last_match sub t) as [i|]; cbn [as_i64].
    + left. exists i. split; [assumption|reflexivity].
    + right. split; [assumption|reflexivity].
Qed.
Lemma endswith_ok suf t : endswith_text suf t = true <-> exists u, t = u ++ suf.
Proof.
  unfold endswith_text. destruct (Nat.leb_spec (length suf) (length t)) as [H|H].
  - rewrite match_at_ok. split.
    + intros [v E]. exists (firstn (length t - length suf) t).
      assert (v = []) as ->.
      { apply (f_equal (@length Z)) in E. rewrite skipn_length, app_length in E. destruct v; [reflexivity|].
        cbn [length] in E. lia. }
      rewrite app_nil_r in E. rewrite <- (firstn_skipn (length t - length suf) t) at 1. f_equal. exact E.
    + intros [u ->]. exists []. rewrite app_nil_r, app_length.
      replace (length u + length suf - length suf) with (length u) by lia.
      rewrite skipn_app, Nat.sub_diag, skipn_all. reflexivity.
  - split; [discriminate|]. intros [u ->]. rewrite app_length in H. lia.
Qed.

(* ---- partition, join ---- *)
Lemma partition_ok sep t : partitioned sep t (partition_text sep t).
Proof.
  unfold partition_text, cut3, partitioned. pose proof (first_match_ok sep t).
  destruct (first_match sep t) as [i|].
  - left. exists i. repeat split; try assumption; apply H.
  - right. repeat split. exact H.
Qed.
Lemma rpartition_ok sep t : rpartitioned sep t (rpartition_text sep t).
Proof.
  unfold rpartition_text, cut3, rpartitioned. pose proof (last_match_ok sep t).
  destruct (last_match sep t) as [i|].
  - left. exists i. repeat split; try assumption; apply H.
  - right. repeat split. exact H.
Qed.
Lemma occurs_cut sep t i : occurs_at sep t i ->
  t = firstn i t ++ sep ++ skipn (i + length sep) t.
Proof.
  intros (u & v & -> & <-). rewrite firstn_app, Nat.sub_diag, firstn_all, firstn_O, app_nil_r.
  f_equal. f_equal. rewrite skipn_app, skipn_all2 by lia. cbn [app].
  replace (length u + length sep - length u) with (length sep) by lia.
  rewrite skipn_app, Nat.sub_diag, skipn_all. reflexivity.
Qed.
Lemma join_ok sep t : join_text sep t = intercalate sep (map (fun c => [c]) t).
Proof.
  destruct t as [|c t]; [reflexivity|]. cbn [join_text map]. revert c; induction t as [|d t IH]; intros c.
  - reflexivity.
  - cbn [flat_map]. rewrite <- app_assoc. cbn [app]. rewrite IH. reflexivity.
Qed.
Lemma join_length sep t : length (join_text sep t) = length t + (length t - 1) * length sep.
Proof.
  destruct t as [|c t]; [reflexivity|]. cbn [join_text length].
  assert (H : length (flat_map (fun x => sep ++ [x]) t) = length t * (length sep + 1)).
  { induction t as [|d t IH]; [reflexivity|]. cbn [flat_map length]. rewrite !app_length, IH. cbn [length]. lia. }
  rewrite H. rewrite Nat.sub_1_r. cbn [Nat.pred]. lia.
Qed.
