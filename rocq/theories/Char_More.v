(* Counting, replacing, justifying, comparing and classifying single texts. *)
From Verif Require Import Base Lists Char_Spec Char_Model Char_Text.
Local Open Scope nat_scope.

(* ---- cutting ---- *)
Lemma occurs_cons sub c t i : sub <> [] -> (occurs_at sub (c :: t) (S i) <-> occurs_at sub t i).
Proof.
  intros Hs. split.
  - intros (u & v & E & L). destruct u as [|x u]; [discriminate|]. injection E as -> ->.
    exists u, v. split; [reflexivity|]. injection L as L. exact L.
  - intros (u & v & -> & <-). exists (c :: u), v. split; reflexivity.
Qed.

Lemma pieces_cons sub n c t p ps : sub <> [] -> ~ occurs_at sub (c :: t) 0 ->
  pieces sub n t (p :: ps) -> pieces sub n (c :: t) ((c :: p) :: ps).
Proof.
  intros Hs H0 HP.
  inversion HP as [t' E1 E2 E3|n' t' Hno E1 E2 E3|n' t' i ps' Hn Hf Hp E1 E2 E3]; subst.
  - apply pieces_none.
  - apply pieces_last. intros [|i] Ho; [exact (H0 Ho)|]. apply (proj1 (occurs_cons sub c _ _ Hs)) in Ho.
    exact (Hno i Ho).
  - change (c :: firstn i t) with (firstn (S i) (c :: t)). apply pieces_cut; [exact Hn| |exact Hp].
    destruct Hf as [Ho Hmin]. split; [apply occurs_cons; assumption|].
    intros [|j] Hj; [contradiction|]. apply (proj1 (occurs_cons sub c _ _ Hs)) in Hj. specialize (Hmin j Hj). lia.
Qed.

Lemma pieces_nonempty sub n t ps : pieces sub n t ps -> ps <> [].
Proof. inversion 1; discriminate. Qed.

Lemma intercalate_cons sep c p ps : intercalate sep ((c :: p) :: ps) = c :: intercalate sep (p :: ps).
Proof. destruct ps; reflexivity. Qed.

Definition remaining (mc : option nat) (cnt : nat) : option nat := option_map (fun n => n - cnt) mc.

Lemma skipn_nth (t : list Z) i c : nth_error t i = Some c -> skipn i t = c :: skipn (S i) t.
Proof.
  revert i; induction t as [|x t IH]; intros [|i] E; cbn [nth_error] in E; try discriminate.
  - injection E as ->. reflexivity.
  - cbn [skipn]. rewrite (IH i E). reflexivity.
Qed.

Lemma replace_rest old new t mc cnt : forall fuel i, length t - i < fuel ->
  (i + length old <=? length t) && below cnt mc = false ->
  replace_loop fuel old new t mc i cnt = skipn i t.
Proof.
  induction fuel as [|f IH]; intros i Hf Hc; [lia|]. cbn [replace_loop].
  destruct (nth_error t i) as [c|] eqn:E.
  - rewrite Hc. cbn [andb].
    assert (Hi : i < length t) by (apply nth_error_Some; rewrite E; discriminate).
    rewrite IH; [|lia|].
    + symmetry. apply skipn_nth, E.
    + apply andb_false_iff in Hc. apply andb_false_iff. destruct Hc as [Hc|Hc]; [left|right; exact Hc].
      apply Nat.leb_gt in Hc. apply Nat.leb_gt. lia.
  - apply nth_error_None in E. rewrite skipn_all2 by exact E. reflexivity.
Qed.

Lemma skipn_plus {A} (l : list A) m n : skipn m (skipn n l) = skipn (n + m) l.
Proof.
  revert l; induction n as [|n IH]; intros l; [reflexivity|]. destruct l as [|x l].
  - rewrite !skipn_nil. reflexivity.
  - cbn [skipn Nat.add]. apply IH.
Qed.

Lemma replace_spec old new t mc : old <> [] -> forall fuel i cnt, i <= length t -> length t - i < fuel ->
  exists ps, pieces old (remaining mc cnt) (skipn i t) ps /\
    replace_loop fuel old new t mc i cnt = intercalate new ps /\
    replace_count fuel old t mc i cnt = cnt + (length ps - 1).
Proof.
  intros Ho. induction fuel as [|f IH]; intros i cnt Hi Hf; [lia|].
  destruct ((i + length old <=? length t) && below cnt mc) eqn:Hc.
  - cbn [replace_loop replace_count]. rewrite Hc.
    apply andb_true_iff in Hc. destruct Hc as [Hl Hb]. apply Nat.leb_le in Hl.
    assert (Lo : 0 < length old) by (destruct old; [contradiction|cbn [length]; lia]).
    destruct (nth_error t i) as [c|] eqn:E; [|apply nth_error_None in E; lia].
    destruct (match_at old (skipn i t)) eqn:Em.
    + destruct (IH (i + length old) (S cnt)) as (ps & P1 & P2 & P3); [lia|lia|].
      exists ([] :: ps). split; [|split].
      * change (@nil Z) with (firstn 0 (skipn i t)). apply pieces_cut.
        -- unfold remaining, below in *. destruct mc as [n|]; [|discriminate]. cbn [option_map].
           apply Nat.ltb_lt in Hb. intros H. injection H as H. lia.
        -- split; [|intros; lia]. apply (match_occ old (skipn i t) 0); [lia|exact Em].
        -- rewrite skipn_plus. cbn [Nat.add].
           replace (option_map Nat.pred (remaining mc cnt)) with (remaining mc (S cnt)); [exact P1|].
           unfold remaining. destruct mc as [n|]; [|reflexivity]. cbn [option_map]. f_equal. lia.
      * rewrite P2. pose proof (pieces_nonempty _ _ _ _ P1). destruct ps; [contradiction|]. reflexivity.
      * rewrite P3. pose proof (pieces_nonempty _ _ _ _ P1). destruct ps; [contradiction|].
        cbn [length]. lia.
    + assert (Hlt : i < length t) by (apply nth_error_Some; rewrite E; discriminate).
      destruct (IH (S i) cnt) as (ps & P1 & P2 & P3); [lia|lia|].
      pose proof (pieces_nonempty _ _ _ _ P1) as Hne. destruct ps as [|p ps]; [contradiction|].
      exists ((c :: p) :: ps). rewrite (skipn_nth t i c E). split; [|split].
      * apply pieces_cons; [exact Ho| |exact P1]. intros H.
        rewrite <- (skipn_nth t i c E) in H.
        apply (match_occ old (skipn i t) 0) in H; [cbn [skipn] in H; congruence|lia].
      * rewrite P2, intercalate_cons. reflexivity.
      * rewrite P3. reflexivity.
  - rewrite replace_rest by assumption. cbn [replace_count]. rewrite Hc.
    exists [skipn i t]. split; [|split; [reflexivity|cbn [length]; lia]].
    apply andb_false_iff in Hc. destruct Hc as [Hc|Hc].
    + apply pieces_last. intros j Hj. apply occurs_bound in Hj. rewrite skipn_length in Hj.
      apply Nat.leb_gt in Hc. lia.
    + unfold below in Hc. destruct mc as [n|]; [|discriminate]. apply Nat.ltb_ge in Hc.
      unfold remaining. cbn [option_map]. replace (n - cnt) with 0 by lia. apply pieces_none.
Qed.

Lemma replace_ok old new mc t : old <> [] ->
  exists ps, pieces old mc t ps /\ replace_text old new mc t = intercalate new ps /\
    replace_count (S (length t)) old t mc 0 0 = length ps - 1.
Proof.
  intros Ho. destruct (replace_spec old new t mc Ho (S (length t)) 0 0) as (ps & P1 & P2 & P3); [lia|lia|].
  exists ps. split; [|split; assumption].
  cbn [skipn] in P1. replace (remaining mc 0) with mc in P1; [exact P1|].
  unfold remaining. destruct mc as [n|]; [|reflexivity]. cbn [option_map]. f_equal. lia.
Qed.

(* cutting loses nothing and is unique *)
Lemma intercalate_pieces sub n t ps : pieces sub n t ps -> intercalate sub ps = t.
Proof.
  induction 1 as [t|n t H|n t i ps Hn Hf HP IH]; [reflexivity|reflexivity|].
  pose proof (pieces_nonempty _ _ _ _ HP). destruct ps as [|p ps]; [contradiction|].
  change (intercalate sub (firstn i t :: p :: ps)) with (firstn i t ++ sub ++ intercalate sub (p :: ps)).
  rewrite IH. symmetry. apply occurs_cut, Hf.
Qed.
Lemma pieces_unique sub n t ps : pieces sub n t ps -> forall qs, pieces sub n t qs -> ps = qs.
Proof.
  induction 1 as [t|n t H|n t i ps Hn Hf HP IH]; intros qs HQ;
    inversion HQ as [t' E1 E2 E3|n' t' Hno E1 E2 E3|n' t' j ps' Hn' Hf' Hp' E1 E2 E3]; subst;
    try reflexivity; try contradiction.
  - exfalso. exact (H j (proj1 Hf')).
  - exfalso. exact (Hno i (proj1 Hf)).
  - assert (i = j) as <-.
    { destruct Hf as [F1 F2], Hf' as [G1 G2]. specialize (F2 j G1). specialize (G2 i F1). lia. }
    f_equal. apply IH, Hp'.
Qed.
Definition total (ps : list (list Z)) : nat := length (concat ps).
Lemma intercalate_length sep ps : length (intercalate sep ps) = total ps + (length ps - 1) * length sep.
Proof.
  unfold total. induction ps as [|p [|q ps] IH]; [reflexivity| |].
  - cbn [intercalate concat length]. rewrite app_nil_r. lia.
  - change (intercalate sep (p :: q :: ps)) with (p ++ sep ++ intercalate sep (q :: ps)).
    rewrite !app_length, IH. change (concat (p :: q :: ps)) with (p ++ concat (q :: ps)).
    rewrite app_length. cbn [length]. lia.
Qed.
Lemma replaced_len_ok old new mc t : old <> [] -> length (replace_text old new mc t) = replaced_len old new mc t.
Proof.
  intros Ho. destruct (replace_ok old new mc t Ho) as (ps & P1 & P2 & P3).
  unfold replaced_len. rewrite P3, P2, intercalate_length.
  pose proof (intercalate_pieces _ _ _ _ P1) as E. apply (f_equal (@length Z)) in E.
  rewrite intercalate_length in E. lia.
Qed.

Lemma count_replace sub t : length sub <= length t -> forall fuel i c,
  count_loop fuel sub t i (Z.of_nat c) = Z.of_nat (replace_count fuel sub t None i c).
Proof.
  intros HL. induction fuel as [|f IH]; intros i c; [reflexivity|]. cbn [count_loop replace_count below].
  rewrite andb_true_r.
  destruct (Nat.leb_spec i (length t - length sub)) as [H|H];
    destruct (Nat.leb_spec (i + length sub) (length t)) as [H1|H1]; try lia.
  destruct (match_at sub (skipn i t)).
  - replace (Z.of_nat c + 1)%Z with (Z.of_nat (S c)) by lia. apply IH.
  - apply IH.
Qed.
Lemma count_ok sub t : sub <> [] -> exists ps, pieces sub None t ps /\
  count_text sub t = (Z.of_nat (length ps) - 1)%Z.
Proof.
  intros Hs. destruct (replace_ok sub [] None t Hs) as (ps & P1 & _ & P3). exists ps. split; [exact P1|].
  pose proof (pieces_nonempty _ _ _ _ P1) as Hne.
  assert (Lp : 0 < length ps) by (destruct ps; [contradiction|cbn [length]; lia]).
  unfold count_text. destruct (Nat.eqb_spec (length sub) 0) as [E|E]; [destruct sub; [contradiction|discriminate]|].
  destruct (Nat.leb_spec (length sub) (length t)) as [H|H].
  - change 0%Z with (Z.of_nat 0). rewrite count_replace by exact H. rewrite P3. lia.
  - inversion P1 as [t' E1 E2 E3|n' t' Hno E1 E2 E3|n' t' i ps' Hn Hf Hp E1 E2 E3]; subst.
    + reflexivity.
    + exfalso. pose proof (occurs_bound _ _ _ (proj1 Hf)). lia.
Qed.

(* ---- justification ---- *)
Lemma ljust_ok n c t : ljust_text n c t = ljust_spec n c t.
Proof.
  unfold ljust_text, ljust_spec. destruct (Nat.leb_spec n (length t)) as [H|H]; [|reflexivity].
  replace (n - length t) with 0 by lia. cbn [repeat]. rewrite app_nil_r. reflexivity.
Qed.
Lemma rjust_ok n c t : rjust_text n c t = rjust_spec n c t.
Proof.
  unfold rjust_text, rjust_spec. destruct (Nat.leb_spec n (length t)) as [H|H]; [|reflexivity].
  replace (n - length t) with 0 by lia. reflexivity.
Qed.
Lemma center_ok n c t : Nat.odd n && Nat.odd (n - length t) = false -> center_text n c t = center_spec n c t.
Proof.
  intros Ho. unfold center_text, center_spec. rewrite andb_comm in Ho. rewrite Ho, Nat.add_0_r.
  destruct (Nat.leb_spec n (length t)) as [H|H]; [|reflexivity].
  replace (n - length t) with 0 by lia. cbn. rewrite app_nil_r. reflexivity.
Qed.
Lemma zfill_ok n t : zfill_text n t = zfill_spec n t.
Proof.
  unfold zfill_text, zfill_spec. destruct (Nat.leb_spec n (length t)) as [H|H].
  - destruct t as [|c t]; [cbn [length] in H; replace n with 0 by lia; reflexivity|].
    replace (n - length (c :: t)) with 0 by lia. cbn [repeat app].
    destruct ((c =? 43)%Z || (c =? 45)%Z); reflexivity.
  - destruct t as [|c t]; [reflexivity|]. rewrite orb_comm. reflexivity.
Qed.
(* every justified text has the requested width, and at least its own *)
Lemma ljust_len n c t : length (ljust_spec n c t) = Nat.max n (length t).
Proof. unfold ljust_spec. rewrite app_length, repeat_length. lia. Qed.

(* ---- tabs ---- *)
Lemma column_app t u col : column (t ++ u) col = column u (column t col).
Proof. revert col; induction t as [|c t IH]; intros col; [reflexivity|]. cbn [app column]. apply IH. Qed.
Lemma column_spaces k col : column (repeat 32%Z k) col = col + k.
Proof.
  revert col; induction k as [|k IH]; intros col; cbn [repeat column]; [lia|].
  change ((32 =? 10)%Z || (32 =? 13)%Z) with false. cbv iota. rewrite IH. lia.
Qed.
Lemma tabs_ok_from n : forall t' t r col, tabs_expanded n t r -> column r 0 = col ->
  tabs_expanded n (t ++ t') (r ++ tabs_loop n col t').
Proof.
  induction t' as [|c t' IH]; intros t r col HT Hc; cbn [tabs_loop].
  - rewrite !app_nil_r. exact HT.
  - change (c :: t') with ([c] ++ t'). rewrite app_assoc.
    destruct (Z.eqb_spec c 9) as [->|H9].
    + set (k := if n =? 0 then 0 else n - col mod n). rewrite app_assoc.
      apply IH; [|rewrite column_app, column_spaces, Hc; reflexivity].
      apply tabs_tab; [exact HT| |]; unfold k.
      * intros ->. reflexivity.
      * intros Hn. destruct (Nat.eqb_spec n 0); [contradiction|].
        pose proof (Nat.mod_upper_bound col n Hn). split; [lia|]. rewrite Hc.
        pose proof (Nat.div_mod col n Hn) as E.
        replace (col + (n - col mod n)) with ((1 + col / n) * n).
        -- apply Nat.mod_mul; exact Hn.
        -- rewrite Nat.mul_add_distr_r, (Nat.mul_comm (col / n)). lia.
    + assert (HT' : tabs_expanded n (t ++ [c]) (r ++ [c])) by (apply tabs_char; assumption).
      destruct ((c =? 10)%Z || (c =? 13)%Z) eqn:E.
      * specialize (IH (t ++ [c]) (r ++ [c]) 0 HT'). rewrite <- (app_assoc r) in IH. apply IH.
        rewrite column_app. cbn [column]. rewrite E. reflexivity.
      * specialize (IH (t ++ [c]) (r ++ [c]) (S col) HT'). rewrite <- (app_assoc r) in IH. apply IH.
        rewrite column_app. cbn [column]. rewrite E, Hc. reflexivity.
Qed.
Lemma tabs_ok n t : tabs_expanded n t (tabs_loop n 0 t).
Proof. apply (tabs_ok_from n t [] [] 0); [constructor|reflexivity]. Qed.

(* ---- comparison ---- *)
Lemma cmp_text_eq t u : cmp_text t u = Eq <-> t = u.
Proof.
  revert u; induction t as [|c t IH]; intros [|d u]; cbn [cmp_text]; try (split; [discriminate|intros H; discriminate]).
  - split; reflexivity.
  - destruct (Z.compare_spec c d) as [->|H|H].
    + rewrite IH. split; [intros ->; reflexivity|intros H; injection H as ->; reflexivity].
    + split; [discriminate|intros E; injection E as -> _; lia].
    + split; [discriminate|intros E; injection E as -> _; lia].
Qed.
Lemma cmp_text_lt t u : cmp_text t u = Lt <-> lex t u.
Proof.
  revert u; induction t as [|c t IH]; intros [|d u]; cbn [cmp_text].
  - split; [discriminate|inversion 1].
  - split; [intros _; constructor|reflexivity].
  - split; [discriminate|inversion 1].
  - destruct (Z.compare_spec c d) as [->|H|H].
    + rewrite IH. split; [apply lex_eq|]. inversion 1; subst; [lia|assumption].
    + split; [intros _; apply lex_lt, H|reflexivity].
    + split; [discriminate|]. inversion 1; subst; lia.
Qed.
Lemma cmp_text_sym t u : cmp_text u t = CompOpp (cmp_text t u).
Proof.
  revert u; induction t as [|c t IH]; intros [|d u]; cbn [cmp_text]; try reflexivity.
  rewrite (Z.compare_antisym c d). destruct (Z.compare c d) eqn:E; cbn [CompOpp]; [apply IH|reflexivity|reflexivity].
Qed.
Lemma cmp_text_gt t u : cmp_text t u = Gt <-> lex u t.
Proof. rewrite <- cmp_text_lt, (cmp_text_sym t u). destruct (cmp_text t u); cbn [CompOpp]; split; congruence. Qed.
Lemma lex_trans t u v : lex t u -> lex u v -> lex t v.
Proof.
  intros H; revert v; induction H as [c t|c d t u H|c t u H IH]; intros v Hv; inversion Hv; subst.
  - constructor.
  - constructor.
  - apply lex_lt; lia.
  - apply lex_lt; assumption.
  - apply lex_lt; assumption.
  - apply lex_eq, IH. assumption.
Qed.

(* ---- predicates ---- *)
Lemma all_of_ext (p q : Z -> bool) t : (forall c, In c t -> p c = q c) -> nonempty_all p t = all_of q t.
Proof. intros H. unfold nonempty_all, all_of. f_equal. apply forallb_ext_in; exact H. Qed.
Lemma existsb_ext_in (p q : Z -> bool) l : (forall x, In x l -> p x = q x) -> existsb p l = existsb q l.
Proof.
  induction l as [|x l IH]; intros H; [reflexivity|]. cbn [existsb].
  rewrite (H x (or_introl eq_refl)), IH; [reflexivity|]. intros y Hy; apply H; right; exact Hy.
Qed.

Lemma istitle_ok U t : ascii_tables U -> text t -> (istitle_loop U false false t = true <-> is_titled U t).
Proof.
  intros T Ht.
  assert (G : forall t has prev, text t ->
    (istitle_loop U has prev t = true <->
     (has = true \/ exists c, In c t /\ cased U c = true) /\
     forall i c, nth_error t i = Some c ->
       let after := match i with O => prev | S j => cased U (nth j t 0%Z) end in
       (u_isup U c = true -> after = false) /\
       (u_isup U c = false -> u_islow U c = true -> after = true))).
  { clear t Ht. induction t as [|c t IH]; intros has prev Ht; cbn [istitle_loop].
    - split.
      + intros ->. split; [left; reflexivity|]. intros [|i] c H; discriminate.
      + intros [[H|(c & [] & _)] _]. exact H.
    - inversion Ht as [|x l [C _] Ht' E]; subst x l.
      rewrite is_upper_cp, is_lower_cp by assumption.
      (* how a step changes the two conditions *)
      assert (ST : forall h', 
        ((h' = true \/ exists d, In d t /\ cased U d = true) <->
         (has = true \/ exists d, In d (c :: t) /\ cased U d = true)) ->
        ((u_isup U c = true -> prev = false) /\ (u_isup U c = false -> u_islow U c = true -> prev = true)) ->
        (istitle_loop U h' (cased U c) t = true <->
         (has = true \/ exists d, In d (c :: t) /\ cased U d = true) /\
         forall i d, nth_error (c :: t) i = Some d ->
           let after := match i with O => prev | S j => cased U (nth j (c :: t) 0%Z) end in
           (u_isup U d = true -> after = false) /\
           (u_isup U d = false -> u_islow U d = true -> after = true))).
      { intros h' Hh Hc. rewrite (IH h' (cased U c) Ht'). rewrite Hh. clear IH. split.
        - intros [H1 H2]. split; [exact H1|]. intros [|i] d Hd.
          + injection Hd as ->. exact Hc.
          + cbn [nth_error] in Hd. specialize (H2 i d Hd). destruct i as [|j]; exact H2.
        - intros [H1 H2]. split; [exact H1|]. intros i d Hd. specialize (H2 (S i) d Hd).
          destruct i as [|j]; exact H2. }
      destruct (u_isup U c) eqn:Eu.
      + assert (Ec : cased U c = true) by (unfold cased; rewrite Eu; reflexivity).
        destruct prev.
        * split; [discriminate|]. intros [_ H]. specialize (H 0 c eq_refl). cbn in H.
          destruct H as [H _]. rewrite Eu in H. specialize (H eq_refl). discriminate.
        * rewrite <- Ec at 2. apply ST; [|split; [reflexivity|discriminate]]. split; intros _.
          -- right. exists c. split; [left; reflexivity|exact Ec].
          -- left; reflexivity.
      + destruct (u_islow U c) eqn:El.
        * assert (Ec : cased U c = true) by (unfold cased; rewrite Eu, El; reflexivity).
          destruct prev.
          -- rewrite <- Ec at 2. apply ST; [|split; [discriminate|reflexivity]]. split; intros _.
             ++ right. exists c. split; [left; reflexivity|exact Ec].
             ++ left; reflexivity.
          -- split; [discriminate|]. intros [_ H]. specialize (H 0 c eq_refl). cbn in H.
             destruct H as [_ H]. specialize (H Eu El). discriminate.
        * assert (Ec : cased U c = false) by (unfold cased; rewrite Eu, El; reflexivity).
          rewrite <- Ec at 1. apply ST; [|split; discriminate].
          split; (intros [H|(d & Hd & Hd')]; [left; exact H|right; exists d; split; [|exact Hd']]).
          -- right; exact Hd.
          -- destruct Hd as [<-|Hd]; [congruence|exact Hd]. }
  rewrite (G t false false Ht). unfold is_titled. split.
  - intros [[H|H] H2]; [discriminate|]. split; assumption.
  - intros [H1 H2]. split; [right; exact H1|exact H2].
Qed.
