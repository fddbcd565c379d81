(* Reading a gufunc signature back from its text. *)
From Coq Require Import Ascii String.
From Verif Require Import Base Lists Gu_Spec Gu_Model.
Local Open Scope nat_scope.
Local Open Scope list_scope.

(* the text of a signature: (m,n),(n,p)->(m,p) *)
Fixpoint commas (l : list chars) : chars :=
  match l with [] => [] | [x] => x | x :: l' => x ++ ","%char :: commas l' end.
Definition show_core (ds : list dimname) : chars := "("%char :: commas ds ++ [")"%char].
Definition show_cores (l : list (list dimname)) : chars := commas (map show_core l).
Definition show_sig (g : gusig) : string := string_of_list_ascii (show_cores (g_in g) ++ "-"%char :: ">"%char :: show_cores (g_out g)).
(* characters that may stand in a name *)
Definition name_char (c : ascii) : Prop :=
  is_space c = false /\ c <> "("%char /\ c <> ")"%char /\ c <> ","%char /\ c <> "-"%char.
Definition good_name (d : dimname) : Prop := d <> [] /\ Forall name_char d.

Lemma trim_start_id s : Forall (fun c => is_space c = false) s -> trim_start s = s.
Proof. intros H. destruct s as [|c s]; [reflexivity|]. inversion H as [|? ? Hc _]; subst. cbn [trim_start]. rewrite Hc. reflexivity. Qed.
Lemma trim_id s : Forall (fun c => is_space c = false) s -> trim s = s.
Proof. intros H. unfold trim. rewrite (trim_start_id s H). rewrite trim_start_id by (apply Forall_rev; exact H). apply rev_involutive. Qed.
Lemma good_nospace d : Forall name_char d -> Forall (fun c => is_space c = false) d.
Proof. apply Forall_impl. intros c H. apply H. Qed.
Lemma commas_forall (P : ascii -> Prop) l : P ","%char -> Forall (Forall P) l -> Forall P (commas l).
Proof.
  intros HC. induction l as [|x [|y l] IH]; intros H; [constructor|inversion H; assumption|]. inversion H as [|? ? Hx Hl]; subst.
  change (commas (x :: y :: l)) with (x ++ ","%char :: commas (y :: l)). apply Forall_app. split; [exact Hx|]. constructor; [exact HC|apply IH, Hl].
Qed.
Lemma show_core_nospace ds : Forall good_name ds -> Forall (fun c => is_space c = false) (show_core ds).
Proof.
  intros H. constructor; [reflexivity|]. apply Forall_app. split; [|repeat constructor]. apply commas_forall; [reflexivity|].
  eapply Forall_impl; [|exact H]. intros d [_ Hd]. apply good_nospace, Hd.
Qed.
Lemma show_cores_nospace l : Forall (Forall good_name) l -> Forall (fun c => is_space c = false) (show_cores l).
Proof.
  intros H. apply commas_forall; [reflexivity|]. apply Forall_forall. intros x Hx. apply in_map_iff in Hx as (ds & <- & Hd).
  apply show_core_nospace. rewrite Forall_forall in H. apply H, Hd.
Qed.

Lemma split_comma_name d : Forall name_char d -> forall cur rest, split_comma (d ++ rest) cur = split_comma rest (rev d ++ cur).
Proof.
  induction 1 as [|c d (_ & _ & _ & Hc & _) Hd IH]; intros cur rest; [reflexivity|]. cbn [app split_comma].
  destruct (Ascii.eqb_spec c ","%char); [contradiction|]. rewrite IH. cbn [rev]. rewrite <- app_assoc. reflexivity.
Qed.
Lemma split_commas l : l <> [] -> Forall good_name l -> split_comma (commas l) [] = l.
Proof.
  induction l as [|x [|y l] IH]; intros NE H; [congruence| |]; inversion H as [|? ? [_ Hx] Hl]; subst.
  - change (commas [x]) with x. rewrite <- (app_nil_r x) at 1. rewrite split_comma_name by exact Hx. cbn [split_comma]. rewrite app_nil_r, rev_involutive. reflexivity.
  - change (commas (x :: y :: l)) with (x ++ ","%char :: commas (y :: l)). rewrite split_comma_name by exact Hx. cbn [split_comma].
    change (Ascii.eqb "," ",") with true. cbv iota. rewrite app_nil_r, rev_involutive, IH by (try discriminate; exact Hl). reflexivity.
Qed.
Lemma commas_nil l : Forall good_name l -> List.length (commas l) = 0 -> l = [].
Proof.
  intros H HL. destruct l as [|x l]; [reflexivity|]. inversion H as [|? ? [Hx _] _]; subst. exfalso.
  destruct x; [congruence|]. destruct l; cbn in HL; discriminate.
Qed.
Lemma parse_show_core ds : Forall good_name ds -> parse_core (show_core ds) = Some ds.
Proof.
  intros H. unfold parse_core. rewrite (trim_id _ (show_core_nospace ds H)). cbv zeta.
  assert (ER : rev (show_core ds) = ")"%char :: rev ("("%char :: commas ds)) by (unfold show_core; rewrite app_comm_cons, rev_app_distr; reflexivity).
  assert (EI : firstn (List.length (show_core ds) - 2) (skipn 1 (show_core ds)) = commas ds).
  { unfold show_core. cbn [skipn List.length]. rewrite app_length. cbn [List.length]. replace (S (List.length (commas ds) + 1) - 2) with (List.length (commas ds)) by lia.
    rewrite firstn_app, Nat.sub_diag, firstn_all. cbn [firstn]. apply app_nil_r. }
  rewrite EI. clear EI. unfold show_core at 1. cbv iota.
  change ("("%char :: commas ds ++ [")"%char]) with (show_core ds). rewrite ER. clear ER. rewrite trim_id.
  2:{ apply commas_forall; [reflexivity|]. eapply Forall_impl; [|exact H]. intros d [_ Hd]. apply good_nospace, Hd. }
  destruct (Nat.eqb_spec (List.length (commas ds)) 0) as [H0|H0].
  - rewrite (commas_nil ds H H0). reflexivity.
  - assert (NE : ds <> []) by (intros ->; apply H0; reflexivity). rewrite (split_commas ds NE H).
    assert (EM : map trim ds = ds).
    { clear - H. induction H as [|d ds [_ Hd] _ IH]; [reflexivity|]. cbn [map]. rewrite IH, trim_id by (apply good_nospace, Hd). reflexivity. }
    rewrite EM. assert (EX : existsb (fun d : list ascii => List.length d =? 0) ds = false).
    { clear - H. induction H as [|d ds [Hd _] _ IH]; [reflexivity|]. cbn [existsb]. rewrite IH. destruct d; [congruence|reflexivity]. }
    rewrite EX. reflexivity.
Qed.

Lemma loop_body s more start acc : forall body pos, Forall (fun c => c <> "("%char /\ c <> ")"%char) body ->
  core_list_loop s (body ++ more) pos 1 start acc = core_list_loop s more (pos + List.length body) 1 start acc.
Proof.
  induction body as [|c body IH]; intros pos H; [cbn [app List.length]; rewrite Nat.add_0_r; reflexivity|]. inversion H as [|? ? [H1 H2] H']; subst.
  cbn [app core_list_loop]. destruct (Ascii.eqb_spec c "("%char); [contradiction|]. destruct (Ascii.eqb_spec c ")"%char); [contradiction|].
  change (1 =? 0)%Z with false. rewrite andb_false_r. rewrite IH by exact H'. f_equal. cbn [List.length]. lia.
Qed.
Lemma loop_core ds pre more acc : Forall good_name ds ->
  core_list_loop (pre ++ show_core ds ++ more) (show_core ds ++ more) (List.length pre) 0 (List.length pre) acc =
  core_list_loop (pre ++ show_core ds ++ more) more (List.length pre + List.length (show_core ds)) 0 (List.length pre) (acc ++ [ds]).
Proof.
  intros H. set (s := pre ++ show_core ds ++ more). unfold show_core at 1. cbn [app core_list_loop]. change (Ascii.eqb "(" "(") with true. cbv iota.
  rewrite <- app_assoc. change (0 + 1)%Z with 1%Z. rewrite loop_body.
  2:{ apply commas_forall; [split; discriminate|]. eapply Forall_impl; [|exact H]. intros d [_ Hd]. eapply Forall_impl; [|exact Hd]. intros c Hc. split; apply Hc. }
  cbn [app core_list_loop]. change (Ascii.eqb ")" "(") with false. change (Ascii.eqb ")" ")") with true. change (1 - 1 =? 0)%Z with true. cbv iota.
  assert (LEN : List.length (show_core ds) = S (S (List.length (commas ds)))) by (unfold show_core; cbn [List.length]; rewrite app_length; cbn [List.length]; lia).
  replace (S (S (List.length pre) + List.length (commas ds)) - List.length pre) with (List.length (show_core ds)) by lia.
  assert (ES : firstn (List.length (show_core ds)) (skipn (List.length pre) s) = show_core ds).
  { unfold s. rewrite skipn_app, skipn_all, Nat.sub_diag. cbn [skipn app]. rewrite firstn_app, Nat.sub_diag, firstn_all. cbn [firstn]. apply app_nil_r. }
  rewrite ES, parse_show_core by exact H. f_equal. lia.
Qed.
Lemma loop_cores : forall l pre acc, Forall (Forall good_name) l ->
  core_list_loop (pre ++ show_cores l) (show_cores l) (List.length pre) 0 (List.length pre) acc = Some (acc ++ l).
Proof.
  induction l as [|ds [|ds' l] IH]; intros pre acc H.
  - cbn. rewrite app_nil_r. reflexivity.
  - inversion H; subst. change (show_cores [ds]) with (show_core ds). rewrite <- (app_nil_r (show_core ds)). rewrite loop_core by assumption. reflexivity.
  - inversion H as [|? ? Hd Hl]; subst. change (show_cores (ds :: ds' :: l)) with (show_core ds ++ ","%char :: show_cores (ds' :: l)).
    rewrite loop_core by exact Hd. cbn [core_list_loop]. change (Ascii.eqb "," "(") with false. change (Ascii.eqb "," ")") with false.
    change (Ascii.eqb "," ",") with true. change (0 =? 0)%Z with true. cbn [andb].
    specialize (IH (pre ++ show_core ds ++ [","%char]) (acc ++ [ds]) Hl). rewrite <- !app_assoc in IH. cbn [app] in IH.
    rewrite !app_length in IH. cbn [List.length] in IH. replace (S (List.length pre + List.length (show_core ds))) with (List.length pre + (List.length (show_core ds) + 1)) by lia.
    exact IH.
Qed.
Lemma parse_show_cores l : Forall (Forall good_name) l -> parse_core_list (show_cores l) = Some l.
Proof.
  intros H. unfold parse_core_list. rewrite trim_id by (apply show_cores_nospace, H).
  destruct (Nat.eqb_spec (List.length (show_cores l)) 0) as [H0|H0].
  - destruct l as [|ds l]; [reflexivity|]. exfalso. destruct l; discriminate H0.
  - apply (loop_cores l [] [] H).
Qed.
Lemma find_arrow_skip c s before : c <> "-"%char -> find_arrow (c :: s) before = find_arrow s (c :: before).
Proof. intros H. destruct c as [[] [] [] [] [] [] [] []]; try reflexivity. contradiction H; reflexivity. Qed.
Lemma find_arrow_app : forall i o before, Forall (fun c => c <> "-"%char) i -> find_arrow (i ++ "-"%char :: ">"%char :: o) before = Some (rev before ++ i, o).
Proof.
  induction i as [|c i IH]; intros o before H; [cbn; rewrite app_nil_r; reflexivity|]. inversion H as [|? ? Hc Hi]; subst.
  cbn [app]. rewrite find_arrow_skip by exact Hc. rewrite IH by exact Hi. cbn [rev]. rewrite <- app_assoc. reflexivity.
Qed.
Lemma parse_show g : g_in g <> [] -> Forall (Forall good_name) (g_in g) -> Forall (Forall good_name) (g_out g) -> parse_sig (show_sig g) = Some g.
Proof.
  intros NE HI HO. unfold parse_sig, show_sig. rewrite list_ascii_of_string_of_list_ascii.
  rewrite trim_id. 2:{ apply Forall_app. split; [apply show_cores_nospace, HI|]. repeat (constructor; [reflexivity|]). apply show_cores_nospace, HO. }
  rewrite find_arrow_app.
  2:{ apply commas_forall; [discriminate|]. apply Forall_forall. intros x Hx. apply in_map_iff in Hx as (ds & <- & Hd). rewrite Forall_forall in HI. specialize (HI ds Hd).
      constructor; [discriminate|]. apply Forall_app. split; [|repeat constructor; discriminate]. apply commas_forall; [discriminate|].
      eapply Forall_impl; [|exact HI]. intros d [_ Hn]. eapply Forall_impl; [|exact Hn]. intros c Hc. apply Hc. }
  cbn [rev app]. rewrite !parse_show_cores by assumption. destruct g as [ins outs]. cbn [g_in g_out] in *. destruct ins; [congruence|]. reflexivity.
Qed.

(* parentheses *)
Definition opens (s : chars) : nat := count_occ ascii_dec s "("%char.
Definition closes (s : chars) : nat := count_occ ascii_dec s ")"%char.
Lemma loop_balanced s : forall rest pos depth start acc r, core_list_loop s rest pos depth start acc = Some r ->
  (depth + Z.of_nat (opens rest) = Z.of_nat (closes rest))%Z.
Proof.
  unfold opens, closes. induction rest as [|c rest IH]; intros pos depth start acc r H; cbn [core_list_loop] in H.
  - destruct (Z.eqb_spec depth 0); [|discriminate]. cbn. lia.
  - cbn [count_occ]. destruct (Ascii.eqb_spec c "("%char) as [->|N1].
    + apply IH in H. destruct (ascii_dec "(" "("); [|contradiction]. destruct (ascii_dec "(" ")"); [discriminate|]. lia.
    + destruct (ascii_dec c "("); [contradiction|]. destruct (Ascii.eqb_spec c ")"%char) as [->|N2].
      * destruct (ascii_dec ")" ")"); [|contradiction]. destruct (depth - 1 =? 0)%Z; [destruct (parse_core _); [|discriminate]|]; apply IH in H; lia.
      * destruct (ascii_dec c ")"); [contradiction|]. destruct (Ascii.eqb c "," && (depth =? 0)%Z); apply IH in H; lia.
Qed.
Lemma count_trim_start x s : is_space x = false -> count_occ ascii_dec (trim_start s) x = count_occ ascii_dec s x.
Proof.
  intros H. induction s as [|c s IH]; [reflexivity|]. cbn [trim_start]. destruct (is_space c) eqn:E; [|reflexivity].
  cbn [count_occ]. destruct (ascii_dec c x); [congruence|exact IH].
Qed.
Lemma count_rev x (s : chars) : count_occ ascii_dec (rev s) x = count_occ ascii_dec s x.
Proof. induction s as [|c s IH]; [reflexivity|]. cbn [rev]. rewrite count_occ_app, IH. cbn [count_occ]. destruct (ascii_dec c x); lia. Qed.
Lemma count_trim x s : is_space x = false -> count_occ ascii_dec (trim s) x = count_occ ascii_dec s x.
Proof. intros H. unfold trim. rewrite count_rev, count_trim_start, count_rev, count_trim_start by exact H. reflexivity. Qed.
Lemma cores_balanced s l : parse_core_list s = Some l -> opens s = closes s.
Proof.
  unfold parse_core_list. intros H. destruct (Nat.eqb_spec (List.length (trim s)) 0) as [H0|H0].
  - unfold opens, closes. rewrite <- (count_trim "("), <- (count_trim ")") by reflexivity. destruct (trim s); [reflexivity|discriminate].
  - apply loop_balanced in H. unfold opens, closes in *. rewrite !count_trim in H by reflexivity. lia.
Qed.
Lemma find_arrow_inv : forall s before i o, find_arrow s before = Some (i, o) -> exists m, i = rev before ++ m /\ s = m ++ "-"%char :: ">"%char :: o.
Proof.
  induction s as [|c s IH]; intros before i o H; [discriminate|].
  destruct (ascii_dec c "-"%char) as [->|Hc].
  - destruct s as [|c' s']; [discriminate H|]. destruct (ascii_dec c' ">"%char) as [->|Hc'].
    + cbn in H. injection H as <- <-. exists []. rewrite app_nil_r. split; reflexivity.
    + assert (E : find_arrow ("-"%char :: c' :: s') before = find_arrow (c' :: s') ("-"%char :: before)).
      { destruct c' as [[] [] [] [] [] [] [] []]; try reflexivity. contradiction Hc'; reflexivity. }
      rewrite E in H. destruct (IH _ _ _ H) as (m & -> & ->). exists ("-"%char :: m). cbn [rev]. rewrite <- app_assoc. split; reflexivity.
  - rewrite find_arrow_skip in H by exact Hc. destruct (IH _ _ _ H) as (m & -> & ->). exists (c :: m). cbn [rev]. rewrite <- app_assoc. split; reflexivity.
Qed.
