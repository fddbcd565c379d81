(* Lines, fields and rows of text files. *)
From Coq Require Import Ascii String SpecFloat Lia.
From Verif Require Import Base Lists Int_Model F64_Model Arr_Spec Arr_Model Arr_Wf Copy_Model Copy_Proofs Rng_Model Date_Model Date_Str Gu_Model Io_Spec Io_Model Io_Proofs New_Spec New_Model SF_Proofs SF_Arith Txt_Spec Txt_Model Txt_Float.
Local Open Scope nat_scope.
Local Open Scope list_scope.

(* the specification's words, with the model's test for white space *)
Definition spaces_ (t : bytes) : Prop := Forall (fun c => is_space c = true) t.
Definition solid_ (t : bytes) : Prop := Forall (fun c => is_space c = false) t.
Definition token (t : bytes) : Prop := t <> [] /\ Forall (fun c => plain c = true) t.

Lemma ascii_cases (P : ascii -> bool) : forallb P (map ascii_of_nat (seq 0 256)) = true -> forall c, P c = true.
Proof.
  intros H c. rewrite forallb_forall in H. apply H. apply in_map_iff. exists (nat_of_ascii c). split; [apply ascii_nat_embedding|].
  apply in_seq. pose proof (nat_ascii_bounded c). lia.
Qed.
Lemma plain_solid c : plain c = true -> is_space c = false.
Proof.
  intros H. pose proof (ascii_cases (fun c => implb (plain c) (negb (is_space c))) ltac:(vm_compute; reflexivity) c) as K. cbv beta in K.
  rewrite H in K. cbn [implb] in K. destruct (is_space c); [discriminate|reflexivity].
Qed.
Lemma nl_space : is_space nl = true. Proof. reflexivity. Qed.
Lemma cr_space : is_space cr = true. Proof. reflexivity. Qed.
Lemma token_solid t : token t -> solid_ t.
Proof. intros [_ H]. eapply Forall_impl; [|exact H]. apply plain_solid. Qed.

(* ---- lines ---- *)
Lemma split_line l r : ~ In nl l -> split nl (l ++ nl :: r) = l :: split nl r.
Proof.
  induction l as [|c l IH]; intros H; cbn [app split].
  - rewrite Ascii.eqb_refl. reflexivity.
  - destruct (Ascii.eqb_spec c nl) as [E|_]; [exfalso; apply H; left; exact E|]. rewrite IH by (intros X; apply H; right; exact X). reflexivity.
Qed.
Definition terminated (ls : list bytes) : bytes := flat_map (fun l => l ++ [nl]) ls.
Lemma split_terminated ls : Forall (fun l => ~ In nl l) ls -> split nl (terminated ls) = ls ++ [[]].
Proof.
  induction 1 as [|l ls H _ IH]; [reflexivity|]. cbn [terminated flat_map]. rewrite <- app_assoc. change ([nl] ++ flat_map (fun l => l ++ [nl]) ls) with (nl :: terminated ls).
  rewrite split_line by exact H. rewrite IH. reflexivity.
Qed.
Lemma lines_terminated ls : Forall (fun l => ~ In nl l) ls -> lines (terminated ls) = map strip_cr ls.
Proof.
  intros H. unfold lines. rewrite split_terminated by exact H. rewrite removelast_app by discriminate. cbn [removelast]. rewrite app_nil_r, last_last. apply app_nil_r.
Qed.
Lemma lines_no_nl s : Forall (fun l => ~ In nl l) (lines s).
Proof.
  assert (Forall (fun l => ~ In nl l) (split nl s)) as H.
  { induction s as [|c s IH]; cbn [split]; [constructor; [intros []|constructor]|]. destruct (Ascii.eqb_spec c nl) as [E|N].
    - constructor; [intros []|exact IH].
    - destruct (split nl s) as [|p ps]; [constructor; [|constructor]; intros [X|[]]; congruence|]. inversion IH; subst. constructor; [|assumption].
      intros [X|X]; [congruence|contradiction]. }
  assert (forall l, ~ In nl l -> ~ In nl (strip_cr l)) as HS.
  { intros l HN. unfold strip_cr. destruct (rev l) as [|c r] eqn:E; [exact HN|]. destruct (Ascii.eqb c cr); [|exact HN].
    intros X. apply HN. rewrite in_rev, E. right. apply in_rev. exact X. }
  unfold lines. apply Forall_app. split.
  - rewrite Forall_map. apply Forall_forall. intros l Hl. apply HS. rewrite Forall_forall in H. apply H.
    destruct (split nl s) as [|p ps] eqn:E; [destruct Hl|]. rewrite (app_removelast_last [] (l := p :: ps)) by discriminate. apply in_or_app. left. exact Hl.
  - destruct (last (split nl s) []) as [|c l] eqn:E; [constructor|]. constructor; [|constructor]. rewrite <- E.
    rewrite Forall_forall in H. destruct (split nl s) as [|p ps] eqn:E2; [discriminate|]. apply H.
    pose proof (app_removelast_last (l := p :: ps) [] ltac:(discriminate)) as R. rewrite R at 2. apply in_or_app. right. left. reflexivity.
Qed.
Lemma strip_cr_id l : is_space (last l "0"%char) = false -> strip_cr l = l.
Proof.
  intros H. unfold strip_cr. destruct (rev l) as [|c r] eqn:E; [reflexivity|].
  assert (l = rev r ++ [c]) as -> by (rewrite <- (rev_involutive l), E; reflexivity). rewrite last_last in H.
  destruct (Ascii.eqb_spec c cr) as [->|_]; [rewrite cr_space in H; discriminate|]. reflexivity.
Qed.

(* ---- trim ---- *)
Lemma trim_start_prefix u v : solid_ v -> v <> [] -> exists u', trim_start (u ++ v) = u' ++ v.
Proof.
  intros S N. induction u as [|c u IH]; cbn [app].
  - exists []. apply trim_start_id. exact S.
  - cbn [trim_start]. destruct (is_space c); [exact IH|]. exists (c :: u). reflexivity.
Qed.
Lemma trim_solid_start p t : solid_ p -> p <> [] -> exists t', trim (p ++ t) = p ++ t'.
Proof.
  intros S N. unfold trim. assert (trim_start (p ++ t) = p ++ t) as ->.
  { destruct p as [|c p]; [congruence|]. inversion S; subst. cbn. rewrite H1. reflexivity. }
  rewrite rev_app_distr. destruct (trim_start_prefix (rev t) (rev p)) as (u & E); [apply Forall_rev; exact S|destruct p; [congruence|cbn; destruct (rev p); discriminate]|].
  rewrite E, rev_app_distr, rev_involutive. exists (rev u). reflexivity.
Qed.
Lemma strip_cr_solid p t : solid_ p -> exists t', strip_cr (p ++ t) = p ++ t'.
Proof.
  intros S. unfold strip_cr. destruct (rev (p ++ t)) as [|c r] eqn:E; [exists t; reflexivity|]. destruct (Ascii.eqb_spec c cr) as [->|_]; [|exists t; reflexivity].
  rewrite rev_app_distr in E. destruct (rev t) as [|x u] eqn:ET.
  - cbn [app] in E. assert (In cr (rev p)) as HI by (rewrite E; left; reflexivity). apply in_rev in HI. unfold solid_ in S. rewrite Forall_forall in S.
    specialize (S cr HI). rewrite cr_space in S. discriminate.
  - cbn [app] in E. injection E as -> <-. rewrite rev_app_distr, rev_involutive. exists (rev u). reflexivity.
Qed.
Lemma trim_ends t : is_space (hd "0"%char t) = false -> is_space (last t "0"%char) = false -> trim t = t.
Proof.
  intros H L. unfold trim. destruct t as [|c t]; [reflexivity|]. cbn [hd] in H. cbn [trim_start]. rewrite H.
  destruct (rev (c :: t)) as [|x r] eqn:E; [cbn in E; destruct (rev t); discriminate|].
  assert (c :: t = rev r ++ [x]) as E2 by (rewrite <- (rev_involutive (c :: t)), E; reflexivity). rewrite E2, last_last in L.
  cbn [trim_start]. rewrite L. rewrite <- E. apply rev_involutive.
Qed.
Lemma starts_with_app p t : starts_with p (p ++ t) = true.
Proof. induction p as [|c p IH]; [reflexivity|]. cbn. rewrite Ascii.eqb_refl. exact IH. Qed.

(* ---- fields ---- *)
Lemma join_cons sep x y l : join sep (x :: y :: l) = x ++ sep ++ join sep (y :: l).
Proof. cbn [join map concat]. rewrite <- app_assoc. reflexivity. Qed.
Lemma words_solid t cur s : solid_ t -> words cur (t ++ s) = words (rev t ++ cur) s.
Proof.
  intros H. revert cur. induction H as [|c t Hc _ IH]; intros cur; [reflexivity|]. cbn [app words]. rewrite Hc, IH. cbn [rev]. rewrite <- app_assoc. reflexivity.
Qed.
Lemma words_spaces sp s : spaces_ sp -> words [] (sp ++ s) = words [] s.
Proof. induction 1 as [|c sp Hc _ IH]; [reflexivity|]. cbn [app words]. rewrite Hc. exact IH. Qed.
Lemma words_end cur sp s : cur <> [] -> spaces_ sp -> sp <> [] -> words cur (sp ++ s) = rev cur :: words [] s.
Proof.
  intros N H NE. destruct H as [|c sp Hc HS]; [congruence|]. cbn [app words]. rewrite Hc. destruct cur; [congruence|]. rewrite words_spaces by exact HS. reflexivity.
Qed.
Lemma words_join sep row : spaces_ sep -> sep <> [] -> Forall (fun t => solid_ t /\ t <> []) row -> words [] (join sep row) = row.
Proof.
  intros S N H. induction H as [|t row [ST NT] HR IH]; [reflexivity|]. destruct row as [|u row].
  - cbn [join map concat]. rewrite app_nil_r. rewrite <- (app_nil_r t) at 1. rewrite words_solid by exact ST. rewrite app_nil_r. cbn [words].
    destruct (rev t) eqn:E; [exfalso; apply NT; rewrite <- (rev_involutive t), E; reflexivity|]. rewrite <- E, rev_involutive. reflexivity.
  - rewrite join_cons, words_solid by exact ST. rewrite app_nil_r. rewrite words_end; [|intros E; apply NT; rewrite <- (rev_involutive t), E; reflexivity|exact S|exact N].
    rewrite rev_involutive. f_equal. apply IH.
Qed.
Lemma starts_not sep c t : splits sep -> plain c = true -> starts_with sep (c :: t) = false.
Proof.
  destruct sep as [|x sep]; intros S P; [contradiction|]. cbn. destruct (Ascii.eqb_spec x c) as [->|_]; [change (plain c = false) in S; congruence|]. reflexivity.
Qed.
Lemma split_at_plain sep t cur s : splits sep -> Forall (fun c => plain c = true) t -> split_at sep 0 cur (t ++ s) = split_at sep 0 (rev t ++ cur) s.
Proof.
  intros S H. revert cur. induction H as [|c t Hc _ IH]; intros cur; [reflexivity|]. cbn [app split_at]. rewrite starts_not by assumption. rewrite IH.
  cbn [rev]. rewrite <- app_assoc. reflexivity.
Qed.
Lemma split_at_skip sep u cur s : split_at sep (List.length u) cur (u ++ s) = split_at sep 0 cur s.
Proof. induction u as [|c u IH]; [reflexivity|]. cbn [List.length app split_at]. exact IH. Qed.
Lemma split_at_sep sep cur s : splits sep -> split_at sep 0 cur (sep ++ s) = rev cur :: split_at sep 0 [] s.
Proof.
  intros S. destruct sep as [|x sep]; [contradiction|]. cbn [app]. cbn [split_at]. change (x :: sep ++ s) with ((x :: sep) ++ s). rewrite starts_with_app.
  cbn [List.length]. rewrite Nat.sub_succ, Nat.sub_0_r, split_at_skip. reflexivity.
Qed.
Lemma split_join sep row : splits sep -> row <> [] -> Forall (fun t => Forall (fun c => plain c = true) t) row -> split_at sep 0 [] (join sep row) = row.
Proof.
  intros S NR H. induction H as [|t row ST HR IH]; [congruence|]. destruct row as [|u row].
  - cbn [join map concat]. rewrite app_nil_r. rewrite <- (app_nil_r t) at 1. rewrite split_at_plain by assumption. cbn [split_at]. rewrite app_nil_r, rev_involutive. reflexivity.
  - rewrite join_cons, split_at_plain by assumption. rewrite split_at_sep by exact S. rewrite app_nil_r, rev_involutive. f_equal. apply IH. discriminate.
Qed.

Lemma fields_join sep ld row : read_as sep ld -> row <> [] -> Forall token row -> fields (opt_text ld) (join sep row) = row.
Proof.
  intros [_ [[-> S]|(-> & S & N)]] NR H; cbn [opt_text].
  - transitivity (map trim (split_at sep 0 [] (join sep row))); [destruct sep; [contradiction|reflexivity]|]. rewrite split_join; [|exact S|exact NR|].
    + rewrite <- (map_id row) at 2. apply map_ext_in. intros t Ht. rewrite Forall_forall in H. apply trim_id, token_solid, H, Ht.
    + eapply Forall_impl; [|exact H]. intros t [_ Ht]. exact Ht.
  - cbn [fields]. apply words_join; [exact S|exact N|]. eapply Forall_impl; [|exact H]. intros t Ht. split; [apply token_solid, Ht|apply Ht].
Qed.
(* the ends of a line of numbers *)
Lemma join_hd sep row : row <> [] -> Forall token row -> plain (hd "0"%char (join sep row)) = true.
Proof.
  intros NR H. destruct H as [|t row [NT HT] _]; [congruence|]. destruct HT as [|c t Hc _]; [congruence|]. destruct row; exact Hc.
Qed.
Lemma last_app {A} (a b : list A) d : b <> [] -> last (a ++ b) d = last b d.
Proof. intros H. induction a as [|x a IH]; [reflexivity|]. cbn [app last]. destruct (a ++ b) eqn:E; [destruct a; [cbn in E; congruence|discriminate]|exact IH]. Qed.
Lemma last_forall {A} (P : A -> Prop) l d : l <> [] -> Forall P l -> P (last l d).
Proof. intros N H. induction H as [|x l Hx Hl IH]; [congruence|]. destruct l; [exact Hx|]. apply IH. discriminate. Qed.
Lemma join_ne sep row : row <> [] -> Forall token row -> join sep row <> [].
Proof. intros NR H E. pose proof H as H'. destruct H as [|t row [NT _] _]; [congruence|]. destruct t; [congruence|]. destruct row; discriminate. Qed.
Lemma join_last sep row : row <> [] -> Forall token row -> plain (last (join sep row) "0"%char) = true.
Proof.
  intros NR H. induction H as [|t row [NT HT] HR IH]; [congruence|]. destruct row as [|u row].
  - cbn [join map concat]. rewrite app_nil_r. apply (last_forall (fun c => plain c = true)); assumption.
  - rewrite join_cons, app_assoc, last_app; [apply IH; discriminate|]. apply join_ne; [discriminate|exact HR].
Qed.
Lemma plain_nl t : Forall (fun c => plain c = true) t -> ~ In nl t.
Proof. intros H X. rewrite Forall_forall in H. specialize (H nl X). discriminate. Qed.
Lemma join_nl sep row : ~ In nl sep -> Forall token row -> ~ In nl (join sep row).
Proof.
  intros HS H X. apply in_join in X as [X|(t & Ht & X)]; [contradiction|]. rewrite Forall_forall in H. destruct (H t Ht) as [_ HP]. exact (plain_nl t HP X).
Qed.
Lemma join_trim sep row : row <> [] -> Forall token row -> trim (join sep row) = join sep row.
Proof. intros N H. apply trim_ends; apply plain_solid; [apply join_hd|apply join_last]; assumption. Qed.

(* ---- comment lines ---- *)
Lemma comment_ignored c t : solid_ c -> c <> [] -> ignored c (trim (c ++ t)) = true.
Proof.
  intros S N. destruct (trim_solid_start c t S N) as (t' & ->). unfold ignored. destruct c as [|x c]; [congruence|]. change ((x :: c) ++ t') with (x :: c ++ t') at 1.
  apply starts_with_app.
Qed.
Lemma row_kept c sep row : splits c -> row <> [] -> Forall token row -> ignored c (join sep row) = false.
Proof.
  intros S N H. pose proof (join_hd sep row N H) as P. pose proof (join_ne sep row N H) as NE. destruct (join sep row) as [|x t]; [congruence|]. cbn [hd] in P.
  unfold ignored. destruct c as [|y c]; [reflexivity|]. apply starts_not; assumption.
Qed.

(* ---- the loop ---- *)
Lemma scan_ignored field c d u ls ls' nc nr data : Forall (fun l => ignored c (trim l) = true) ls ->
  scan field c d u None (ls ++ ls') nc nr data = scan field c d u None ls' nc nr data.
Proof. induction 1 as [|l ls H _ IH]; [reflexivity|]. cbn [app scan]. rewrite H. exact IH. Qed.
Lemma scan_rows field c sep ld n rows vals ls' : read_as sep ld -> splits c -> 0 < n ->
  Forall (fun r => Forall token r /\ List.length r = n) rows -> Forall2 (fun r vs => mapM field r = Ok vs) rows vals ->
  forall nc nr data, (nc = None \/ nc = Some n) ->
  scan field c (opt_text ld) None None (map (join sep) rows ++ ls') nc nr data =
  scan field c (opt_text ld) None None ls' (match rows with [] => nc | _ => Some n end) (nr + List.length rows) (data ++ concat vals).
Proof.
  intros RA SP NP HR HV. induction HV as [|r vs rows vals Hv HV IH]; intros nc nr data HN.
  - cbn. rewrite app_nil_r, Nat.add_0_r. reflexivity.
  - inversion HR as [|? ? [HT HL] HR']; subst. assert (r <> []) as NE by (destruct r; [cbn in NP; lia|discriminate]).
    cbn [map app scan]. rewrite (join_trim sep r NE HT). rewrite (row_kept c sep r SP NE HT). cbn [choose_cols]. rewrite (fields_join sep ld r RA NE HT).
    assert ((match nc with Some n => negb (n =? List.length r) | None => false end) = false) as -> by (destruct HN as [->| ->]; [reflexivity|rewrite Nat.eqb_refl; reflexivity]).
    rewrite Hv. cbn [bind]. rewrite IH; [|assumption|right; reflexivity]. cbn [concat List.length]. rewrite <- app_assoc. replace (S nr + List.length rows) with (nr + S (List.length rows)) by lia.
    destruct rows; reflexivity.
Qed.
