(* Lemmas about subscripts. *)
From Coq Require Import Ascii String Sorted.
From Verif Require Import Base Lists Arr_Model Elem_Model Red_Model Gu_Model Ein_Spec Ein_Model.
Local Open Scope nat_scope.
Local Open Scope list_scope.

Lemma code_inj c d : nat_of_ascii c = nat_of_ascii d -> c = d.
Proof. intros E. rewrite <- (ascii_nat_embedding c), <- (ascii_nat_embedding d), E. reflexivity. Qed.
Lemma has_in c l : has c l = true <-> In c l.
Proof.
  unfold has. rewrite existsb_exists. split.
  - intros (d & Hd & E). apply Ascii.eqb_eq in E. subst. exact Hd.
  - intros H. exists c. split; [exact H|apply Ascii.eqb_refl].
Qed.
Lemma is_in_in c l : is_in c l = true <-> In c l.
Proof. apply has_in. Qed.
Lemma has_not c l : has c l = false <-> ~ In c l.
Proof. rewrite <- has_in. destruct (has c l); split; congruence. Qed.
Lemma lower_iff c : is_lower c = true <-> 97 <= nat_of_ascii c <= 122.
Proof. unfold is_lower. rewrite andb_true_iff, !Nat.leb_le. reflexivity. Qed.
Lemma lower_all l : forallb is_lower l = true <-> lowercase l.
Proof.
  unfold lowercase. rewrite forallb_forall, Forall_forall. split; intros H c Hc; apply lower_iff; apply H, Hc.
Qed.

(* ---------- strictly increasing lists ---------- *)
Definition before (c d : ascii) : Prop := nat_of_ascii c < nat_of_ascii d.
Definition ordered (l : letters) : Prop := StronglySorted before l.
Lemma ordered_nodup l : ordered l -> NoDup l.
Proof.
  induction 1 as [|c l H1 IH H2]; constructor; [|exact IH]. intros Hin. rewrite Forall_forall in H2. specialize (H2 c Hin). unfold before in H2. lia.
Qed.
Lemma ordered_ext l m : ordered l -> ordered m -> (forall c, In c l <-> In c m) -> l = m.
Proof.
  intros HL. revert m. induction HL as [|c l HL IH HF]; intros m HM H.
  - destruct m as [|d m]; [reflexivity|]. destruct (proj2 (H d) (or_introl eq_refl)).
  - destruct HM as [|d m HM HG]; [destruct (proj1 (H c) (or_introl eq_refl))|].
    rewrite Forall_forall in HF, HG.
    assert (c = d).
    { destruct (proj1 (H c) (or_introl eq_refl)) as [E|Hc]; [congruence|]. destruct (proj2 (H d) (or_introl eq_refl)) as [E|Hd]; [congruence|].
      specialize (HF d Hd). specialize (HG c Hc). unfold before in *. lia. }
    subst d. f_equal. apply IH; [exact HM|]. intros e. split; intros He.
    + destruct (proj1 (H e) (or_intror He)) as [E|]; [|assumption]. subst e. specialize (HF c He). unfold before in HF. lia.
    + destruct (proj2 (H e) (or_intror He)) as [E|]; [|assumption]. subst e. specialize (HG c He). unfold before in HG. lia.
Qed.
Lemma ordered_filter f l : ordered l -> ordered (filter f l).
Proof.
  induction 1 as [|c l H1 IH H2]; [constructor|]. cbn [filter]. destruct (f c); [|exact IH].
  constructor; [exact IH|]. rewrite Forall_forall in *. intros d Hd. apply filter_In in Hd as [Hd _]. auto.
Qed.
Lemma in_insert c d l : In d (insert_letter c l) <-> d = c \/ In d l.
Proof.
  induction l as [|e l IH]; cbn; [intuition congruence|]. destruct (_ <=? _); cbn; [intuition congruence|]. rewrite IH. intuition congruence.
Qed.
Lemma in_sort d l : In d (sort_letters l) <-> In d l.
Proof. induction l as [|c l IH]; cbn; [reflexivity|]. rewrite in_insert, IH. intuition congruence. Qed.
Lemma ordered_insert c l : ordered l -> ~ In c l -> ordered (insert_letter c l).
Proof.
  induction 1 as [|d l H1 IH H2]; intros HN; cbn; [repeat constructor|].
  rewrite Forall_forall in H2.
  destruct (Nat.leb_spec (nat_of_ascii c) (nat_of_ascii d)) as [HC|HC].
  - assert (before c d). { unfold before. assert (nat_of_ascii c <> nat_of_ascii d); [|lia]. intros E. apply code_inj in E. apply HN. left. congruence. }
    constructor; [constructor; [exact H1|rewrite Forall_forall; exact H2]|]. rewrite Forall_forall. intros e [<-|He]; [exact H|].
    specialize (H2 e He). unfold before in *. lia.
  - constructor; [apply IH; intros Hin; apply HN; right; exact Hin|]. rewrite Forall_forall. intros e He. apply in_insert in He as [->|He]; [exact HC|]. auto.
Qed.
Lemma ordered_sort l : NoDup l -> ordered (sort_letters l).
Proof.
  induction 1 as [|c l HN HD IH]; [constructor|]. cbn. apply ordered_insert; [exact IH|]. rewrite in_sort. exact HN.
Qed.
Lemma alphabet_ordered : ordered alphabet.
Proof. unfold alphabet. repeat (constructor; [|repeat (constructor; [unfold before; vm_compute; lia|]); constructor]). constructor. Qed.
Lemma in_alphabet c : In c alphabet <-> 97 <= nat_of_ascii c <= 122.
Proof.
  unfold alphabet. rewrite in_map_iff. split.
  - intros (n & <- & Hn). apply in_seq in Hn. rewrite nat_ascii_embedding by lia. lia.
  - intros H. exists (nat_of_ascii c). split; [apply ascii_nat_embedding|]. apply in_seq. lia.
Qed.
Lemma count_occurrences c l : count_occ ascii_dec l c = occurrences c l.
Proof.
  unfold occurrences. induction l as [|d l IH]; [reflexivity|]. cbn [count_occ filter].
  destruct (ascii_dec d c) as [->|N]; [rewrite Ascii.eqb_refl; cbn; lia|].
  destruct (Ascii.eqb_spec c d); [congruence|exact IH].
Qed.
Lemma occurrences_in c l : 0 < occurrences c l <-> In c l.
Proof. rewrite <- count_occurrences. rewrite (count_occ_In ascii_dec). reflexivity. Qed.
Lemma lowercase_concat ins : Forall lowercase ins <-> lowercase (concat ins).
Proof.
  unfold lowercase. induction ins as [|s ins IH]; cbn; [split; constructor|]. rewrite Forall_app. split.
  - intros H. inversion H; subst. split; [assumption|]. apply IH; assumption.
  - intros [H1 H2]. constructor; [exact H1|apply IH, H2].
Qed.
Lemma implicit_ok ins : lowercase (concat ins) -> implicit_output ins = implicit ins.
Proof.
  intros HL. unfold implicit_output, implicit. apply ordered_ext.
  - apply ordered_sort. apply NoDup_filter, NoDup_nodup.
  - apply ordered_filter, alphabet_ordered.
  - intros c. rewrite in_sort, !filter_In, nodup_In, in_alphabet, count_occurrences. split; intros [H1 H2]; (split; [|exact H2]).
    + unfold lowercase in HL. rewrite Forall_forall in HL. apply HL, H1.
    + apply Nat.eqb_eq in H2. apply occurrences_in. lia.
Qed.

(* ---------- text ---------- *)
Fixpoint arrows (l : list chars) : chars :=
  match l with [] => [] | [s] => s | s :: l' => s ++ "-"%char :: ">"%char :: arrows l' end.
Lemma split_arrow_cons s : exists h t, split_arrow s = h :: t.
Proof.
  induction s as [|c s IH]; [eexists _, _; reflexivity|]. destruct s as [|d s]; [eexists _, _; reflexivity|].
  cbn [split_arrow]. destruct (_ && _); [eexists _, _; reflexivity|]. destruct IH as (h & t & E). cbn [split_arrow] in E. rewrite E. eexists _, _; reflexivity.
Qed.
Lemma arrows_cons h t : arrows (h :: t) = h ++ match t with [] => [] | _ => "-"%char :: ">"%char :: arrows t end.
Proof. destruct t; cbn [arrows]; [rewrite app_nil_r|]; reflexivity. Qed.
Lemma split_arrow_join : forall n s, length s <= n -> arrows (split_arrow s) = s.
Proof.
  induction n as [|n IH]; intros s HL; [destruct s; [reflexivity|cbn in HL; lia]|].
  destruct s as [|c s]; [reflexivity|]. destruct s as [|d s]; [reflexivity|].
  cbn [length] in HL. change (split_arrow (c :: d :: s)) with
    (if Ascii.eqb c "-"%char && Ascii.eqb d ">"%char then [] :: split_arrow s
     else match split_arrow (d :: s) with h :: t => (c :: h) :: t | [] => [[c]] end).
  destruct (Ascii.eqb_spec c "-"%char) as [->|]; [destruct (Ascii.eqb_spec d ">"%char) as [->|]|]; cbn [andb].
  - destruct (split_arrow_cons s) as (h & t & E). rewrite arrows_cons, E. cbn [app]. rewrite <- E, IH by lia. reflexivity.
  - destruct (split_arrow_cons (d :: s)) as (h & t & E). specialize (IH (d :: s) ltac:(cbn; lia)). rewrite E in *.
    rewrite arrows_cons in *. cbn [app]. rewrite IH. reflexivity.
  - destruct (split_arrow_cons (d :: s)) as (h & t & E). specialize (IH (d :: s) ltac:(cbn; lia)). rewrite E in *.
    rewrite arrows_cons in *. cbn [app]. rewrite IH. reflexivity.
Qed.
Lemma split_plain l : ~ In "-"%char l -> split_arrow l = [l].
Proof.
  induction l as [|c l IH]; intros HN; [reflexivity|]. destruct l as [|d l]; [reflexivity|].
  change (split_arrow (c :: d :: l)) with
    (if Ascii.eqb c "-"%char && Ascii.eqb d ">"%char then [] :: split_arrow l
     else match split_arrow (d :: l) with h :: t => (c :: h) :: t | [] => [[c]] end).
  destruct (Ascii.eqb_spec c "-"%char) as [->|]; [exfalso; apply HN; left; reflexivity|]. cbn [andb].
  rewrite IH by (intros H; apply HN; right; exact H). reflexivity.
Qed.
Lemma split_two l o : ~ In "-"%char l -> ~ In "-"%char o -> split_arrow (l ++ "-"%char :: ">"%char :: o) = [l; o].
Proof.
  induction l as [|c l IH]; intros HN HO.
  - change (split_arrow ([] ++ "-"%char :: ">"%char :: o)) with ([] :: split_arrow o). rewrite split_plain by exact HO. reflexivity.
  - assert (E : exists d r, l ++ "-"%char :: ">"%char :: o = d :: r) by (destruct l; eexists _, _; reflexivity).
    destruct E as (d & r & E). cbn [app]. rewrite E.
    change (split_arrow (c :: d :: r)) with
      (if Ascii.eqb c "-"%char && Ascii.eqb d ">"%char then [] :: split_arrow r
       else match split_arrow (d :: r) with h :: t => (c :: h) :: t | [] => [[c]] end).
    destruct (Ascii.eqb_spec c "-"%char) as [->|]; [exfalso; apply HN; left; reflexivity|]. cbn [andb].
    rewrite <- E, IH; [reflexivity| |exact HO]. intros H; apply HN; right; exact H.
Qed.
Lemma split_comma_cons s : forall cur, exists h t, split_comma s cur = h :: t.
Proof. induction s as [|c s IH]; intros cur; cbn; [eexists _, _; reflexivity|]. destruct (Ascii.eqb c ","%char); [eexists _, _; reflexivity|apply IH]. Qed.
Lemma split_comma_join s : forall cur, commas (split_comma s cur) = rev cur ++ s.
Proof.
  induction s as [|c s IH]; intros cur; cbn [split_comma]; [cbn; rewrite app_nil_r; reflexivity|].
  destruct (Ascii.eqb_spec c ","%char) as [->|].
  - destruct (split_comma_cons s []) as (h & t & E). specialize (IH []). rewrite E in *. cbn [commas]. cbn [commas] in IH. rewrite IH. reflexivity.
  - rewrite IH. cbn [rev]. rewrite <- app_assoc. reflexivity.
Qed.
Lemma split_comma_plain s : ~ In ","%char s -> forall cur, split_comma s cur = [rev cur ++ s].
Proof.
  induction s as [|c s IH]; intros HN cur; cbn [split_comma]; [rewrite app_nil_r; reflexivity|].
  destruct (Ascii.eqb_spec c ","%char) as [->|]; [exfalso; apply HN; left; reflexivity|].
  rewrite IH by (intros H; apply HN; right; exact H). cbn [rev]. rewrite <- app_assoc. reflexivity.
Qed.
Lemma split_comma_app s r : ~ In ","%char s -> forall cur, split_comma (s ++ ","%char :: r) cur = (rev cur ++ s) :: split_comma r [].
Proof.
  induction s as [|c s IH]; intros HN cur.
  - cbn. rewrite app_nil_r. reflexivity.
  - cbn [app split_comma]. destruct (Ascii.eqb_spec c ","%char) as [->|]; [exfalso; apply HN; left; reflexivity|].
    rewrite IH by (intros H; apply HN; right; exact H). cbn [rev]. rewrite <- app_assoc. reflexivity.
Qed.
Lemma split_commas ins : ins <> [] -> (forall s, In s ins -> ~ In ","%char s) -> split_comma (commas ins) [] = ins.
Proof.
  induction ins as [|s ins IH]; intros HN H; [congruence|]. destruct ins as [|t ins].
  - cbn [commas]. rewrite split_comma_plain by (apply H; left; reflexivity). reflexivity.
  - change (commas (s :: t :: ins)) with (s ++ ","%char :: commas (t :: ins)).
    rewrite split_comma_app by (apply H; left; reflexivity). cbn [rev app]. rewrite IH; [reflexivity|discriminate|].
    intros u Hu. apply H. right. exact Hu.
Qed.
Lemma lower_not l c : lowercase l -> (nat_of_ascii c < 97) -> ~ In c l.
Proof. unfold lowercase. rewrite Forall_forall. intros H HC Hin. specialize (H c Hin). lia. Qed.
Lemma commas_in c ins : In c (commas ins) -> c = ","%char \/ In c (concat ins).
Proof.
  induction ins as [|s ins IH]; [intros []|]. destruct ins as [|t ins].
  - cbn. rewrite app_nil_r. auto.
  - change (commas (s :: t :: ins)) with (s ++ ","%char :: commas (t :: ins)). change (concat (s :: t :: ins)) with (s ++ concat (t :: ins)).
    rewrite !in_app_iff. intros [H|[H|H]]; [auto|auto|]. destruct (IH H); auto.
Qed.
Lemma forall_lower ins : forallb (forallb is_lower) ins = true <-> Forall lowercase ins.
Proof.
  rewrite forallb_forall, Forall_forall. split; intros H s Hs; apply lower_all; apply H, Hs.
Qed.
Lemma commas_no_dash ins : Forall lowercase ins -> ~ In "-"%char (commas ins).
Proof.
  intros HL Hin. apply commas_in in Hin as [H|H]; [discriminate|].
  apply lowercase_concat in HL. revert H. apply lower_not; [exact HL|vm_compute; lia].
Qed.

Lemma parse_explicit s ins out : ins <> [] -> Forall lowercase ins -> lowercase out -> unspaced s = arrow ins out ->
  parse_subscript s = Ok (ins, out).
Proof.
  intros HN HI HO E. unfold parse_subscript. change (filter (fun c => negb (is_space c)) s) with (unspaced s). rewrite E. unfold arrow.
  rewrite split_two; [|apply commas_no_dash, HI|apply lower_not; [exact HO|vm_compute; lia]].
  rewrite split_commas; [|exact HN|].
  - rewrite (proj2 (forall_lower ins) HI). replace (forallb (fun c => is_lower c || Ascii.eqb c "."%char) out) with true; [reflexivity|].
    symmetry. apply forallb_forall. intros c Hc. unfold lowercase in HO. rewrite Forall_forall in HO. rewrite (proj2 (lower_iff c) (HO c Hc)). reflexivity.
  - intros u Hu. apply lower_not; [|vm_compute; lia]. rewrite Forall_forall in HI. apply HI, Hu.
Qed.
Lemma parse_implicit s ins : ins <> [] -> Forall lowercase ins -> unspaced s = commas ins ->
  parse_subscript s = Ok (ins, implicit ins).
Proof.
  intros HN HI E. unfold parse_subscript. change (filter (fun c => negb (is_space c)) s) with (unspaced s). rewrite E.
  rewrite split_plain by apply commas_no_dash, HI.
  rewrite split_commas; [|exact HN|].
  - rewrite (proj2 (forall_lower ins) HI), implicit_ok by (apply lowercase_concat, HI). reflexivity.
  - intros u Hu. apply lower_not; [|vm_compute; lia]. rewrite Forall_forall in HI. apply HI, Hu.
Qed.
Lemma parse_sound s ins out : parse_subscript s = Ok (ins, out) -> ins <> [] /\ Forall lowercase ins /\
  ((unspaced s = arrow ins out /\ (lowercase out \/ In "."%char out)) \/ (unspaced s = commas ins /\ out = implicit ins)).
Proof.
  unfold parse_subscript. change (filter (fun c => negb (is_space c)) s) with (unspaced s).
  pose proof (split_arrow_join _ (unspaced s) (le_n _)) as J.
  destruct (split_arrow (unspaced s)) as [|i [|o [|]]] eqn:ES; try discriminate.
  - destruct (forallb (forallb is_lower) (split_comma i [])) eqn:EL; [|discriminate]. intros E. injection E as <- <-.
    split; [destruct (split_comma_cons i []) as (h & t & ->); discriminate|]. apply forall_lower in EL. split; [exact EL|]. right.
    split; [|apply implicit_ok, lowercase_concat, EL]. rewrite split_comma_join. cbn [arrows] in J. symmetry. exact J.
  - destruct (forallb (forallb is_lower) (split_comma i [])) eqn:EL; [|discriminate].
    destruct (forallb _ o) eqn:EO; [|discriminate]. intros E. injection E as <- <-.
    split; [destruct (split_comma_cons i []) as (h & t & ->); discriminate|]. apply forall_lower in EL. split; [exact EL|]. left.
    split; [unfold arrow; rewrite split_comma_join; cbn [arrows rev app] in *; symmetry; exact J|].
    destruct (in_dec ascii_dec "."%char o) as [Hin|Hin]; [right; exact Hin|left].
    unfold lowercase. rewrite forallb_forall in EO. rewrite Forall_forall. intros c Hc. specialize (EO c Hc).
    apply orb_prop in EO as [H|H]; [apply lower_iff, H|]. apply Ascii.eqb_eq in H. subst. contradiction.
Qed.

(* ---------- sizes ---------- *)
Lemma nodup_snoc {A} (l : list A) x : NoDup l -> ~ In x l -> NoDup (l ++ [x]).
Proof.
  induction 1 as [|y l HY HD IH]; intros HN; cbn; [repeat constructor; intros []|]. constructor.
  - rewrite in_app_iff. intros [H|[<-|[]]]; [contradiction|]. apply HN. left. reflexivity.
  - apply IH. intros H. apply HN. right. exact H.
Qed.
Lemma lookup_in {A} c (m : list (ascii * A)) n : lookup c m = Some n -> In (c, n) m.
Proof.
  induction m as [|[d k] m IH]; cbn; [discriminate|]. destruct (Ascii.eqb_spec d c) as [->|]; [intros E; injection E as ->; left; reflexivity|]. auto.
Qed.
Lemma lookup_none {A} c (m : list (ascii * A)) : lookup c m = None <-> ~ In c (map fst m).
Proof.
  induction m as [|[d k] m IH]; cbn; [intuition|]. destruct (Ascii.eqb_spec d c) as [->|N]; [intuition congruence|]. rewrite IH. intuition congruence.
Qed.
Lemma lookup_app {A} c (m m' : list (ascii * A)) : lookup c (m ++ m') = match lookup c m with Some n => Some n | None => lookup c m' end.
Proof. induction m as [|[d k] m IH]; [reflexivity|]. cbn. destruct (Ascii.eqb d c); [reflexivity|exact IH]. Qed.

(* the map built so far knows exactly the letters L, with sizes given by size *)
Definition knows (size : ascii -> nat) (L : letters) (m : dim_map) : Prop :=
  NoDup (map fst m) /\ (forall c, In c (map fst m) <-> In c L) /\ (forall c n, lookup c m = Some n -> n = size c).
Lemma knows_nil size : knows size [] [].
Proof. split; [constructor|]. split; [reflexivity|discriminate]. Qed.
Lemma knows_lookup size L m c : knows size L m -> In c L -> lookup c m = Some (size c).
Proof.
  intros (H1 & H2 & H3) Hc. destruct (lookup c m) as [n|] eqn:E; [rewrite (H3 c n E); reflexivity|].
  apply lookup_none in E. apply H2 in Hc. contradiction.
Qed.
Lemma add_dim_ok size L m c : knows size L m -> exists m', add_dim m (c, size c) = Ok m' /\ knows size (L ++ [c]) m'.
Proof.
  intros HK. pose proof HK as (H1 & H2 & H3). unfold add_dim. cbn [fst snd]. destruct (lookup c m) as [n|] eqn:E.
  - rewrite (H3 c n E), Nat.eqb_refl. exists m. split; [reflexivity|]. split; [exact H1|]. split; [|exact H3].
    intros d. rewrite in_app_iff, H2. split; [auto|]. intros [H|[<-|[]]]; [exact H|]. apply H2. apply lookup_in in E. apply in_map_iff. exists (c, n). split; [reflexivity|exact E].
  - exists (m ++ [(c, size c)]). split; [reflexivity|]. apply lookup_none in E. split; [|split].
    + rewrite map_app. cbn [map fst]. apply nodup_snoc; assumption.
    + intros d. rewrite map_app, !in_app_iff, H2. cbn. reflexivity.
    + intros d n. rewrite lookup_app. destruct (lookup d m) as [k|] eqn:ED; [intros H; injection H as <-; apply (H3 d k ED)|].
      cbn. destruct (Ascii.eqb_spec c d) as [->|]; [|discriminate]. intros H. injection H as <-. reflexivity.
Qed.
Lemma add_dims_ok size sub : forall L m, knows size L m ->
  exists m', foldM add_dim (combine sub (map size sub)) m = Ok m' /\ knows size (L ++ sub) m'.
Proof.
  induction sub as [|c sub IH]; intros L m HK; cbn [map combine foldM].
  - exists m. rewrite app_nil_r. split; [reflexivity|exact HK].
  - destruct (add_dim_ok size L m c HK) as (m1 & E1 & HK1). rewrite E1. cbn [bind].
    destruct (IH _ _ HK1) as (m2 & E2 & HK2). exists m2. split; [exact E2|]. rewrite <- app_assoc in HK2. exact HK2.
Qed.
Lemma add_operands_ok size ins : forall L m, knows size L m ->
  exists m', foldM add_operand (combine ins (map (map size) ins)) m = Ok m' /\ knows size (L ++ concat ins) m'.
Proof.
  induction ins as [|s ins IH]; intros L m HK; cbn [map combine foldM concat].
  - exists m. rewrite app_nil_r. split; [reflexivity|exact HK].
  - unfold add_operand at 1. cbn [fst snd]. rewrite map_length, Nat.eqb_refl. cbn [negb].
    destruct (add_dims_ok size s L m HK) as (m1 & E1 & HK1). rewrite E1. cbn [bind].
    destruct (IH _ _ HK1) as (m2 & E2 & HK2). exists m2. split; [exact E2|]. rewrite <- app_assoc in HK2. exact HK2.
Qed.
Lemma validate_complete size ins out shapes : shapes = map (map size) ins -> incl out (concat ins) ->
  exists m, validate ins out shapes = Ok m /\ knows size (concat ins) m.
Proof.
  intros -> HO. unfold validate. rewrite map_length, Nat.eqb_refl. cbn [negb].
  destruct (add_operands_ok size ins [] [] (knows_nil size)) as (m & E & HK). cbn [app] in HK. 
  match goal with |- context [foldM ?f ?l ?b] => replace (foldM f l b) with (@Ok dim_map m) by (symmetry; exact E) end. cbn [bind]. exists m. split; [|exact HK].
  replace (forallb _ out) with true; [reflexivity|]. symmetry. apply forallb_forall. intros c Hc.
  rewrite (knows_lookup size _ m c HK (HO c Hc)). reflexivity.
Qed.

(* conversely, a map that was built describes the shapes *)
Definition extends (m m' : dim_map) : Prop := forall c n, lookup c m = Some n -> lookup c m' = Some n.
Lemma add_dim_sound m cn m' : add_dim m cn = Ok m' -> extends m m' /\ lookup (fst cn) m' = Some (snd cn).
Proof.
  unfold add_dim. destruct cn as [c n]. cbn [fst snd]. destruct (lookup c m) as [e|] eqn:E.
  - destruct (Nat.eqb_spec e n) as [->|]; [|discriminate]. intros H. injection H as <-. split; [intros d k Hd; exact Hd|exact E].
  - intros H. injection H as <-. split; [intros d k Hd; rewrite lookup_app, Hd; reflexivity|].
    rewrite lookup_app, E. cbn. rewrite Ascii.eqb_refl. reflexivity.
Qed.
Lemma add_dims_sound sub : forall sh m m', length sub = length sh -> foldM add_dim (combine sub sh) m = Ok m' ->
  extends m m' /\ map (fun c => lookup c m') sub = map Some sh.
Proof.
  induction sub as [|c sub IH]; intros [|n sh] m m' HL E; try discriminate.
  - injection E as <-. split; [intros d k Hd; exact Hd|reflexivity].
  - cbn [combine foldM] in E. destruct (add_dim m (c, n)) as [m1| | |] eqn:E1; try discriminate. cbn [bind] in E.
    apply add_dim_sound in E1 as [X1 L1]. cbn [fst snd] in L1. destruct (IH sh m1 m' ltac:(cbn in HL; lia) E) as [X2 L2].
    split; [intros d k Hd; apply X2, X1, Hd|]. cbn [map]. rewrite L2. f_equal. apply X2, L1.
Qed.
Lemma add_operands_sound ins : forall shapes m m', length ins = length shapes -> foldM add_operand (combine ins shapes) m = Ok m' ->
  extends m m' /\ map (map (fun c => lookup c m')) ins = map (map Some) shapes.
Proof.
  induction ins as [|s ins IH]; intros [|sh shapes] m m' HL E; try discriminate.
  - injection E as <-. split; [intros d k Hd; exact Hd|reflexivity].
  - cbn [combine foldM] in E. unfold add_operand at 1 in E. cbn [fst snd] in E. destruct (Nat.eqb_spec (length s) (length sh)) as [HS|]; [|discriminate]. cbn [negb] in E.
    destruct (foldM add_dim (combine s sh) m) as [m1| | |] eqn:E1; try discriminate. cbn [bind] in E.
    apply add_dims_sound in E1 as [X1 L1]; [|exact HS]. destruct (IH shapes m1 m' ltac:(cbn in HL; lia) E) as [X2 L2].
    split; [intros d k Hd; apply X2, X1, Hd|]. cbn [map]. rewrite L2. f_equal. rewrite <- L1. apply map_ext_in. intros c Hc.
    assert (exists n, lookup c m1 = Some n) as [n Hn].
    { assert (Hin : In (lookup c m1) (map Some sh)) by (rewrite <- L1; apply (in_map (fun c => lookup c m1)), Hc).
      apply in_map_iff in Hin as (n & Hn & _). exists n. congruence. }
    rewrite Hn. apply X2, Hn.
Qed.
Lemma sizes_found m ins : forall shapes, map (map (fun c => lookup c m)) ins = map (map Some) shapes -> shapes = map (map (dim m)) ins.
Proof.
  induction ins as [|s ins IH]; intros [|sh shapes] G; try discriminate; [reflexivity|].
  cbn [map] in *. injection G as G1 G2. f_equal; [|apply IH, G2].
  clear - G1. revert sh G1. induction s as [|c s IH]; intros [|n sh] G; try discriminate; [reflexivity|].
  cbn [map] in *. injection G as G1 G2. unfold dim at 1. rewrite G1. f_equal. apply IH, G2.
Qed.
Lemma validate_sound ins out shapes m : validate ins out shapes = Ok m ->
  exists size, shapes = map (map size) ins /\ incl out (concat ins).
Proof.
  unfold validate. destruct (Nat.eqb_spec (length ins) (length shapes)) as [HL|]; [|discriminate]. cbn [negb].
  destruct (foldM add_operand (combine ins shapes) []) as [m0| | |] eqn:E; try discriminate. cbn [bind].
  destruct (forallb _ out) eqn:EO; [|discriminate]. intros H. injection H as <-.
  pose proof E as E'. apply add_operands_sound in E as [_ L]; [|exact HL]. apply sizes_found in L.
  exists (dim m0). split; [exact L|]. intros c Hc.
  rewrite forallb_forall in EO. specialize (EO c Hc). destruct (lookup c m0) as [n|] eqn:EC; [|discriminate].
  destruct (add_operands_ok (dim m0) ins [] [] (knows_nil _)) as (m1 & E1 & HK). rewrite <- L in E1.
  assert (m1 = m0).
  { assert (EE : Ok m1 = Ok m0) by (etransitivity; [symmetry; exact E1|exact E']). injection EE as EE. exact EE. }
  subst m1. cbn [app] in HK. apply HK. apply lookup_in in EC. apply in_map_iff. exists (c, n). auto.
Qed.

(* the letters summed over *)
Lemma contraction_ok size ins out m : lowercase (concat ins) -> knows size (concat ins) m -> contraction m out = summed ins out.
Proof.
  intros HL (H1 & H2 & _). unfold contraction, summed. apply ordered_ext.
  - apply ordered_sort. apply NoDup_filter, H1.
  - apply ordered_filter, alphabet_ordered.
  - intros c. rewrite in_sort, !filter_In, H2, in_alphabet, andb_true_iff, is_in_in. unfold lowercase in HL. rewrite Forall_forall in HL. split.
    + intros [A B]. auto.
    + intros (A & B & C). split; assumption.
Qed.
