(* The printed form of an array reads back as the nested list of its elements. *)
From Coq Require Import Ascii String.
From Verif Require Import Base Lists Arr_Spec Arr_Model Arr_Wf Arr_Proofs Copy_Model Sel_Ops2 Cast_Proofs Fmt_Spec Fmt_Model.
Local Open Scope nat_scope.
Local Open Scope list_scope.

Definition ends (t : text) : Prop := match t with [] => True | c :: _ => separator c = true \/ bracket c <> None end.
Definition sep_text (t : text) : Prop := t <> [] /\ Forall (fun c => separator c = true) t.

Lemma separator_bracket c : separator c = true -> bracket c = None.
Proof. destruct c as [[] [] [] [] [] [] [] []]; vm_compute; congruence. Qed.
Lemma scan_app t cur B : Forall (fun c => separator c = false /\ bracket c = None) t -> scan cur (t ++ B) = scan (cur ++ t) B.
Proof.
  intros H. revert cur. induction H as [|c t [S K] H IH]; intros cur; cbn [app]; [rewrite app_nil_r; reflexivity|].
  cbn [scan]. rewrite K, S, IH, <- app_assoc. reflexivity.
Qed.
Lemma scan_end cur B : ends B -> scan cur B = word cur ++ scan [] B.
Proof.
  destruct B as [|c B]; cbn [ends scan]; intros H; [rewrite app_nil_r; reflexivity|].
  destruct (bracket c) eqn:K; [reflexivity|]. destruct H as [H|H]; [rewrite H; reflexivity|congruence].
Qed.
Lemma scan_sep t B : Forall (fun c => separator c = true) t -> scan [] (t ++ B) = scan [] B.
Proof. induction 1 as [|c t S H IH]; cbn [app scan]; [reflexivity|]. rewrite (separator_bracket c S), S, IH. reflexivity. Qed.
Lemma text_eqb_spec t u : text_eqb t u = true <-> t = u.
Proof. unfold text_eqb. destruct (list_eq_dec ascii_dec t u); split; congruence. Qed.
Lemma word_plain t : plain t -> word t = [Item t].
Proof. intros (N & D & _). unfold word. destruct t as [|c t]; [congruence|]. destruct (text_eqb (c :: t) dots) eqn:E; [apply text_eqb_spec in E; congruence|reflexivity]. Qed.

Definition renders (A : text) (l : list token) : Prop := forall B, ends B -> scan [] (A ++ B) = l ++ scan [] B.

Lemma renders_plain t w : plain t -> renders (right_align w t) [Item t].
Proof.
  intros P B HB. unfold right_align, blanks. rewrite <- app_assoc, scan_sep by (apply Forall_forall; intros c HC; apply repeat_spec in HC; subst; reflexivity).
  rewrite scan_app by apply P. rewrite scan_end by exact HB. cbn [app]. rewrite word_plain by exact P. reflexivity.
Qed.
Lemma renders_dots : renders (str "...") [Dots].
Proof.
  intros B HB. rewrite scan_app by (repeat constructor). rewrite scan_end by exact HB. reflexivity.
Qed.
Lemma renders_join sep parts toks : sep_text sep -> Forall2 renders parts toks -> renders (join sep parts) (concat toks).
Proof.
  intros [SN S] H. induction H as [|A l parts toks HA H IH]; intros B HB; [reflexivity|].
  destruct H as [|A' l' parts toks HA' H].
  - cbn [join concat]. rewrite app_nil_r. apply HA, HB.
  - change (join sep (A :: A' :: parts)) with (A ++ sep ++ join sep (A' :: parts)). rewrite <- !app_assoc.
    rewrite HA. 2: { destruct sep as [|c sep]; [congruence|]. cbn [app ends]. left. inversion S; assumption. }
    rewrite scan_sep by exact S. cbn [concat]. rewrite <- app_assoc. f_equal. apply IH, HB.
Qed.
Lemma renders_box A l : renders A l -> renders (str "[" ++ A ++ str "]") ([Open] ++ l ++ [Close]).
Proof.
  intros H B HB. rewrite <- !app_assoc. cbn [str list_ascii_of_string app scan]. change (bracket "["%char) with (Some Open). cbn [word app].
  f_equal. rewrite H by (cbn; right; discriminate). cbn [scan]. change (bracket "]"%char) with (Some Close). cbn [word app]. reflexivity.
Qed.

(* what is shown along an axis *)
Definition axis_row (short : bool) (d : nat) (row : nat -> list token) : list token :=
  if short && (6 <? d) then flat_map row [0; 1; 2] ++ [Dots] ++ flat_map row [d - 3; d - 2; d - 1] else flat_map row (seq 0 d).
Lemma nested_axis short d sh elem : nested short (d :: sh) elem = [Open] ++ axis_row short d (fun i => nested short sh (fun idx => elem (i :: idx))) ++ [Close].
Proof. cbn [nested]. unfold axis_row. destruct (short && (6 <? d)); [|reflexivity]. rewrite <- !app_assoc. reflexivity. Qed.
Lemma nested_ext short sh e e' : (forall idx, e idx = e' idx) -> nested short sh e = nested short sh e'.
Proof.
  revert e e'. induction sh as [|d sh IH]; intros e e' H; [cbn [nested]; rewrite H; reflexivity|]. rewrite !nested_axis. unfold axis_row.
  assert (forall l, flat_map (fun i => nested short sh (fun idx => e (i :: idx))) l = flat_map (fun i => nested short sh (fun idx => e' (i :: idx))) l) as F.
  { intros l. induction l as [|i l IHl]; [reflexivity|]. cbn [flat_map]. rewrite IHl. f_equal. apply IH. intros; apply H. }
  rewrite !F. reflexivity.
Qed.
Lemma display_in d short i : In i (fst (display_indices d short 3)) -> i < d.
Proof.
  unfold display_indices. change (2 * 3) with 6. destruct short; cbn [andb]; [|cbn [fst]; rewrite in_seq; lia].
  destruct (Nat.ltb_spec 6 d); cbn [fst]; [|rewrite in_seq; lia]. rewrite in_app_iff, !in_seq. lia.
Qed.
Lemma renders_axis short d (f : nat -> text) row : (forall i, i < d -> renders (f i) (row i)) ->
  forall sep, sep_text sep -> let (ind, e) := display_indices d short 3 in renders (join sep (with_dots e 3 (map f ind))) (axis_row short d row).
Proof.
  intros H sep HS. unfold display_indices, axis_row. change (2 * 3) with 6. destruct (short && (6 <? d)) eqn:E.
  - apply andb_true_iff in E. destruct E as [_ E]. apply Nat.ltb_lt in E. change (seq 0 3) with [0; 1; 2].
    replace (seq (d - 3) 3) with [d - 3; d - 2; d - 1] by (cbn; repeat f_equal; lia).
    cbn [map app with_dots firstn skipn flat_map]. intros B HB.
    rewrite (renders_join sep _ [row 0; row 1; row 2; [Dots]; row (d - 3); row (d - 2); row (d - 1)] HS).
    + cbn [concat]. rewrite <- !app_assoc. cbn [app]. rewrite <- !app_assoc. reflexivity.
    + repeat (constructor; [first [apply renders_dots|apply H; lia]|]). constructor.
    + exact HB.
  - cbn [with_dots]. rewrite flat_map_concat_map. apply (renders_join sep _ _ HS).
    assert (forall i, In i (seq 0 d) -> i < d) as HI by (intros i; rewrite in_seq; lia). revert HI.
    generalize (seq 0 d). intros l HI. induction l as [|i l IH]; cbn [map]; constructor; [apply H, HI; left; reflexivity|apply IH; intros; apply HI; right; assumption].
Qed.

Definition box (sep : text) (base depth : nat) (rest' : list nat) : text :=
  match rest' with
  | [] => sep
  | [_] => trim_end sep ++ [newline] ++ blanks (base + depth)
  | _ => trim_end sep ++ [newline; newline] ++ blanks (base + depth)
  end.
Lemma blanks_sep n : Forall (fun c => separator c = true) (blanks n).
Proof. apply Forall_forall. intros c H. apply repeat_spec in H. subst. reflexivity. Qed.
Lemma trim_end_sep t : Forall (fun c => separator c = true) t -> Forall (fun c => separator c = true) (trim_end t).
Proof.
  induction 1 as [|c t S H IH]; cbn [trim_end]; [constructor|]. destruct (trim_end t) as [|x r].
  - destruct (Ascii.eqb c " "); repeat constructor; assumption.
  - constructor; assumption.
Qed.
Lemma box_sep sep base depth rest' : sep_text sep -> sep_text (box sep base depth rest').
Proof.
  intros [N S]. pose proof (trim_end_sep sep S) as T. pose proof (blanks_sep (base + depth)) as HB. unfold box. destruct rest' as [|d [|d' r]].
  - split; assumption.
  - split; [destruct (trim_end sep); discriminate|]. rewrite Forall_app. split; [exact T|]. constructor; [reflexivity|exact HB].
  - split; [destruct (trim_end sep); discriminate|]. rewrite Forall_app. split; [exact T|]. constructor; [reflexivity|]. constructor; [reflexivity|exact HB].
Qed.

Section Arrays.
Context {V : Type}.
Variables (show : V -> text) (buf : list V) (a : arr).

(* the text of the element at an index *)
Definition shown_at (idx : list nat) : text := match get buf a idx with Some v => show v | None => [] end.
Definition printable : Prop := forall idx, inb idx (a_shape a) -> plain (shown_at idx).

Lemma element_ok idx : wf buf a -> inb idx (a_shape a) -> element_at show buf a idx = Ok (shown_at idx).
Proof.
  intros W I. destruct W as (_ & _ & _ & _ & G & _). destruct (G idx I) as [v E]. unfold element_at, shown_at. rewrite (read_get buf a idx v E), E. reflexivity.
Qed.
Lemma printable_all : wf buf a -> (forall v, plain (show v)) -> printable.
Proof. intros W H idx I. destruct W as (_ & _ & _ & _ & G & _). destruct (G idx I) as [v E]. unfold shown_at. rewrite E. apply H. Qed.
Lemma inb_app p sh d rest i : a_shape a = sh ++ d :: rest -> Forall2 lt p sh -> i < d -> a_shape a = (sh ++ [d]) ++ rest /\ Forall2 lt (p ++ [i]) (sh ++ [d]).
Proof. intros E F L. split; [rewrite E, <- app_assoc; reflexivity|]. apply Forall2_app; [exact F|]. constructor; [exact L|constructor]. Qed.

Lemma collect_ok short : wf buf a -> forall rest sh p, a_shape a = sh ++ rest -> Forall2 lt p sh -> exists l, collect show buf a short 3 rest p = Ok l.
Proof.
  intros W. induction rest as [|d rest IH]; intros sh p E F; cbn [collect].
  - rewrite (element_ok p W) by (unfold inb; rewrite E, app_nil_r; exact F). eexists. reflexivity.
  - assert (exists l, mapM (fun i => collect show buf a short 3 rest (p ++ [i])) (fst (display_indices d short 3)) = Ok l) as [l EL].
    { assert (forall i, In i (fst (display_indices d short 3)) -> i < d) as HI by (intros i; apply display_in). revert HI.
      generalize (fst (display_indices d short 3)). intros ind HI. induction ind as [|i ind IHi]; [exists []; reflexivity|].
      cbn [mapM]. destruct (inb_app p sh d rest i E F (HI i (or_introl eq_refl))) as [E' F']. destruct (IH _ _ E' F') as [x EX]. rewrite EX. cbn [bind].
      destruct IHi as [l EL]; [intros j Hj; apply HI; right; exact Hj|]. rewrite EL. eexists. reflexivity. }
    rewrite EL. eexists. reflexivity.
Qed.
Lemma format_rec_ok sep short width base : sep_text sep -> wf buf a -> printable -> forall rest sh p, a_shape a = sh ++ rest -> Forall2 lt p sh ->
  exists t, format_rec show buf a sep short 3 width base rest p = Ok t /\ renders t (nested short rest (fun idx => shown_at (p ++ idx))).
Proof.
  intros HS W P. induction rest as [|d rest IH]; intros sh p E F.
  - cbn [format_rec nested]. rewrite (element_ok p W) by (unfold inb; rewrite E, app_nil_r; exact F). eexists. split; [reflexivity|].
    rewrite app_nil_r. apply renders_plain, P. unfold inb. rewrite E, app_nil_r. exact F.
  - assert (forall i, i < d -> exists t, format_rec show buf a sep short 3 width base rest (p ++ [i]) = Ok t /\ renders t (nested short rest (fun idx => shown_at (p ++ i :: idx)))) as HI.
    { intros i L. destruct (inb_app p sh d rest i E F L) as [E' F']. destruct (IH _ _ E' F') as (t & E1 & R). exists t. split; [exact E1|].
      rewrite (nested_ext short rest _ (fun idx => shown_at ((p ++ [i]) ++ idx))); [exact R|]. intros idx. rewrite <- app_assoc. reflexivity. }
    set (f := fun i => match format_rec show buf a sep short 3 width base rest (p ++ [i]) with Ok t => t | _ => [] end).
    assert (forall i, i < d -> format_rec show buf a sep short 3 width base rest (p ++ [i]) = Ok (f i)) as HF.
    { intros i L. destruct (HI i L) as (t & E1 & _). unfold f. rewrite E1. reflexivity. }
    assert (forall i, i < d -> renders (f i) (nested short rest (fun idx => shown_at (p ++ i :: idx)))) as HR.
    { intros i L. destruct (HI i L) as (t & E1 & R). unfold f. rewrite E1. exact R. }
    pose proof (renders_axis short d f _ HR (box sep base (length p) rest) (box_sep _ _ _ _ HS)) as HX.
    cbn [format_rec]. pose proof (fun i => display_in d short i) as HD. destruct (display_indices d short 3) as [ind e]. cbn [fst] in HD.
    rewrite (mapM_total _ f) by (intros i Hi; apply HF, HD, Hi). cbn [bind]. eexists. split; [reflexivity|]. rewrite nested_axis. apply renders_box. exact HX.
Qed.

Lemma format_data_ok sep short base : sep_text sep -> wf buf a -> printable -> size a <> 0 ->
  exists t, format_data show buf a sep short 3 base = Ok t /\ tokens t = nested short (a_shape a) shown_at.
Proof.
  intros HS W P N. unfold format_data. destruct (Nat.eqb_spec (size a) 0) as [E|_]; [contradiction|].
  destruct (collect_ok short W (a_shape a) [] [] eq_refl ltac:(constructor)) as [l EL]. rewrite EL. cbn [bind].
  destruct (format_rec_ok sep short (list_max (map (@length ascii) l)) base HS W P (a_shape a) [] [] eq_refl ltac:(constructor)) as (t & E1 & R).
  exists t. split; [exact E1|]. unfold tokens. specialize (R [] I). rewrite !app_nil_r in R. exact R.
Qed.
End Arrays.

(* two printed forms agree only when the shapes and the texts of the elements do *)
Lemma nested_start short sh e : exists x l, nested short sh e = x :: l /\ x <> Close.
Proof. destruct sh as [|d sh]; [eexists; eexists; split; [reflexivity|discriminate]|]. rewrite nested_axis. eexists; eexists; split; [reflexivity|discriminate]. Qed.
Lemma nested_inj sh sh' e e' r r' : Forall (fun d => 0 < d) sh -> Forall (fun d => 0 < d) sh' ->
  nested false sh e ++ r = nested false sh' e' ++ r' -> sh = sh' /\ (forall idx, inb idx sh -> e idx = e' idx) /\ r = r'.
Proof.
  revert sh' e e' r r'. induction sh as [|d sh IH]; intros [|d' sh'] e e' r r' P P' E.
  - cbn [nested app] in E. injection E as E1 E2. split; [reflexivity|]. split; [|exact E2]. intros idx I. inversion I. exact E1.
  - rewrite nested_axis in E. cbn in E. discriminate E.
  - rewrite nested_axis in E. cbn in E. discriminate E.
  - rewrite !nested_axis, <- !app_assoc in E. cbn [app] in E. injection E as E. unfold axis_row in E. cbn [andb] in E.
    inversion P as [|? ? P0 PS]; subst. inversion P' as [|? ? P0' PS']; subst.
    assert (forall n n' k, flat_map (fun i => nested false sh (fun idx => e (i :: idx))) (seq k n) ++ Close :: r = flat_map (fun i => nested false sh' (fun idx => e' (i :: idx))) (seq k n') ++ Close :: r' ->
      n = n' /\ (0 < n -> sh = sh') /\ (forall i idx, k <= i < k + n -> inb idx sh -> e (i :: idx) = e' (i :: idx)) /\ r = r') as G.
    { induction n as [|n IHn]; intros [|n'] k H; cbn [seq flat_map app] in H.
      - injection H as H. repeat split; try lia; auto.
      - destruct (nested_start false sh' (fun idx => e' (k :: idx))) as (x & l & EX & NX). rewrite EX in H. cbn [app] in H. injection H as H _. congruence.
      - destruct (nested_start false sh (fun idx => e (k :: idx))) as (x & l & EX & NX). rewrite EX in H. cbn [app] in H. injection H as H _. congruence.
      - rewrite <- !app_assoc in H. apply (IH _ _ _ _ _ PS PS') in H. destruct H as (ES & HE & H). apply IHn in H. destruct H as (EN & _ & HN & ER).
        split; [lia|]. split; [auto|]. split; [|exact ER]. intros i idx L I. destruct (Nat.eq_dec i k) as [->|NE]; [apply HE, I|apply HN; [lia|exact I]]. }
    apply G in E. destruct E as (ED & ES & HE & ER). rewrite ED, (ES P0). split; [reflexivity|]. split; [|exact ER].
    intros idx I. inversion I as [|i ? idx' ? L I']; subst. apply HE; [lia|rewrite (ES P0); exact I'].
Qed.

(* the text depends only on the shape and the texts of the elements *)
Section Two.
Context {V W : Type}.
Variables (show : V -> text) (show' : W -> text) (buf : list V) (buf' : list W) (a a' : arr).
Hypothesis HW : wf buf a.
Hypothesis HW' : wf buf' a'.
Hypothesis ES : a_shape a = a_shape a'.
Hypothesis ET : forall idx, inb idx (a_shape a) -> shown_at show buf a idx = shown_at show' buf' a' idx.

Lemma element_same idx : inb idx (a_shape a) -> element_at show buf a idx = element_at show' buf' a' idx.
Proof. intros I. rewrite (element_ok show buf a idx HW I), (element_ok show' buf' a' idx HW') by (rewrite <- ES; exact I). rewrite (ET idx I). reflexivity. Qed.
Lemma collect_same short : forall rest sh p, a_shape a = sh ++ rest -> Forall2 lt p sh -> collect show buf a short 3 rest p = collect show' buf' a' short 3 rest p.
Proof.
  induction rest as [|d rest IH]; intros sh p E F; cbn [collect].
  - rewrite element_same by (unfold inb; rewrite E, app_nil_r; exact F). reflexivity.
  - erewrite mapM_ext; [reflexivity|]. intros i Hi. destruct (inb_app a p sh d rest i E F (display_in _ _ _ Hi)) as [E' F']. apply (IH _ _ E' F').
Qed.
Lemma format_rec_same sep short width base : forall rest sh p, a_shape a = sh ++ rest -> Forall2 lt p sh ->
  format_rec show buf a sep short 3 width base rest p = format_rec show' buf' a' sep short 3 width base rest p.
Proof.
  induction rest as [|d rest IH]; intros sh p E F; cbn [format_rec].
  - rewrite element_same by (unfold inb; rewrite E, app_nil_r; exact F). reflexivity.
  - pose proof (fun i => display_in d short i) as HD. destruct (display_indices d short 3) as [ind e]. cbn [fst] in HD.
    rewrite (mapM_ext _ (fun i => format_rec show' buf' a' sep short 3 width base rest (p ++ [i])) ind); [reflexivity|]. intros i Hi.
    destruct (inb_app a p sh d rest i E F (HD _ Hi)) as [E' F']. apply (IH _ _ E' F').
Qed.
Lemma format_data_same sep short base : format_data show buf a sep short 3 base = format_data show' buf' a' sep short 3 base.
Proof.
  unfold format_data. unfold size. rewrite <- ES. rewrite (collect_same short (a_shape a) [] [] eq_refl ltac:(constructor)).
  destruct (prod (a_shape a) =? 0); [reflexivity|]. destruct (collect show' buf' a' short 3 (a_shape a) []); try reflexivity. cbn [bind].
  apply (format_rec_same sep short _ base (a_shape a) [] [] eq_refl). constructor.
Qed.
End Two.
